(** Joining the files of a day: [merge_files_day] of gemlog/gem_network.py (345-363).
    Simplifications: base names without glob characters; the traces of the files that are joined have the same
    id and samples on the grid (streams of Stream.v); the input and the output directories are different;
    making the output directory (346-347) and printing are left out. *)
From Coq Require Import String.
From Coq Require Import ZArith List Bool.
From Verif Require Import Base Names Stations Gps Stream.
Import ListNotations.
Open Scope Z_scope.

(** ['.'.join(parts)]. *)
Fixpoint join_dots (l : list bytes) : bytes :=
  match l with [] => [] | [x] => x | x :: r => x ++ b "." ++ join_dots r end.

(** 351-352: [infile.split('/')[-1].split('.')[0].split('T')[0] + ',' + '.'.join(...split('.')[1:])]. *)
Definition cut (name : bytes) : bytes :=
  hd [] (split_on 84 (hd [] (split_on 46 name))) ++ b "," ++ join_dots (tl (split_on 46 name)).
(** 353-355, 358: the pairs of day and suffix. *)
Definition groups (infiles : list bytes) : list (bytes * bytes) :=
  map (fun c => (nth 0 (split_on 44 c) [], nth 1 (split_on 44 c) [])) (unique eqb_bytes (map cut infiles)).

(** The base names that [infile_path + '/' + day + '*' + suffix] matches (360). *)
Definition in_glob (day suffix name : bytes) : bool :=
  starts_with day name && negb (hidden name) && ends_with suffix (skipn (length day) name).

(** [Trace.__add__] with method 1 and fill value 'latest' (361), for [lt] starting no later than [rt]. *)
Definition add_latest (lt rt : gtrace) : gtrace :=
  let delta := gs rt - gend lt - 1 in
  if 0 <=? delta then mkg (gs lt) (gd lt ++ repeat (last (gd lt) 0) (Z.to_nat delta) ++ gd rt)     (* adjacent, or a gap *)
  else if gend lt <? gend rt then mkg (gs lt) (firstn (length (gd lt) - Z.to_nat (- delta)) (gd lt) ++ gd rt)   (* overlap *)
  else lt.                                                                                     (* [rt] within [lt] *)

(** [Stream.sort] by start and end time. *)
Definition gbefore (x y : gtrace) : bool := (gs x <? gs y) || ((gs x =? gs y) && (gend x <=? gend y)).
Fixpoint ginsert (x : gtrace) (l : stream) : stream :=
  match l with [] => [x] | y :: r => if gbefore x y then x :: l else y :: ginsert x r end.
Definition gsort (l : stream) : stream := fold_right ginsert [] l.
(** [x.merge(fill_value = 'latest', method = 1)] (361). *)
Definition merge_latest (l : stream) : option gtrace :=
  match gsort l with [] => None | x :: r => Some (fold_left add_latest r x) end.

(** [obspy.read] of a pattern (360): the traces of the files in the order of their names.  [None]: no file
    matches, or a file cannot be read. *)
Definition directory := list (bytes * option stream).
Fixpoint read_all (l : directory) : option stream :=
  match l with
  | [] => Some []
  | (_, None) :: _ => None
  | (_, Some s) :: r => match read_all r with None => None | Some t => Some (s ++ t) end
  end.
Definition read_group (dir : directory) (day suffix : bytes) : option stream :=
  match filter (fun f => in_glob day suffix (fst f)) dir with [] => None | l => read_all l end.

(** 357-362.  Result: what is written (base name, trace), and whether the loop ended without an exception. *)
Definition out_name (day suffix : bytes) : bytes := day ++ b "T00_00_00." ++ suffix.
Fixpoint write_groups (dir : directory) (gr : list (bytes * bytes)) : list (bytes * gtrace) * bool :=
  match gr with
  | [] => ([], true)
  | (day, suffix) :: r =>
      match read_group dir day suffix with
      | None => ([], false)
      | Some s =>
          match merge_latest s with
          | None => ([], false)                                     (* nothing to write *)
          | Some tr => let (out, ok) := write_groups dir r in ((out_name day suffix, tr) :: out, ok)
          end
      end
  end.
Definition merge_files_day (dir : directory) (infiles : list bytes) : list (bytes * gtrace) * bool :=
  write_groups dir (groups infiles).
