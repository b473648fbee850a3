(** The command gemconvert: gemlog/gemconvert.py [find_SN] (16-18), [unique] (20-22) and [main] (75-226), and the
    part of Python's getopt that it uses.  Printing and logging are left out. *)
From Coq Require Import String.
From Coq Require Import ZArith List Bool.
From Verif Require Import Base Names Stations Select.
Import ListNotations.
Open Scope Z_scope.

(** * getopt.getopt (Python's standard library) *)

(** A name without "=" takes no argument. *)
Record options := mkoptions { without : bytes; with_arg : bytes; long : list bytes }.
(** [do_shorts]: the letters of a word; [rest] are the words after it.  [None]: GetoptError. *)
Fixpoint do_shorts (o : options) (w : bytes) (rest : list bytes) : option (list (bytes * bytes) * list bytes) :=
  match w with
  | [] => Some ([], rest)
  | c :: w' =>
      if existsb (Z.eqb c) (with_arg o) then
        match w', rest with
        | _ :: _, _ => Some ([([45; c], w')], rest)
        | [], a :: rest' => Some ([([45; c], a)], rest')
        | [], [] => None
        end
      else if existsb (Z.eqb c) (without o) then
        match do_shorts o w' rest with Some (l, r) => Some (([45; c], []) :: l, r) | None => None end
      else None
  end.
(** [long_has_args]: whether it takes an argument, and the whole name. *)
Definition ends_eq (s : bytes) : bool := match rev s with 61 :: _ => true | _ => false end.
Definition long_has_args (o : options) (w : bytes) : option (bool * bytes) :=
  let possible := filter (starts_with w) (long o) in
  if existsb (eqb_bytes w) possible then Some (false, w)
  else if existsb (eqb_bytes (w ++ [61])) possible then Some (true, w)
  else match possible with
       | [m] => if ends_eq m then Some (true, removelast m) else Some (false, m)
       | _ => None
       end.
(** [do_longs]. *)
Definition do_longs (o : options) (w : bytes) (rest : list bytes) : option (bytes * bytes * list bytes) :=
  let (name, arg) := split_at 61 w in
  match long_has_args o name, arg, rest with
  | None, _, _ => None
  | Some (true, full), Some a, _ => Some (b "--" ++ full, a, rest)
  | Some (true, full), None, a :: rest' => Some (b "--" ++ full, a, rest')
  | Some (true, _), None, [] => None
  | Some (false, full), None, _ => Some (b "--" ++ full, [], rest)
  | Some (false, _), Some _, _ => None
  end.
(** The fuel, the number of words, suffices: each round takes at least one. *)
Fixpoint getopt (o : options) (fuel : nat) (words : list bytes) : option (list (bytes * bytes)) :=
  match fuel, words with
  | _, [] => Some []
  | O, _ => Some []
  | S k, w :: rest =>
      match w with
      | 45 :: 45 :: [] => Some []
      | 45 :: 45 :: name =>
          match do_longs o name rest with
          | None => None
          | Some (opt, arg, rest') => match getopt o k rest' with Some l => Some ((opt, arg) :: l) | None => None end
          end
      | 45 :: c :: letters =>
          match do_shorts o (c :: letters) rest with
          | None => None
          | Some (l, rest') => match getopt o k rest' with Some m => Some (l ++ m) | None => None end
          end
      | _ => Some []
      end
  end.

(** * main *)

(** 91: "hdti:s:x:c:o:f:l:p:", ["inputdir=","serialnumber="] *)
Definition gemconvert_options : options := mkoptions (b "hdt") (b "isxcoflp") [b "inputdir="; b "serialnumber="].

(** 78-87.  [length_hours] stays a text when given; [sns] is empty if not given ([''], 79). *)
Record settings := mksettings {
  inputdir : bytes; sns : list bytes; exclude : list bytes; outputdir : option bytes; test : bool;
  format : bytes; length_hours : bytes; processes : Z; codesfile : option bytes }.
Definition defaults : settings := mksettings (b "raw") [] [] None false (b "MSEED") (b "24") 1 None.

(** [int(text)]: the number of a literal accepted by [is_int] (Select.v). *)
Definition int_of (s : bytes) : option Z :=
  if is_int s then
    let v := fold_left (fun a c => if is_digit c then a * 10 + (c - 48) else a) s 0 in
    Some (if existsb (Z.eqb 45) s then - v else v)
  else None.

(** 96-127.  [None]: help is printed (97-99).  The comparisons with long names other than "--inputdir" never hold:
    getopt knows only "--inputdir" and "--serialnumber". *)
Definition is_opt (o : bytes) (names : list bytes) : bool := existsb (eqb_bytes o) names.
Definition apply_option (s : settings) (oa : bytes * bytes) : option settings :=
  let (o, a) := oa in
  let '(mksettings i n x od t f l p c) := s in
  if is_opt o [b "-h"; b "--help"] then None
  else Some (
    if is_opt o [b "-d"; b "--debug"] then s
    else if is_opt o [b "-i"; b "--inputdir"] then mksettings a n x od t f l p c
    else if is_opt o [b "-s"; b "--serialnumbers"] then mksettings i (split_on 44 a) x od t f l p c
    else if is_opt o [b "-x"; b "--exclude_serialnumbers"] then mksettings i n (split_on 44 a) od t f l p c
    else if is_opt o [b "-c"; b "--codesfile"] then mksettings i n x od t f l p (Some a)
    else if is_opt o [b "-t"; b "--test"] then mksettings i n x od true f l p c
    else if is_opt o [b "-o"; b "--outputdir"] then mksettings i n x (Some a) t f l p c
    else if is_opt o [b "-f"; b "--format"] then mksettings i n x od t a l p c
    else if is_opt o [b "-l"; b "--length"] then mksettings i n x od t f a p c
    else if is_opt o [b "-p"; b "--parallel"] then mksettings i n x od t f l (match int_of a with Some k => k | None => p end) c
    else s).
Fixpoint apply_options (s : settings) (l : list (bytes * bytes)) : option settings :=
  match l with [] => Some s | oa :: r => match apply_option s oa with Some s' => apply_options s' r | None => None end end.

(** 16-18. *)
Definition find_SN (name : bytes) : bytes := firstn 4 (skipn 9 name).
(** 20-22: np.unique, sorted. *)
Definition unique_sorted (l : list bytes) : list bytes := sort_by le_bytes (unique eqb_bytes l).

(** 149-153. *)
Definition candidates (s : settings) (names : list bytes) : list bytes :=
  match sns s with [] => unique_sorted (map find_SN names) | _ => unique_sorted (sns s) end.

(** A row of the codes file, read by [_get_station_info] (Stations.v). *)
Record row := mkrow { r_sn : bytes; r_network : bytes; r_station : bytes; r_location : bytes }.
(** 183-192.  [None]: ValueError from [int] or [astype(int)], not caught.  Without serial numbers nothing is
    compared. *)
Fixpoint with_number (n : Z) (rows : list row) : option row :=
  match rows with [] => None | r :: rest => if match int_of (r_sn r) with Some k => k =? n | None => false end then Some r else with_number n rest end.
Definition all_int (rows : list row) : bool := forallb (fun r => is_int (r_sn r)) rows.
Fixpoint associate (rows : list row) (l : list bytes) : option (list (bytes * (bytes * bytes * bytes))) :=
  match l with
  | [] => Some []
  | sn :: rest =>
      if negb (all_int rows) then None
      else match int_of sn, associate rows rest with
           | Some n, Some m =>
               match with_number n rows with
               | Some r => Some ((sn, (r_network r, r_station r, r_location r)) :: m)
               | None => Some m
               end
           | _, _ => None
           end
  end.

Inductive outcome :=
| Usage | Help | NoFolder | NothingToDo | BadCodes | Crash
| Plan (jobs : list (bytes * (bytes * bytes * bytes))) (s : settings) (out : bytes).

(** 75-226, up to the pool.  [list_dir] and [read_codes] give what is on disk ([None]: an exception). *)
Definition main (list_dir : bytes -> option (list bytes)) (read_codes : bytes -> option (list row)) (argv : list bytes) : outcome :=
  match getopt gemconvert_options (length argv) argv with
  | None => Usage
  | Some opts =>
      match apply_options defaults opts with
      | None => Help
      | Some s =>
          let out := match outputdir s with Some o => o | None => lower (format s) end in
          match list_dir (inputdir s) with
          | None => NoFolder
          | Some names =>
              let sn_list := candidates s names in
              if (match sn_list with [] => true | _ => false end) && (match opts with [] => true | _ => false end) then NothingToDo
              else
                let sn_list := filter (fun sn => negb (existsb (eqb_bytes sn) (exclude s))) sn_list in
                match codesfile s with
                | None => Plan (map (fun sn => (sn, ([], [], []))) sn_list) s out
                | Some f =>
                    match read_codes f with
                    | None => BadCodes
                    | Some rows => match associate rows sn_list with Some l => Plan l s out | None => Crash end
                    end
                end
          end
      end
  end.

(** core.py 492-493 and obspy's [id]: the channel written for a serial number. *)
Definition channel_id (sn : bytes) (codes : bytes * bytes * bytes) : bytes :=
  let '(net, sta, loc) := codes in
  net ++ b "." ++ (match sta with [] => sn | _ => sta end) ++ b "." ++ loc ++ b ".HDF".
(** core.py 135-141: what [convert] accepts. *)
Definition accepted (sn : bytes) : bool := is_int sn && Nat.eqb (length sn) 3.
