(** Station tables and renaming: gemlog/gem_network.py [_fix_station_info_keys] (141-151),
    [_get_station_info] (153-190), [rename_files] (281-343), [_unique] (377-383).

    Splitting a file into rows of cells is left to pandas: a file is the list of its rows. *)
From Coq Require Import String.
From Coq Require Import ZArith QArith List Bool.
From Verif Require Import Base Scan CalendarSpec Names.
Import ListNotations.
Open Scope Z_scope.

Inductive cell := Txt (s : bytes) | Missing | Number (q : Q).
(** A data frame: its columns in order. *)
Definition table := list (bytes * list cell).

Definition eqb_cell (s : bytes) (c : cell) : bool := match c with Txt t => eqb_bytes t s | _ => false end.

Fixpoint column (t : table) (k : bytes) : option (list cell) :=
  match t with
  | [] => None
  | (n, c) :: r => if eqb_bytes n k then Some c else column r k
  end.
(** [d[key] = c]: in place if the column exists, else at the end. *)
Fixpoint set_column (t : table) (k : bytes) (c : list cell) : table :=
  match t with
  | [] => [(k, c)]
  | (n, c') :: r => if eqb_bytes n k then (n, c) :: r else (n, c') :: set_column r k c
  end.

(** 148: [test_key.lower()[:2] == key.lower()[:2]]. *)
Definition same_start (n k : bytes) : bool := eqb_bytes (firstn 2 (lower n)) (firstn 2 (lower k)).
(** [d.pop] of the first column for which that holds (150). *)
Fixpoint pop_like (t : table) (k : bytes) : option (list cell * table) :=
  match t with
  | [] => None
  | (n, c) :: r =>
      if same_start n k then Some (c, r)
      else match pop_like r k with Some (c', r') => Some (c', (n, c) :: r') | None => None end
  end.
Definition fix_key (t : table) (k : bytes) : table :=
  match pop_like t k with Some (c, r) => set_column r k c | None => t end.
Definition allowed : list bytes := [b "SN"; b "network"; b "station"; b "location"; b "elevation"].
(** 141-151. *)
Definition fix_station_info_keys (t : table) : table := fold_left fix_key allowed t.

Definition required : list bytes := [b "sn"; b "network"; b "station"; b "location"].

(** Column [j] of the rows under the given names; pandas fills short rows with NaN. *)
Fixpoint columns (names : list bytes) (j : nat) (rows : list (list bytes)) : table :=
  match names with
  | [] => []
  | n :: r => (n, map (fun row => match nth_error row j with Some s => Txt s | None => Missing end) rows)
                :: columns r (S j) rows
  end.

Definition height (t : table) : nat := match t with (_, c) :: _ => length c | [] => O end.
Definition fill (v : cell) (c : cell) : cell := match c with Missing => v | _ => c end.

(** 180-190.  [None]: AttributeError for a missing column. *)
Definition complete (t : table) : option table :=
  let t := match column t (b "elevation") with
           | Some _ => t
           | None => set_column t (b "elevation") (repeat (Number (-9999)) (height t))
           end in
  match column t (b "location"), column t (b "network"), column t (b "elevation") with
  | Some l, Some n, Some e =>
      let t := set_column t (b "location") (map (fill (Txt [])) l) in
      let t := set_column t (b "network") (map (fill (Txt [])) n) in
      Some (set_column t (b "elevation") (map (fill (Number (-9999))) e))
  | _, _, _ => None
  end.

(** What the user may give: a path (with the rows of the file), a data frame, anything else. *)
Inductive source := File (rows : list (list bytes)) | Frame (t : table) | Other.

Section Pandas.
  (** Whether pandas, reading the first line on its own (157), keeps this cell as a string rather than
      converting it to a number, a truth value or NaN, none of which has a method [lower] (159). *)
  Variable text_cell : bytes -> bool.

  Definition member (s : bytes) (l : list bytes) : bool := existsb (eqb_bytes s) l.

  (** 153-190.  [None]: an exception.  Rows longer than the header are not modelled ([None]).
      In 165 and 168 the column types are given for the wrong names; as every cell of the first row is
      a string there, every column is a column of strings anyway. *)
  Definition get_station_info (s : source) : option table :=
    match s with
    | Other => None
    | Frame t => if forallb (fun k => match column t k with Some _ => true | None => false end) required
                 then complete t else None
    | File [] => None
    | File (h :: body) =>
        if negb (forallb text_cell h) || negb (forallb (fun r => (length r <=? length h)%nat) body) then None
        else if forallb (fun i => member (lower i) (required ++ [b "elevation"])) h then
          complete (fix_station_info_keys (columns h 0 body))
        else if (length h =? 4)%nat then
          complete (fix_station_info_keys (columns required 0 (h :: body)))
        else if (length h =? 5)%nat then
          complete (fix_station_info_keys (columns (required ++ [b "elevation"]) 0 (h :: body)))
        else None
    end.
End Pandas.

(** 317-326, also 524-536 and gemconvert.py 183-187: [Skip] is the exception caught at 319. *)
Inductive found := Skip | Crash | Codes (net sta loc : cell).
Fixpoint index_of (s : bytes) (c : list cell) : option nat :=
  match c with
  | [] => None
  | x :: r => if eqb_cell s x then Some O else option_map S (index_of s r)
  end.
Definition get (t : table) (k : bytes) (w : nat) : option cell :=
  match column t k with Some c => nth_error c w | None => None end.
Definition codes_of (t : table) (sn : bytes) : found :=
  match column t (b "SN") with
  | None => Skip
  | Some c =>
      match index_of sn c with
      | None => Skip
      | Some w =>
          match get t (b "network") w, get t (b "station") w, get t (b "location") w with
          | Some n, Some s, Some l => Codes n s l
          | _, _, _ => Crash
          end
      end
  end.

(** [infile.split('/')[-1].split('.')[2]] (315-316). *)
Fixpoint split_on (c : Z) (s : bytes) : list bytes :=
  match s with
  | [] => [[]]
  | x :: r => if x =? c then [] :: split_on c r
              else match split_on c r with h :: t => (x :: h) :: t | [] => [[x]] end
  end.
Definition file_sn (path : bytes) : option bytes := nth_error (split_on 46 (last (split_on 47 path) [])) 2.

Record trace := mktr { tnet : bytes; tsta : bytes; tloc : bytes; tstart : Z; tdata : list Z }.

Section Rename.
  (** obspy's date and time fields, and day of the year, of a time. *)
  Variable fields : Z -> datetime * Z.

  Definition relabel (n s l : bytes) (tr : trace) : trace :=
    mktr n s l (tstart tr) (tdata tr).

  (** The loop (312-342).  [files]: the sorted paths with what [obspy.read] returns ([None]: it
      raises; an empty stream raises at 327).  Result: what is written, in order, and whether the
      loop ended without exception.  Codes that are not text make [obspy] or [format] fail. *)
  Fixpoint rename_loop (t : table) (fmt pattern : bytes) (files : list (bytes * option (list trace)))
    : list (bytes * list trace) * bool :=
    match files with
    | [] => ([], true)
    | (path, st) :: r =>
        match st, file_sn path with
        | Some st, Some sn =>
            match codes_of t sn with
            | Skip => rename_loop t fmt pattern r
            | Codes (Txt n) (Txt s) (Txt l) =>
                match st with
                | [] => ([], false)
                | tr0 :: _ =>
                    let t1 := fold_left (fun m tr => Z.min m (tstart tr)) st (tstart tr0) in
                    let pattern' := fix_file_name_digits pattern in
                    match format (rename_env (fst (fields t1)) (snd (fields t1)) n s l fmt) pattern' with
                    | Some name =>
                        let (w, ok) := rename_loop t fmt pattern' r in
                        ((name, map (relabel n s l) st) :: w, ok)
                    | None => ([], false)
                    end
                end
            | _ => ([], false)
            end
        | _, _ => ([], false)
        end
    end.

  (** 281-343: [None]: an exception before any file is touched. *)
  Definition rename_files (text_cell : bytes -> bool) (info : source) (fmt pattern : bytes)
      (files : list (bytes * option (list trace))) : option (list (bytes * list trace) * bool) :=
    match get_station_info text_cell info with
    | None => None
    | Some t => match files with [] => None | _ => Some (rename_loop t fmt pattern files) end
    end.
End Rename.

(** [_unique] (377-383). *)
Section Unique.
  Context {A : Type}.
  Variable eqb : A -> A -> bool.
  Definition unique_step (acc : list A) (x : A) : list A := if existsb (eqb x) acc then acc else acc ++ [x].
  Definition unique (l : list A) : list A := fold_left unique_step l [].
End Unique.
