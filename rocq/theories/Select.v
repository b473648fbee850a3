(** Model of the choice of raw files: gemlog/core.py [convert] (128-185), [_find_nonmissing_files] (621-658) and
    the control flow of [read_gem] (485-547).
    A raw folder is the list of its entries.  What pandas finds in a file ([_read_SN] 581-587,
    [_read_format_version] 589-599) and its size are attributes of the file; [None] is an exception.
    [_read_config] (601-618) catches everything, so it cannot fail. *)
From Coq Require Import String.
From Coq Require Import ZArith List Bool.
From Verif Require Import Base Scan Convert110.
Import ListNotations.
Open Scope Z_scope.

Record entry := mke { e_name : bytes; e_sn : option bytes; e_size : Z; e_version : option bytes }.

(** Names matched by [FILE[0-9][0-9][0-9][0-9].???] (131, 624), with [int(x[-8:-4])] (167, 641) and [x[-3:]] (629). *)
Definition raw_name (n : bytes) : option (Z * bytes) :=
  if Nat.eqb (length n) 12 && eqb_bytes (firstn 4 n) (b "FILE") && forallb is_digit (firstn 4 (skipn 4 n))
     && eqb_bytes (firstn 1 (skipn 8 n)) (b ".")
  then Some (val_digits (map (fun c => c - 48) (firstn 4 (skipn 4 n))), skipn 9 n) else None.
Definition num (f : entry) : Z := match raw_name (e_name f) with Some (n, _) => n | None => 0 end.
Definition ext (f : entry) : bytes := match raw_name (e_name f) with Some (_, x) => x | None => [] end.
Definition is_raw (f : entry) : bool := match raw_name (e_name f) with Some _ => true | None => false end.

Definition has_sn (sn : bytes) (f : entry) : bool := match e_sn f with Some s => eqb_bytes s sn | None => false end.
Definition unreadable (f : entry) : bool := match e_sn f with None => true | Some _ => false end.

(** Insertion sort, for [list.sort] and [ndarray.sort]. *)
Section Sort.
  Context {A : Type}.
  Variable le : A -> A -> bool.
  Fixpoint put (x : A) (l : list A) : list A :=
    match l with [] => [x] | y :: r => if le x y then x :: l else y :: put x r end.
  Definition sort_by (l : list A) : list A := fold_right put [] l.
End Sort.

(** Byte-wise order of strings. *)
Fixpoint le_bytes (x y : bytes) : bool :=
  match x, y with
  | [], _ => true
  | _ :: _, [] => false
  | a :: x', c :: y' => if a <? c then true else if c <? a then false else le_bytes x' y'
  end.

(** Whether Python's [int] (136) accepts a string: blanks, an optional sign, digits with single underscores between
    them, blanks.  Characters beyond ASCII are not modelled. *)
Definition is_blank (c : Z) : bool := (c =? 32) || (9 <=? c) && (c <=? 13) || (28 <=? c) && (c <=? 31).
Fixpoint drop_blanks (s : bytes) : bytes := match s with c :: r => if is_blank c then drop_blanks r else s | [] => [] end.
Fixpoint int_tail (s : bytes) : bool :=
  match s with
  | [] => true
  | c :: r => if is_digit c then int_tail r
              else if c =? 95 then match r with d :: r' => is_digit d && int_tail r' | [] => false end
              else forallb is_blank s
  end.
Definition is_int (s : bytes) : bool :=
  let u := drop_blanks s in
  match match u with c :: r => if (c =? 43) || (c =? 45) then r else u | [] => [] end with
  | c :: r => is_digit c && int_tail r
  | [] => false
  end.

(** MissingRawFiles, CorruptRawFile, and the plain [Exception] for a bad serial number. *)
Inductive refusal := Missing | Corrupted | Bad_serial.

(** [convert] 128-185.  [dir] is [None] if the folder does not exist; [nums] is [None] if not given (nan). *)
Definition select (dir : option (list entry)) (sn : bytes) (nums : option (list Z)) : refusal + list Z :=
  match dir with
  | None => inl Missing
  | Some d =>
      if negb (existsb is_raw d) then inl Missing
      else match is_int sn with
           | false => inl Bad_serial
           | true =>
               if negb (Nat.eqb (length sn) 3) then inl Bad_serial
               else
                 let fn := filter (fun f => is_raw f && eqb_bytes (ext f) sn) d
                             ++ filter (fun f => is_raw f && eqb_bytes (ext f) (b "TXT")) d in
                 let flag := existsb unreadable fn in
                 let from_fn := map num (filter (has_sn sn) fn) in
                 let ns := match nums with
                           | None | Some [] => from_fn
                           | Some l => filter (fun n => existsb (Z.eqb n) l) from_fn
                           end in
                 match ns with
                 | [] => inl (if flag then Corrupted else Missing)
                 | _ => inr (sort_by Z.leb ns)
                 end
           end
  end.

(** [_find_nonmissing_files] (621-658).  The serial number of a .TXT file is stored in an array of three-character
    strings (629-633), so it is cut to three characters; if it cannot be read the extension stays. *)
Definition label (f : entry) : bytes :=
  if eqb_bytes (ext f) (b "TXT") then match e_sn f with Some s => firstn 3 s | None => ext f end else ext f.
Definition find_nonmissing (d : list entry) (sn : bytes) (nums : list Z) : list entry :=
  filter (fun f => 10 <? e_size f)
    (filter (fun f => existsb (Z.eqb (num f)) nums && eqb_bytes (label f) sn)
       (sort_by (fun f g => le_bytes (e_name f) (e_name g)) (filter is_raw d))).

Section ReadGem.
  Variables J R : Type.
  Variable read_several : option bytes -> list entry -> option J.  (* [_read_several] with its [version] argument, 508-511 *)
  Variable has_data : J -> bool.                                   (* [len(L['data']) > 0], 516 *)
  Variable finish : J -> option R.                                 (* 519-547: time assignment, bit weights *)

  (** MissingRawFiles, CorruptRawFile, unknown format, CorruptRawFileInadequateGPS, an exception below, or data. *)
  Inductive result := NoFiles | AllCorrupt | BadFormat | NoUsableGPS | Fails | Gives (r : R).

  (** Loop 494-503: drop leading files without a readable format line. *)
  Fixpoint drop_unreadable (l : list entry) : option (bytes * list entry) :=
    match l with
    | [] => None
    | f :: r => match e_version f with Some v => Some (v, l) | None => drop_unreadable r end
    end.

  Definition read_gem (d : list entry) (sn : bytes) (nums : list Z) : result :=
    match find_nonmissing d sn nums with
    | [] => NoFiles
    | fl =>
        match drop_unreadable fl with
        | None => AllCorrupt
        | Some (v, fl') =>
            let go (a : option bytes) :=
              match read_several a fl' with
              | None => Fails
              | Some j => if has_data j then match finish j with Some r => Gives r | None => Fails end else NoUsableGPS
              end in
            if existsb (eqb_bytes v) [b "0.85C"; b "0.9"; b "0.91"; b "1.10"] then go None
            else if eqb_bytes v (b "0.85") || eqb_bytes v (b "0.8") then go (Some v)
            else BadFormat
        end
    end.
End ReadGem.
Arguments NoFiles {R}. Arguments AllCorrupt {R}. Arguments BadFormat {R}. Arguments NoUsableGPS {R}.
Arguments Fails {R}. Arguments Gives {R} _.
