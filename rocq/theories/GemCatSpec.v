(** What a user may expect from [gem_cat], stated on the lines of the raw files. *)
From Coq Require Import String.
From Coq Require Import ZArith QArith List Bool.
From Verif Require Import Base Scan Parser ParserSpec Process ProcessSpec NamesSpec.
Import ListNotations.
Open Scope Z_scope.

(** Lines written with a given line end. *)
Definition text (eol : bytes) (rs : list record) : bytes := concat (map (fun r => record_text r ++ eol) rs).

(** The raw counts a line contributes. *)
Definition counts (r : record) : option Z :=
  match r with
  | Full_D _ a _ => Some (int_value a)
  | Compact2 _ d _ | Compact1 d _ => Some d
  | _ => None
  end.
(** The readings of a list of lines: running sums of the counts, starting from [p]. *)
Fixpoint readings (p : Z) (rs : list record) : list Z :=
  match rs with
  | [] => []
  | r :: l => match counts r with Some d => p + d :: readings (p + d) l | None => readings p l end
  end.

Definition is_G (r : record) : bool := match r with Full_G _ _ => true | _ => false end.
Definition is_M (r : record) : bool := match r with Full_M _ _ => true | _ => false end.

(** Lines as the logger writes them: documented syntax, no line end inside, short, counts of 30 bits. *)
Definition logged (r : record) : Prop :=
  record_ok r /\ ~ In 10 (record_text r) /\ ~ In 13 (record_text r) /\ (length (record_text r) <= 200)%nat.
Definition header (r : record) : Prop := exists l, r = Other l /\ exists c, In c l /\ c <> 32.
Definition in_range (z : Z) : Prop := - 2 ^ 30 <= z < 2 ^ 30.

(** A raw file as the logger writes it: header lines, then a complete D line, then anything
    documented with at least one M line; the last line is complete. *)
Record raw := mkraw { hdr : list record; first_ms : declit; first_counts : intlit; body : list record; eol : bytes }.
Definition lines_of (f : raw) : list record := hdr f ++ Full_D (first_ms f) (first_counts f) [] :: body f.
Definition content (f : raw) : bytes := text (eol f) (lines_of f).
Definition well_formed (f : raw) : Prop :=
  (eol f = [10] \/ eol f = [13; 10]) /\ Forall header (hdr f) /\ Forall logged (lines_of f) /\
  existsb is_M (body f) = true /\ Forall in_range (readings 0 (lines_of f)).
Definition line_count (fs : list raw) : Z := Z.of_nat (length (concat (map lines_of fs))).
Definition has_gps (f : raw) : bool := existsb is_G (lines_of f).

Definition last_reading (f : raw) : Z := last (readings 0 (lines_of f)) 0.

(** The text that continues a file ending with reading [p] by the files [fs]: from each its lines from
    the first D line on, that line with the difference to the reading before instead of the reading. *)
Inductive continued : Z -> list raw -> bytes -> Prop :=
| cont_nil p : continued p [] []
| cont_cons p f r a t : int_ok a -> int_value a = int_value (first_counts f) - p ->
    continued (last_reading f) r t ->
    continued p (f :: r) (text [10] (Full_D (first_ms f) a [] :: body f) ++ t).

(** A table of samples holds these readings. *)
Definition samples_are (tab : tables) (zs : list Z) : Prop :=
  Forall2 (fun s z => exists q, snd s = Some q /\ (q == inject_Z z)%Q) (data tab) zs.

(** How the files are grouped: [groups] is [files] without the leading files that have no GPS line;
    every group begins with a file with GPS lines; inside a group no file with GPS lines follows
    another; a new group is only begun when the last file of the group before has GPS lines. *)
Fixpoint alternating {A} (g : A -> bool) (l : list A) : Prop :=
  match l with
  | x :: ((y :: _) as r) => ~ (g x = true /\ g y = true) /\ alternating g r
  | _ => True
  end.
Fixpoint separated {A} (g : A -> bool) (groups : list (list A)) : Prop :=
  match groups with
  | x :: ((_ :: _) as r) => (exists l y, x = l ++ [y] /\ g y = true) /\ separated g r
  | _ => True
  end.
Definition grouping {A} (g : A -> bool) (files : list A) (groups : list (list A)) : Prop :=
  exists skipped, files = skipped ++ concat groups /\
  Forall (fun x => g x = false) skipped /\
  Forall (fun x => exists y l, x = y :: l /\ g y = true) groups /\
  Forall (alternating g) groups /\ separated g groups.

(** Some line of the file begins with 'G' (a line begins at the beginning of the file, after LF or after CR). *)
Definition has_G_line (c : bytes) : Prop :=
  (exists r, c = 71 :: r) \/ exists l x r, c = l ++ x :: 71 :: r /\ (x = 10 \/ x = 13).

(** [c] results from a copy of the first file by appending the others one by one; [append p f o] is
    the new content of output [o] when [f] is appended and the file before was [p]. *)
Inductive assembled (append : bytes -> bytes -> bytes -> option bytes) : list bytes -> bytes -> Prop :=
| asm_copy f : assembled append [f] f
| asm_append l p f o o' : assembled append (l ++ [p]) o -> append p f o = Some o' ->
    assembled append (l ++ [p; f]) o'.

(** Output name number [i]. *)
Definition named (sn : bytes) (i : nat) (name : bytes) : Prop :=
  exists s, NamesSpec.decimal 4 (Z.of_nat i) s /\ name = b "FILE" ++ s ++ b "." ++ sn.
