(** What the 0.95 converter writes, and how its output reads. *)
From Coq Require Import ZArith QArith List Bool.
From Verif Require Import Base Scan Parser ParserSpec Convert110Spec.
Import ListNotations.
Open Scope Z_scope.

(** Value of an upper-case hexadecimal numeral. *)
Definition hex_char_value (c d : Z) : Prop :=
  (48 <= c <= 57 /\ d = c - 48) \/ (65 <= c <= 70 /\ d = c - 55).
Inductive hex_value : bytes -> Z -> Prop :=
| hex_nil : hex_value [] 0
| hex_snoc s n c d : hex_value s n -> hex_char_value c d -> hex_value (s ++ [c]) (16 * n + d).

(** A reading that shows counts of at most 12 either way. *)
Definition small (r : row) : Prop := exists v, rvals r = [v] /\ (-12 <= v <= 12)%Q.

Definition same_values (r r' : row) : Prop := rkind r = rkind r' /\ Forall2 Qeq (rvals r) (rvals r').

(** [reread c rows rows']: what the reader makes of the converted file.  Every record keeps its kind
    and its values.  A sample of small counts is dated 10 ms after the sample before it (the reader's
    rule for one-letter lines), whatever its own clock said; everything else keeps its clock.
    [c] is the clock of the sample before, in the converted file. *)
Inductive reread : Q -> list row -> list row -> Prop :=
| rr_nil c : reread c [] []
| rr_small c r r' rs rs' : rkind r = KD -> small r -> same_values r r' -> reduced (c + 10) (rmillis r') ->
    reread (rmillis r') rs rs' -> reread c (r :: rs) (r' :: rs')
| rr_large c r r' rs rs' : rkind r = KD -> ~ small r -> same_row r r' ->
    reread (rmillis r') rs rs' -> reread c (r :: rs) (r' :: rs')
| rr_other c r r' rs rs' : rkind r <> KD -> same_row r r' ->
    reread c rs rs' -> reread c (r :: rs) (r' :: rs').

(** Every sample comes 10 ms after the one before (on the clock that rolls over), the first one 10 ms
    after [c]; samples of large counts may come at any time. *)
Inductive steady : Q -> list row -> Prop :=
| st_nil c : steady c []
| st_sample c r rs : rkind r = KD -> (small r -> reduced (c + 10) (rmillis r)) ->
    steady (rmillis r) rs -> steady c (r :: rs)
| st_other c r rs : rkind r <> KD -> steady c rs -> steady c (r :: rs).
