From Coq Require Import ZArith QArith List Bool.
From Verif Require Import Base Scan Parser ParserSpec.
Import ListNotations.
Open Scope Z_scope.

(** Two rows hold the same kind, the same time stamp and the same values. *)
Definition same_row (r r' : row) : Prop :=
  rkind r = rkind r' /\ (rmillis r == rmillis r')%Q /\ Forall2 Qeq (rvals r) (rvals r').

(** Lines of formats 0.85C, 0.9 and 0.91: a sample line is "D<ms>,<counts>" with an integer
    millisecond clock in [0, 8192); any other line may be anything that is not a compact line. *)
Definition line_091 (l : bytes) : Prop :=
  line_kind l = Some KD ->
  exists ds a t, l = line_D {| dneg := false; dint := ds; dfrac := None |} a t /\
    ds <> [] /\ all_digits ds /\ int_ok a /\ stops t /\ pos_value ds < 8192.

(** The plain form without anything after the counts. *)
Definition line_091_plain (l : bytes) : Prop :=
  line_kind l = Some KD ->
  exists ds a, l = line_D {| dneg := false; dint := ds; dfrac := None |} a [] /\
    ds <> [] /\ all_digits ds /\ int_ok a /\ pos_value ds < 8192.
