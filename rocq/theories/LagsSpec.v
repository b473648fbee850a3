(** A signal that reaches several loggers during one window of [check_lags]. *)
From Coq Require Import ZArith QArith List.
From Verif Require Import Base Database CorrelateSpec.
Import ListNotations.
Open Scope Z_scope.

(** The trace has a sample at [a], every [dt] from then on, and one at [e] or later. *)
Definition covers (dt a e : Z) (tr : trace) : Prop :=
  tr_start tr <= a /\ (dt | a - tr_start tr) /\ e <= tr_start tr + dt * (Z.of_nat (length (tr_data tr)) - 1).
(** From [a] to [e] a logger of gain [fst gd] records the signal [w], which reaches it at the time [snd gd], and silence
    before and after it. *)
Definition hears_at (w : list Q) (dt a e : Z) (gd : Q * Z) (tr : trace) : Prop :=
  (forall i v, nth_error (tr_data tr) i = Some v -> a <= tr_start tr + dt * Z.of_nat i <= e ->
     (v == fst gd * value_at w ((tr_start tr + dt * Z.of_nat i - snd gd) / dt))%Q) /\
  a <= snd gd /\ (dt | snd gd - a) /\ snd gd + dt * (Z.of_nat (length w) - 1) <= e /\
  ((1 # 2 ^ 52) < fst gd * fst gd * power w)%Q.
(** The place after [i] in a ring of [n] places. *)
Definition after_in_ring (n i : nat) : nat := if Nat.eqb (S i) n then 0 else S i.
