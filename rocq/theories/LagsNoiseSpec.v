(** A signal that reaches several loggers during one window of [check_lags], with noise. *)
From Coq Require Import ZArith QArith Qabs List.
From Verif Require Import Base Database CorrelateSpec LagsSpec.
Import ListNotations.
Open Scope Z_scope.

(** As [hears_at], with an offset of the logger and noise of up to [eta] on every sample. *)
Definition hears_near (w : list Q) (dt a e : Z) (eta : Q) (gd : Q * Z) (tr : trace) : Prop :=
  (exists offset, forall i v, nth_error (tr_data tr) i = Some v -> a <= tr_start tr + dt * Z.of_nat i <= e ->
     (Qabs (v - (fst gd * value_at w ((tr_start tr + dt * Z.of_nat i - snd gd) / dt) + offset)) <= eta)%Q) /\
  a <= snd gd /\ (dt | snd gd - a) /\ snd gd + dt * (Z.of_nat (length w) - 1) <= e /\
  ((1 # 2 ^ 50) < fst gd * fst gd * power w)%Q.

(** The signal, in any two records of [n] samples, stands out from noise of up to [eta]: shifted against itself it is less like itself
    by more than the noise can make up for. *)
Definition stands_out (w : list Q) (n : nat) (eta : Q) (hits : list (Q * Z)) : Prop :=
  forall p q, In p hits -> In q hits -> forall j, j <> 0 ->
    (2 * disturbance w n (fst p) (fst q) (2 * eta) (2 * eta) < Qabs (fst p * fst q) * (power w - Qabs (lagged w w j)))%Q.

(** A square root, however rough: never less than half the true one. *)
Definition rough_root (root : Q -> Q) : Prop := (forall a z, 0 <= a -> a * a <= z -> a <= 2 * root z)%Q.
