(** A signal that passes an array of sensors, with noise. *)
From Coq Require Import ZArith QArith Qabs List.
From Verif Require Import CorrelateSpec.
Open Scope Q_scope.

(** A sensor of gain [g], with an offset and a linear drift, records the signal [w] after [d] samples, with noise of up to [eta] on every
    sample. *)
Definition near_line (w : list Q) (g : Q) (d : Z) (eta : Q) (x : list Q) : Prop :=
  exists offset drift, forall i v, nth_error x i = Some v ->
    Qabs (v - (g * value_at w (Z.of_nat i - d) + offset + drift * inject_Z (Z.of_nat i))) <= eta.
(** As [hears], with an offset, a drift and noise. *)
Definition hears_through (w : list Q) (n : nat) (eta : Q) (gd : Q * Z) (x : list Q) : Prop :=
  length x = n /\ 0 < fst gd /\ (1 # 2 ^ 50) < fst gd * fst gd * power w /\ near_line w (fst gd) (snd gd) eta x /\ inside w (snd gd) x.
(** The signal stands out from noise of up to [eta] in records of [n] samples, which detrending and centring can make up to ten times as
    large. *)
Definition clear_of (w : list Q) (n : nat) (eta : Q) (hits : list (Q * Z)) : Prop :=
  forall p q, In p hits -> In q hits -> forall j, j <> 0%Z ->
    2 * disturbance w n (fst p) (fst q) (10 * eta) (10 * eta) < fst p * fst q * (power w - lagged w w j).
(** The weights of the taper lie between 0 and 1. *)
Definition weights (side : nat -> nat -> Q) : Prop := forall k i, (i < k)%nat -> 0 <= side k i <= 1.
