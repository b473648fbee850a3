(** What a user may expect of the lag found between two sensors. *)
From Coq Require Import ZArith QArith Qabs List.
Import ListNotations.
Open Scope Q_scope.

(** The value of a signal at a place; silence outside. *)
Definition value_at (w : list Q) (i : Z) : Q := if (i <? 0)%Z then 0 else nth (Z.to_nat i) w 0.
Definition total (f : nat -> Q) (n : nat) : Q := fold_right Qplus 0 (map f (seq 0 n)).

(** A sensor of gain [g] records the signal [w] after [d] samples, and silence before and after it. *)
Definition sees (w : list Q) (g : Q) (d : Z) (x : list Q) : Prop :=
  forall i v, nth_error x i = Some v -> v == g * value_at w (Z.of_nat i - d).
(** The signal lies in the part of the record that the taper leaves alone, all but a twentieth at both ends. *)
Definition inside (w : list Q) (d : Z) (x : list Q) : Prop :=
  (Z.of_nat (length x) <= 20 * d + 19)%Z /\ (20 * (d + Z.of_nat (length w)) <= 19 * Z.of_nat (length x))%Z.
(** The signal lies in the record. *)
Definition contained (w : list Q) (d : Z) (x : list Q) : Prop := (0 <= d)%Z /\ (d + Z.of_nat (length w) <= Z.of_nat (length x))%Z.
(** The signal has no offset. *)
Definition level (w : list Q) : Prop := total (fun i => nth i w 0) (length w) == 0.
(** The signal has neither an offset nor a trend. *)
Definition balanced (w : list Q) : Prop :=
  total (fun i => nth i w 0) (length w) == 0 /\ total (fun i => inject_Z (Z.of_nat i) * nth i w 0) (length w) == 0.
Definition power (w : list Q) : Q := total (fun i => nth i w 0 * nth i w 0) (length w).
(** A square root: exact on squares. *)
Definition exact_root (root : Q -> Q) : Prop :=
  (forall p q, p == q -> root p == root q) /\ forall q, 0 <= q -> root (q * q) == q.

(** The product of [b] with [a] read [k] samples later, of two records without offset, with silence around them. *)
Definition lagged (a b : list Q) (k : Z) : Q :=
  total (fun i => value_at a (Z.of_nat i + k) * nth i b 0) (length b).
Definition mean (x : list Q) : Q := total (fun i => nth i x 0) (length x) / inject_Z (Z.of_nat (length x)).
Definition centred (x : list Q) : list Q := map (fun v => v - mean x) x.

(** The same record through a sensor with another gain, an offset and a drift. *)
Definition rescaled (g c s : Q) (x y : list Q) : Prop :=
  length y = length x /\ forall i v, nth_error x i = Some v ->
    exists u, nth_error y i = Some u /\ u == g * v + c + s * inject_Z (Z.of_nat i).

(** A sensor of gain [fst gd] hears the signal after [snd gd] samples in a record of [n] samples, above the level of
    rounding. *)
Definition hears (w : list Q) (n : nat) (gd : Q * Z) (x : list Q) : Prop :=
  length x = n /\ 0 < fst gd /\ (1 # 2 ^ 52) < fst gd * fst gd * power w /\ sees w (fst gd) (snd gd) x /\ inside w (snd gd) x.
(** The same without a taper, where the sensor may also be reversed. *)
Definition picks_up (w : list Q) (n : nat) (gd : Q * Z) (x : list Q) : Prop :=
  length x = n /\ (1 # 2 ^ 52) < fst gd * fst gd * power w /\ sees w (fst gd) (snd gd) x /\ contained w (snd gd) x.
(** No two delays differ by more than [m] samples. *)
Definition within (m : Z) (hits : list (Q * Z)) : Prop :=
  forall x y, In x hits -> In y hits -> (Z.abs (snd x - snd y) <= m)%Z.

(** As [sees], with noise of up to [eta] on every sample. *)
Definition near (w : list Q) (g : Q) (d : Z) (eta : Q) (x : list Q) : Prop :=
  forall i v, nth_error x i = Some v -> Qabs (v - g * value_at w (Z.of_nat i - d)) <= eta.
Definition loudness (w : list Q) : Q := total (fun i => Qabs (nth i w 0)) (length w).
(** How much noise of up to [eta] and [theta] in two records of [n] samples can change their product. *)
Definition disturbance (w : list Q) (n : nat) (g h eta theta : Q) : Q :=
  (Qabs g * theta + Qabs h * eta) * loudness w + inject_Z (Z.of_nat n) * eta * theta.
