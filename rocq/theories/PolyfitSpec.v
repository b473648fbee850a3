(** What a least-squares fit is, and when a single wrong point among many can be told. *)
From Coq Require Import ZArith QArith List.
From Verif Require Import Base UnwrapSpec Drift DriftSpec.
Import ListNotations.
Open Scope Q_scope.

(** The polynomial with these coefficients, lowest first. *)
Fixpoint value (p : list Q) (x : Q) : Q := match p with [] => 0 | a :: p' => a + x * value p' x end.

(** Numbers no two of which are equal. *)
Definition different (zs : list Q) : Prop := ForallOrdPairs (fun a c => ~ a == c) zs.
(** The points have [n] different abscissae (or more). *)
Definition abscissae (n : nat) (pts : list point) : Prop :=
  exists zs, length zs = n /\ different zs /\ forall z, In z zs -> exists x y, In (x, y) pts /\ x == z.

(** [p] is the polynomial of the degree with the least squares: no other of them has less. *)
Definition least_squares (degree : nat) (pts : list point) (p : list Q) : Prop :=
  length p = S degree /\
  forall p', (length p' <= S degree)%nat -> sse (list Q) value p pts <= sse (list Q) value p' pts.

(** Fits of enough points, from left to right, that are least squares. *)
Definition fits_least_squares {P} (eval : P -> Q -> Q) (n : nat) (fit : list point -> option P) : Prop :=
  forall pts, (n <= length pts)%nat -> chain Qlt (map fst pts) -> exists p, fit pts = Some p /\ best P eval p pts.

(** The abscissa [x0] has no more influence on a cubic fit than 16 times the average: no cubic has there more than 16 times
    its mean square over the points. *)
Definition ordinary (pts : list point) (x0 : Q) : Prop :=
  forall p : cubic, number pts * (eval3 p x0 * eval3 p x0) <= 16 * sum_of (map (fun q => eval3 p (fst q) * eval3 p (fst q)) pts).

(** All points but [q0] are on the curve, and [q0] is not. *)
Definition one_wrong {P} (eval : P -> Q -> Q) (c : P) (pts : list point) (before : list point) (q0 : point) (after : list point) : Prop :=
  pts = before ++ q0 :: after /\
  (forall x y, In (x, y) (before ++ after) -> y == eval c x) /\ ~ snd q0 == eval c (fst q0).

(** Equally spaced points. *)
Definition evenly (pts : list point) : Prop :=
  exists a s, 0 < s /\ forall i q, nth_error pts i = Some q -> fst q == a + s * inject_Z (Z.of_nat i).
