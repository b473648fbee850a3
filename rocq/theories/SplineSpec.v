(** What a cubic spline is. *)
From Coq Require Import ZArith QArith List.
From Verif Require Import Base UnwrapSpec.
Import ListNotations.
Open Scope Q_scope.

(** A polynomial of degree at most three, its value, its first and its second derivative. *)
Record curve := mkcurve { k0 : Q; k1 : Q; k2 : Q; k3 : Q }.
Definition value (p : curve) (t : Q) : Q := k0 p + k1 p * t + k2 p * (t * t) + k3 p * (t * t * t).
Definition slope (p : curve) (t : Q) : Q := k1 p + 2 * k2 p * t + 3 * k3 p * (t * t).
Definition bend (p : curve) (t : Q) : Q := 2 * k2 p + 6 * k3 p * t.

(** One curve for each interval between consecutive points: it takes the values of the points at both ends, and where two
    curves meet, their first and second derivatives agree. *)
Fixpoint joined (pts : list (Q * Q)) (ps : list curve) : Prop :=
  match pts, ps with
  | (t, v) :: (((t', v') :: _) as pts'), p :: ps' =>
      value p t == v /\ value p t' == v' /\
      match ps' with q :: _ => slope p t' == slope q t' /\ bend p t' == bend q t' | [] => True end /\
      joined pts' ps'
  | [_], [] => True
  | _, _ => False
  end.

(** The ends: a straight line for two points, a parabola for three; for more, also the third derivatives agree between the
    first two curves, and between the last two. *)
Definition ends_free (ps : list curve) : Prop :=
  match ps with
  | [p] => k2 p == 0 /\ k3 p == 0
  | [p; q] => k3 p == 0 /\ k3 q == 0
  | p :: q :: _ => k3 p == k3 q /\ exists l a z, ps = l ++ [a; z] /\ k3 a == k3 z
  | [] => False
  end.

(** [f] follows the curves; the first and the last one also beyond the points. *)
Definition follows (pts : list (Q * Q)) (ps : list curve) (f : Q -> Q) : Prop :=
  forall i p a z t, nth_error ps i = Some p -> nth_error pts i = Some a -> nth_error pts (S i) = Some z ->
    i = 0%nat \/ fst a <= t -> S i = length ps \/ t <= fst z -> f t == value p t.

Definition is_spline (pts : list (Q * Q)) (f : Q -> Q) : Prop :=
  exists ps, joined pts ps /\ ends_free ps /\ follows pts ps f.

(** Samples that all have a value. *)
Definition samples (pts : list (Q * Q)) : list (Q * option Q) := map (fun p => (fst p, Some (snd p))) pts.
Definition on_curve (c : curve) (pts : list (Q * Q)) : Prop := Forall (fun p => snd p == value c (fst p)) pts.
(** [n] points are enough to tell the curve. *)
Definition determined (c : curve) (n : nat) : Prop :=
  (4 <= n)%nat \/ (3 <= n)%nat /\ k3 c == 0 \/ k2 c == 0 /\ k3 c == 0.
(** A record of which each value is [g] times one value and [h] times another one. *)
Definition combined (g h : Q) (l : list (Q * (Q * Q))) : list (Q * Q) := map (fun p => (fst p, g * fst (snd p) + h * snd (snd p))) l.
(** All samples that have a time lie on the curve. *)
Definition all_on (c : curve) (pts : list (Q * option Q)) : Prop := Forall (fun p => exists v, snd p = Some v /\ v == value c (fst p)) pts.
