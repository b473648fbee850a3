From Coq Require Import ZArith QArith List Bool.
Import ListNotations.
Open Scope Q_scope.

(** [x] and [y] differ by a whole number of periods [r]. *)
Definition congruent (r x y : Q) : Prop := exists k : Z, x == y + r * inject_Z k.

(** Every recorded clock value lies in one period. *)
Definition in_period (r x : Q) : Prop := 0 <= x /\ x < r.

(** Consecutive elements are related. *)
Fixpoint chain {A} (R : A -> A -> Prop) (l : list A) : Prop :=
  match l with
  | x :: ((y :: _) as t) => R x y /\ chain R t
  | _ => True
  end.

Definition step_below (h x y : Q) : Prop := - h < y - x /\ y - x < h.   (* |y - x| < h *)
Definition step_within (h x y : Q) : Prop := - h <= y - x /\ y - x <= h. (* |y - x| <= h *)

(** [saw] is what a recorder with clock values [tau] and rollover [r] writes. *)
Definition recorded (r : Q) (tau saw : list Q) : Prop :=
  Forall2 (fun t s => in_period r s /\ congruent r t s) tau saw.
