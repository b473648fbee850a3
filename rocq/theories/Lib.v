(** Generic lemmas (no modelling content). *)
From Coq Require Import ZArith QArith Qround Qfield List Bool Lia Lqa.
Import ListNotations.

Lemma filter_length_le {A} (p : A -> bool) l : (length (filter p l) <= length l)%nat.
Proof. induction l as [|x l IH]; simpl; [lia|]. destruct (p x); simpl; lia. Qed.

Open Scope Q_scope.

Lemma Qltb_true x y : negb (Qle_bool y x) = true <-> x < y.
Proof.
  rewrite negb_true_iff. split; intros H.
  - apply Qnot_le_lt. intros L. apply Qle_bool_iff in L. congruence.
  - destruct (Qle_bool y x) eqn:E; [|reflexivity]. apply Qle_bool_iff in E.
    exfalso. apply (Qlt_not_le _ _ H E).
Qed.

Lemma Qltb_false x y : negb (Qle_bool y x) = false <-> y <= x.
Proof. rewrite negb_false_iff. apply Qle_bool_iff. Qed.

(** Multiples of [r] that are smaller than [r] in absolute value vanish. *)
Lemma small_multiple r k : 0 < r -> - r < r * inject_Z k -> r * inject_Z k < r -> k = 0%Z.
Proof.
  intros Hr H1 H2.
  assert (A : inject_Z (-1) < inject_Z k).
  { apply (Qmult_lt_l _ _ r Hr). change (inject_Z (-1)) with (-(1))%Q. lra. }
  assert (B : inject_Z k < inject_Z 1).
  { apply (Qmult_lt_l _ _ r Hr). change (inject_Z 1) with 1%Q. lra. }
  rewrite <- Zlt_Qlt in A, B. lia.
Qed.

Lemma Forall2_length_eq {A B} (R : A -> B -> Prop) l m : Forall2 R l m -> length l = length m.
Proof. induction 1; simpl; congruence. Qed.

Lemma Forall2_impl {A B} (R S : A -> B -> Prop) l m :
  (forall x y, R x y -> S x y) -> Forall2 R l m -> Forall2 S l m.
Proof. intros H. induction 1; constructor; auto. Qed.
