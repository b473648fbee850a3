(** A rounding to nearest doubles exists: ties to even, as in IEEE 754. *)
From Coq Require Import ZArith QArith Qabs Qround Qpower Bool Lia Lqa.
From Verif Require Import Base UnwrapProofs Process DoubleSpec.
Open Scope Q_scope.

(** The [e] with 2^(e-1) <= |x| < 2^e. *)
Definition exponent (x : Q) : Z :=
  let k := (Z.log2 (Z.abs (Qnum x)) - Z.log2 (Zpos (Qden x)))%Z in if Qltb (Qabs x) (2 ^ k) then k else (k + 1)%Z.
Definition round64 (x : Q) : Q :=
  if Qeq_bool x 0 then 0 else let e := Z.max (-1074) (exponent x - 53) in inject_Z (np_round (x / 2 ^ e)) * 2 ^ e.

Lemma two_pos e : 0 < 2 ^ e.
Proof. apply Qpower_0_lt. reflexivity. Qed.
Lemma two_plus a c : 2 ^ (a + c) == 2 ^ a * 2 ^ c.
Proof. apply Qpower_plus. discriminate. Qed.
Lemma two_int n : (0 <= n)%Z -> 2 ^ n == inject_Z (2 ^ n).
Proof. intros H. rewrite Zpower_Qpower by exact H. reflexivity. Qed.
Lemma two_le a c : (a <= c)%Z -> 2 ^ a <= 2 ^ c.
Proof. intros H. destruct (Z.eq_dec a c) as [->|D]; [apply Qle_refl|]. apply Qlt_le_weak, Qpower_lt_compat_l; [lia|reflexivity]. Qed.
Lemma two_lt_inv a c : 2 ^ a < 2 ^ c -> (a < c)%Z.
Proof. intros H. apply (Qpower_lt_compat_l_inv 2 a c H). reflexivity. Qed.

Lemma exponent_spec x : ~ x == 0 -> 2 ^ (exponent x - 1) <= Qabs x /\ Qabs x < 2 ^ exponent x.
Proof.
  intros H. assert (N : (0 < Z.abs (Qnum x))%Z). { destruct x as [n d]. unfold Qeq in H. cbn in *. lia. }
  set (a := Z.log2 (Z.abs (Qnum x))). set (c := Z.log2 (Zpos (Qden x))).
  pose proof (Z.log2_spec _ N) as [A1 A2]. pose proof (Z.log2_spec (Zpos (Qden x)) ltac:(lia)) as [C1 C2]. fold a in A1, A2. fold c in C1, C2.
  assert (Pa : (0 <= a)%Z) by apply Z.log2_nonneg. assert (Pc : (0 <= c)%Z) by apply Z.log2_nonneg.
  assert (D : Qabs x * inject_Z (Zpos (Qden x)) == inject_Z (Z.abs (Qnum x))).
  { destruct x as [n d]. cbn [Qabs Qnum Qden]. unfold Qeq, Qmult, inject_Z. cbn [Qnum Qden]. lia. }
  assert (L : 2 ^ a <= inject_Z (Z.abs (Qnum x))) by (rewrite two_int by exact Pa; rewrite <- Zle_Qle; exact A1).
  assert (U : inject_Z (Z.abs (Qnum x)) < 2 ^ (a + 1)) by (rewrite two_int by lia; rewrite <- Zlt_Qlt; exact A2).
  assert (L' : 2 ^ c <= inject_Z (Zpos (Qden x))) by (rewrite two_int by exact Pc; rewrite <- Zle_Qle; exact C1).
  assert (U' : inject_Z (Zpos (Qden x)) < 2 ^ (c + 1)) by (rewrite two_int by lia; rewrite <- Zlt_Qlt; exact C2).
  assert (Px : 0 <= Qabs x) by apply Qabs_nonneg.
  (* 2^(a-c-1) < |x| < 2^(a-c+1) *)
  assert (Lo : 2 ^ (a - c - 1) < Qabs x).
  { apply Qnot_le_lt. intros X. assert (Y : Qabs x * inject_Z (Zpos (Qden x)) <= 2 ^ (a - c - 1) * inject_Z (Zpos (Qden x))) by (apply Qmult_le_compat_r; [exact X|pose proof (two_pos c); lra]).
    assert (Z1 : 2 ^ (a - c - 1) * inject_Z (Zpos (Qden x)) < 2 ^ (a - c - 1) * 2 ^ (c + 1)) by (apply Qmult_lt_l; [apply two_pos|exact U']).
    rewrite <- two_plus in Z1. replace (a - c - 1 + (c + 1))%Z with a in Z1 by lia. lra. }
  assert (Up : Qabs x < 2 ^ (a - c + 1)).
  { apply Qnot_le_lt. intros X. assert (Y : 2 ^ (a - c + 1) * inject_Z (Zpos (Qden x)) <= Qabs x * inject_Z (Zpos (Qden x))) by (apply Qmult_le_compat_r; [exact X|pose proof (two_pos c); lra]).
    assert (Z1 : 2 ^ (a - c + 1) * 2 ^ c <= 2 ^ (a - c + 1) * inject_Z (Zpos (Qden x))) by (apply Qmult_le_l; [apply two_pos|exact L']).
    rewrite <- two_plus in Z1. replace (a - c + 1 + c)%Z with (a + 1)%Z in Z1 by lia. lra. }
  unfold exponent. fold a c. destruct (Qltb (Qabs x) (2 ^ (a - c))) eqn:E.
  - apply Qltb_lt in E. split; [lra|exact E].
  - apply Qltb_ge in E. replace (a - c + 1 - 1)%Z with (a - c)%Z by lia. split; [exact E|exact Up].
Qed.

Lemma np_round_half y : Qabs (inject_Z (np_round y) - y) <= 1 # 2.
Proof.
  unfold np_round. pose proof (Qfloor_le y) as A. pose proof (Qlt_floor y) as B. rewrite inject_Z_plus in B. change (inject_Z 1) with 1 in B. set (f := Qfloor y) in *.
  apply Qabs_Qle_condition. destruct (Qcompare (y - inject_Z f) (1 # 2)) eqn:C.
  - apply Qeq_alt in C. destruct (Z.even f); [|rewrite inject_Z_plus; change (inject_Z 1) with 1]; split; lra.
  - apply Qlt_alt in C. split; lra.
  - apply Qgt_alt in C. rewrite inject_Z_plus. change (inject_Z 1) with 1. split; lra.
Qed.
Lemma np_round_nearest y n : Qabs (inject_Z (np_round y) - y) <= Qabs (inject_Z n - y).
Proof.
  pose proof (np_round_half y) as H. destruct (Z.eq_dec n (np_round y)) as [->|D]; [apply Qle_refl|].
  apply Qle_trans with (1 # 2); [exact H|]. apply Qabs_Qle_condition in H as [H1 H2]. set (r := np_round y) in *.
  assert (E : (n + 1 <= r)%Z \/ (r + 1 <= n)%Z) by lia. rewrite !Zle_Qle, !inject_Z_plus in E. change (inject_Z 1) with 1 in E.
  destruct E as [E|E].
  - apply Qle_trans with (- (inject_Z n - y)); [lra|]. rewrite <- Qabs_opp. apply Qle_Qabs.
  - apply Qle_trans with (inject_Z n - y); [lra|]. apply Qle_Qabs.
Qed.

Theorem round64_nearest : rounds_to_nearest round64.
Proof.
  intros x B. unfold round64. destruct (Qeq_bool x 0) eqn:E0.
  { apply Qeq_bool_iff in E0. split; [exists 0%Z, 0%Z; split; [reflexivity|]; split; [lia|reflexivity]|]. intros y _.
    setoid_replace (0 - x) with 0 by (rewrite E0; ring). apply Qabs_nonneg. }
  assert (N0 : ~ x == 0) by (intros H; apply Qeq_bool_iff in H; congruence). destruct (exponent_spec x N0) as [L U]. set (k := exponent x) in *.
  set (e := Z.max (-1074) (k - 53)). cbv zeta. set (m := np_round (x / 2 ^ e)).
  assert (P : 0 < 2 ^ e) by apply two_pos.
  assert (K : (k <= 1024)%Z).
  { assert (X : 2 ^ (k - 1) < 2 ^ 1024); [|apply two_lt_inv in X; lia]. eapply Qle_lt_trans; [exact L|]. eapply Qle_lt_trans; [exact B|]. reflexivity. }
  assert (Ax : Qabs x == Qabs (x / 2 ^ e) * 2 ^ e).
  { rewrite <- (Qabs_pos (2 ^ e)) at 2 by lra. rewrite <- Qabs_Qmult. apply Qabs_wd. field. lra. }
  (* the scaled number is below 2^53 *)
  assert (S : Qabs (x / 2 ^ e) < inject_Z (2 ^ 53)).
  { apply Qnot_le_lt. intros X. assert (Y : inject_Z (2 ^ 53) * 2 ^ e <= Qabs (x / 2 ^ e) * 2 ^ e) by (apply Qmult_le_compat_r; [exact X|lra]).
    rewrite <- Ax, <- two_int, <- two_plus in Y by lia. assert (2 ^ k <= 2 ^ (53 + e)) by (apply two_le; lia). lra. }
  pose proof (np_round_half (x / 2 ^ e)) as H. fold m in H.
  assert (M : (Z.abs m <= 2 ^ 53)%Z).
  { apply Qabs_Qlt_condition in S as [S1 S2]. apply Qabs_Qle_condition in H as [H1 H2].
    remember (inject_Z (2 ^ 53)) as big eqn:Eb.
    assert (A : inject_Z m < inject_Z (2 ^ 53 + 1)) by (rewrite inject_Z_plus, <- Eb; change (inject_Z 1) with 1; lra). rewrite <- Zlt_Qlt in A.
    assert (C : inject_Z (- 2 ^ 53 - 1) < inject_Z m) by (unfold Z.sub; rewrite inject_Z_plus, inject_Z_opp, <- Eb; change (inject_Z (- (1))) with (- (1)); lra). rewrite <- Zlt_Qlt in C. lia. }
  split.
  - destruct (Z.eq_dec (Z.abs m) (2 ^ 53)) as [Em|Em].
    + assert (Ee : (e < 971)%Z).
      { destruct (Z_lt_ge_dec e 971) as [G|G]; [exact G|exfalso]. assert (e = 971%Z) as E1 by lia.
        assert (X : Qabs (x / 2 ^ e) <= inject_Z (2 ^ 53 - 1)).
        { apply Qnot_lt_le. intros Y. assert (Z1 : inject_Z (2 ^ 53 - 1) * 2 ^ e < Qabs (x / 2 ^ e) * 2 ^ e) by (apply Qmult_lt_compat_r; assumption).
          rewrite <- Ax, E1 in Z1. fold largest in Z1. lra. }
        apply Qabs_Qle_condition in X as [X1 X2]. apply Qabs_Qle_condition in H as [H1 H2].
        unfold Z.sub in X1, X2. rewrite inject_Z_plus in X1, X2. change (inject_Z (- (1))) with (- (1)) in X1, X2. remember (inject_Z (2 ^ 53)) as big eqn:Eb.
        assert (A : inject_Z m < big) by lra. assert (C : - big < inject_Z m) by lra. rewrite Eb in A, C. rewrite <- inject_Z_opp in C. rewrite <- Zlt_Qlt in A, C. lia. }
      exists (Z.sgn m * 2 ^ 52)%Z, (e + 1)%Z. split; [rewrite Z.abs_mul; destruct m; cbn [Z.sgn Z.abs]; lia|]. split; [lia|].
      rewrite two_plus. change (2 ^ 1) with 2. assert (Em2 : m = (Z.sgn m * 2 ^ 52 * 2)%Z) by lia. rewrite Em2 at 1. rewrite inject_Z_mult. change (inject_Z 2) with 2. ring.
    + exists m, e. split; [lia|]. split; [lia|reflexivity].
  - intros y (m' & e' & M' & He' & Ey).
    assert (Sc : forall w : Z, Qabs (inject_Z m * 2 ^ e - x) <= Qabs (inject_Z w * 2 ^ e - x)).
    { intros w. assert (F : forall v : Z, Qabs (inject_Z v * 2 ^ e - x) == Qabs (inject_Z v - x / 2 ^ e) * 2 ^ e).
      { intros v. rewrite <- (Qabs_pos (2 ^ e)) at 3 by lra. rewrite <- Qabs_Qmult. apply Qabs_wd. field. lra. }
      rewrite !F. apply Qmult_le_compat_r; [apply np_round_nearest|lra]. }
    destruct (Z_le_gt_dec e e') as [G|G].
    + specialize (Sc (m' * 2 ^ (e' - e))%Z). rewrite inject_Z_mult, <- two_int, <- Qmult_assoc, <- two_plus in Sc by lia. replace (e' - e + e)%Z with e' in Sc by lia. rewrite Ey. exact Sc.
    + assert (Ek : e = (k - 53)%Z) by lia.
      assert (Yb : Qabs y <= 2 ^ (e + 52)).
      { rewrite Ey, Qabs_Qmult, (Qabs_pos (2 ^ e')) by (apply Qlt_le_weak, two_pos). change (Qabs (inject_Z m')) with (inject_Z (Z.abs m')).
        apply Qle_trans with (inject_Z (2 ^ 53) * 2 ^ e'); [apply Qmult_le_compat_r; [rewrite <- Zle_Qle; lia|apply Qlt_le_weak, two_pos]|].
        rewrite <- two_int, <- two_plus by lia. apply two_le. lia. }
      assert (Xb : 2 ^ (e + 52) <= Qabs x) by (replace (e + 52)%Z with (k - 1)%Z by lia; exact L).
      assert (Tr : Qabs x - Qabs y <= Qabs (y - x)) by (rewrite Qabs_Qminus; apply Qabs_triangle_reverse).
      destruct (Qlt_le_dec x 0) as [Neg|Pos].
      * specialize (Sc (- 2 ^ 52)%Z). eapply Qle_trans; [exact Sc|]. rewrite (Qabs_neg x) in * by lra.
        rewrite inject_Z_opp, <- two_int by lia. setoid_replace (- 2 ^ 52 * 2 ^ e - x) with (- x - 2 ^ (e + 52)) by (rewrite two_plus; ring).
        rewrite Qabs_pos by lra. lra.
      * specialize (Sc (2 ^ 52)%Z). eapply Qle_trans; [exact Sc|]. rewrite (Qabs_pos x) in * by lra.
        rewrite <- two_int by lia. setoid_replace (2 ^ 52 * 2 ^ e - x) with (- (x - 2 ^ (e + 52))) by (rewrite two_plus; ring).
        rewrite Qabs_opp, Qabs_pos by lra. lra.
Qed.
