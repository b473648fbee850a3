(** Proofs for C76. *)
From Coq Require Import ZArith QArith Qabs Qround Qpower List Bool Lia Lqa.
From Verif Require Import Lib Base UnwrapSpec UnwrapProofs Process ReadSeveral Drift Segments SegmentsSpec DoubleSpec DoubleProofs DoubleRound DoubleInterpSpec DoubleInterpProofs DoubleTimes DoubleTimesSpec.
Import ListNotations.
Open Scope Q_scope.

(** Relative error of a rounding. *)
Definition eps : Q := 1 # 4503599627370496.
Lemma round64_relative x : Qabs (round64 x - x) <= Qabs x * eps + eps.
Proof.
  pose proof (Qabs_nonneg x) as P. unfold round64. destruct (Qeq_bool x 0) eqn:E0.
  { apply Qeq_bool_iff in E0. rewrite E0. vm_compute. discriminate. }
  assert (N0 : ~ x == 0) by (intros H; apply Qeq_bool_iff in H; congruence). destruct (exponent_spec x N0) as [L U]. set (k := exponent x) in *.
  set (e := Z.max (-1074) (k - 53)). cbv zeta. assert (Pe : 0 < 2 ^ e) by apply two_pos.
  assert (F : Qabs (inject_Z (np_round (x / 2 ^ e)) * 2 ^ e - x) == Qabs (inject_Z (np_round (x / 2 ^ e)) - x / 2 ^ e) * 2 ^ e).
  { rewrite <- (Qabs_pos (2 ^ e)) at 5 by lra. rewrite <- Qabs_Qmult. apply Qabs_wd. field. lra. }
  rewrite F. apply Qle_trans with ((1 # 2) * 2 ^ e); [apply Qmult_le_compat_r; [apply np_round_half|lra]|].
  destruct (Z.max_spec (-1074) (k - 53)) as [[_ M]|[_ M]]; fold e in M; rewrite M.
  - assert (X : 2 ^ (k - 53) == 2 ^ (k - 1) * eps) by (replace (k - 53)%Z with (k - 1 + -52)%Z by lia; rewrite two_plus; reflexivity).
    assert (Y : 2 ^ (k - 1) * eps <= Qabs x * eps) by (apply Qmult_le_compat_r; [exact L|discriminate]). assert (0 < eps) by reflexivity. pose proof (two_pos (k - 53)). lra.
  - assert (X : 2 ^ (-1074) <= eps) by (vm_compute; discriminate). assert (Y : 0 <= Qabs x * eps) by (apply Qmult_le_0_compat; [exact P|discriminate]). pose proof (two_pos (-1074)). lra.
Qed.

Section Times.
  Variable rnd cube : Q -> Q.
  Hypothesis N : rounds_to_nearest rnd.
  Hypothesis C : cubes cube.

  Lemma rnd_relative x : Qabs x <= largest -> Qabs (rnd x - x) <= Qabs x * eps + eps.
  Proof.
    intros L. destruct (N x L) as [_ M]. destruct (round64_nearest x L) as [D _]. eapply Qle_trans; [apply M; exact D|apply round64_relative].
  Qed.
  Lemma below_largest x B : Qabs x <= B -> B <= 1000000000000000000000000000000000000000000 -> Qabs x <= largest.
  Proof. intros A H. eapply Qle_trans; [exact A|]. eapply Qle_trans; [exact H|]. vm_compute. discriminate. Qed.

  Lemma fit_close h x : moderate (h_fit h) x -> Qabs (dapply_fit rnd cube x h - apply_fit x h) <= 2 # 1000000 /\ double (dapply_fit rnd cube x h).
  Proof.
    intros (A0 & A0' & Ax & A1 & B2 & A2 & A3). unfold dapply_fit, apply_fit. set (p := h_fit h) in *.
    (* the linear term *)
    assert (R1 : Qabs (rnd (c1 p * x) - c1 p * x) <= 1 # 100000000).
    { eapply Qle_trans; [apply rnd_relative; eapply below_largest; [exact A1|discriminate]|]. unfold eps. lra. }
    set (u1 := rnd (c1 p * x)) in *. apply Qabs_Qle_condition in A1 as [A1a A1b], R1 as [R1a R1b].
    assert (S1 : Qabs (rnd (c0 p + u1) - (c0 p + u1)) <= 1 # 2000000) by (apply (time_near rnd N); apply Qabs_Qle_condition; split; lra).
    set (v1 := rnd (c0 p + u1)) in *. apply Qabs_Qle_condition in S1 as [S1a S1b].
    (* the square term *)
    assert (X2 : Qabs (x * x) <= 20000000000000000000) by (eapply Qle_trans; [apply (mul_small x x _ _ Ax Ax)|discriminate]).
    assert (E2 : x ^ 2 == x * x) by reflexivity. assert (E3 : x ^ 3 == x * x * x) by ring.
    rewrite E2 in A2. rewrite E3 in A3.
    pose proof (rnd_relative (x * x)) as Q2. specialize (Q2 ltac:(eapply below_largest; [exact X2|discriminate])).
    assert (D2 : Qabs (c2 p * (rnd (x * x) - x * x)) <= 1001 * eps).
    { rewrite Qabs_Qmult. apply Qle_trans with (Qabs (c2 p) * (Qabs (x * x) * eps + eps)).
      - rewrite (Qmult_comm (Qabs (c2 p)) (Qabs _)), (Qmult_comm (Qabs (c2 p)) (_ + _)). apply Qmult_le_compat_r; [exact Q2|apply Qabs_nonneg].
      - rewrite Qabs_Qmult in A2. setoid_replace (Qabs (c2 p) * (Qabs (x * x) * eps + eps)) with ((Qabs (c2 p) * Qabs (x * x) + Qabs (c2 p)) * eps) by ring.
        apply Qmult_le_compat_r; [lra|discriminate]. }
    assert (D2' : c2 p * (rnd (x * x) - x * x) == c2 p * rnd (x * x) - c2 p * (x * x)) by ring. rewrite D2' in D2. clear D2' Q2.
    set (y2 := c2 p * rnd (x * x)) in *. unfold eps in D2. apply Qabs_Qle_condition in A2 as [A2a A2b], D2 as [D2a D2b].
    assert (Y2 : Qabs y2 <= 1001) by (apply Qabs_Qle_condition; split; lra).
    assert (R2 : Qabs (rnd y2 - y2) <= 1 # 100000000).
    { eapply Qle_trans; [apply rnd_relative; eapply below_largest; [exact Y2|discriminate]|]. unfold eps. lra. }
    set (u2 := rnd y2) in *. apply Qabs_Qle_condition in R2 as [R2a R2b].
    assert (S2 : Qabs (rnd (v1 + u2) - (v1 + u2)) <= 1 # 2000000) by (apply (time_near rnd N); apply Qabs_Qle_condition; split; lra).
    set (v2 := rnd (v1 + u2)) in *. apply Qabs_Qle_condition in S2 as [S2a S2b].
    (* the cubic term *)
    assert (D3 : Qabs (c3 p * (cube x - x * x * x)) <= 1000 * eps).
    { pose proof (C x) as Q3. rewrite E3 in Q3. rewrite Qabs_Qmult. apply Qle_trans with (Qabs (c3 p) * (Qabs (x * x * x) * eps)).
      - rewrite (Qmult_comm (Qabs (c3 p)) (Qabs _)), (Qmult_comm (Qabs (c3 p)) (_ * _)). apply Qmult_le_compat_r; [exact Q3|apply Qabs_nonneg].
      - rewrite Qabs_Qmult in A3. rewrite Qmult_assoc. apply Qmult_le_compat_r; [exact A3|discriminate]. }
    assert (D3' : c3 p * (cube x - x * x * x) == c3 p * cube x - c3 p * (x * x * x)) by ring. rewrite D3' in D3. clear D3'.
    set (y3 := c3 p * cube x) in *. unfold eps in D3. apply Qabs_Qle_condition in A3 as [A3a A3b], D3 as [D3a D3b].
    assert (Y3 : Qabs y3 <= 1001) by (apply Qabs_Qle_condition; split; lra).
    assert (R3 : Qabs (rnd y3 - y3) <= 1 # 100000000).
    { eapply Qle_trans; [apply rnd_relative; eapply below_largest; [exact Y3|discriminate]|]. unfold eps. lra. }
    set (u3 := rnd y3) in *. apply Qabs_Qle_condition in R3 as [R3a R3b].
    assert (S3 : Qabs (rnd (v2 + u3) - (v2 + u3)) <= 1 # 2000000) by (apply (time_near rnd N); apply Qabs_Qle_condition; split; lra).
    assert (Dv : double (rnd (v2 + u3))) by (apply N; apply (below_largest _ 4294967296); [apply Qabs_Qle_condition; split; lra|discriminate]).
    set (v3 := rnd (v2 + u3)) in *. apply Qabs_Qle_condition in S3 as [S3a S3b]. split; [apply Qabs_Qle_condition; split; lra|exact Dv].
  Qed.

  Lemma segments_close {S} (header : list (hrow hinfo S)) x : moderate_header header x ->
    close_time (dapply_segments rnd cube header x) (apply_segments header x) /\ forall t, dapply_segments rnd cube header x = Some t -> double t.
  Proof.
    unfold dapply_segments, apply_segments. assert (G : close_time None None /\ forall t, @None Q = Some t -> double t) by (split; [exact Logic.I|discriminate]).
    revert G. generalize (@None Q) at 1 3 4 6. generalize (@None Q). intros v u. revert u v.
    induction header as [|row header IH]; intros u v G M; [exact G|]. cbn [fold_left]. apply IH.
    - unfold dapply_row, apply_row. destruct (Qle_bool (h_start (line row)) x && Qle_bool x (h_end (line row))) eqn:E; [|exact G].
      apply andb_true_iff in E as [E1 E2]. apply Qle_bool_iff in E1, E2. destruct (fit_close (line row) x) as [A B].
      + apply M; [|split; assumption]. left. unfold line. destruct (h_info row); reflexivity.
      + split; [exact A|]. intros t [= <-]. exact B.
    - intros h I. apply M. right. exact I.
  Qed.
End Times.
