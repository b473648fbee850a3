(** Proofs for C75. *)
From Coq Require Import ZArith QArith Qabs Qround Qpower List Bool Lia Lqa.
From Verif Require Import Lib Base UnwrapSpec UnwrapProofs Process DoubleSpec DoubleProofs DoubleRound Interp InterpSpec InterpProofs DoubleInterp DoubleInterpSpec.
Import ListNotations.
Open Scope Q_scope.

(** Times are multiples of 2^-22. *)
Definition unit22 : Q := 1 # 4194304.
Lemma two22 : 2 ^ (-22) == unit22.
Proof. reflexivity. Qed.
Lemma instant_multiple t : instant t -> exists k : Z, t == inject_Z k * unit22.
Proof.
  intros ((m & e & M & E & Et) & L & _). assert (X : (-22 <= e)%Z).
  { destruct (Z_le_gt_dec (-22) e) as [G|G]; [exact G|exfalso]. assert (A : 2 ^ e <= 2 ^ (-23)) by (apply two_le; lia).
    assert (B : inject_Z m * 2 ^ e <= inject_Z (2 ^ 53 - 1) * 2 ^ e) by (apply Qmult_le_compat_r; [rewrite <- Zle_Qle; lia|apply Qlt_le_weak, two_pos]).
    assert (C : inject_Z (2 ^ 53 - 1) * 2 ^ e <= inject_Z (2 ^ 53 - 1) * 2 ^ (-23)) by (apply Qmult_le_l; [reflexivity|exact A]).
    assert (D : inject_Z (2 ^ 53 - 1) * 2 ^ (-23) < inject_Z (2 ^ 30)) by reflexivity.
    rewrite Et in L. apply (Qlt_irrefl (inject_Z (2 ^ 30))). eapply Qle_lt_trans; [exact L|]. eapply Qle_lt_trans; [exact B|]. eapply Qle_lt_trans; [exact C|exact D]. }
  exists (m * 2 ^ (e + 22))%Z. rewrite Et, inject_Z_mult, <- two_int, <- two22, <- Qmult_assoc, <- two_plus by lia. replace (e + 22 + -22)%Z with e by lia. reflexivity.
Qed.

Section Near.
  Variable rnd : Q -> Q.
  Hypothesis N : rounds_to_nearest rnd.

  Lemma rnd_double x : double x -> Qabs x <= largest -> rnd x == x.
  Proof.
    intros D L. destruct (N x L) as [_ A]. specialize (A x D).
    assert (Z0 : Qabs (x - x) == 0) by (setoid_replace (x - x) with 0 by ring; reflexivity). rewrite Z0 in A.
    apply Qabs_Qle_condition in A as [A B]. lra.
  Qed.
  Lemma step_exact x y : instant x -> instant y -> rnd (y - x) == y - x.
  Proof.
    intros Ix Iy. destruct (instant_multiple _ Ix) as (k & Ek). destruct (instant_multiple _ Iy) as (l & El).
    destruct Ix as (_ & X1 & X2), Iy as (_ & Y1 & Y2).
    change (inject_Z (2 ^ 30)) with 1073741824 in *.
    apply rnd_double.
    - exists (l - k)%Z, (-22)%Z. split; [|split; [lia|]].
      + unfold unit22 in *. assert (B1 : inject_Z (l - k) < inject_Z (2 ^ 53)) by (unfold Z.sub; rewrite inject_Z_plus, inject_Z_opp; change (inject_Z (2 ^ 53)) with 9007199254740992; lra).
        assert (B2 : inject_Z (k - l) < inject_Z (2 ^ 53)) by (unfold Z.sub; rewrite inject_Z_plus, inject_Z_opp; change (inject_Z (2 ^ 53)) with 9007199254740992; lra).
        rewrite <- Zlt_Qlt in B1, B2. lia.
      + rewrite two22. unfold Z.sub. rewrite inject_Z_plus, inject_Z_opp, Ek, El. ring.
    - apply Qle_trans with (inject_Z (2 ^ 33)); [change (inject_Z (2 ^ 33)) with 8589934592; apply Qabs_Qle_condition; split; lra|].
      apply Qle_trans with (Qabs (inject_Z (2 ^ 33))); [apply Qle_Qabs|]. apply int_below_largest. lia.
  Qed.

  Lemma const_near c : 0 <= c <= 1 -> Qabs (rnd c - c) <= 1 # 1000000000000.
  Proof.
    intros H. eapply Qle_trans; [apply (rnd_near rnd N c 50); [lia|]|reflexivity || (apply Qle_bool_iff; vm_compute; reflexivity)].
    change (inject_Z (2 ^ (52 - 50))) with 4. apply Qabs_Qle_condition. split; lra.
  Qed.
  (** One hundredth. *)
  Lemma hundredth_near : Qabs (rnd (1 # 100) - (1 # 100)) <= 1 # 1000000000000000000.
  Proof.
    destruct (N (1 # 100)) as [_ M]; [apply Qle_bool_iff; vm_compute; reflexivity|].
    eapply Qle_trans; [apply (M (inject_Z 5764607523034235 * 2 ^ (-59)))|apply Qle_bool_iff; vm_compute; reflexivity].
    exists 5764607523034235%Z, (-59)%Z. split; [lia|]. split; [lia|reflexivity].
  Qed.
  (** Breaks are found where they are. *)
  Lemma break_exact x y : instant x -> instant y -> (Qltb (rnd (25 # 1000)) (rnd (y - x)) || Qltb (rnd (y - x)) 0) = (Qltb (25 # 1000) (y - x) || Qltb (y - x) 0).
  Proof.
    intros Ix Iy. pose proof (step_exact x y Ix Iy) as E. f_equal; [|apply Qltb_comp; [exact E|reflexivity]].
    destruct (instant_multiple _ Ix) as (k & Ek). destruct (instant_multiple _ Iy) as (l & El).
    pose proof (const_near (25 # 1000) ltac:(lra)) as C. apply Qabs_Qle_condition in C as [C1 C2]. set (c := rnd (25 # 1000)) in *.
    assert (D : (104858 <= l - k \/ l - k <= 104857)%Z) by lia. rewrite !Zle_Qle in D. unfold Z.sub in D. rewrite inject_Z_plus, inject_Z_opp in D.
    change (inject_Z 104858) with 104858 in D. change (inject_Z 104857) with 104857 in D. unfold unit22 in *.
    destruct D as [D|D].
    - rewrite (proj2 (Qltb_lt (25 # 1000) (y - x))) by lra. apply Qltb_lt. rewrite E. lra.
    - rewrite (proj2 (Qltb_ge (25 # 1000) (y - x))) by lra. apply Qltb_ge. rewrite E. lra.
  Qed.
  Lemma steps_exact ts : Forall instant ts ->
    map (fun d => Qltb (rnd (25 # 1000)) d || Qltb d 0) (dsteps rnd ts) = map (fun d => Qltb (25 # 1000) d || Qltb d 0) (diffs ts).
  Proof.
    induction 1 as [|x r Ix F IH]; [reflexivity|]. destruct r as [|y r]; [reflexivity|]. inversion F as [|? ? Iy _]; subst.
    change (dsteps rnd (x :: y :: r)) with (rnd (y - x) :: dsteps rnd (y :: r)). change (diffs (x :: y :: r)) with ((y - x) :: diffs (y :: r)). cbn [map].
    rewrite IH, (break_exact x y Ix Iy). reflexivity.
  Qed.
  Lemma chunks_exact a z ts : Forall instant ts -> dchunks rnd 0 (rnd (25 # 1000)) a z ts = chunks 0 (25 # 1000) a z ts.
  Proof. intros F. unfold dchunks, chunks, dbreaks, breaks, breaks_raw. rewrite (steps_exact ts F). reflexivity. Qed.

  (** * The window *)
  Lemma time_near x : Qabs x <= 4294967296 -> Qabs (rnd x - x) <= 1 # 2000000.
  Proof.
    intros H. eapply Qle_trans; [apply (rnd_near rnd N x 20); [lia|exact H]|]. apply Qle_bool_iff. vm_compute. reflexivity.
  Qed.
  Lemma near_roughly s e pts : instant s -> instant e -> roughly_around s e pts (dnear rnd s e pts).
  Proof.
    intros (_ & S1 & S2) (_ & E1 & E2). change (inject_Z (2 ^ 30)) with 1073741824 in *. unfold dnear.
    pose proof hundredth_near as H. apply Qabs_Qle_condition in H as [H1 H2]. pose proof (const_near (1 # 1000) ltac:(lra)) as C. apply Qabs_Qle_condition in C as [C1 C2].
    set (h := rnd (1 # 100)) in *. set (c := rnd (1 # 1000)) in *.
    assert (A : Qabs (rnd (s - h) - (s - h)) <= 1 # 2000000) by (apply time_near; apply Qabs_Qle_condition; split; lra). apply Qabs_Qle_condition in A as [A1 A2].
    assert (B : Qabs (rnd (e + h) - (e + h)) <= 1 # 2000000) by (apply time_near; apply Qabs_Qle_condition; split; lra). apply Qabs_Qle_condition in B as [B1 B2].
    set (u := rnd (s - h)) in *. set (v := rnd (e + h)) in *.
    assert (A' : Qabs (rnd (u - c) - (u - c)) <= 1 # 2000000) by (apply time_near; apply Qabs_Qle_condition; split; lra). apply Qabs_Qle_condition in A' as [A3 A4].
    assert (B' : Qabs (rnd (v - c) - (v - c)) <= 1 # 2000000) by (apply time_near; apply Qabs_Qle_condition; split; lra). apply Qabs_Qle_condition in B' as [B3 B4].
    exists (rnd (u - c)), (rnd (v - c)). unfold tiny. split; [apply Qabs_Qle_condition; split; lra|]. split; [apply Qabs_Qle_condition; split; lra|]. reflexivity.
  Qed.

  (** * The grid *)
  Lemma mul_small a d A D : Qabs a <= A -> Qabs d <= D -> Qabs (a * d) <= A * D.
  Proof.
    intros HA HD. rewrite Qabs_Qmult. pose proof (Qabs_nonneg a). pose proof (Qabs_nonneg d).
    apply Qle_trans with (A * Qabs d); [apply Qmult_le_compat_r; assumption|]. rewrite (Qmult_comm A (Qabs d)), (Qmult_comm A D). apply Qmult_le_compat_r; [exact HD|lra].
  Qed.
  Lemma quotient_near s e : instant s -> instant e -> Qabs (rnd (rnd (e - s) / rnd (1 # 100)) - (e - s) * 100) <= 1 # 10000.
  Proof.
    intros Is Ie. pose proof (step_exact s e Is Ie) as E. destruct Is as (_ & S1 & S2), Ie as (_ & E1 & E2). change (inject_Z (2 ^ 30)) with 1073741824 in *.
    pose proof hundredth_near as H. set (h := rnd (1 # 100)) in *. set (d := rnd (e - s)) in *.
    assert (P : 1 # 101 <= h) by (apply Qabs_Qle_condition in H as [H1 H2]; lra). set (y := d / h).
    assert (Y : y * h == d) by (unfold y; field; lra).
    assert (B : Qabs y <= 200000000000).
    { unfold y. apply Qabs_Qle_condition. split; [apply Qle_shift_div_l|apply Qle_shift_div_r]; lra. }
    pose proof (mul_small y (h - (1 # 100)) _ _ B H) as M. apply Qabs_Qle_condition in M as [M1 M2].
    assert (M3 : y * (h - (1 # 100)) == d - y * (1 # 100)) by (rewrite <- Y; ring). rewrite M3 in M1, M2.
    assert (R : Qabs (rnd y - y) <= 1 / inject_Z (2 ^ (13 + 1))).
    { apply (rnd_near rnd N); [lia|]. eapply Qle_trans; [exact B|]. apply Qle_bool_iff. vm_compute. reflexivity. }
    change (1 / inject_Z (2 ^ (13 + 1))) with (1 # 16384) in R. apply Qabs_Qle_condition in R as [R1 R2]. apply Qabs_Qle_condition. split; lra.
  Qed.
  Lemma position_near s kk : instant s -> 0 <= kk -> s + kk * (1 # 100) <= 3000000001 ->
    Qabs (rnd (rnd (s + rnd (kk * rnd (1 # 100))) * 100) - (s * 100 + kk)) <= 1 # 2000.
  Proof.
    intros (_ & S1 & S2) K L. change (inject_Z (2 ^ 30)) with 1073741824 in *. pose proof hundredth_near as H. set (h := rnd (1 # 100)) in *.
    assert (B : Qabs kk <= 200000000000) by (apply Qabs_Qle_condition; split; lra).
    pose proof (mul_small kk (h - (1 # 100)) _ _ B H) as M. apply Qabs_Qle_condition in M as [M1 M2].
    assert (M3 : kk * (h - (1 # 100)) == kk * h - kk * (1 # 100)) by ring. rewrite M3 in M1, M2. clear M3. set (y := kk * h) in *.
    assert (A : Qabs (rnd y - y) <= 1 # 2000000) by (apply time_near; apply Qabs_Qle_condition; split; lra). apply Qabs_Qle_condition in A as [A1 A2]. set (u := rnd y) in *.
    assert (C : Qabs (rnd (s + u) - (s + u)) <= 1 # 2000000) by (apply time_near; apply Qabs_Qle_condition; split; lra). apply Qabs_Qle_condition in C as [C1 C2]. set (v := rnd (s + u)) in *.
    assert (D : Qabs (rnd (v * 100) - v * 100) <= 1 / inject_Z (2 ^ (13 + 1))).
    { apply (rnd_near rnd N); [lia|]. change (inject_Z (2 ^ (52 - 13))) with 549755813888. apply Qabs_Qle_condition. split; lra. }
    change (1 / inject_Z (2 ^ (13 + 1))) with (1 # 16384) in D. apply Qabs_Qle_condition in D as [D1 D2]. apply Qabs_Qle_condition. split; lra.
  Qed.
  Lemma np_round_unique v z : Qabs (v - inject_Z z) < 1 # 2 -> np_round v = z.
  Proof.
    intros H. pose proof (np_round_half v) as G. apply Qabs_Qlt_condition in H as [H1 H2]. apply Qabs_Qle_condition in G as [G1 G2]. set (r := np_round v) in *.
    assert (A : inject_Z r < inject_Z (z + 1)) by (rewrite inject_Z_plus; change (inject_Z 1) with 1; lra). assert (B : inject_Z z < inject_Z (r + 1)) by (rewrite inject_Z_plus; change (inject_Z 1) with 1; lra).
    rewrite <- Zlt_Qlt in A, B. lia.
  Qed.
  Lemma rnd_nearest x y : x == y -> Qabs y <= largest -> nearest_double y (rnd x).
  Proof.
    intros E L. destruct (N x) as [D M]; [rewrite E; exact L|]. split; [exact D|]. intros z Dz. rewrite <- E. apply M. exact Dz.
  Qed.
  Lemma large m : Qabs (inject_Z m * (1 # 100)) <= 4294967296 -> Qabs (inject_Z m * (1 # 100)) <= largest.
  Proof. intros H. eapply Qle_trans; [exact H|]. change 4294967296 with (Qabs (inject_Z 4294967296)). apply int_below_largest. lia. Qed.
  Lemma dgrid_resampling f s e : instant s -> instant e ->
    match dgrid rnd s e with
    | [] => e - s < (1 # 100) + tiny
    | t0 :: g => dresampling f s e (mktr t0 (map (fun t => np_round (f t)) (t0 :: g)))
    end.
  Proof.
    intros Is Ie. destruct (dgrid rnd s e) as [|t0 g] eqn:G; unfold dgrid in G; pose proof (quotient_near s e Is Ie) as Qn; set (q := rnd (rnd (e - s) / rnd (1 # 100))) in *;
      apply Qabs_Qle_condition in Qn as [Q1 Q2]; set (n := Z.to_nat (Qfloor q)) in *.
    - apply map_eq_nil in G. assert (n = 0%nat) as En by (destruct n; [reflexivity|discriminate]).
      assert (Z : (Qfloor q <= 0)%Z) by lia. pose proof (Qlt_floor q) as D. rewrite inject_Z_plus in D. change (inject_Z 1) with 1 in D. rewrite Zle_Qle in Z. change (inject_Z 0) with 0 in Z. unfold tiny. lra.
    - unfold dresampling. cbv zeta. cbn [tr_data tr_start]. rewrite <- G, !map_length, seq_length.
      assert (P : (0 < n)%nat) by (destruct n; [discriminate|lia]). destruct (floor_pos _ P) as [A B]. fold n in A, B.
      split; [lia|]. split; [unfold tiny; lra|]. split; [unfold tiny; lra|].
      set (pos := fun k : nat => rnd (rnd (s + rnd (inject_Z (Z.of_nat k) * rnd (1 # 100))) * 100)).
      assert (Pn : forall k, (k < n)%nat -> Qabs (pos k - (s * 100 + inject_Z (Z.of_nat k))) <= 1 # 2000).
      { intros k K. apply position_near; [exact Is|change 0 with (inject_Z 0); rewrite <- Zle_Qle; lia|].
        assert (X : inject_Z (Z.of_nat k) <= inject_Z (Z.of_nat n)) by (rewrite <- Zle_Qle; lia). destruct Ie as (_ & _ & E2). lra. }
      assert (Mn : forall k, (k < n)%nat -> Qabs (inject_Z (np_round (pos k)) * (1 # 100) - (s + inject_Z (Z.of_nat k) * (1 # 100))) <= (1 # 200) + tiny).
      { intros k K. specialize (Pn k K). pose proof (np_round_half (pos k)) as R. apply Qabs_Qle_condition in Pn as [P1 P2], R as [R1 R2]. apply Qabs_Qle_condition. unfold tiny. split; lra. }
      assert (Sm : forall k, (k < n)%nat -> Qabs (inject_Z (np_round (pos k)) * (1 # 100)) <= 4294967296).
      { intros k K. specialize (Mn k K). apply Qabs_Qle_condition in Mn as [M1 M2]. unfold tiny in *. destruct Is as (_ & S1 & S2), Ie as (_ & E1 & E2). change (inject_Z (2 ^ 30)) with 1073741824 in *.
        assert (X : inject_Z (Z.of_nat k) <= inject_Z (Z.of_nat n)) by (rewrite <- Zle_Qle; lia). assert (Y : 0 <= inject_Z (Z.of_nat k)) by (change 0 with (inject_Z 0); rewrite <- Zle_Qle; lia).
        apply Qabs_Qle_condition. split; lra. }
      assert (Nd : forall k, (k < n)%nat -> nearest_double (inject_Z (np_round (pos k)) * (1 # 100)) (dround2 rnd (rnd (s + rnd (inject_Z (Z.of_nat k) * rnd (1 # 100)))))).
      { intros k K. unfold dround2. fold (pos k). apply rnd_nearest; [field|apply large, Sm, K]. }
      exists (fun k => np_round (pos k)). split; [|split].
      + intros k K. split; [exact (Mn k K)|]. eexists. exists (np_round (f (dround2 rnd (rnd (s + rnd (inject_Z (Z.of_nat k) * rnd (1 # 100))))))). split; [exact (Nd k K)|]. split; [|apply np_round_near].
        rewrite map_map. apply (map_nth_error (fun k => np_round (f (dround2 rnd (rnd (s + rnd (inject_Z (Z.of_nat k) * rnd (1 # 100)))))))).
        rewrite (nth_error_nth' _ 0%nat) by (rewrite seq_length; exact K). rewrite seq_nth by exact K. reflexivity.
      + clear - G Nd P. destruct n; [lia|]. cbn [seq map] in G. injection G as <- _. apply (Nd 0%nat). lia.
      + intros Far k K. set (z := np_round (s * 100)). pose proof (np_round_half (s * 100)) as R. fold z in R. apply Qabs_Qle_condition in R as [R1 R2].
        pose proof (Far z) as F1. pose proof (Far (z - 1)%Z) as F2. unfold Z.sub in F2. rewrite inject_Z_plus in F2. change (inject_Z (- (1))) with (- (1)) in F2.
        assert (F3 : s * 100 - inject_Z z <= (1 # 2) - (1 # 1000)) by (rewrite Qabs_neg in F1 by lra; lra).
        assert (F4 : - ((1 # 2) - (1 # 1000)) <= s * 100 - inject_Z z) by (rewrite Qabs_pos in F2 by lra; lra).
        assert (U : forall j, (j < n)%nat -> np_round (pos j) = (z + Z.of_nat j)%Z).
        { intros j J. apply np_round_unique. specialize (Pn j J). apply Qabs_Qle_condition in Pn as [P1 P2]. rewrite inject_Z_plus. apply Qabs_Qlt_condition. split; lra. }
        rewrite (U k K), (U 0%nat P). lia.
  Qed.

  (** * All runs *)
  Variable spline : list (Q * option Q) -> option (Q -> Q).
  Lemma dresample_runs pts runs : Forall (fun r => r <> [] /\ Forall instant r) runs ->
    match dresample rnd spline pts (filter (fun c => negb (Qeq_bool (fst c) (snd c))) (map (fun c => (hd 0 c, last c 0)) runs)) with
    | Some trs => dresampled spline pts runs trs
    | None => Exists (roughly_too_short spline pts) runs
    end.
  Proof.
    induction 1 as [|r runs [Ne Ir] _ IH]; [constructor|]. cbn [map filter fst snd].
    pose proof (hd_begins r Ne) as B. pose proof (last_finishes r Ne) as F.
    set (s := hd 0 r) in *. set (e := last r 0) in *. set (rest := filter _ _) in *.
    assert (Is : instant s) by (rewrite Forall_forall in Ir; apply Ir; unfold s; destruct r; [contradiction|left; reflexivity]).
    assert (Ie : instant e) by (rewrite Forall_forall in Ir; apply Ir; destruct F as (l' & F); rewrite F; apply in_or_app; right; left; reflexivity).
    destruct (Qeq_bool s e) eqn:Qe; cbn [negb].
    - apply Qeq_bool_iff in Qe. destruct (dresample rnd spline pts rest) as [trs|]; [|right; exact IH]. eapply dres_single; eassumption.
    - assert (Nse : ~ s == e) by (intros X; apply Qeq_bool_iff in X; congruence). cbn [dresample]. pose proof (near_roughly s e pts Is Ie) as W.
      destruct (spline (dnear rnd s e pts)) as [f|] eqn:Sp.
      + pose proof (dgrid_resampling f s e Is Ie) as G. destruct (dgrid rnd s e) as [|t0 g].
        * left. exists s, e, (dnear rnd s e pts), f. repeat (split; [assumption|]). exact G.
        * destruct (dresample rnd spline pts rest) as [trs|]; [|right; exact IH]. eapply dres_trace; eassumption.
      + destruct (dresample rnd spline pts rest) as [trs|]; [|right; exact IH]. eapply dres_failed; eassumption.
  Qed.
  Lemma dinterp_cut rows : let pts := timed_points rows in let ts := map fst pts in ts <> [] -> Forall instant ts ->
    dinterp rnd spline rows = dresample rnd spline pts (filter (fun c => negb (Qeq_bool (fst c) (snd c))) (map (fun c => (hd 0 c, last c 0)) (cut ts))).
  Proof.
    cbv zeta. intros Ne F. unfold dinterp. set (pts := timed_points rows) in *. set (ts := map fst pts) in *.
    assert (F1 : first_from None ts = Some (hd 0 ts)) by (destruct ts; [contradiction|reflexivity]).
    assert (F2 : last_upto None ts = Some (last ts 0)).
    { unfold last_upto. rewrite (app_removelast_last 0 Ne) at 1. rewrite rev_app_distr. reflexivity. }
    rewrite F1, F2, chunks_exact by exact F. rewrite chunks_pairs. f_equal. f_equal. cbv zeta. unfold cut.
    destruct ts as [|x r]; [contradiction|]. exact (split_ends (brk 0 (25 # 1000) x (last (x :: r) 0)) x r).
  Qed.
End Near.
