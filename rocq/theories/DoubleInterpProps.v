(** Property C75: resampling in double precision. *)
From Coq Require Import ZArith QArith Qabs Qround Qpower List Bool Lia Lqa.
From Verif Require Import Lib Base UnwrapSpec UnwrapProofs Process DoubleSpec DoubleRound Interp InterpSpec InterpProofs DoubleInterp DoubleInterpSpec DoubleInterpProofs.
Import ListNotations.
Open Scope Q_scope.

(** C75.  The times are doubles of the years 2004 to 2064.  However operations are rounded, the runs are those of C20 (every break of over
    25 ms and every step backwards is found, and no other), and each run gives its trace; if the call fails, then no sample has a time or a
    run has hardly more than 0.01 s. *)
Theorem C75_resampling : forall rnd spline rows, rounds_to_nearest rnd -> (forall t v, In (Some t, v) rows -> instant t) ->
  match dinterp rnd spline rows with
  | Some trs => exists pts runs, points rows pts /\ pts <> [] /\ runs_of (map fst pts) runs /\ dresampled spline pts runs trs
  | None => points rows [] \/ exists pts runs, points rows pts /\ runs_of (map fst pts) runs /\ Exists (roughly_too_short spline pts) runs
  end.
Proof.
  intros rnd spline rows N H. assert (F : Forall instant (map fst (timed_points rows))).
  { apply Forall_forall. intros t I. apply in_map_iff in I as ((t' & v) & <- & I). unfold timed_points in I. apply in_flat_map in I as ((o & v') & I & J).
    cbn [fst snd] in J. destruct o as [t|]; [|destruct J]. destruct J as [[= <- <-]|[]]. exact (H _ _ I). }
  destruct (map fst (timed_points rows)) eqn:M.
  - unfold dinterp. rewrite M. cbn. left. apply map_eq_nil in M. rewrite <- M. apply timed_points_points.
  - rewrite <- M in F. assert (Ne : map fst (timed_points rows) <> []) by (rewrite M; discriminate). clear M.
    rewrite (dinterp_cut rnd N spline rows Ne F).
    assert (A : Forall (fun r : list Q => r <> [] /\ Forall instant r) (cut (map fst (timed_points rows)))).
    { apply Forall_forall. intros r I. split; [pose proof (split_inside (brk 0 (25 # 1000) (hd 0 (map fst (timed_points rows))) (last (map fst (timed_points rows)) 0)) (map fst (timed_points rows))) as X; rewrite Forall_forall in X; apply (X r I)|].
      apply Forall_forall. intros t J. rewrite Forall_forall in F. apply F. destruct (cut_runs _ Ne) as [C _]. rewrite <- C. apply in_concat. exists r. auto. }
    pose proof (dresample_runs rnd N spline (timed_points rows) _ A) as R.
    destruct (dresample rnd spline (timed_points rows) _) as [trs|].
    + exists (timed_points rows), (cut (map fst (timed_points rows))). split; [apply timed_points_points|]. split; [intros X; rewrite X in Ne; apply Ne; reflexivity|]. split; [apply cut_runs; exact Ne|exact R].
    + right. exists (timed_points rows), (cut (map fst (timed_points rows))). split; [apply timed_points_points|]. split; [apply cut_runs; exact Ne|exact R].
Qed.

(** The samples of a trace are one interval apart: the first at [m] hundredths of a second, sample [k] at [m + k], unless the run starts within
    ten microseconds of the middle between two grid times. *)
Theorem C75_uniform : forall rnd spline rows trs pts runs tr, rounds_to_nearest rnd -> (forall t v, In (Some t, v) rows -> instant t) ->
  dinterp rnd spline rows = Some trs -> points rows pts -> runs_of (map fst pts) runs -> In tr trs ->
  exists r s e w f, In r runs /\ begins r s /\ finishes r e /\ roughly_around s e pts w /\ spline w = Some f /\
    ((forall z : Z, 1 # 1000 < Qabs (s * 100 - (inject_Z z + (1 # 2)))) ->
     exists m : Z, nearest (s * 100) m /\ nearest_double (inject_Z m * (1 # 100)) (tr_start tr) /\
       forall k, (k < length (tr_data tr))%nat ->
         exists g v, nearest_double (inject_Z (m + Z.of_nat k) * (1 # 100)) g /\ nth_error (tr_data tr) k = Some v /\ nearest (f g) v).
Proof.
  intros rnd spline rows trs pts runs tr N H E P Ru I. pose proof (C75_resampling rnd spline rows N H) as R. rewrite E in R. destruct R as (pts' & runs' & P' & Ne & Ru' & R).
  rewrite (points_unique _ _ P) in *. rewrite (points_unique _ _ P') in *. assert (Nt : map fst (timed_points rows) <> []) by (intros X; apply map_eq_nil in X; contradiction).
  rewrite (runs_unique _ _ Nt Ru). rewrite (runs_unique _ _ Nt Ru') in R. clear Ru Ru' P P' E. revert R. generalize (cut (map fst (timed_points rows))). intros rs R.
  induction R as [|r s e rs trs B F Es R IH|r s e w rs trs B F Es W Sp R IH|r s e w f tr' rs trs B F Es W Sp T R IH]; [contradiction| | |].
  - destruct (IH I) as (r' & s' & e' & w' & f & J & X). exists r', s', e', w', f. split; [right; exact J|exact X].
  - destruct (IH I) as (r' & s' & e' & w' & f & J & X). exists r', s', e', w', f. split; [right; exact J|exact X].
  - destruct I as [->|I].
    + exists r, s, e, w, f. split; [left; reflexivity|]. repeat (split; [assumption|]). intros Far. destruct T as (Hn & _ & _ & m & Hm & Hs & Hu). cbv zeta in *. specialize (Hu Far).
      exists (m 0%nat). split; [|split; [exact Hs|]].
      * destruct (Hm 0%nat Hn) as [X _]. change (inject_Z (Z.of_nat 0)) with 0 in X. apply Qabs_Qle_condition in X as [X1 X2]. unfold tiny in *. unfold nearest.
        destruct (Qlt_le_dec (1 # 2) (Qabs (s * 100 - inject_Z (m 0%nat)))) as [G|G]; [exfalso|exact G].
        pose proof (Far (m 0%nat)) as F1. pose proof (Far (m 0%nat - 1)%Z) as F2. unfold Z.sub in F2. rewrite inject_Z_plus in F2. change (inject_Z (- (1))) with (- (1)) in F2.
        destruct (Qlt_le_dec (s * 100 - inject_Z (m 0%nat)) 0) as [S0|S0].
        -- rewrite Qabs_neg in G by lra. rewrite Qabs_neg in F2 by lra. lra.
        -- rewrite Qabs_pos in G by lra. rewrite Qabs_pos in F1 by lra. lra.
      * intros k K. destruct (Hm k K) as [_ (g & v & X)]. rewrite (Hu k K) in X. exists g, v. exact X.
    + destruct (IH I) as (r' & s' & e' & w' & f' & J & X). exists r', s', e', w', f'. split; [right; exact J|exact X].
Qed.

(** Data that are on the grid already lose a sample more than C20 says when the doubles nearest to the grid times lie a little too close
    together: of 30 samples, at 1600000000.00 to 1600000000.29, all but two remain. *)
Definition grid_rows (rnd : Q -> Q) (t0 : Q) (n : nat) : list (option Q * option Q) :=
  map (fun k => (Some (rnd (t0 + inject_Z (Z.of_nat k) * (1 # 100))), Some (inject_Z (Z.of_nat k)))) (seq 0 n).
Definition some_spline (pts : list (Q * option Q)) : option (Q -> Q) := Some (fun t => (t - 1600000000) * 100).
Lemma grid_rows_instants : forall t v, In (Some t, v) (grid_rows round64 1600000000 30) -> instant t.
Proof.
  intros t v I. unfold grid_rows in I. apply in_map_iff in I as (k & E & J). apply in_seq in J.
  apply (f_equal fst) in E. apply (f_equal (fun o : option Q => match o with Some x => x | None => 0 end)) in E. cbn [fst] in E. subst t.
  assert (Bk : 0 <= inject_Z (Z.of_nat k) <= 30) by (change 0 with (inject_Z 0); change 30 with (inject_Z 30); rewrite <- !Zle_Qle; lia). set (x := 1600000000 + inject_Z (Z.of_nat k) * (1 # 100)).
  assert (X : Qabs x <= 4294967296) by (apply Qabs_Qle_condition; unfold x; split; lra).
  assert (L : Qabs x <= largest) by (eapply Qle_trans; [exact X|]; vm_compute; discriminate).
  pose proof (time_near round64 round64_nearest x X) as T. apply Qabs_Qle_condition in T as [T1 T2]. destruct (round64_nearest x L) as [D _].
  split; [exact D|]. change (inject_Z (2 ^ 30)) with 1073741824. unfold x in *. split; lra.
Qed.
Theorem C75_grid_data_refuted : exists rows tr, (forall t v, In (Some t, v) rows -> instant t) /\ length rows = 30%nat /\
  (forall k, (k < 30)%nat -> exists t v, nth_error rows k = Some (Some t, v) /\ nearest_double (1600000000 + inject_Z (Z.of_nat k) * (1 # 100)) t) /\
  dinterp round64 some_spline rows = Some [tr] /\ length (tr_data tr) = 28%nat.
Proof.
  exists (grid_rows round64 1600000000 30). eexists. split; [exact grid_rows_instants|]. split; [reflexivity|]. split; [|split; [vm_compute; reflexivity|reflexivity]].
  intros k K. do 2 eexists. unfold grid_rows. split.
  - apply (map_nth_error (fun k => (Some (round64 (1600000000 + inject_Z (Z.of_nat k) * (1 # 100))), Some (inject_Z (Z.of_nat k))))).
    rewrite (nth_error_nth' _ 0%nat) by (rewrite seq_length; exact K). rewrite seq_nth by exact K. reflexivity.
  - apply rnd_nearest; [exact round64_nearest|reflexivity|]. cbn [Nat.add].
    assert (Bk : 0 <= inject_Z (Z.of_nat k) <= 30) by (change 0 with (inject_Z 0); change 30 with (inject_Z 30); rewrite <- !Zle_Qle; lia).
    apply Qle_trans with 4294967296; [apply Qabs_Qle_condition; split; lra|]. vm_compute. discriminate.
Qed.

(** The same rows meet the hypotheses, and the run starts on the grid. *)
Example C75_case : rounds_to_nearest round64 /\ (forall t v, In (Some t, v) (grid_rows round64 1600000000 30) -> instant t) /\
  (exists trs, dinterp round64 some_spline (grid_rows round64 1600000000 30) = Some trs /\ trs <> []) /\
  (forall z : Z, 1 # 1000 < Qabs (1600000000 * 100 - (inject_Z z + (1 # 2)))).
Proof.
  split; [exact round64_nearest|]. split; [exact grid_rows_instants|]. split; [eexists; split; [vm_compute; reflexivity|discriminate]|].
  intros z. assert (D : (z + 1 <= 160000000000 \/ 160000000000 <= z)%Z) by lia. rewrite !Zle_Qle, inject_Z_plus in D. change (inject_Z 1) with 1 in D. change (inject_Z 160000000000) with 160000000000 in D.
  destruct D as [D|D]; [rewrite Qabs_pos by lra|rewrite Qabs_neg by lra]; lra.
Qed.
Print Assumptions C75_resampling.
Print Assumptions C75_uniform.
Print Assumptions C75_grid_data_refuted.
