(** Property C76: sample times in double precision. *)
From Coq Require Import ZArith QArith Qabs Qround Qpower List Bool Lia Lqa.
From Verif Require Import Lib Base UnwrapSpec UnwrapProofs Process ReadSeveral Drift Segments SegmentsSpec DoubleSpec DoubleProofs DoubleRound
  Interp InterpSpec InterpProofs DoubleInterp DoubleInterpSpec DoubleInterpProofs DoubleInterpProps DoubleTimes DoubleTimesSpec DoubleTimesProofs.
Import ListNotations.
Open Scope Q_scope.

(** C76.  A clock value has a time in doubles exactly if it has one, and it is within two microseconds. *)
Theorem C76_times : forall rnd cube (U : Type) (header : list (hrow hinfo U)) x, rounds_to_nearest rnd -> cubes cube -> moderate_header header x ->
  close_time (dapply_segments rnd cube header x) (apply_segments header x).
Proof. intros rnd cube U header x N C M. apply (segments_close rnd cube N C header x M). Qed.

(** Times more than four microseconds apart stay in order. *)
Theorem C76_order : forall rnd cube (U : Type) (header : list (hrow hinfo U)) x y s t, rounds_to_nearest rnd -> cubes cube ->
  moderate_header header x -> moderate_header header y ->
  apply_segments header x = Some s -> apply_segments header y = Some t -> s + (4 # 1000000) < t ->
  exists s' t', dapply_segments rnd cube header x = Some s' /\ dapply_segments rnd cube header y = Some t' /\ s' < t'.
Proof.
  intros rnd cube U header x y s t N C Mx My Ex Ey L. pose proof (C76_times rnd cube U header x N C Mx) as A. pose proof (C76_times rnd cube U header y N C My) as B.
  rewrite Ex in A. rewrite Ey in B. unfold close_time in *. destruct (dapply_segments rnd cube header x) as [s'|]; [|destruct A]. destruct (dapply_segments rnd cube header y) as [t'|]; [|destruct B].
  exists s', t'. split; [reflexivity|]. split; [reflexivity|]. apply Qabs_Qle_condition in A as [A1 A2], B as [B1 B2]. lra.
Qed.

(** From clock values to traces, all in doubles: the samples with a time are those of exact arithmetic, with times within two microseconds, and
    they are resampled as in C75. *)
Theorem C76_from_clock_to_traces : forall rnd cube spline (U : Type) (header : list (hrow hinfo U)) D exact, rounds_to_nearest rnd -> cubes cube ->
  (forall x v, In (x, v) D -> moderate_header header x) ->
  (forall x v t, In (x, v) D -> apply_segments header x = Some t -> 1073741825 <= t <= 2999999999) ->
  points (timed header D) exact ->
  exists pts, Forall2 (fun p q => Qabs (fst p - fst q) <= 2 # 1000000 /\ snd p = snd q) pts exact /\
  match dinterp rnd spline (dtimed rnd cube header D) with
  | Some trs => pts <> [] /\ exists runs, runs_of (map fst pts) runs /\ dresampled spline pts runs trs
  | None => pts = [] \/ exists runs, runs_of (map fst pts) runs /\ Exists (roughly_too_short spline pts) runs
  end.
Proof.
  intros rnd cube spline U header D exact N C M R P. rewrite (points_unique _ _ P). clear exact P. exists (timed_points (dtimed rnd cube header D)). split.
  - clear R. unfold timed_points, dtimed, timed. induction D as [|[x v] D IH]; [constructor|]. cbn [map flat_map fst snd].
    assert (Mx : moderate_header header x) by (apply (M x v); left; reflexivity). pose proof (C76_times rnd cube U header x N C Mx) as A. unfold close_time in A.
    assert (IH' := IH (fun x v I => M x v (or_intror I))).
    destruct (dapply_segments rnd cube header x) as [a|], (apply_segments header x) as [c|]; try contradiction; [|exact IH']. cbn [app]. constructor; [split; [exact A|reflexivity]|exact IH'].
  - assert (I : forall t v, In (Some t, v) (dtimed rnd cube header D) -> instant t).
    { intros t v I. unfold dtimed in I. apply in_map_iff in I as ((x & v') & E & I). cbn [fst snd] in E. injection E as E _.
      destruct (segments_close rnd cube N C header x (M x v' I)) as [A B]. rewrite E in A. specialize (B t E). unfold close_time in A.
      destruct (apply_segments header x) as [c|] eqn:Ec; [|destruct A]. destruct (R x v' c I Ec) as [R1 R2]. apply Qabs_Qle_condition in A as [A1 A2].
      split; [exact B|]. change (inject_Z (2 ^ 30)) with 1073741824. split; lra. }
    pose proof (C75_resampling rnd spline (dtimed rnd cube header D) N I) as T. destruct (dinterp rnd spline (dtimed rnd cube header D)) as [trs|].
    + destruct T as (pts & runs & P & Ne & Ru & T). rewrite (points_unique _ _ P) in *. split; [exact Ne|]. exists runs. auto.
    + destruct T as [P|(pts & runs & P & Ru & T)].
      * left. rewrite <- (points_unique _ _ P). reflexivity.
      * right. rewrite (points_unique _ _ P) in *. exists runs. auto.
Qed.

(** A concrete header: one file of ten seconds with a clock that drifts a little, and one rejected file. *)
Definition ex_header : list (hrow hinfo unit) :=
  [mkh (Some (mkhi 0 10000 (mkcubic 1600000000 (1024 # 1000000) (1 # 1000000000000) (-1 # 100000000000000000)) 12 12 (Some (1 # 1000)))) (Some 5%nat) (Some tt); mkh None None None].
Definition ex_clock : list (Q * option Q) := map (fun k => (((893 # 100) + 9 * inject_Z (Z.of_nat k)), Some (inject_Z (Z.of_nat k)))) (seq 0 30).
Lemma ex_clock_range x v : In (x, v) ex_clock -> 1 <= x <= 300.
Proof.
  intros I. unfold ex_clock in I. apply in_map_iff in I as (k & E & J). apply in_seq in J. apply (f_equal fst) in E. cbn [fst] in E. subst x.
  assert (Bk : 0 <= inject_Z (Z.of_nat k) <= 30) by (change 0 with (inject_Z 0); change 30 with (inject_Z 30); rewrite <- !Zle_Qle; lia). lra.
Qed.
Lemma ex_cubes : cubes (fun x => x ^ 3).
Proof.
  intros x. setoid_replace (x ^ 3 - x ^ 3) with 0 by ring. apply Qmult_le_0_compat; [apply Qabs_nonneg|discriminate].
Qed.
Lemma ex_moderate x v : In (x, v) ex_clock -> moderate_header ex_header x.
Proof.
  intros I h J Cn. apply ex_clock_range in I. destruct J as [<-|[<-|[]]]; [|destruct Cn as [_ Cn]; cbn in Cn; lra].
  cbn [h_fit]. assert (X : Qabs x <= 300) by (apply Qabs_Qle_condition; split; lra).
  assert (X2 : Qabs (x ^ 2) <= 90000) by (apply (mul_small x x _ _ X X)).
  assert (X3 : Qabs (x ^ 3) <= 27000000) by (setoid_replace (x ^ 3) with (x ^ 2 * x) by ring; apply (mul_small (x ^ 2) x _ _ X2 X)).
  unfold moderate. cbn [c0 c1 c2 c3]. repeat split; try discriminate.
  - lra.
  - eapply Qle_trans; [apply (mul_small _ _ (1 # 100) 300); [discriminate|exact X]|discriminate].
  - eapply Qle_trans; [apply (mul_small _ _ (1 # 100) 90000); [discriminate|exact X2]|discriminate].
  - eapply Qle_trans; [apply (mul_small _ _ (1 # 100000) 27000000); [discriminate|exact X3]|discriminate].
Qed.
Example C76_case : rounds_to_nearest round64 /\ cubes (fun x => x ^ 3) /\ (forall x v, In (x, v) ex_clock -> moderate_header ex_header x) /\
  (forall x v t, In (x, v) ex_clock -> apply_segments ex_header x = Some t -> 1073741825 <= t <= 2999999999) /\
  (exists exact, points (timed ex_header ex_clock) exact /\ length exact = 30%nat) /\
  exists trs, dinterp round64 some_spline (dtimed round64 (fun x => x ^ 3) ex_header ex_clock) = Some trs /\ length trs = 1%nat.
Proof.
  split; [exact round64_nearest|]. split; [exact ex_cubes|]. split; [exact ex_moderate|]. split; [|split].
  - assert (F : forallb (fun p => match apply_segments ex_header (fst p) with Some t => Qle_bool 1073741825 t && Qle_bool t 2999999999 | None => true end) ex_clock = true) by (vm_compute; reflexivity).
    intros x v t I E. rewrite forallb_forall in F. specialize (F _ I). cbn [fst] in F. rewrite E in F. apply andb_true_iff in F as [F1 F2]. apply Qle_bool_iff in F1, F2. auto.
  - eexists. split; [apply timed_points_points|vm_compute; reflexivity].
  - eexists. split; [vm_compute; reflexivity|reflexivity].
Qed.
Print Assumptions C76_times.
Print Assumptions C76_order.
Print Assumptions C76_from_clock_to_traces.
