(** Property C20, continued: resampling a part of the record (the limits [t1], [t2] of gemlog/core.py [_interp_time], 1275-1293). *)
From Coq Require Import ZArith QArith Qabs Qround List Bool Lia Lqa.
From Verif Require Import Lib Base UnwrapSpec UnwrapProofs Process Interp InterpSpec InterpProofs InterpProps.
Import ListNotations.
Open Scope Q_scope.

(** A time is between the limits if it is at most 11 ms (a sample and 1 ms) before the first, and after the second; [None] is no limit. *)
Definition within_limits (t1 t2 : option Q) (t : Q) : Prop :=
  match t1 with Some l => l - (11 # 1000) <= t | None => True end /\ match t2 with Some l => t <= l + (11 # 1000) | None => True end.
(** [l'] are the elements of [l] for which [P] holds, in their order. *)
Inductive those {A} (P : A -> Prop) : list A -> list A -> Prop :=
| those_nil : those P [] []
| those_in x l l' : P x -> those P l l' -> those P (x :: l) (x :: l')
| those_out x l l' : ~ P x -> those P l l' -> those P (x :: l) l'.

Definition early (t1 : option Q) (t : Q) : Prop := match t1 with Some l => t < l - (11 # 1000) | None => False end.
Definition late (t2 : option Q) (t : Q) : Prop := match t2 with Some l => l + (11 # 1000) < t | None => False end.
Lemma early_mono t1 t u : early t1 u -> t < u -> early t1 t.
Proof. destruct t1 as [l|]; [|intros []]. cbn. intros. lra. Qed.
Lemma late_mono t2 t u : late t2 t -> t < u -> late t2 u.
Proof. destruct t2 as [l|]; [|intros []]. cbn. intros. lra. Qed.
Lemma sorted_cons t ts : chain Qlt (t :: ts) -> chain Qlt ts /\ Forall (Qlt t) ts.
Proof.
  revert t. induction ts as [|u ts IH]; intros t C; [split; constructor|]. destruct C as [L C]. split; [exact C|]. destruct (IH u C) as [_ F].
  constructor; [exact L|]. eapply Forall_impl; [|exact F]. cbn. intros v H. lra.
Qed.
Lemma those_empty {A} (P : A -> Prop) l l' : those P l l' -> Forall (fun x => ~ P x) l -> l' = [].
Proof. induction 1 as [|x l l' Hx T IH|x l l' Hx T IH]; intros F; [reflexivity| |]; inversion F; subst; [contradiction|auto]. Qed.

(** The times between the limits are a middle part of the record. *)
Lemma those_middle t1 t2 ts mid : chain Qlt ts -> those (within_limits t1 t2) ts mid -> mid <> [] ->
  exists pre post, ts = pre ++ mid ++ post /\ Forall (early t1) pre /\ Forall (late t2) post.
Proof.
  intros C T. induction T as [|t ts mid W T IH|t ts mid W T IH]; intros N; [contradiction| |]; destruct (sorted_cons _ _ C) as [C' F].
  - destruct mid as [|u mid].
    + exists [], ts. split; [reflexivity|]. split; [constructor|]. clear - T F W C'. remember [] as e eqn:E. induction T as [|u ts mid W' T IH|u ts mid W' T IH]; [constructor|discriminate|].
      inversion F as [|? ? L F']; subst. destruct (sorted_cons _ _ C') as [C2 F2].
      assert (La : late t2 u).
      { destruct W as [W1 W2]. destruct t2 as [l2|]; cbn in *; [|exfalso; apply W'; split; [|exact I]; destruct t1 as [l1|]; [lra|exact I]].
        destruct (Qlt_le_dec (l2 + (11 # 1000)) u) as [X|X]; [exact X|]. exfalso. apply W'. split; [|exact X]. destruct t1 as [l1|]; [lra|exact I]. }
      constructor; [exact La|]. apply IH; auto.
    + destruct (IH C') as (pre & post & -> & P1 & P2); [discriminate|]. destruct pre as [|p pre].
      * exists [], post. auto.
      * exfalso. apply Forall_inv in P1. apply Forall_inv in F. apply (early_mono _ t) in P1; [|exact F]. destruct W as [W _]. destruct t1 as [l|]; [cbn in *; lra|exact P1].
  - destruct (IH C' N) as (pre & post & -> & P1 & P2). exists (t :: pre), post. split; [reflexivity|]. split; [|exact P2]. constructor; [|exact P1].
    destruct mid as [|u mid]; [contradiction|]. assert (Wu : within_limits t1 t2 u).
    { clear - T. remember (u :: mid) as m eqn:E. induction T as [|x l l' Hx T IH|x l l' Hx T IH]; [discriminate|injection E as -> ->; exact Hx|auto]. }
    assert (L : t < u) by (rewrite Forall_forall in F; apply F; apply in_or_app; right; left; reflexivity).
    destruct t1 as [l1|]; cbn in *.
    + destruct (Qlt_le_dec t (l1 - (11 # 1000))) as [X|X]; [exact X|]. exfalso. apply W. destruct Wu as [W1 W2]. split; [exact X|]. destruct t2 as [l2|]; [cbn in *; lra|exact I].
    + exfalso. apply W. destruct Wu as [W1 W2]. split; [exact I|]. destruct t2 as [l2|]; [cbn in *; lra|exact I].
Qed.

Lemma find_first {A} (f : A -> bool) pre x r : Forall (fun y => f y = false) pre -> f x = true -> find f (pre ++ x :: r) = Some x.
Proof. intros F E. induction F as [|y pre H F IH]; cbn; [rewrite E; reflexivity|rewrite H; exact IH]. Qed.

(** Pairs outside the middle part are no breaks of it. *)
Lemma pairs_front (br : Q -> Q -> bool) pre l : Forall (fun x => forall y, br x y = false) pre ->
  filter (fun p => br (fst p) (snd p)) (pairs (pre ++ l)) = filter (fun p => br (fst p) (snd p)) (pairs l).
Proof.
  induction 1 as [|x pre H F IH]; [reflexivity|]. rewrite <- IH. cbn [app]. destruct (pre ++ l) as [|y r]; [reflexivity|].
  change (pairs (x :: y :: r)) with ((x, y) :: pairs (y :: r)). cbn [filter fst snd]. rewrite H. reflexivity.
Qed.
Lemma pairs_back (br : Q -> Q -> bool) post l : Forall (fun y => forall x, br x y = false) post ->
  filter (fun p => br (fst p) (snd p)) (pairs (l ++ post)) = filter (fun p => br (fst p) (snd p)) (pairs l).
Proof.
  intros F. induction l as [|x [|y r] IH].
  - cbn [app pairs filter]. induction F as [|y post H F IH]; [reflexivity|]. destruct F as [|z post Hz F]; [reflexivity|].
    change (pairs (y :: z :: post)) with ((y, z) :: pairs (z :: post)). cbn [filter fst snd]. rewrite Hz. exact IH.
  - cbn [app]. destruct F as [|y post H F]; [reflexivity|]. change (pairs (x :: y :: post)) with ((x, y) :: pairs (y :: post)). cbn [filter fst snd]. rewrite H. exact IH.
  - cbn [app] in *. change (pairs (x :: y :: r ++ post)) with ((x, y) :: pairs (y :: r ++ post)). change (pairs (x :: y :: r)) with ((x, y) :: pairs (y :: r)).
    cbn [filter fst snd]. rewrite IH. reflexivity.
Qed.

(** C20.  Resampling between limits: the times between them are cut at their own breaks, and the runs are resampled as those of a whole record are. *)
Theorem C20_between_limits spline rows t1 t2 pts mid : points rows pts -> chain Qlt (map fst pts) ->
  those (within_limits t1 t2) (map fst pts) mid -> mid <> [] ->
  exists runs, runs_of mid runs /\
    match interp_time spline rows t1 t2 0 (25 # 1000) with
    | Some trs => resampled spline pts runs trs
    | None => Exists (too_short spline pts) runs
    end.
Proof.
  intros P C T N. exists (cut mid). split; [apply cut_runs; exact N|]. rewrite (points_unique _ _ P) in *. clear P. unfold interp_time.
  set (pts0 := timed_points rows) in *. destruct (those_middle _ _ _ _ C T N) as (pre & post & E & F1 & F2).
  assert (W : Forall (within_limits t1 t2) mid) by (clear - T; induction T; [constructor|constructor; assumption|assumption]).
  assert (Ea : first_from t1 (map fst pts0) = Some (hd 0 mid)).
  { rewrite E. unfold first_from. destruct mid as [|x mid]; [contradiction|]. cbn [hd app]. apply find_first.
    - eapply Forall_impl; [|exact F1]. intros y Hy. destruct t1 as [l|]; [|destruct Hy]. cbn in Hy. destruct (Qle_bool _ y) eqn:B; [|reflexivity]. apply Qle_bool_iff in B. lra.
    - apply Forall_inv in W as [W _]. destruct t1 as [l|]; [|reflexivity]. apply Qle_bool_iff. lra. }
  assert (Ez : last_upto t2 (map fst pts0) = Some (last mid 0)).
  { rewrite E. unfold last_upto. rewrite !rev_app_distr. rewrite (app_removelast_last 0 N) at 1. rewrite rev_app_distr. cbn [rev app]. rewrite <- app_assoc. cbn [app]. apply find_first.
    - apply Forall_rev. eapply Forall_impl; [|exact F2]. intros y Hy. destruct t2 as [l|]; [|destruct Hy]. cbn in Hy. destruct (Qle_bool y _) eqn:B; [|reflexivity]. apply Qle_bool_iff in B. lra.
    - rewrite (app_removelast_last 0 N) in W. apply Forall_app in W as [_ W]. apply Forall_inv in W as [_ W]. destruct t2 as [l|]; [|reflexivity]. apply Qle_bool_iff. lra. }
  rewrite Ea, Ez, chunks_pairs. cbv zeta.
  assert (Eb : filter (fun p => brk 0 (25 # 1000) (hd 0 mid) (last mid 0) (fst p) (snd p)) (pairs (map fst pts0)) = filter (fun p => brk 0 (25 # 1000) (hd 0 mid) (last mid 0) (fst p) (snd p)) (pairs mid)).
  { rewrite E. rewrite (pairs_front (brk 0 (25 # 1000) (hd 0 mid) (last mid 0))). apply (pairs_back (brk 0 (25 # 1000) (hd 0 mid) (last mid 0))).
    - eapply Forall_impl; [|exact F2]. intros y Hy x. unfold brk. assert (B : Qltb y (last mid 0) = false).
      { apply Qltb_ge. rewrite (app_removelast_last 0 N) in W. apply Forall_app in W as [_ W]. apply Forall_inv in W as [_ W]. destruct t2 as [l|]; [cbn in *; lra|destruct Hy]. }
      rewrite B, !andb_false_r. reflexivity.
    - eapply Forall_impl; [|exact F1]. intros x Hx y. unfold brk. assert (B : Qltb (hd 0 mid) x = false).
      { apply Qltb_ge. destruct mid as [|u mid]; [contradiction|]. apply Forall_inv in W as [W _]. cbn [hd]. destruct t1 as [l|]; [cbn in *; lra|destruct Hx]. }
      rewrite B. cbn [andb]. rewrite andb_false_r. reflexivity. }
  rewrite Eb. assert (A : Forall (fun r : list Q => r <> []) (cut mid)) by (eapply Forall_impl; [|apply split_inside]; cbn; tauto).
  pose proof (resample_runs spline pts0 (cut mid) A) as R. destruct mid as [|x r]; [contradiction|]. pose proof (split_ends (brk 0 (25 # 1000) x (last (x :: r) 0)) x r) as S. cbv zeta in S.
  change (hd 0 (x :: r)) with x. rewrite S. unfold cut in R. change (hd 0 (x :: r)) with x in R.
  destruct (resample spline pts0 _) as [trs|]; [exact (proj1 R)|exact R].
Qed.

(** No sample of the result is more than 16 ms before the first limit, or 6 ms after the second. *)
Theorem C20_within_limits spline rows t1 t2 pts mid trs tr k : points rows pts -> chain Qlt (map fst pts) ->
  those (within_limits t1 t2) (map fst pts) mid -> mid <> [] -> interp_time spline rows t1 t2 0 (25 # 1000) = Some trs ->
  In tr trs -> (k < length (tr_data tr))%nat ->
  match t1 with Some l => l - (16 # 1000) <= time_of tr k | None => True end /\ match t2 with Some l => time_of tr k <= l + (6 # 1000) | None => True end.
Proof.
  intros P C T N E In1 K. destruct (C20_between_limits spline rows t1 t2 pts mid P C T N) as (runs & Ru & R). rewrite E in R.
  assert (W : Forall (within_limits t1 t2) mid) by (clear - T; induction T; [constructor|constructor; assumption|assumption]).
  destruct (resampled_in _ _ _ _ _ R In1) as (r & s & e & f & Ir & B & F & _ & (L & A & D & g & G & S0)). cbv zeta in *.
  destruct (G 0%nat) as (_ & D0 & _); [lia|]. rewrite <- S0 in D0. change (inject_Z (Z.of_nat 0)) with 0 in D0. apply Qabs_Qle_condition in D0.
  assert (Rr : forall x, In x r -> within_limits t1 t2 x).
  { intros x Ix. rewrite Forall_forall in W. apply W. destruct Ru as (Ec & _). rewrite <- Ec. apply in_concat. exists r. auto. }
  assert (Ws : within_limits t1 t2 s) by (apply Rr; destruct r as [|u r]; [discriminate|injection B as ->; left; reflexivity]).
  assert (We : within_limits t1 t2 e) by (apply Rr; destruct F as (l' & ->); apply in_or_app; right; left; reflexivity).
  assert (Kq : inject_Z (Z.of_nat k) + 1 <= inject_Z (Z.of_nat (length (tr_data tr)))).
  { change 1 with (inject_Z 1). rewrite <- inject_Z_plus, <- Zle_Qle. lia. }
  assert (K0 : 0 <= inject_Z (Z.of_nat k)) by (change 0 with (inject_Z 0); rewrite <- Zle_Qle; lia).
  unfold time_of. destruct Ws as [Ws _], We as [_ We]. split; [destruct t1 as [l|]; [lra|exact I]|destruct t2 as [l|]; [lra|exact I]].
Qed.

(** A part of a record, from 0.05 s to 0.3 s, with a gap in it. *)
Example C20_limits_case : exists pts mid, points ex_rows pts /\ chain Qlt (map fst pts) /\ those (within_limits (Some (50 # 1000)) (Some (300 # 1000))) (map fst pts) mid /\
  mid <> [] /\ (length mid < length pts)%nat /\
  option_map (map (fun tr => (Qred (tr_start tr), tr_data tr))) (interp_time InterpProps.linear ex_rows (Some (50 # 1000)) (Some (300 # 1000)) 0 (25 # 1000)) =
    Some [(1 # 20, [50; 60; 70; 80; 90; 100; 110]%Z); (1 # 4, [250; 260; 270]%Z)].
Proof.
  exists (timed_points ex_rows), (filter (fun t => Qle_bool ((50 # 1000) - (11 # 1000)) t && Qle_bool t ((300 # 1000) + (11 # 1000))) (map fst (timed_points ex_rows))).
  split; [apply timed_points_points|]. split; [cbn; repeat split; reflexivity|]. split.
  - generalize (map fst (timed_points ex_rows)). induction l as [|t l IH]; [constructor|]. cbn [filter]. destruct (Qle_bool ((50 # 1000) - (11 # 1000)) t && Qle_bool t ((300 # 1000) + (11 # 1000))) eqn:B.
    + apply those_in; [|exact IH]. apply andb_true_iff in B as [B1 B2]. apply Qle_bool_iff in B1, B2. split; assumption.
    + apply those_out; [|exact IH]. intros [W1 W2]. apply Qle_bool_iff in W1, W2. rewrite W1, W2 in B. discriminate.
  - split; [vm_compute; discriminate|]. split; [vm_compute; lia|]. vm_compute. reflexivity.
Qed.
Print Assumptions C20_between_limits.
Print Assumptions C20_within_limits.
