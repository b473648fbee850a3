(** Property C20: the resampled stream. *)
From Coq Require Import ZArith QArith Qabs Qround List Bool Lia Lqa.
From Verif Require Import Lib Base UnwrapSpec UnwrapProofs Process ReadSeveralProofs Interp InterpSpec InterpProofs.
Import ListNotations.
Open Scope Q_scope.

(** C20.  The output is one trace for each run of samples between breaks that has two different times and
    can be interpolated; [resampling] says what is in it. *)
Theorem C20_one_trace_per_run spline rows trs :
  interp spline rows = Some trs ->
  exists pts runs, points rows pts /\ pts <> [] /\ runs_of (map fst pts) runs /\ resampled spline pts runs trs.
Proof.
  intros E. destruct (map fst (timed_points rows)) eqn:M.
  { rewrite interp_empty in E by exact M. discriminate. }
  assert (N : map fst (timed_points rows) <> []) by (rewrite M; discriminate).
  exists (timed_points rows), (cut (map fst (timed_points rows))).
  split; [apply timed_points_points|]. split; [intros X; rewrite X in N; contradiction|]. split; [apply cut_runs; exact N|].
  rewrite interp_cut in E by exact N. pose proof (resample_runs spline (timed_points rows) (cut (map fst (timed_points rows)))) as R.
  rewrite E in R. apply R. eapply Forall_impl; [|apply split_inside]. cbn. tauto.
Qed.

(** It fails exactly if no sample has a time, or a run that can be interpolated is shorter than 0.01 s. *)
Theorem C20_raises_iff spline rows :
  interp spline rows = None <->
  points rows [] \/ exists pts runs, points rows pts /\ runs_of (map fst pts) runs /\ Exists (too_short spline pts) runs.
Proof.
  destruct (map fst (timed_points rows)) eqn:M.
  { rewrite interp_empty by exact M. split; [|auto]. intros _. left. apply map_eq_nil in M. rewrite <- M. apply timed_points_points. }
  assert (N : map fst (timed_points rows) <> []) by (rewrite M; discriminate). clear M.
  rewrite interp_cut by exact N. pose proof (resample_runs spline (timed_points rows) (cut (map fst (timed_points rows)))) as R.
  set (cs := filter _ _) in *. assert (A : Forall (fun r : list Q => r <> []) (cut (map fst (timed_points rows)))).
  { eapply Forall_impl; [|apply split_inside]. cbn. tauto. }
  specialize (R A). split.
  - intros E. rewrite E in R. right. exists (timed_points rows), (cut (map fst (timed_points rows))).
    split; [apply timed_points_points|]. split; [apply cut_runs; exact N|exact R].
  - destruct (resample spline (timed_points rows) cs) as [trs|]; [|auto]. destruct R as [_ T].
    intros [P|(pts & runs & P & Ru & X)].
    + apply points_unique in P. rewrite <- P in N. contradiction.
    + apply points_unique in P. subst pts. rewrite (runs_unique _ _ N Ru) in X.
      apply Exists_exists in X as (r & I & X). rewrite Forall_forall in T. exfalso. exact (T r I X).
Qed.

(** The traces of a set of runs, and the run each comes from. *)
Lemma resampled_in spline pts runs trs tr : resampled spline pts runs trs -> In tr trs ->
  exists r s e f, In r runs /\ begins r s /\ finishes r e /\ spline (around s e pts) = Some f /\ resampling f s e tr.
Proof.
  intros R I. induction R as [|r s e runs trs B F E R IH|r s e runs trs B F E Sp R IH|r s e f tr' runs trs B F E Sp T R IH]; [contradiction| | |].
  - destruct (IH I) as (r' & s' & e' & f & J & X). exists r', s', e', f. split; [right; exact J|exact X].
  - destruct (IH I) as (r' & s' & e' & f & J & X). exists r', s', e', f. split; [right; exact J|exact X].
  - destruct I as [<-|I].
    + exists r, s, e, f. split; [left; reflexivity|auto].
    + destruct (IH I) as (r' & s' & e' & f' & J & X). exists r', s', e', f'. split; [right; exact J|exact X].
Qed.

Lemma resampling_span f s e tr k : resampling f s e tr -> (k < length (tr_data tr))%nat ->
  s - (1 # 200) <= time_of tr k /\ time_of tr k <= e - (1 # 200).
Proof.
  intros (N & A & B & g & G & S) K. cbv zeta in *. set (n := length (tr_data tr)) in *.
  destruct (G 0%nat) as (_ & D & _); [lia|]. rewrite <- S in D. change (inject_Z (Z.of_nat 0)) with 0 in D.
  apply Qabs_Qle_condition in D. unfold time_of.
  assert (0 <= inject_Z (Z.of_nat k)) by (change 0 with (inject_Z 0); rewrite <- Zle_Qle; lia).
  assert (inject_Z (Z.of_nat k) + 1 <= inject_Z (Z.of_nat n)).
  { change 1 with (inject_Z 1). rewrite <- inject_Z_plus, <- Zle_Qle. lia. }
  lra.
Qed.

Lemma the_runs spline rows trs pts runs : interp spline rows = Some trs -> points rows pts -> runs_of (map fst pts) runs ->
  resampled spline pts runs trs.
Proof.
  intros E P Ru. destruct (C20_one_trace_per_run _ _ _ E) as (pts' & runs' & P' & N & Ru' & R).
  rewrite (points_unique _ _ P), <- (points_unique _ _ P') in *.
  assert (N' : map fst pts' <> []) by (intros X; apply map_eq_nil in X; contradiction).
  rewrite (runs_unique _ _ N' Ru), <- (runs_unique _ _ N' Ru'). exact R.
Qed.

(** Every trace starts on the 0.01 s grid, has at least one sample, and lies within the times of one run
    (half a sample of tolerance at its start, none at its end). *)
Theorem C20_traces_within_runs spline rows trs pts runs tr :
  interp spline rows = Some trs -> points rows pts -> runs_of (map fst pts) runs -> In tr trs ->
  on_grid (tr_start tr) /\ tr_data tr <> [] /\
  exists r s e, In r runs /\ begins r s /\ finishes r e /\
    forall k, (k < length (tr_data tr))%nat -> s - (1 # 200) <= time_of tr k <= e - (1 # 200).
Proof.
  intros E P Ru I. pose proof (the_runs _ _ _ _ _ E P Ru) as R.
  destruct (resampled_in _ _ _ _ _ R I) as (r & s & e & f & Ir & B & F & _ & T). pose proof T as T'.
  destruct T as (L & _ & _ & g & G & S). split; [rewrite S; destruct (G 0%nat); [lia|assumption]|].
  split; [intros X; rewrite X in L; cbn in L; lia|].
  exists r, s, e. repeat (split; [assumption|]). intros k K. exact (resampling_span _ _ _ _ _ T' K).
Qed.

(** Unless the run starts exactly halfway between two grid times, each sample is the (rounded) interpolant
    at the time of that sample. *)
Theorem C20_sample_times_uniform spline rows trs pts runs tr :
  interp spline rows = Some trs -> points rows pts -> runs_of (map fst pts) runs -> In tr trs ->
  exists r s e f, In r runs /\ begins r s /\ finishes r e /\ spline (around s e pts) = Some f /\
    ((forall m : Z, ~ s * 100 == inject_Z m + (1 # 2)) ->
     forall k, (k < length (tr_data tr))%nat ->
       exists t v, t == time_of tr k /\ nth_error (tr_data tr) k = Some v /\ nearest (f t) v).
Proof.
  intros E P Ru I. pose proof (the_runs _ _ _ _ _ E P Ru) as R.
  destruct (resampled_in _ _ _ _ _ R I) as (r & s & e & f & Ir & B & F & Sp & T). exists r, s, e, f. repeat (split; [assumption|]).
  intros NH k K. destruct T as (L & _ & _ & g & G & S).
  destruct (G k K) as ((z & Gz) & D & v & V & Nv). exists (g k), v. split; [|auto].
  destruct (G 0%nat) as ((z0 & Gz0) & D0 & _); [lia|]. unfold time_of. rewrite S.
  change (inject_Z (Z.of_nat 0)) with 0 in D0. apply Qabs_Qle_condition in D, D0.
  set (q := inject_Z (Z.of_nat k)) in *.
  assert (X : inject_Z z - inject_Z z0 - q == 0).
  { assert (A1 : inject_Z z - inject_Z z0 - q <= 1) by lra. assert (A2 : -1 <= inject_Z z - inject_Z z0 - q) by lra.
    destruct (Qlt_le_dec (inject_Z z - inject_Z z0 - q) 1) as [A3|A3].
    - destruct (Qlt_le_dec (-1) (inject_Z z - inject_Z z0 - q)) as [A4|A4].
      + unfold q in *. unfold Qminus in *. rewrite <- !inject_Z_opp, <- !inject_Z_plus in *.
        change 1 with (inject_Z 1) in A3. change (-1) with (inject_Z (-1)) in A4. rewrite <- Zlt_Qlt in A3, A4.
        change 0 with (inject_Z 0). f_equal. apply inject_Z_injective. lia.
      + exfalso. apply (NH (z0 - 1)%Z). unfold Z.sub. rewrite inject_Z_plus. change (inject_Z (-(1))) with (-1). lra.
    - exfalso. apply (NH z0). lra. }
  lra.
Qed.

(** * Increasing times *)

Lemma lt_after x l : chain Qlt (x :: l) -> Forall (Qlt x) l.
Proof.
  revert x. induction l as [|y l IH]; intros x C; [constructor|]. change (x < y /\ chain Qlt (y :: l)) in C. destruct C as [A C].
  constructor; [exact A|]. eapply Forall_impl; [|exact (IH y C)]. cbn. intros z Hz. lra.
Qed.
Lemma chain_skip {A} (R : A -> A -> Prop) l m : chain R (l ++ m) -> chain R m.
Proof. induction l as [|x l IH]; [auto|]. intros C. apply IH. exact (chain_tail R x (l ++ m) C). Qed.
Lemma lt_before x l m : chain Qlt (l ++ x :: m) -> Forall (fun y => y < x) l.
Proof.
  induction l as [|y l IH]; intros C; [constructor|]. constructor; [|apply IH; exact (chain_tail _ _ _ C)].
  pose proof (lt_after y (l ++ x :: m) C) as F. rewrite Forall_forall in F. apply F. apply in_elt.
Qed.
Lemma lt_ends r s e : chain Qlt r -> begins r s -> finishes r e -> s <= e.
Proof.
  intros C B (l & ->). destruct l as [|x l]; [injection B as <-; lra|]. injection B as <-.
  pose proof (lt_after x (l ++ [e]) C) as F. rewrite Forall_forall in F. apply Qlt_le_weak, F. apply in_elt.
Qed.

(** Consecutive elements on both sides of a cut. *)
Lemma crossing (P : Q -> bool) r s e : begins r s -> finishes r e -> P s = true -> P e = false ->
  exists l x y l', r = l ++ x :: y :: l' /\ P x = true /\ P y = false.
Proof.
  revert s. induction r as [|x [|y r] IH]; intros s B F Ps Pe; [discriminate| |].
  - injection B as ->. destruct F as ([|? [|? ?]] & F); [injection F as ->; congruence|discriminate|discriminate].
  - injection B as ->. destruct (P y) eqn:Py.
    + destruct (IH y eq_refl) as (l & u & v & l' & E & Pu & Pv); [|exact Py|exact Pe|].
      * destruct F as (l & F). destruct l as [|? l]; [discriminate|]. injection F as _ F. exists l. exact F.
      * exists (s :: l), u, v, l'. rewrite E. auto.
    + exists [], s, y, r. auto.
Qed.

Lemma run_beside_gap ts runs r pre a c post : chain Qlt ts -> runs_of ts runs -> In r runs ->
  ts = pre ++ a :: c :: post -> pre <> [] -> post <> [] -> (25 # 1000) < c - a ->
  forall s e, begins r s -> finishes r e -> e <= a \/ c <= s.
Proof.
  intros C (Ec & z1 & z2 & B & F & In1 & _) I E Np Nq G s e Bs Fe.
  destruct (Qlt_le_dec a e) as [Ae|Ae]; [|left; exact Ae]. destruct (Qlt_le_dec s c) as [Sc|Sc]; [|right; exact Sc]. exfalso.
  rewrite Forall_forall in In1. destruct (In1 r I) as [Nr Cr].
  apply in_split in I as (R1 & R2 & ER). subst runs. rewrite concat_app in Ec. cbn [concat] in Ec.
  set (A := concat R1) in *. set (D := concat R2) in *.
  assert (C0 : chain Qlt (pre ++ a :: c :: post)) by (rewrite <- E; exact C).
  assert (Cb : Forall (fun y => y < a) pre) by (apply (lt_before a pre (c :: post)); exact C0).
  assert (Ca : Forall (Qlt c) post).
  { apply lt_after. apply (chain_skip Qlt (pre ++ [a])). rewrite <- app_assoc. exact C0. }
  assert (Dich : forall u, In u ts -> u <= a \/ c <= u).
  { intros u Iu. rewrite E in Iu. apply in_app_or in Iu as [Iu|[<-|[<-|Iu]]].
    - left. rewrite Forall_forall in Cb. apply Qlt_le_weak. exact (Cb u Iu).
    - left. lra.
    - right. lra.
    - right. rewrite Forall_forall in Ca. apply Qlt_le_weak. exact (Ca u Iu). }
  assert (Inr : forall u, In u r -> In u ts) by (intros u Iu; rewrite <- Ec; apply in_or_app; right; apply in_or_app; left; exact Iu).
  assert (Is : In s r) by (destruct r; [contradiction|injection Bs as ->; left; reflexivity]).
  assert (Ie : In e r) by (destruct Fe as (l & ->); apply in_elt).
  assert (Sa : s <= a) by (destruct (Dich s (Inr s Is)); lra).
  destruct (crossing (fun u => Qle_bool u a) r s e Bs Fe) as (l & x & y & l' & Er & Px & Py).
  { apply Qle_bool_iff. exact Sa. }
  { destruct (Qle_bool e a) eqn:X; [|reflexivity]. apply Qle_bool_iff in X. lra. }
  apply Qle_bool_iff in Px. assert (Py' : c <= y).
  { destruct (Dich y) as [X|X]; [apply Inr; rewrite Er; apply in_or_app; right; right; left; reflexivity| |exact X].
    apply Qle_bool_iff in X. congruence. }
  (* x, y are consecutive in ts, so they are a and c *)
  assert (Et : ts = (A ++ l) ++ x :: y :: (l' ++ D)).
  { rewrite <- Ec, Er, <- !app_assoc. reflexivity. }
  assert (Xa : a = x).
  { assert (Ia : In a ts) by (rewrite E; apply in_elt). rewrite Et in Ia, C. apply in_app_or in Ia as [Ia|[Ia|[Ia|Ia]]].
    - pose proof (lt_before _ _ _ C) as X. rewrite Forall_forall in X. specialize (X a Ia). lra.
    - congruence.
    - rewrite Ia in Py'. lra.
    - apply chain_skip, chain_tail, lt_after in C. rewrite Forall_forall in C. specialize (C a Ia). lra. }
  assert (Yc : c = y).
  { assert (Ia : In c ts) by (rewrite E; apply in_or_app; right; right; left; reflexivity).
    rewrite Et in Ia, C. apply in_app_or in Ia as [Ia|[Ia|[Ia|Ia]]].
    - pose proof (lt_before _ _ _ C) as X. rewrite Forall_forall in X. specialize (X c Ia). lra.
    - rewrite Ia in Px. lra.
    - congruence.
    - apply chain_skip, chain_tail, lt_after in C. rewrite Forall_forall in C. specialize (C c Ia). lra. }
  subst x y. rewrite Er in Cr. apply chain_skip in Cr. destruct Cr as [Cr _]. apply Cr. split; [left; exact G|]. split.
  - destruct pre as [|p pre]; [contradiction|]. rewrite E in B. injection B as <-. inversion Cb; assumption.
  - destruct F as (l2 & F). rewrite E in F. rewrite Forall_forall in Ca. apply Ca.
    destruct (exists_last Nq) as (post' & w & ->).
    replace (pre ++ a :: c :: post' ++ [w]) with ((pre ++ a :: c :: post') ++ [w]) in F by (rewrite <- app_assoc; reflexivity).
    apply app_inj_tail in F as [_ <-]. apply in_elt.
Qed.

(** No output sample falls in a gap of the recording of over 25 ms that is not at its very beginning or
    end (to within half a sample at the end of the gap). *)
Theorem C20_nothing_in_gaps spline rows trs pts pre a c post tr k :
  interp spline rows = Some trs -> points rows pts -> chain Qlt (map fst pts) ->
  map fst pts = pre ++ a :: c :: post -> pre <> [] -> post <> [] -> (25 # 1000) < c - a ->
  In tr trs -> (k < length (tr_data tr))%nat ->
  time_of tr k <= a - (1 # 200) \/ c - (1 # 200) <= time_of tr k.
Proof.
  intros E P C Et Np Nq G I K.
  assert (Ru : runs_of (map fst pts) (cut (map fst pts))) by (apply cut_runs; rewrite Et; destruct pre; discriminate).
  destruct (C20_traces_within_runs _ _ _ _ _ _ E P Ru I) as (_ & _ & r & s & e & Ir & B & F & X). specialize (X k K).
  destruct (run_beside_gap _ _ _ _ _ _ _ C Ru Ir Et Np Nq G s e B F) as [Y|Y]; [left|right]; lra.
Qed.

Lemma runs_ordered ts r runs : chain Qlt ts -> concat (r :: runs) = ts -> Forall (fun r => r <> []) (r :: runs) ->
  forall r', In r' runs -> forall e s, finishes r e -> begins r' s -> e < s.
Proof.
  intros C E N r' I e s (l & ->) B. cbn [concat] in E.
  assert (Is : In s (concat runs)).
  { apply in_concat. exists r'. split; [exact I|]. destruct r' as [|x r']; [discriminate|]. injection B as ->. left. reflexivity. }
  rewrite <- E, <- app_assoc in C. apply chain_skip in C. cbn in C. apply lt_after in C. rewrite Forall_forall in C. exact (C s Is).
Qed.

(** With increasing times all traces are in order, over 25 ms apart. *)
Theorem C20_traces_in_order spline rows trs pts l1 tr l2 tr' l3 k k' :
  interp spline rows = Some trs -> points rows pts -> chain Qlt (map fst pts) ->
  trs = l1 ++ tr :: l2 ++ tr' :: l3 -> (k < length (tr_data tr))%nat -> (k' < length (tr_data tr'))%nat ->
  time_of tr k + (25 # 1000) < time_of tr' k'.
Proof.
  intros E P C Et K K'. destruct (map fst pts) as [|t0 ts0] eqn:M.
  { rewrite interp_empty in E; [discriminate|]. rewrite <- (points_unique _ _ P). exact M. }
  rewrite <- M in C.
  assert (Ru : runs_of (map fst pts) (cut (map fst pts))) by (apply cut_runs; rewrite M; discriminate).
  pose proof (the_runs _ _ _ _ _ E P Ru) as R. clear E. destruct Ru as (Ec & a & z & _ & _ & In1 & Bt).
  assert (Nn : Forall (fun r : list Q => r <> []) (cut (map fst pts))) by (eapply Forall_impl; [|exact In1]; cbn; tauto).
  clear In1 M. revert R Ec Nn Bt. generalize (cut (map fst pts)). intros RR R Ec Nn Bt. revert Ec Nn Bt C. generalize (map fst pts). revert l1 Et.
  induction R as [|r s e runs trs B F Eq R IH|r s e runs trs B F Eq Sp R IH|r s e f tr0 runs trs B F Eq Sp T R IH]; intros l1 Et ts Ec Nn Bt C.
  - destruct l1; discriminate.
  - inversion Nn; subst. cbn [concat] in C. eapply (IH l1 eq_refl); [reflexivity|assumption|exact (chain_tail _ _ _ Bt)|exact (chain_skip _ _ _ C)].
  - inversion Nn; subst. cbn [concat] in C. eapply (IH l1 eq_refl); [reflexivity|assumption|exact (chain_tail _ _ _ Bt)|exact (chain_skip _ _ _ C)].
  - destruct l1 as [|q l1].
    + injection Et as -> ->. destruct (resampled_in _ _ _ _ tr' R) as (r' & s' & e' & f' & I' & B' & F' & _ & T'); [apply in_elt|].
      pose proof (resampling_span _ _ _ _ _ T K). pose proof (resampling_span _ _ _ _ _ T' K').
      assert (e + (25 # 1000) < s'); [|lra].
      destruct runs as [|r1 runs]; [contradiction|]. destruct Bt as [Bt1 Bt2].
      inversion Nn as [|? ? N1 Nn']; subst. inversion Nn' as [|? ? N2 Nn'']; subst.
      pose proof (Bt1 _ _ F (hd_begins r1 N2)) as (D & _).
      assert (L : e < hd 0 r1) by (apply (runs_ordered _ _ _ C eq_refl Nn r1 (or_introl eq_refl)); [exact F|apply hd_begins; exact N2]).
      assert (D1 : e + (25 # 1000) < hd 0 r1) by (destruct D; lra).
      destruct I' as [<-|I'].
      * rewrite (begins_hd _ _ B') in D1. exact D1.
      * assert (C1 : chain Qlt (r1 ++ concat runs)) by (apply (chain_skip Qlt r); exact C).
        pose proof (lt_ends r1 (hd 0 r1) (last r1 0) (chain_app_l _ _ _ C1) (hd_begins _ N2) (last_finishes _ N2)).
        pose proof (runs_ordered _ _ _ C1 eq_refl Nn' r' I' (last r1 0) s' (last_finishes _ N2) B'). lra.
    + injection Et as -> ->. inversion Nn; subst. cbn [concat] in C.
      eapply (IH l1 eq_refl); [reflexivity|assumption|exact (chain_tail _ _ _ Bt)|exact (chain_skip _ _ _ C)].
Qed.

Lemma chain_filter_lt (P : Q * option Q -> bool) l : chain Qlt (map fst l) -> chain Qlt (map fst (filter P l)).
Proof.
  induction l as [|p l IH]; intros C; [exact I|]. cbn [filter map] in *. pose proof (lt_after _ _ C) as F.
  specialize (IH (chain_tail _ _ _ C)). destruct (P p); [|exact IH]. cbn [map].
  destruct (filter P l) as [|q m] eqn:E; [exact I|]. cbn [map] in *. split; [|exact IH].
  rewrite Forall_forall in F. apply F, in_map. assert (X : In q (filter P l)) by (rewrite E; left; reflexivity).
  apply filter_In in X. tauto.
Qed.

Lemma spline_exists spline pts s e : spline_contract spline -> chain Qlt (map fst pts) -> Forall (fun p => snd p <> None) pts ->
  In s (map fst pts) -> In e (map fst pts) -> s < e ->
  exists f, spline (around s e pts) = Some f /\ forall t v x, In (t, Some v) pts -> s <= t -> t <= e -> x == t -> f x == v.
Proof.
  intros SC C V Is Ie L.
  assert (In' : forall t v, In (t, v) pts -> s <= t -> t <= e -> In (t, v) (around s e pts)).
  { intros t v I A B. apply filter_In. split; [exact I|]. cbn. apply andb_true_iff. split; apply Qle_bool_iff; lra. }
  destruct (SC (around s e pts)) as (f & Sp & X).
  - apply in_map_iff in Is as ([s' vs] & Es & Is). apply in_map_iff in Ie as ([e' ve] & Ee & Ie). cbn in *. subst.
    apply In' in Is; [|lra|lra]. apply In' in Ie; [|lra|lra].
    destruct (around s e pts) as [|p [|q m]]; [contradiction| |cbn; lia].
    destruct Is as [->|[]], Ie as [[= -> _]|[]]. lra.
  - apply chain_filter_lt. exact C.
  - apply Forall_forall. intros p I. apply filter_In in I. rewrite Forall_forall in V. apply V. tauto.
  - exists f. split; [exact Sp|]. intros t v x I A B. apply X. apply In'; assumption.
Qed.

Lemma run_in (ts : list Q) runs r x : concat runs = ts -> In r runs -> In x r -> In x ts.
Proof. intros <- I J. apply in_concat. eauto. Qed.
Lemma run_increases ts runs r : concat runs = ts -> In r runs -> chain Qlt ts -> chain Qlt r.
Proof.
  intros <- I C. apply in_split in I as (R1 & R2 & ->). rewrite concat_app in C. cbn [concat] in C.
  apply chain_skip in C. exact (chain_app_l _ _ _ C).
Qed.

(** With increasing times and no missing value, no run of two samples or more is left out: its trace
    begins within half a sample and ends at most 25 ms before the end of the run. *)
Theorem C20_runs_covered spline rows trs pts runs r s e :
  spline_contract spline -> interp spline rows = Some trs -> points rows pts -> runs_of (map fst pts) runs ->
  chain Qlt (map fst pts) -> Forall (fun p => snd p <> None) pts ->
  In r runs -> begins r s -> finishes r e -> ~ s == e ->
  exists tr, In tr trs /\ tr_start tr <= s + (1 # 200) /\ e - (25 # 1000) < time_of tr (length (tr_data tr) - 1).
Proof.
  intros SC E P Ru C V Ir B F Ne. pose proof (the_runs _ _ _ _ _ E P Ru) as R. destruct Ru as (Ec & _).
  assert (Ts : forall f tr, resampling f s e tr -> tr_start tr <= s + (1 # 200) /\ e - (25 # 1000) < time_of tr (length (tr_data tr) - 1)).
  { intros f tr (N & A & D & g & G & S). cbv zeta in *. set (n := length (tr_data tr)) in *.
    destruct (G 0%nat) as (_ & D0 & _); [lia|]. rewrite <- S in D0. change (inject_Z (Z.of_nat 0)) with 0 in D0.
    apply Qabs_Qle_condition in D0. split; [lra|]. unfold time_of.
    assert (inject_Z (Z.of_nat (n - 1)) == inject_Z (Z.of_nat n) - 1) as ->.
    { rewrite Nat2Z.inj_sub by lia. unfold Z.sub. rewrite inject_Z_plus. reflexivity. }
    lra. }
  assert (Sp : exists f, spline (around s e pts) = Some f).
  { pose proof (lt_ends r s e (run_increases _ _ _ Ec Ir C) B F).
    destruct (spline_exists spline pts s e SC C V) as (f & Sp & _); [| |lra|eauto].
    - apply (run_in _ _ _ _ Ec Ir). destruct r; [discriminate|]. injection B as ->. left. reflexivity.
    - apply (run_in _ _ _ _ Ec Ir). destruct F as (l & ->). apply in_elt. }
  destruct Sp as (f & Sp).
  assert (Un : forall s' e', begins r s' -> finishes r e' -> s' = s /\ e' = e).
  { intros s' e' B' F'. rewrite <- (begins_hd _ _ B), <- (finishes_last _ _ F), (begins_hd _ _ B'), (finishes_last _ _ F'). auto. }
  clear E Ec. induction R as [|r0 s0 e0 runs trs B0 F0 Eq R IH|r0 s0 e0 runs trs B0 F0 Eq Sp0 R IH|r0 s0 e0 f0 tr runs trs B0 F0 Eq Sp0 T R IH]; [contradiction| | |].
  - destruct Ir as [->|Ir]; [|exact (IH Ir)]. destruct (Un _ _ B0 F0) as [-> ->]. contradiction.
  - destruct Ir as [->|Ir]; [|exact (IH Ir)]. destruct (Un _ _ B0 F0) as [-> ->]. congruence.
  - destruct Ir as [->|Ir].
    + destruct (Un _ _ B0 F0) as [-> ->]. exists tr. split; [left; reflexivity|]. exact (Ts _ _ T).
    + destruct (IH Ir) as (tr' & I' & X). exists tr'. split; [right; exact I'|exact X].
Qed.

(** Samples that already are on the grid come out unchanged, except that the last one is left out. *)
Definition on_grid_rows (t0 : Q) (vs : list Z) : list (option Q * option Q) :=
  map (fun p => (Some (t0 + inject_Z (Z.of_nat (fst p)) * (1 # 100)), Some (inject_Z (snd p)))) (combine (seq 0 (length vs)) vs).

Lemma chain_map_seq (R : Q -> Q -> Prop) (f : nat -> Q) n a : (forall i, R (f i) (f (S i))) -> chain R (map f (seq a n)).
Proof.
  intros H. revert a. induction n as [|[|n] IH]; intros a; [exact I|exact I|].
  change (R (f a) (f (S a)) /\ chain R (map f (seq (S a) (S n)))). split; [apply H|apply IH].
Qed.

Lemma map_fst_combine {A B} (l : list A) (m : list B) : length l = length m -> map fst (combine l m) = l.
Proof. revert m. induction l as [|x l IH]; intros [|y m] E; try discriminate; [reflexivity|]. cbn. f_equal. apply IH. injection E; auto. Qed.

Lemma int_near z w : Qabs (inject_Z z - inject_Z w) <= 1 # 2 -> z = w.
Proof.
  intros H. apply Qabs_Qle_condition in H as [A B]. unfold Qminus in *. rewrite <- inject_Z_opp, <- inject_Z_plus in *.
  assert (A' : inject_Z (-1) < inject_Z (z + - w)) by (change (inject_Z (-1)) with (-1); lra).
  assert (B' : inject_Z (z + - w) < inject_Z 1) by (change (inject_Z 1) with 1; lra).
  rewrite <- Zlt_Qlt in A', B'. lia.
Qed.

Lemma nth_error_ext {A} (l m : list A) : (forall k, nth_error l k = nth_error m k) -> l = m.
Proof.
  revert m. induction l as [|x l IH]; intros [|y m] H; [reflexivity|discriminate (H 0%nat)|discriminate (H 0%nat)|].
  pose proof (H 0%nat) as H0. injection H0 as ->. f_equal. apply IH. intros k. exact (H (S k)).
Qed.

Theorem C20_grid_data_unchanged spline t0 vs :
  spline_contract spline -> on_grid t0 -> (2 <= length vs)%nat ->
  exists tr, interp spline (on_grid_rows t0 vs) = Some [tr] /\ tr_start tr == t0 /\ tr_data tr = removelast vs.
Proof.
  intros SC (z0 & G0) L2. set (n := length vs) in *. set (T := fun i => t0 + inject_Z (Z.of_nat i) * (1 # 100)).
  set (pts := map (fun p => (T (fst p), Some (inject_Z (snd p)))) (combine (seq 0 n) vs)).
  assert (P : points (on_grid_rows t0 vs) pts).
  { unfold points, on_grid_rows, pts. fold n. rewrite map_map. cbn [fst snd]. clear. induction (combine (seq 0 n) vs) as [|p l IH]; [reflexivity|].
    cbn. rewrite <- IH. reflexivity. }
  assert (Ets : map fst pts = map T (seq 0 n)).
  { unfold pts. rewrite map_map. cbn [fst]. rewrite <- (map_map fst T), map_fst_combine by (rewrite seq_length; reflexivity). reflexivity. }
  assert (St : forall i, T (S i) == T i + (1 # 100)).
  { intros i. unfold T. rewrite Nat2Z.inj_succ. unfold Z.succ. rewrite inject_Z_plus. change (inject_Z 1) with 1. ring. }
  assert (C : chain Qlt (map fst pts)) by (rewrite Ets; apply chain_map_seq; intros i; rewrite St; lra).
  assert (V : Forall (fun p => snd p <> None) pts).
  { unfold pts. apply Forall_forall. intros p I. apply in_map_iff in I as (q & <- & _). discriminate. }
  set (ts := map T (seq 0 n)) in *.
  assert (B : begins ts (T 0%nat)) by (unfold ts; destruct n; [lia|reflexivity]).
  assert (F : finishes ts (T (n - 1)%nat)).
  { exists (map T (seq 0 (n - 1))). unfold ts. replace n with (S (n - 1)) at 1 by lia. rewrite seq_S, map_app. reflexivity. }
  assert (Ru : runs_of (map fst pts) [ts]).
  { rewrite Ets. split; [apply app_nil_r|]. exists (T 0%nat), (T (n - 1)%nat). split; [exact B|]. split; [exact F|].
    split; [|exact I]. constructor; [|constructor]. split; [intros X; rewrite X in B; discriminate|].
    apply chain_map_seq. intros i [[X|X] _]; rewrite St in X; lra. }
  assert (Len : T (n - 1)%nat - T 0%nat == (inject_Z (Z.of_nat n) - 1) * (1 # 100)).
  { unfold T. rewrite Nat2Z.inj_sub by lia. unfold Z.sub. rewrite inject_Z_plus. change (inject_Z (Z.of_nat 0)) with 0.
    change (inject_Z (- Z.of_nat 1)) with (-1). ring. }
  assert (N2 : 2 <= inject_Z (Z.of_nat n)) by (change 2 with (inject_Z 2); rewrite <- Zle_Qle; lia).
  assert (Lt : T 0%nat < T (n - 1)%nat) by lra.
  destruct (spline_exists spline pts (T 0%nat) (T (n - 1)%nat) SC C V) as (f & Sp & Sv).
  { rewrite Ets. unfold ts. apply in_map, in_seq. lia. }
  { rewrite Ets. unfold ts. apply in_map, in_seq. lia. }
  { exact Lt. }
  assert (Un : forall s' e', begins ts s' -> finishes ts e' -> s' = T 0%nat /\ e' = T (n - 1)%nat).
  { intros s' e' B' F'. rewrite <- (begins_hd _ _ B), <- (finishes_last _ _ F), (begins_hd _ _ B'), (finishes_last _ _ F'). auto. }
  destruct (interp spline (on_grid_rows t0 vs)) as [trs|] eqn:E.
  2:{ exfalso. apply C20_raises_iff in E as [X|(pts' & runs & P' & Ru' & X)].
      - apply points_unique in X, P. rewrite <- X in P. rewrite P in Ets. unfold ts in Ets. destruct n; [lia|discriminate].
      - rewrite (points_unique _ _ P'), <- (points_unique _ _ P) in *.
        assert (Nt : map fst pts <> []) by (rewrite Ets; intros Y; rewrite Y in B; discriminate).
        rewrite (runs_unique _ _ Nt Ru'), <- (runs_unique _ _ Nt Ru) in X. inversion X as [? ? Y|? ? Y]; [|inversion Y]. subst.
        destruct Y as (s & e & f' & B' & F' & _ & _ & Sh). destruct (Un _ _ B' F') as [-> ->]. lra. }
  pose proof (the_runs _ _ _ _ _ E P Ru) as R.
  inversion R as [|? s e ? ? B' F' Eq R' |? s e ? ? B' F' Eq Sp' R'|? s e f' tr ? ? B' F' Eq Sp' Rs R']; subst.
  - destruct (Un _ _ B' F') as [-> ->]. lra.
  - destruct (Un _ _ B' F') as [-> ->]. congruence.
  - destruct (Un _ _ B' F') as [-> ->]. inversion R'; subst. exists tr. split; [reflexivity|].
    assert (f' = f) as -> by congruence. destruct Rs as (N1 & A & D & g & G & S). cbv zeta in *. set (m := length (tr_data tr)) in *.
    rewrite Len in A, D.
    assert (m = n - 1)%nat as Em.
    { assert (X1 : inject_Z (Z.of_nat m) <= inject_Z (Z.of_nat n + -1)) by (rewrite inject_Z_plus; change (inject_Z (-1)) with (-1); lra).
      assert (X2 : inject_Z (Z.of_nat n + -1) < inject_Z (Z.of_nat m + 1)) by (rewrite !inject_Z_plus; change (inject_Z (-1)) with (-1); change (inject_Z 1) with 1; lra).
      rewrite <- Zle_Qle in X1. rewrite <- Zlt_Qlt in X2. lia. }
    assert (Gk : forall k, (k < m)%nat -> g k == T k).
    { intros k K. destruct (G k K) as ((z & Gz) & Dk & _). unfold T in Dk at 1. change (inject_Z (Z.of_nat 0)) with 0 in Dk.
      assert (z = z0 + Z.of_nat k)%Z as ->.
      { apply int_near. rewrite inject_Z_plus. apply Qabs_Qle_condition in Dk. apply Qabs_Qle_condition. lra. }
      rewrite inject_Z_plus in Gz. unfold T. lra. }
    split; [rewrite S, Gk by lia; unfold T; change (inject_Z (Z.of_nat 0)) with 0; ring|].
    assert (Nv : vs <> []) by (intros X; subst n; rewrite X in L2; cbn in L2; lia).
    pose proof (app_removelast_last 0%Z Nv) as Ev.
    assert (Lr : length (removelast vs) = m).
    { assert (X : length vs = length (removelast vs ++ [last vs 0%Z])) by congruence. rewrite app_length in X. cbn in X. fold n in X. lia. }
    apply nth_error_ext. intros k. destruct (Nat.lt_ge_cases k m) as [K|K].
    2:{ rewrite (proj2 (nth_error_None _ _)) by exact K. symmetry. apply nth_error_None. lia. }
    destruct (G k K) as (_ & _ & v & Ek & Nr). rewrite Ek.
    assert (Ev' : exists w, nth_error (removelast vs) k = Some w).
    { destruct (nth_error (removelast vs) k) as [w|] eqn:X; [eauto|]. apply nth_error_None in X. lia. }
    destruct Ev' as (w & Ew). rewrite Ew. f_equal. symmetry. apply int_near.
    assert (Iw : In (T k, Some (inject_Z w)) pts).
    { unfold pts. apply in_map_iff. exists (k, w). split; [reflexivity|].
      assert (Y : nth_error (combine (seq 0 n) vs) k = Some (k, w)).
      { assert (Y1 : nth_error (seq 0 n) k = Some k).
        { rewrite (nth_error_nth' _ 0%nat) by (rewrite seq_length; lia). rewrite seq_nth by lia. reflexivity. }
        assert (Y2 : nth_error vs k = Some w) by (rewrite Ev; rewrite nth_error_app1 by lia; exact Ew).
        revert Y1 Y2. generalize (seq 0 n). clear. revert k vs. assert (Z : forall k (l : list nat) (vs : list Z) a c, nth_error l k = Some a -> nth_error vs k = Some c -> nth_error (combine l vs) k = Some (a, c)).
        { induction k as [|k IH]; intros [|x l] [|y vs] a c H1 H2; try discriminate; cbn in *; [congruence|]. apply IH; assumption. }
        intros k vs l. apply Z. }
      exact (nth_error_In _ _ Y). }
    unfold nearest in Nr. rewrite (Sv (T k) (inject_Z w) (g k) Iw) in Nr.
    + exact Nr.
    + unfold T. change (inject_Z (Z.of_nat 0)) with 0. assert (0 <= inject_Z (Z.of_nat k)) by (change 0 with (inject_Z 0); rewrite <- Zle_Qle; lia). lra.
    + unfold T. assert (inject_Z (Z.of_nat k) <= inject_Z (Z.of_nat (n - 1))) by (rewrite <- Zle_Qle; lia). lra.
    + apply Gk. exact K.
Qed.

(** A function with the properties asked of cubic splines: linear interpolation. *)
Fixpoint lin (pts : list (Q * option Q)) (x : Q) : Q :=
  match pts with
  | (t, Some v) :: (((t', Some v') :: _) as r) => if Qle_bool x t' then v + (x - t) * (v' - v) / (t' - t) else lin r x
  | (_, Some v) :: _ => v
  | _ => 0
  end.
Definition linear (pts : list (Q * option Q)) : option (Q -> Q) :=
  match pts with _ :: _ :: _ => Some (lin pts) | _ => None end.

Lemma linear_contract : spline_contract linear.
Proof.
  intros pts L C V. exists (lin pts). split; [destruct pts as [|? [|? ?]]; cbn in L; [lia|lia|reflexivity]|]. clear L.
  induction pts as [|[t0 [v0|]] r IH]; intros t v x I E; [contradiction| |inversion V as [|? ? X _]; contradiction X; reflexivity].
  destruct r as [|[t1 [v1|]] r]; [destruct I as [J|[]]; assert (v0 = v) as -> by congruence; reflexivity| |].
  2:{ inversion V as [|? ? _ V']; inversion V' as [|? ? X _]. contradiction X. reflexivity. }
  destruct C as [C01 C]. inversion V as [|? ? _ V']. cbn [map fst] in C01. subst.
  change (lin ((t0, Some v0) :: (t1, Some v1) :: r) x) with (if Qle_bool x t1 then v0 + (x - t0) * (v1 - v0) / (t1 - t0) else lin ((t1, Some v1) :: r) x).
  destruct (Qle_bool x t1) eqn:B.
  - apply Qle_bool_iff in B. destruct I as [J|[J|I]]; [assert (t0 = t /\ v0 = v) as [<- <-] by (split; congruence)|assert (t1 = t /\ v1 = v) as [<- <-] by (split; congruence)|].
    + rewrite E. field. lra.
    + rewrite E. field. lra.
    + exfalso. assert (t1 < t); [|lra]. clear - C I. revert t1 C. induction r as [|[a b] r IHr]; intros t1 C; [contradiction|].
      destruct C as [C1 C]. cbn in C1. destruct I as [J|I]; [assert (a = t) as <- by congruence; exact C1|]. specialize (IHr I a C). lra.
  - assert (~ x <= t1) by (intros X; apply Qle_bool_iff in X; congruence).
    destruct I as [J|I]; [assert (t0 = t) as <- by congruence; lra|]. exact (IH C V' _ _ _ I E).
Qed.

(** Eleven samples 12 ms apart from 0.002 s on, a gap, four more, a lone one, and a sample without time. *)
Definition ex_row (t : Z) : option Q * option Q := (Some (t # 1000), Some (inject_Z t)).
Definition ex_rows : list (option Q * option Q) :=
  map ex_row [2;14;26;38;50;62;74;86;98;110;122]%Z ++ [(None, Some 7)] ++ map ex_row [250;260;270;280;400;500;510;520]%Z.

Example C20_case : option_map (map (fun tr => (Qred (tr_start tr), tr_data tr))) (interp linear ex_rows) =
  Some [(0, [0;10;20;30;40;50;60;70;80;90;100;110]%Z); (1 # 4, [250;260;270]%Z); (1 # 2, [500;510]%Z)].
Proof. vm_compute. reflexivity. Qed.

Example C20_case_hypotheses : exists pts runs,
  spline_contract linear /\ points ex_rows pts /\ runs_of (map fst pts) runs /\ chain Qlt (map fst pts) /\
  Forall (fun p => snd p <> None) pts /\ length runs = 4%nat /\
  break (2 # 1000) (520 # 1000) (122 # 1000) (250 # 1000).
Proof.
  exists (timed_points ex_rows). exists (cut (map fst (timed_points ex_rows))).
  split; [exact linear_contract|]. split; [apply timed_points_points|]. split; [|split; [|split; [|split]]].
  - apply cut_runs. discriminate.
  - cbn. repeat split; reflexivity.
  - cbn. repeat constructor; discriminate.
  - vm_compute. reflexivity.
  - split; [left|split]; reflexivity.
Qed.

Example C20_grid_case : on_grid (1234 # 100) /\
  option_map (map (fun tr => (Qred (tr_start tr), tr_data tr))) (interp linear (on_grid_rows (1234 # 100) [3;-4;5;9]%Z)) =
  Some [(617 # 50, [3;-4;5]%Z)].
Proof. split; [exists 1234%Z; reflexivity|vm_compute; reflexivity]. Qed.

(** A gap right after the first sample is interpolated across (here one second). *)
Theorem C20_first_gap_refuted : exists tr,
  interp linear (map ex_row [0;1000;1010]%Z) = Some [tr] /\
  time_of tr 50 == 1 # 2 /\ nth_error (tr_data tr) 50 = Some 500%Z.
Proof. eexists. split; [vm_compute; reflexivity|]. split; vm_compute; reflexivity. Qed.

(** One run of two samples 5 ms apart makes the whole conversion fail. *)
Theorem C20_short_run_refuted :
  interp linear (map ex_row [0;10;20;30;1000;1005;2000;2010;2020]%Z) = None /\
  option_map (@length trace) (interp linear (map ex_row [0;10;20;30;2000;2010;2020]%Z)) = Some 2%nat.
Proof. split; vm_compute; reflexivity. Qed.

(** A run that starts exactly half-way between two grid times is not sampled uniformly: the straight line
    [1000 t] comes out as 0, 20, 20, 40. *)
Theorem C20_tie_refuted : exists tr,
  interp linear (map ex_row [5;15;25;35;45]%Z) = Some [tr] /\ tr_start tr == 0 /\ tr_data tr = [0;20;20;40]%Z.
Proof. eexists. split; [vm_compute; reflexivity|]. split; vm_compute; reflexivity. Qed.

Print Assumptions C20_one_trace_per_run.
Print Assumptions C20_raises_iff.
Print Assumptions C20_traces_within_runs.
Print Assumptions C20_sample_times_uniform.
Print Assumptions C20_nothing_in_gaps.
Print Assumptions C20_traces_in_order.
Print Assumptions C20_runs_covered.
Print Assumptions C20_grid_data_unchanged.
