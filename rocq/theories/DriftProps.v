(** Properties C17, C18: clock drift of one file. *)
From Coq Require Import ZArith QArith Qabs List Bool Lia Lqa.
From Verif Require Import Lib Base UnwrapSpec UnwrapProofs Process ReadSeveral Drift DriftSpec DriftProofs.
Import ListNotations.
Open Scope Q_scope.

(** C18.  The regression terminates for every input (the model's recursion bound is never reached). *)
Theorem C18_terminates P (fit : list point -> option P) eval z lim depth pts :
  robust_regress P fit eval z lim depth pts <> OutOfFuel.
Proof. apply robust_terminates. lia. Qed.

(** It returns exactly what repeated removal of outliers leads to ([pruned]) ... *)
Theorem C18_result P (fit : list point -> option P) eval z lim pts p kept :
  robust_regress P fit eval z lim None pts = Done p kept <-> pruned P fit eval z lim pts p kept.
Proof. apply robust_iff. Qed.

(** ... which is a non-empty part of the points, in order, with the fit of exactly those points, none of
    which is beyond the limits. *)
Theorem C18_consistent_core P (fit : list point -> option P) eval z lim pts p kept :
  robust_regress P fit eval z lim None pts = Done p kept ->
  subsequence kept pts /\ kept <> [] /\ fit kept = Some p /\
  (forall q v, In q kept -> is_variance (residuals P eval p kept) v -> residual P eval p q * residual P eval p q <= z * z * v) /\
  (forall q m, In q kept -> lim = Some m -> Qabs (residual P eval p q) <= m).
Proof.
  intros E. apply robust_iff in E. destruct (pruned_sub _ _ _ _ _ _ _ _ E) as (A & B & C & D & F).
  repeat (split; [assumption|]). rewrite Forall_forall in D, F. split.
  - intros q v I V. apply Qnot_lt_le. intros X. apply (D q I). exists v. auto.
  - intros q m I ->. apply Qnot_lt_le. intros X. apply (F q I). exists m. auto.
Qed.

(** It raises only if a fit raises or no point is left. *)
Theorem C18_raises P (fit : list point -> option P) eval z lim pts :
  robust_regress P fit eval z lim None pts = Raised <-> (forall p kept, ~ pruned P fit eval z lim pts p kept).
Proof. apply robust_raised. Qed.

(** With least squares, one z-score pass leaves out fewer than [1/z^2] of the points. *)
Theorem C18_pass_leaves_out_few P (eval : P -> Q -> Q) z p pts kept :
  shiftable P eval -> best P eval p pts ->
  pass (beyond_z P eval z p pts) pts kept ->
  z * z * (number pts - number kept) < number pts.
Proof.
  intros Sh B [X W].
  assert (N : pts <> []) by (intros ->; inversion X).
  assert (N' : residuals P eval p pts <> []) by (destruct pts; [contradiction|discriminate]).
  pose proof (var_is _ N') as V.
  assert (E : kept = filter (fun q => negb (Qltb (z * z * var (residuals P eval p pts)) (residual P eval p q * residual P eval p q))) pts).
  { apply (without_fun (z_outlier P eval z p pts) (beyond_z P eval z p pts)); [|exact W]. intros q _. apply z_outlier_iff. exact N. }
  set (f := fun q => Qltb (z * z * var (residuals P eval p pts)) (residual P eval p q * residual P eval p q)) in *.
  assert (C : number kept + number (filter f pts) == number pts).
  { rewrite E. apply (number_split f). }
  assert (number pts - number kept == number (filter f pts)) as -> by (rewrite <- C; ring).
  apply (few_beyond P eval z p pts _ _ (best_centred P eval p pts Sh B) V eq_refl).
  apply Exists_exists in X as (q & I & X). apply (z_outlier_iff P eval z p pts q N) in X.
  assert (I' : In q (filter f pts)) by (apply filter_In; split; [exact I|exact X]).
  fold f. destruct (filter f pts); [contradiction|discriminate].
Qed.

(** In particular not all (here [z] is at least one, as in all calls). *)
Theorem C18_pass_leaves_some P (eval : P -> Q -> Q) z p pts kept :
  1 <= z -> shiftable P eval -> best P eval p pts -> pass (beyond_z P eval z p pts) pts kept -> kept <> [].
Proof.
  intros Z Sh B H ->. pose proof (C18_pass_leaves_out_few _ _ _ _ _ _ Sh B H) as F.
  change (@number point []) with 0 in F. pose proof (number_nonneg pts).
  assert (1 <= z * z) by nra. assert (0 <= (z * z - 1) * number pts) by (apply Qmult_le_0_compat; lra). lra.
Qed.

(** Points on a curve that the fit finds are all kept. *)
Theorem C18_exact_data_kept P (fit : list point -> option P) eval z lim pts p :
  pts <> [] -> fit pts = Some p -> Forall (fun q => eval p (fst q) == snd q) pts -> (forall m, lim = Some m -> 0 <= m) ->
  robust_regress P fit eval z lim None pts = Done p pts.
Proof.
  intros N F X M. apply robust_iff.
  assert (R : forall q, In q pts -> residual P eval p q == 0).
  { intros q I. rewrite Forall_forall in X. unfold residual. rewrite (X q I). ring. }
  assert (N' : residuals P eval p pts <> []) by (destruct pts; [contradiction|discriminate]).
  apply pruned_stop; [exact F|exact N| |]; apply Forall_forall; intros q I.
  - intros (v & V & L). rewrite (R q I) in L.
    assert (v == 0) as Ev.
    { apply (variance_unique _ _ _ N' V). exists 0. unfold is_mean. split.
      - rewrite Qmult_0_r. unfold residuals. clear -R. induction pts as [|q l IH]; [reflexivity|]. cbn [map sum_of].
        rewrite (R q (or_introl eq_refl)), <- IH; [reflexivity|]. intros; apply R; right; assumption.
      - rewrite Qmult_0_r. unfold residuals. rewrite map_map. clear -R. induction pts as [|q l IH]; [reflexivity|]. cbn [map sum_of].
        rewrite (R q (or_introl eq_refl)), <- IH; [reflexivity|]. intros; apply R; right; assumption. }
    rewrite Ev in L. lra.
  - intros (m & -> & L). rewrite (R q I) in L. specialize (M m eq_refl). change (Qabs 0) with 0 in L. lra.
Qed.

(** Without least squares a z-score pass can leave out everything. *)
Theorem C18_uncentred_pass_refuted : exists (pts : list point) (p : Q),
  pts <> [] /\ pass (beyond_z Q (fun c _ => c) 4 p pts) pts [].
Proof.
  exists [(0, 5); (1, 5)], 0. split; [discriminate|].
  assert (B : forall q, In q [(0, 5); (1, 5)] -> beyond_z Q (fun c _ => c) 4 0 [(0, 5); (1, 5)] q).
  { intros q I. exists 0. split.
    - exists 5. split; reflexivity.
    - destruct I as [<-|[<-|[]]]; reflexivity. }
  split; [left; apply B; left; reflexivity|].
  repeat constructor; apply B; simpl; auto.
Qed.

(** C17.  With GPS required, a file is accepted exactly if it has fixes, the fixes cover more than half of
    the sample span, no straight-line residual jumps by more than 0.25 s between consecutive (kept) fixes,
    and the cubic has ten or more fixes left, all within 0.01 s of it. *)
Theorem C17_accepted_iff fit3 fit1 L h : data L <> [] ->
  calculate_drift fit3 fit1 L true = inl h <->
  gps L <> [] /\ covers L /\ no_step fit1 L /\ describes L h /\
  exists kept, good_fit fit3 L (h_fit h) kept /\ h_nonoutliers h = length kept /\
    h_mad h = Some (max_abs (residuals cubic eval3 (h_fit h) kept)).
Proof.
  intros ND. unfold calculate_drift. cbv zeta.
  destruct (gps L) as [|g0 gs] eqn:G.
  { cbn [length Nat.eqb negb andb]. split; [discriminate|]. intros [X _]. contradiction. }
  cbn [length Nat.eqb negb andb]. rewrite <- G.
  assert (NG : gps L <> []) by (rewrite G; discriminate).
  destruct (sufficient L) eqn:S; cbn [negb andb].
  2:{ split; [discriminate|]. intros (_ & C & _). apply sufficient_iff in C; congruence. }
  apply sufficient_iff in S; [|assumption|assumption].
  pose proof (detect_step_spec fit1 L) as T. destruct (detect_step fit1 (fix_points L)) as [[|]|].
  - split; [discriminate|]. intros (_ & _ & X & _). exfalso. eapply step_excl; eassumption.
  - destruct (accepted_fit fit3 L) as [[p kept]|] eqn:A.
    + apply accepted_fit_iff in A; [|assumption]. split.
      * intros [= <-]. split; [exact NG|]. split; [exact S|]. split; [exact T|]. split.
        -- split; cbn [h_start h_end h_gps]; [|rewrite G; reflexivity]. apply from_to_fl. unfold sample_clock. destruct (data L); [contradiction|discriminate].
        -- exists kept. split; [exact A|]. split; reflexivity.
      * intros (_ & _ & _ & [D1 D2] & kept' & A' & E1 & E2).
        apply from_to_eq in D1 as [D1 D1'].
        pose proof A as A0. apply accepted_fit_iff in A; [|assumption]. apply accepted_fit_iff in A'; [|assumption].
        rewrite A in A'. injection A' as -> ->. destruct h as [hs he hf hg hn hm]. cbn [h_start h_end h_fit h_gps h_nonoutliers h_mad] in *.
        subst. rewrite G. reflexivity.
    + split; [discriminate|]. intros (_ & _ & _ & _ & kept & X & _). apply accepted_fit_iff in X; [congruence|assumption].
  - split; [discriminate|]. intros (_ & _ & X & _). exfalso. eapply line_excl; [exact T|left; exact X].
Qed.

(** Otherwise the error says why: no GPS at all, GPS inadequate, a step, or (nothing else) the failure of
    the straight-line fit itself. *)
Theorem C17_errors fit3 fit1 L f : data L <> [] ->
  calculate_drift fit3 fit1 L true = inr f ->
  (f = Exn NoGPS /\ gps L = []) \/
  (f = InadequateGPS /\ gps L <> [] /\ (~ covers L \/ forall p kept, ~ good_fit fit3 L p kept)) \/
  (f = DiscontinuousGPS /\ step fit1 L) \/
  (f = Exn OtherExn /\ line_fails fit1 L).
Proof.
  intros ND. unfold calculate_drift. cbv zeta.
  destruct (gps L) as [|g0 gs] eqn:G.
  { cbn [length Nat.eqb negb andb]. intros [= <-]. left. auto. }
  cbn [length Nat.eqb negb andb]. rewrite <- G.
  assert (NG : gps L <> []) by (rewrite G; discriminate).
  destruct (sufficient L) eqn:S; cbn [negb andb].
  2:{ intros [= <-]. right. left. split; [reflexivity|]. split; [exact NG|]. left.
      intros C. apply sufficient_iff in C; congruence. }
  pose proof (detect_step_spec fit1 L) as T. destruct (detect_step fit1 (fix_points L)) as [[|]|].
  - intros [= <-]. right. right. left. auto.
  - destruct (accepted_fit fit3 L) as [[p kept]|] eqn:A; [discriminate|].
    intros [= <-]. right. left. split; [reflexivity|]. split; [exact NG|]. right. apply accepted_fit_none; assumption.
  - intros [= <-]. right. right. right. auto.
Qed.

(** Without GPS required the function never raises: the fit if it is good, the nominal 1.024 ms clock if not. *)
Theorem C17_optional_gps fit3 fit1 L : data L <> [] ->
  exists h, calculate_drift fit3 fit1 L false = inl h /\ describes L h /\
    ((gps L <> [] /\ covers L /\ exists kept, good_fit fit3 L (h_fit h) kept /\ h_nonoutliers h = length kept) \/
     ((gps L = [] \/ ~ covers L \/ forall p kept, ~ good_fit fit3 L p kept) /\ nominal_clock L h)).
Proof.
  intros ND. unfold calculate_drift. cbv zeta. cbn [andb].
  assert (Ds : forall p n m, describes L (mkhi (first_q (map fst (data L))) (last_q (map fst (data L))) p (length (gps L)) n m)).
  { intros p n m. split; [|reflexivity]. apply from_to_fl. unfold sample_clock. destruct (data L); [contradiction|discriminate]. }
  assert (Nc : forall p n m, zero_drift L = (p, n, m) ->
    nominal_clock L (mkhi (first_q (map fst (data L))) (last_q (map fst (data L))) p (length (gps L)) n m)).
  { intros p n m. unfold zero_drift. rewrite fixes_eq. destruct (fixes L) as [|q0 qs] eqn:E.
    - intros [= <- <- <-]. repeat split; try contradiction.
    - rewrite <- E. intros [= <- <- <-].
      assert (Nf : fixes L <> []) by (rewrite E; discriminate).
      split; [reflexivity|]. split; [reflexivity|]. split; [reflexivity|]. split; [intros; contradiction|].
      intros _. cbn [h_fit h_nonoutliers]. split; [|unfold fixes; apply map_length].
      set (starts := map (fun q : point => snd q - nominal * fst q) (fixes L)).
      assert (Ns : starts <> []) by (subst starts; destruct (fixes L); [contradiction|discriminate]).
      pose proof (mean_is starts Ns) as M. unfold is_mean in M. set (d0 := mean starts) in *.
      assert (Y : sum_of (map (residual cubic eval3 {| c0 := d0; c1 := nominal; c2 := 0; c3 := 0 |}) (fixes L)) ==
                  sum_of starts - number starts * d0).
      { subst starts. clearbody d0. clear. induction (fixes L) as [|q l IH]; [unfold number; cbn; ring|].
        cbn [map sum_of]. rewrite IH, number_cons. unfold residual, eval3. cbn [c0 c1 c2 c3]. ring. }
      etransitivity; [exact Y|]. rewrite M. ring. }
  assert (An : (negb (Nat.eqb (length (gps L)) 0) = false /\ gps L = []) \/ (negb (Nat.eqb (length (gps L)) 0) = true /\ gps L <> [])).
  { destruct (gps L); [left; auto|right; split; [reflexivity|discriminate]]. }
  destruct An as [[-> G]|[-> NG]]; cbn [negb andb].
  { destruct (zero_drift L) as [[p n] m] eqn:Z.
    eexists. split; [reflexivity|]. split; [apply Ds|]. right. split; [left; exact G|apply Nc; reflexivity]. }
  destruct (sufficient L) eqn:S.
  - apply sufficient_iff in S; [|assumption|assumption].
    destruct (accepted_fit fit3 L) as [[p kept]|] eqn:A.
    + eexists. split; [reflexivity|]. split; [apply Ds|]. left. split; [exact NG|]. split; [exact S|].
      exists kept. split; [|reflexivity]. apply accepted_fit_iff; assumption.
    + destruct (zero_drift L) as [[p n] m] eqn:Z. eexists. split; [reflexivity|]. split; [apply Ds|].
      right. split; [|apply Nc; reflexivity]. right. right. apply accepted_fit_none; assumption.
  - destruct (zero_drift L) as [[p n] m] eqn:Z. eexists. split; [reflexivity|]. split; [apply Ds|].
    right. split; [|apply Nc; reflexivity]. right. left. intros C. apply sufficient_iff in C; congruence.
Qed.

(** Fixes whose times run backwards always count as covering the samples. *)
Theorem C17_backward_fixes_cover L a b s e :
  from_to (sample_clock L) a b -> a <= b -> from_to (map snd (fixes L)) s e -> e + 1 <= s -> covers L.
Proof. intros F AB G ES. exists a, b, s, e. split; [exact F|]. split; [exact G|]. right. split; lra. Qed.

(** The check of the span of the kept fixes compares counts with seconds: a span of 1/1000 of the samples'
    always passes it. *)
Theorem C17_kept_span_hardly_checked L kept a b s e :
  from_to (sample_clock L) a b -> a <= b -> from_to (map fst kept) s e -> s < e ->
  (b - a) * (1 # 1000) <= e - s -> spread_out L kept.
Proof. intros F AB G SE H. exists a, b, s, e. split; [exact F|]. split; [exact G|]. right. left. split; lra. Qed.

(** Concrete cases.  The fits go through the first and the last point, which is least squares on exact data. *)
Definition through (pts : list point) : option linear :=
  match pts with
  | (x, y) :: _ => let (x', y') := last pts (x, y) in
                   if Qeq_bool x x' then None
                   else let m := Qred ((y' - y) / (x' - x)) in Some (mklinear (Qred (y - m * x)) m)
  | [] => None
  end.
Definition through3 (pts : list point) : option cubic :=
  match through pts with Some l => Some (mkcubic (l0 l) (l1 l) 0 0) | None => None end.
Definition ex_fix (t : Z) : fix_ * Z :=
  (mkfix (inject_Z (15625 * t)) None None None None None None None None None, (1600000000 + 16 * t)%Z).
Definition ex_tab (ts : list Z) : tables :=
  mktab [(0, Some 1); (160000, Some 2); (320000, Some 1)] [] (map ex_fix ts).

Example C17_case_accepted : exists h,
  calculate_drift through3 through (ex_tab [1;2;3;4;5;6;7;8;9;10;11;12;13;14]%Z) true = inl h /\
  c0 (h_fit h) == 1600000000 /\ c1 (h_fit h) == 1024 # 1000000 /\ h_start h == 0 /\ h_end h == 320000 /\ h_nonoutliers h = 14%nat.
Proof. eexists. split; [vm_compute; reflexivity|]. repeat split. Qed.

Example C17_case_errors :
  calculate_drift through3 through (ex_tab []) true = inr (Exn NoGPS) /\
  calculate_drift through3 through (ex_tab [1;2;3;4;5;6;7;8;9;10]%Z) true = inr InadequateGPS /\
  calculate_drift through3 through (ex_tab [1;2;3;9;10;11;12;13;14]%Z) true = inr InadequateGPS /\
  (exists h, calculate_drift through3 through (ex_tab [1;2;3;4]%Z) false = inl h /\ c1 (h_fit h) == 1024 # 1000000 /\ h_nonoutliers h = 4%nat) /\
  calculate_drift through3 through (mktab [(0, Some 1); (160000, Some 2); (320000, Some 1)] []
    (map ex_fix [1;2;3]%Z ++ map (fun e => (fst e, snd e + 1)%Z) (map ex_fix [11;12;13]%Z))) true = inr DiscontinuousGPS.
Proof.
  split; [vm_compute; reflexivity|]. split; [vm_compute; reflexivity|]. split; [vm_compute; reflexivity|].
  split; [eexists; split; [vm_compute; reflexivity|split; reflexivity]|]. vm_compute. reflexivity.
Qed.

(** Averages are the least-squares constants; 20 equal values and one far from them. *)
Definition average (pts : list point) : option Q := match pts with [] => None | _ => Some (Qred (mean (map snd pts))) end.
Definition ex_pts : list point := map (fun z => (inject_Z z, 3)) [1;2;3;4;5;6;7;8;9;10;11;12;13;14;15;16;17;18;19;20]%Z ++ [(21, 24)].

Example C18_case : exists p, robust_regress Q average (fun c _ => c) 4 (Some 1) None ex_pts = Done p (firstn 20 ex_pts) /\ p == 3.
Proof. eexists. split; [vm_compute; reflexivity|reflexivity]. Qed.

Example C18_case_hypotheses : shiftable Q (fun c _ => c) /\
  best Q (fun c _ => c) 4 ex_pts /\ average ex_pts = Some 4 /\
  pass (beyond_z Q (fun c _ => c) 4 4 ex_pts) ex_pts (firstn 20 ex_pts).
Proof.
  assert (N : ex_pts <> []) by discriminate.
  split; [intros p c; exists (p + c); reflexivity|]. split; [|split; [vm_compute; reflexivity|]].
  - intros p'. unfold sse.
    assert (X : forall l : list point, sum_of (map (fun q => residual Q (fun c _ => c) p' q * residual Q (fun c _ => c) p' q) l) ==
                sum_of (map (fun q => residual Q (fun c _ => c) 4 q * residual Q (fun c _ => c) 4 q) l) +
                number l * ((p' - 4) * (p' - 4)) - 2 * (p' - 4) * sum_of (map (residual Q (fun c _ => c) 4) l)).
    { induction l as [|q l IH]; [unfold number; cbn; ring|]. cbn [map sum_of]. rewrite IH, number_cons. unfold residual. ring. }
    rewrite X. assert (sum_of (map (residual Q (fun c _ => c) 4) ex_pts) == 0) as -> by (vm_compute; reflexivity).
    change (number ex_pts) with 21.
    generalize (sum_of (map (fun q => residual Q (fun c _ => c) 4 q * residual Q (fun c _ => c) 4 q) ex_pts)).
    intros w. generalize (p' - 4). intros y. nra.
  - split.
    + apply Exists_exists. exists (21, 24). split; [apply in_or_app; right; left; reflexivity|].
      apply (proj1 (z_outlier_iff Q (fun c _ => c) 4 4 ex_pts (21, 24) N)). vm_compute. reflexivity.
    + assert (firstn 20 ex_pts = filter (fun q => negb (z_outlier Q (fun c _ => c) 4 4 ex_pts q)) ex_pts) as -> by (vm_compute; reflexivity).
      apply (filter_without (z_outlier Q (fun c _ => c) 4 4 ex_pts)).
      intros q _. apply z_outlier_iff. exact N.
Qed.

Print Assumptions C18_terminates.
Print Assumptions C18_result.
Print Assumptions C18_consistent_core.
Print Assumptions C18_raises.
Print Assumptions C18_pass_leaves_out_few.
Print Assumptions C18_pass_leaves_some.
Print Assumptions C18_exact_data_kept.
Print Assumptions C18_uncentred_pass_refuted.
Print Assumptions C17_accepted_iff.
Print Assumptions C17_errors.
Print Assumptions C17_optional_gps.
Print Assumptions C17_backward_fixes_cover.
Print Assumptions C17_kept_span_hardly_checked.
