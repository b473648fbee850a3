(** Property C81: the polynomial fits of the clock, and one wrong GPS fix among many. *)
From Coq Require Import ZArith QArith Qabs List Bool Lia Lqa.
From Verif Require Import Base Lib UnwrapSpec ParserSpec Process ReadSeveral Drift DriftSpec DriftProofs DriftProps InterpSpec SegmentsSpec RecordingSpec RecordingProofs RecordingProps RecordingWhole
  Polyfit PolyfitSpec PolyfitProofs PolyfitWrong.
Import ListNotations.
Open Scope Q_scope.

Lemma sse_gap p pts : sse (list Q) value p pts == ip pts (gap p) (gap p).
Proof.
  unfold sse. induction pts as [|q r IH]; [reflexivity|]. cbn [map sum_of ip]. rewrite IH. unfold residual, gap. rewrite value_at. reflexivity.
Qed.
Lemma sse_split d pts p p' : polyfit d pts = Some p -> (length p' <= S d)%nat ->
  sse (list Q) value p' pts == sse (list Q) value p pts + ip pts (col (poly_plus p (poly_times (-(1)) p'))) (col (poly_plus p (poly_times (-(1)) p'))).
Proof.
  intros E L. destruct (polyfit_normal pts d p E) as [Lp N]. rewrite !sse_gap.
  set (r := poly_plus p (poly_times (-(1)) p')).
  assert (Nr : ip pts (gap p) (col r) == 0) by (apply N; unfold r; rewrite plus_length, times_length; lia).
  rewrite (ip_ext pts (gap p') (fun w => gap p w + 1 * col r w) (gap p') (fun w => gap p w + 1 * col r w)).
  - rewrite ip_expand, Nr. ring.
  - intros w _. unfold gap, column, r. rewrite plus_at, times_at. ring.
  - intros w _. unfold gap, column, r. rewrite plus_at, times_at. ring.
Qed.

(** The fit is the polynomial with the least squares, and the only one ... *)
Theorem C81_least_squares degree pts p : polyfit degree pts = Some p ->
  least_squares degree pts p /\
  forall p', least_squares degree pts p' -> forall x, value p' x == value p x.
Proof.
  intros E. destruct (polyfit_normal pts degree p E) as [Lp _].
  assert (B : forall p', (length p' <= S degree)%nat -> sse (list Q) value p pts <= sse (list Q) value p' pts).
  { intros p' L. rewrite (sse_split degree pts p p' E L). pose proof (ip_square pts (col (poly_plus p (poly_times (-(1)) p')))). lra. }
  split; [split; [exact Lp|exact B]|]. intros p' [L' B'] x.
  specialize (B' p ltac:(lia)). rewrite (sse_split degree pts p p' E ltac:(lia)) in B'.
  set (r := poly_plus p (poly_times (-(1)) p')) in *. pose proof (ip_square pts (col r)). assert (Z : ip pts (col r) (col r) == 0) by lra.
  assert (D : abscissae (S degree) pts).
  { apply columns_defined. unfold polyfit in E. destruct (columns pts (S degree)); [discriminate|discriminate E]. }
  destruct D as (zs & Lz & Dz & Az).
  assert (Zr : zeros r).
  { apply (many_roots zs); [unfold r; rewrite plus_length, times_length; rewrite Lz, Lp, L'; cbn; lia|exact Dz|]. intros z Iz. destruct (Az z Iz) as (u & y & Ip & Eu).
    rewrite <- (poly_at_proper r u z Eu). exact (ip_null pts (col r) Z (u, y) Ip). }
  pose proof (zeros_at r x Zr) as Ex. unfold r in Ex. rewrite plus_at, times_at in Ex. rewrite (value_at p), (value_at p'). lra.
Qed.

(** ... and there is one exactly if there are enough different clock values. *)
Theorem C81_defined degree pts : polyfit degree pts <> None <-> abscissae (S degree) pts.
Proof.
  rewrite <- columns_defined. unfold polyfit. destruct (columns pts (S degree)); split; intros H; congruence.
Qed.

Lemma chain_abscissae n pts : (n <= length pts)%nat -> chain Qlt (map fst pts) -> abscissae n pts.
Proof.
  intros L C. exists (firstn n (map fst pts)). split; [apply firstn_length_le; rewrite map_length; exact L|]. split.
  - assert (D : different (map fst pts)).
    { clear L. induction pts as [|q r IH]; [constructor|]. cbn [map] in *. constructor.
      - pose proof (chain_le_head _ _ C) as H. eapply Forall_impl; [|exact H]. cbn. intros; lra.
      - apply IH. destruct r; [exact Logic.I|apply C]. }
    generalize (map fst pts) D. clear. intros l D. revert n. induction D as [|z zs Dz D IH]; intros [|n]; cbn [firstn]; constructor; [|apply IH].
    rewrite Forall_forall in *. intros w Iw. apply Dz. rewrite <- (firstn_skipn n zs). apply in_or_app. left. exact Iw.
  - intros z Iz. assert (Im : In z (map fst pts)) by (rewrite <- (firstn_skipn n (map fst pts)); apply in_or_app; left; exact Iz).
    apply in_map_iff in Im as ([x y] & <- & Ip). exists x, y. split; [exact Ip|reflexivity].
Qed.

Definition of_cubic (p : cubic) : list Q := [c0 p; c1 p; c2 p; c3 p].
Definition of_linear (p : linear) : list Q := [l0 p; l1 p].
Lemma of_cubic_value p x : value (of_cubic p) x == eval3 p x.
Proof. unfold of_cubic, eval3. cbn [value]. ring. Qed.
Lemma of_linear_value p x : value (of_linear p) x == eval1 p x.
Proof. unfold of_linear, eval1. cbn [value]. ring. Qed.
Lemma sse_of {P} (ev : P -> Q -> Q) f pts p : (forall p x, value (f p) x == ev p x) -> sse (list Q) value (f p) pts == sse P ev p pts.
Proof. intros E. unfold sse. induction pts as [|q r IH]; [reflexivity|]. cbn [map sum_of]. rewrite IH. unfold residual. rewrite E. reflexivity. Qed.

(** So the cubic and the straight line that the conversion uses are the best ones, and are there for four (two) or more
    points from left to right ... *)
Theorem C81_cubic pts p : polyfit3 pts = Some p -> best cubic eval3 p pts.
Proof.
  unfold polyfit3. destruct (polyfit 3 pts) as [q|] eqn:E; [|discriminate]. destruct (C81_least_squares _ _ _ E) as [[L B] _].
  destruct q as [|a [|c [|d [|e [|]]]]]; try discriminate. intros [= <-] p'. specialize (B (of_cubic p') ltac:(cbn; lia)).
  rewrite <- (sse_of eval3 of_cubic pts p' of_cubic_value), <- (sse_of eval3 of_cubic pts (mkcubic a c d e) of_cubic_value). exact B.
Qed.
Theorem C81_line pts p : polyfit1 pts = Some p -> best linear eval1 p pts.
Proof.
  unfold polyfit1. destruct (polyfit 1 pts) as [q|] eqn:E; [|discriminate]. destruct (C81_least_squares _ _ _ E) as [[L B] _].
  destruct q as [|a [|c [|]]]; try discriminate. intros [= <-] p'. specialize (B (of_linear p') ltac:(cbn; lia)).
  rewrite <- (sse_of eval1 of_linear pts p' of_linear_value), <- (sse_of eval1 of_linear pts (mklinear a c) of_linear_value). exact B.
Qed.
Theorem C81_fits : fits_least_squares eval3 4 polyfit3 /\ fits_least_squares eval1 2 polyfit1.
Proof.
  split; intros pts L C.
  - pose proof (chain_abscissae 4 pts L C) as A. apply (C81_defined 3) in A. destruct (polyfit 3 pts) as [q|] eqn:E; [|contradiction].
    destruct (polyfit_normal pts 3 q E) as [Lq _]. destruct q as [|a [|c [|d [|e [|]]]]]; try discriminate.
    assert (E3 : polyfit3 pts = Some (mkcubic a c d e)) by (unfold polyfit3; rewrite E; reflexivity).
    exists (mkcubic a c d e). split; [exact E3|apply C81_cubic; exact E3].
  - pose proof (chain_abscissae 2 pts L C) as A. apply (C81_defined 1) in A. destruct (polyfit 1 pts) as [q|] eqn:E; [|contradiction].
    destruct (polyfit_normal pts 1 q E) as [Lq _]. destruct q as [|a [|c [|]]]; try discriminate.
    assert (E1 : polyfit1 pts = Some (mklinear a c)) by (unfold polyfit1; rewrite E; reflexivity).
    exists (mklinear a c). split; [exact E1|apply C81_line; exact E1].
Qed.

(** ... which is what the theorems about whole recordings ask of them. *)
Theorem C81_libraries sc spline : reads_decimal sc -> spline_contract spline -> libraries sc polyfit3 polyfit1 spline.
Proof.
  intros Sc Sp. destruct C81_fits as [F3 F1]. split; [exact Sc|]. split; [|split; [|exact Sp]].
  - exact F3.
  - exact F1.
Qed.

(** One wrong point among 33 or more, at an ordinary place: the robust fit leaves out this point and no other, however
    small or large its error, and its result is the curve of the others. *)
Lemma same_cubic pts p c : (4 <= length pts)%nat -> chain Qlt (map fst pts) -> (forall x y, In (x, y) pts -> y == eval3 c x) -> (forall x y, In (x, y) pts -> y == eval3 p x) ->
  forall x, eval3 p x == eval3 c x.
Proof.
  intros L C On On' x. destruct pts as [|[x1 y1] [|[x2 y2] [|[x3 y3] [|[x4 y4] pts]]]]; try (cbn in L; lia).
  cbn [map fst chain] in C. destruct C as (A1 & A2 & A3 & _). rewrite !eval3_cubic.
  apply (cubic_unique _ _ x1 x2 x3 x4 A1 A2 A3); rewrite <- !eval3_cubic.
  - rewrite <- (On' x1 y1), <- (On x1 y1) by (left; reflexivity). reflexivity.
  - rewrite <- (On' x2 y2), <- (On x2 y2) by (right; left; reflexivity). reflexivity.
  - rewrite <- (On' x3 y3), <- (On x3 y3) by (right; right; left; reflexivity). reflexivity.
  - rewrite <- (On' x4 y4), <- (On x4 y4) by (right; right; right; left; reflexivity). reflexivity.
Qed.
Theorem C81_wrong_point fit lim pts before q0 after c : fits_least_squares eval3 4 fit -> (forall m, lim = Some m -> 0 <= m) ->
  (33 <= length pts)%nat -> chain Qlt (map fst pts) -> one_wrong eval3 c pts before q0 after -> ordinary pts (fst q0) ->
  exists p, robust_regress cubic fit eval3 4 lim None pts = Done p (before ++ after) /\ forall x, eval3 p x == eval3 c x.
Proof.
  intros F Lim L C W O.
  destruct (wrong_left_out cubic eval3 comb3 one3 fit 4 F (le_n 4) 4 pts before q0 after c lim ltac:(reflexivity) L C W (ordinary_ip _ _ O) Lim) as (p & Pr & On').
  exists p. split; [apply robust_iff; exact Pr|]. destruct W as (Ep & On & _).
  apply (same_cubic (before ++ after)); [|apply (chain_skip pts); [rewrite Ep; apply subsequence_middle|exact C]|exact On|exact On'].
  rewrite Ep, app_length in L. rewrite app_length. cbn [length] in L. lia.
Qed.

(** Every place among equally spaced points is ordinary. *)
Theorem C81_evenly pts q : (33 <= length pts)%nat -> evenly pts -> In q pts -> ordinary pts (fst q).
Proof.
  intros L (a & s & Ps & E) Iq p.
  set (k0 := eval3 p a). set (k1 := s * (c1 p + 2 * c2 p * a + 3 * c3 p * (a * a))). set (k2 := s * s * (c2 p + 3 * c3 p * a)). set (k3 := s * s * s * c3 p).
  assert (X : forall i w, nth_error pts i = Some w -> eval3 p (fst w) == k0 + k1 * inject_Z (Z.of_nat i) + k2 * (inject_Z (Z.of_nat i) * inject_Z (Z.of_nat i)) + k3 * (inject_Z (Z.of_nat i) * inject_Z (Z.of_nat i) * inject_Z (Z.of_nat i))).
  { intros i w Ei. unfold eval3 at 1. rewrite (E i w Ei). unfold k0, k1, k2, k3, eval3. ring. }
  rewrite (sum_of_ip (fun q => fst q) (eval3 p)).
  rewrite (even_sum k0 k1 k2 k3 (fun w => eval3 p (fst w)) pts 0).
  2:{ intros i w Ei. rewrite (X i w Ei). unfold curve_of. ring. }
  rewrite T_zero, (T_proper k0 k1 k2 k3 (0 + number pts) (number pts)) by ring.
  apply In_nth_error in Iq as (i & Ei). rewrite (X i q Ei). assert (Li : (i < length pts)%nat) by (apply nth_error_Some; congruence).
  assert (N33 : 33 <= number pts) by (unfold number; change 33 with (inject_Z 33); rewrite <- Zle_Qle; lia).
  assert (I0 : 0 <= inject_Z (Z.of_nat i)) by (change 0 with (inject_Z 0); rewrite <- Zle_Qle; lia).
  assert (I1 : inject_Z (Z.of_nat i) <= number pts - 1).
  { unfold number. change 1 with (inject_Z 1). unfold Qminus. rewrite <- inject_Z_opp, <- inject_Z_plus, <- Zle_Qle. lia. }
  pose proof (even_bound k0 k1 k2 k3 (number pts) (inject_Z (Z.of_nat i)) N33 I0 I1) as B. unfold curve_of in B. lra.
Qed.

(** One wrong GPS fix: with 33 or more fixes, at an ordinary place, of a clock that runs at an even rate, the file is
    accepted, one fix is left out, and the clock found is the true one. *)
Theorem C81_wrong_fix fit3 fit1 L before q0 after tau : fits_least_squares eval3 4 fit3 -> fits_least_squares eval1 2 fit1 ->
  data L <> [] -> (33 <= length (fixes L))%nat -> chain Qlt (map fst (fixes L)) -> c2 tau == 0 -> c3 tau == 0 ->
  one_wrong eval3 tau (fixes L) before q0 after -> ordinary (fixes L) (fst q0) -> covers L -> spread_out L (before ++ after) ->
  exists h, calculate_drift fit3 fit1 L true = inl h /\ describes L h /\ S (h_nonoutliers h) = length (fixes L) /\
    forall x, eval3 (h_fit h) x == eval3 tau x.
Proof.
  intros F3 F1 N L33 Ch Z2 Z3 W O Cv Sp.
  destruct (wrong_left_out cubic eval3 comb3 one3 fit3 4 F3 (le_n 4) 4 _ before q0 after tau (Some (1 # 100)) ltac:(reflexivity) L33 Ch W (ordinary_ip _ _ O)) as (p & Pr & On').
  { intros m [= <-]. discriminate. }
  set (line := mklinear (c0 tau) (c1 tau)).
  assert (El : forall x, eval1 line x == eval3 tau x) by (intros x; unfold eval1, eval3, line; cbn [l0 l1]; rewrite Z2, Z3; ring).
  assert (W1 : one_wrong eval1 line (fixes L) before q0 after).
  { destruct W as (Ep & On & Wr). split; [exact Ep|]. split; [intros x y Hi; rewrite El; apply On; exact Hi|rewrite El; exact Wr]. }
  destruct (wrong_left_out linear eval1 comb1 one1 fit1 2 F1 ltac:(lia) 4 _ before q0 after line None ltac:(reflexivity) L33 Ch W1) as (p1 & Pr1 & On1).
  { intros r. pose proof (ordinary_ip _ _ O (mkcubic (l0 r) (l1 r) 0 0)) as X.
    assert (E : forall x, eval3 (mkcubic (l0 r) (l1 r) 0 0) x == eval1 r x) by (intros x; unfold eval1, eval3; cbn [c0 c1 c2 c3]; ring).
    rewrite E in X. rewrite (ip_ext _ _ (fun q => eval1 r (fst q)) _ (fun q => eval1 r (fst q))) in X by (intros; apply E). exact X. }
  { discriminate. }
  assert (Lk : S (length (before ++ after)) = length (fixes L)) by (destruct W as (Ep & _); rewrite Ep, !app_length; cbn; lia).
  assert (Ng : gps L <> []) by (intros E; unfold fixes in L33; rewrite E in L33; cbn in L33; lia).
  assert (De : exists a b, from_to (sample_clock L) a b) by (destruct Cv as (a & b & _ & _ & X & _); eauto). destruct De as (a & b & FT).
  exists (mkhi a b p (length (gps L)) (length (before ++ after)) (Some (max_abs (residuals cubic eval3 p (before ++ after))))).
  cbn [h_nonoutliers h_fit]. split; [|split; [split; [exact FT|reflexivity]|split; [exact Lk|]]].
  - apply C17_accepted_iff; [exact N|]. split; [exact Ng|]. split; [exact Cv|]. split; [|split; [split; [exact FT|reflexivity]|]].
    + exists p1, (before ++ after). split; [exact Pr1|]. unfold smooth.
      assert (R0 : forall q, In q (before ++ after) -> residual linear eval1 p1 q == 0) by (intros [x y] I; unfold residual; cbn [fst snd]; rewrite (On1 x y I); ring).
      revert R0. generalize (before ++ after). clear. induction l as [|q [|q' l] IH]; intros R0; [exact I|exact I|]. split; [|apply IH; intros r Ir; apply R0; right; exact Ir].
      rewrite (R0 q) by (left; reflexivity). rewrite (R0 q') by (right; left; reflexivity). vm_compute. discriminate.
    + exists (before ++ after). cbn [h_fit h_nonoutliers h_mad]. split; [|split; reflexivity]. split; [exact Pr|]. split; [unfold point in *; lia|]. split; [|exact Sp].
      apply Forall_forall. intros [x y] Hi. unfold residual. cbn [fst snd]. rewrite <- (On' x y Hi). setoid_replace (y - y) with 0 by ring. vm_compute. discriminate.
  - destruct W as (Ep & On & _). apply (same_cubic (before ++ after)); [unfold point in *; lia|apply (chain_skip (fixes L)); [rewrite Ep; apply subsequence_middle|exact Ch]|exact On|exact On'].
Qed.

(** With equally spaced fixes this is so wherever the wrong one is. *)
Corollary C81_wrong_fix_evenly L before q0 after tau :
  data L <> [] -> (33 <= length (fixes L))%nat -> evenly (fixes L) -> c2 tau == 0 -> c3 tau == 0 ->
  one_wrong eval3 tau (fixes L) before q0 after -> covers L -> spread_out L (before ++ after) ->
  exists h, calculate_drift polyfit3 polyfit1 L true = inl h /\ describes L h /\ S (h_nonoutliers h) = length (fixes L) /\
    forall x, eval3 (h_fit h) x == eval3 tau x.
Proof.
  intros N L33 E Z2 Z3 W Cv Sp. destruct C81_fits as [F3 F1].
  apply (C81_wrong_fix polyfit3 polyfit1 L before q0 after tau F3 F1 N L33); try assumption.
  - destruct E as (a & s & Ps & E). clear - Ps E. revert a E. generalize (fixes L) as pts. induction pts as [|q pts IH]; intros a E; [exact I|].
    cbn [map]. assert (E' : forall i w, nth_error pts i = Some w -> fst w == a + s + s * inject_Z (Z.of_nat i)).
    { intros i w Ei. rewrite (E (S i) w Ei), Nat2Z.inj_succ. unfold Z.succ. rewrite inject_Z_plus. ring. }
    specialize (IH (a + s) E'). destruct pts as [|w pts]; [exact I|]. cbn [map] in *. split; [|exact IH].
    rewrite (E 0%nat q eq_refl), (E' 0%nat w eq_refl). change (inject_Z (Z.of_nat 0)) with 0. lra.
  - apply C81_evenly; [exact L33|exact E|]. destruct W as (-> & _). apply in_elt.
Qed.

(** Forty fixes, 16 s apart, of a clock with 1.024 ms per count; the last says one second too much. *)
Definition wf_point (i : Z) : fix_ * Z :=
  (mkfix (inject_Z (15625 * i)) None None None None None None None None None, (1600000000 + 16 * i + if i =? 39 then 1 else 0)%Z).
Definition wf_numbers : list Z := map Z.of_nat (seq 0 40).
Definition wf_table : tables := mktab [(0, Some 1); (300000, Some 2); (600000, Some 1)] [] (map wf_point wf_numbers).
Definition wf_clock : cubic := mkcubic 1600000000 (1024 # 1000000) 0 0.
Notation wf_before := (firstn 39 (fixes wf_table)).
Notation wf_last := (inject_Z (15625 * 39), inject_Z 1600000625).
Example C81_case :
  data wf_table <> [] /\ (33 <= length (fixes wf_table))%nat /\ evenly (fixes wf_table) /\ one_wrong eval3 wf_clock (fixes wf_table) wf_before wf_last [] /\
  covers wf_table /\ spread_out wf_table (wf_before ++ []) /\
  (exists p, polyfit3 (fixes wf_table) = Some p /\ ~ eval3 p 0 == eval3 wf_clock 0) /\
  exists h, calculate_drift polyfit3 polyfit1 wf_table true = inl h /\ h_nonoutliers h = 39%nat /\ eval3 (h_fit h) 15625 == 1600000016.
Proof.
  assert (A0 : data wf_table <> []) by discriminate.
  assert (A1 : (33 <= length (fixes wf_table))%nat) by (apply Nat.leb_le; vm_compute; reflexivity).
  assert (A2 : evenly (fixes wf_table)).
  { exists 0, 15625. split; [reflexivity|]. intros i q E.
    assert (Li : (i < 40)%nat) by (change 40%nat with (length (fixes wf_table)); apply nth_error_Some; rewrite E; discriminate).
    do 40 (destruct i as [|i]; [injection E as <-; vm_compute; reflexivity|]). lia. }
  assert (A3 : one_wrong eval3 wf_clock (fixes wf_table) wf_before wf_last []).
  { split; [vm_compute; reflexivity|]. split; [|vm_compute; discriminate].
    assert (X : forallb (fun q => Qeq_bool (snd q) (eval3 wf_clock (fst q))) (wf_before ++ []) = true) by (vm_compute; reflexivity).
    rewrite forallb_forall in X. intros x y Hi. apply X in Hi. apply Qeq_bool_iff in Hi. exact Hi. }
  assert (A4 : covers wf_table).
  { exists 0, 600000, (inject_Z 1600000000), (inject_Z 1600000625). split; [split; [reflexivity|exists [0; 300000]; reflexivity]|]. split.
    - split; [reflexivity|]. exists (firstn 39 (map snd (fixes wf_table))). vm_compute. reflexivity.
    - left. split; [discriminate|reflexivity]. }
  assert (A5 : spread_out wf_table (wf_before ++ [])).
  { exists 0, 600000, 0, (inject_Z (15625 * 38)). split; [split; [reflexivity|exists [0; 300000]; reflexivity]|]. split.
    - split; [reflexivity|]. exists (firstn 38 (map fst (fixes wf_table))). vm_compute. reflexivity.
    - right. left. split; [reflexivity|discriminate]. }
  repeat (split; [assumption|]). split.
  - eexists. split; [vm_compute; reflexivity|]. vm_compute. discriminate.
  - destruct (C81_wrong_fix_evenly wf_table _ _ _ wf_clock A0 A1 A2 ltac:(reflexivity) ltac:(reflexivity) A3 A4 A5) as (h & E & _ & Nn & X).
    exists h. split; [exact E|]. split; [change (length (fixes wf_table)) with 40%nat in Nn; congruence|]. rewrite X. vm_compute. reflexivity.
Qed.

(** [abscissae] and the least squares on a small case: the line of three points with two different abscissae. *)
Example C81_case_line : polyfit 1 [(0, 1); (0, 3); (2, 6)] = Some [2; 2] /\ polyfit 1 [(1, 1); (1, 3)] = None /\ polyfit 2 [(0, 1); (0, 3); (2, 6)] = None /\
  abscissae 2 [(0, 1); (0, 3); (2, 6)].
Proof. repeat (split; [vm_compute; reflexivity|]). apply (C81_defined 1). vm_compute. discriminate. Qed.

(** With few fixes this cannot be: with sixteen or fewer no residual is ever beyond four standard deviations. *)
Theorem C81_few_fixes pts p : best cubic eval3 p pts -> (length pts <= 16)%nat ->
  forall q, In q pts -> ~ beyond_z cubic eval3 4 p pts q.
Proof.
  intros B L q Iq (v & (m & Hm & Hv) & Lv).
  assert (Np : 0 < number pts).
  { unfold number. destruct pts; [contradiction|]. cbn [length]. change 0 with (inject_Z 0). rewrite <- Zlt_Qlt. lia. }
  assert (N16 : number pts <= 16) by (unfold number; change 16 with (inject_Z 16); rewrite <- Zle_Qle; lia).
  destruct one3 as (o & Eo). pose proof (normal cubic eval3 comb3 p pts B o) as M.
  assert (S0 : sum_of (residuals cubic eval3 p pts) == 0).
  { rewrite <- M. clear - Eo. unfold residuals. induction pts as [|w r IH]; [reflexivity|]. cbn [map sum_of ip]. rewrite IH, Eo. ring. }
  unfold is_mean, residuals, number in Hm, Hv. rewrite map_length in Hm, Hv. fold (residuals cubic eval3 p pts) in Hm. fold (number pts) in Hm, Hv. rewrite S0 in Hm.
  assert (m == 0) as M0 by (apply Qmult_integral in Hm as [Hm|Hm]; [rewrite Hm in Np; discriminate|exact Hm]).
  assert (Sv : number pts * v == ip pts (residual cubic eval3 p) (residual cubic eval3 p)).
  { rewrite Hv. clear - M0. induction pts as [|w r IH]; [reflexivity|]. cbn [map sum_of ip]. rewrite IH, M0. ring. }
  pose proof (ip_one_le pts (residual cubic eval3 p) q Iq) as Le.
  assert (V0 : 0 <= v) by (pose proof (ip_square pts (residual cubic eval3 p)); assert (0 <= number pts * v) by lra; apply Qnot_lt_le; intros X; assert (number pts * v < 0) by nra; lra).
  assert (number pts * v <= 16 * v) by (apply Qmult_le_compat_r; assumption). lra.
Qed.

Print Assumptions C81_least_squares.
Print Assumptions C81_defined.
Print Assumptions C81_cubic.
Print Assumptions C81_line.
Print Assumptions C81_fits.
Print Assumptions C81_libraries.
Print Assumptions C81_wrong_point.
Print Assumptions C81_evenly.
Print Assumptions C81_wrong_fix.
Print Assumptions C81_wrong_fix_evenly.
Print Assumptions C81_few_fixes.
