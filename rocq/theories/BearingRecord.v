(** C79: from the samples of a record to the directions of its windows. *)
From Coq Require Import String.
From Coq Require Import ZArith QArith Qreals Reals List Bool Lia Lqa Lra.
From Verif Require Import Lib Base Scan Names Stations InventorySpec Gps GpsProofs Windows WindowsSpec WindowsProps Slowness SlownessProofs SlownessSpec SlownessProps
  Xcorr Directions DirectionsProps Bearing BearingSpec BearingProofs BearingProps.
Import ListNotations.
Open Scope R_scope.

Lemma nb_length {A} (P : A -> A -> Q -> Prop) l lags : neighbours P l lags -> length lags = pred (length l).
Proof. induction 1 as [|x|x y r t l H N IH]; [reflexivity|reflexivity|]. cbn [length pred] in *. rewrite IH. reflexivity. Qed.
Lemma rows_length ps : length (rows ps) = pred (length ps).
Proof. induction ps as [|p ps IH]; [reflexivity|]. destruct ps as [|q ps]; [reflexivity|]. rewrite rows_cons. cbn [length pred] in *. rewrite IH. reflexivity. Qed.
Lemma misfit_exists v ps : forall lags, length (rows ps) = length lags -> exists m, misfit v ps lags m.
Proof.
  induction ps as [|p ps IH]; intros lags L.
  - destruct lags; [|discriminate L]. exists 0%Q. constructor.
  - destruct ps as [|q ps].
    + destruct lags; [|discriminate L]. exists 0%Q. constructor.
    + rewrite rows_cons in L. destruct lags as [|t lags]; [discriminate L|]. destruct (IH lags ltac:(cbn [length] in L; lia)) as (m & M).
      eexists. constructor. exact M.
Qed.

(** The best wave is the solution of the normal equations. *)
Lemma least_solve ps lags v : ~ collinear ps -> length (rows ps) = length lags ->
  (forall u k k', misfit v ps lags k -> misfit u ps lags k' -> k <= k')%Q ->
  exists x, solve (rows ps) lags = Some x /\ (fst v == fst x)%Q /\ (snd v == snd x)%Q.
Proof.
  intros C L LS. destruct (proj1 (not_collinear ps lags) C) as (x & X). exists x. split; [exact X|].
  destruct (misfit_exists v ps lags L) as (k & K), (misfit_exists x ps lags L) as (k' & K').
  pose proof (LS x k k' K K') as LE. destruct (misfit_rss _ _ _ _ K) as [R1 _], (misfit_rss _ _ _ _ K') as [R2 _].
  set (g := rows ps) in *. destruct v as [p q], x as [p' q']. destruct (solve_normal g lags p' q' X) as (D & N1 & N2).
  rewrite R1, R2, !(rss_expand _ _ _ L) in LE. cbn [fst snd] in *. rewrite <- N1, <- N2 in LE.
  set (a := (p - p')%Q). set (c := (q - q')%Q).
  assert (P : (0 <= qsum (map (fun r : Q * Q => (a * fst r + c * snd r) * (a * fst r + c * snd r)) g))%Q)
    by apply (qsum_sq (fun r : Q * Q => (a * fst r + c * snd r)%Q)).
  assert (PE : (qsum (map (fun r : Q * Q => (a * fst r + c * snd r) * (a * fst r + c * snd r)) g) ==
    ga g * a * a + 2 * gh g * a * c + gc g * c * c)%Q).
  { unfold ga, gh, gc. clearbody a c. clear. induction g as [|r g IH]; cbn; [ring|]. unfold qsum in IH. rewrite IH. ring. }
  assert (Z : (qsum (map (fun r : Q * Q => (a * fst r + c * snd r) * (a * fst r + c * snd r)) g) == 0)%Q).
  { apply Qle_antisym; [|exact P]. rewrite PE. unfold a, c.
    set (A := ga g) in *. set (H := gh g) in *. set (G := gc g) in *. set (K0 := qsum (map (fun x => x * x)%Q lags)) in *. clear - LE.
    assert (E : (A * (p - p') * (p - p') + 2 * H * (p - p') * (q - q') + G * (q - q') * (q - q') ==
      (A * p * p + 2 * H * p * q + G * q * q - 2 * (A * p' + H * q') * p - 2 * (H * p' + G * q') * q + K0) -
      (A * p' * p' + 2 * H * p' * q' + G * q' * q' - 2 * (A * p' + H * q') * p' - 2 * (H * p' + G * q') * q' + K0))%Q) by ring.
    rewrite E. Lqa.lra. }
  apply (qsum_sq_zero (fun r : Q * Q => (a * fst r + c * snd r)%Q)) in Z.
  destruct (Qeq_dec a 0) as [A0|A0]; [destruct (Qeq_dec c 0) as [C0|C0]|].
  - unfold a in A0. unfold c in C0. split; Lqa.lra.
  - destruct D. apply det_zero. exists a, c. split; [intros [_ H]; contradiction|exact Z].
  - destruct D. apply det_zero. exists a, c. split; [intros [H _]; contradiction|exact Z].
Qed.

(** For every stream of named sensors with data in each window: the directions of all windows are computed, and if
    the lags found by correlation in a window are close to those of a plane wave, slowness and direction are close to
    those of the wave; the bound is the size of the errors of the lags over the aperture of the array. *)
Theorem C79_record (S : Type) (prepare : list S -> list S) std correlate dt maxshift south still st t1 t2 win overlap ids ps ls :
  zeros south still ->
  record st t1 t2 -> (0 < win)%Q -> (0 <= overlap < 1)%Q -> (win + (1#1000000) * wanted_step win overlap < t2 - t1)%Q ->
  Forall2 station_is ids st -> NoDup ids -> Forall plain ids -> complete st t1 t2 win ->
  NoDup (map fst ls) -> Forall2 (fun i p => In (i, p) ls) ids ps -> ~ collinear ps ->
  exists m step starts tmid res,
    spread t1 t2 win step m starts /\ (0 < step <= (1 + (1#1000000)) * wanted_step win overlap)%Q /\
    bearings south still prepare std correlate dt maxshift st win overlap ls = Some (tmid, res) /\
    Forall2 (fun s t => t == s + win / 2)%Q starts tmid /\ length res = length starts /\
    forall j t w lags az s true_lags k e a, nth_error starts j = Some t -> cut (in_window win t) st w ->
      neighbours (fun x y t => t = lag_between prepare correlate dt maxshift x y) w lags ->
      0 < s -> lags_of_wave az s (real_points ps) true_lags -> squares_between (map Q2R lags) true_lags k ->
      aperture (real_points ps) a -> 0 <= e -> k <= e * e -> e < a * s ->
      exists az' s', nth_error res j = Some (Some (az', s')) /\ -180 <= az' <= 180 /\
        Rabs (s' - s) <= e / a /\ 0 < cos (radians (az' - az)) /\ Rabs (sin (radians (az' - az))) <= e / (a * s).
Proof.
  intros Z R W O L St ND Pl Co NL Lo NC.
  destruct (C57_directions prepare std correlate dt maxshift st t1 t2 win overlap ids ps ls R W O L St ND Pl Co NL Lo NC)
    as (m & step & starts & tmid & res & SP & STEP & DIR & MID & LEN & ALL).
  unfold directions in DIR. destruct (apply_function_windows (analyse prepare std correlate dt maxshift) st win overlap) as [r|] eqn:AF; [|discriminate DIR].
  destruct (invert_for_slowness (table r) (length (fst r)) ls) as [res0|] eqn:INV; [|discriminate DIR]. injection DIR as E1 E2. subst res0 tmid.
  set (ang := fun a => (arctan2 south still (Q2R (fst (toward a))) (Q2R (snd (toward a))) * 180 / PI, sqrt (Q2R (slowness2 a)))).
  exists m, step, starts, (fst r), (map (option_map ang) res). split; [exact SP|]. split; [exact STEP|]. split.
  { unfold bearings. rewrite AF, C79_rational, INV. reflexivity. }
  split; [exact MID|]. split; [rewrite map_length; exact LEN|].
  intros j t w lags az s true_lags k e a J CUT NB SPOS WV SQ AP EP KE EA.
  destruct (ALL j t w lags J CUT NB) as (arr & v & RJ & TO & SL & LS & _).
  assert (LW : length lags = length (rows ps)).
  { rewrite (nb_length _ _ _ NB), rows_length. f_equal. rewrite <- (Forall2_length_eq _ _ _ Lo), (Forall2_length_eq _ _ _ St).
    assert (M : map fst w = map fst st).
    { apply (complete_cut st win t w); [|exact CUT]. intros id tr I. destruct SP as [Ls SPR]. destruct (SPR j t J) as [S1 _].
      assert (Bi : (j < length starts)%nat) by (apply nth_error_Some; congruence).
      destruct (nth_error starts m) as [z|] eqn:EM; [|apply nth_error_None in EM; lia].
      destruct (SPR m z EM) as [Z1 Z2]. specialize (Z2 eq_refl).
      assert (LE : (inject_Z (Z.of_nat j) * step <= inject_Z (Z.of_nat m) * step)%Q) by (apply Qmult_le_compat_r; [rewrite <- Zle_Qle; lia|Lqa.lra]).
      assert (LE0 : (0 <= inject_Z (Z.of_nat j) * step)%Q) by (apply Qmult_le_0_compat; [change 0%Q with (inject_Z 0); rewrite <- Zle_Qle; lia|Lqa.lra]).
      apply (Co id tr t I); Lqa.lra. }
    rewrite <- (map_length fst w), M, map_length. reflexivity. }
  destruct (least_solve ps lags v NC (eq_sym LW) LS) as (x & X & V1 & V2).
  assert (RS : rsolve (rrows (real_points ps)) (map Q2R lags) = Some (Q2R (fst v), Q2R (snd v))).
  { rewrite real_rows, real_solve, X. cbn [option_map]. rewrite (Qeq_eqR _ _ V1), (Qeq_eqR _ _ V2). reflexivity. }
  assert (LR : length (rrows (real_points ps)) = length (map Q2R lags)).
  { rewrite real_rows. unfold real_points. rewrite !map_length. symmetry. exact LW. }
  assert (BE : ang arr = bearing_of south still (Q2R (fst v), Q2R (snd v))).
  { unfold ang, bearing_of. rewrite TO. cbn [fst snd]. rewrite !Q2R_opp, (Qeq_eqR _ _ SL), Q2R_plus, !Q2R_mult. reflexivity. }
  destruct (bearing_of south still (Q2R (fst v), Q2R (snd v))) as [az' s'] eqn:B.
  exists az', s'. split; [rewrite nth_error_map, RJ; cbn [option_map]; rewrite BE; reflexivity|].
  split; [|exact (timing_core south still (real_points ps) (map Q2R lags) _ az' s' az s true_lags k e a Z RS LR B SPOS WV SQ AP EP KE EA)].
  pose proof (zeros_range south still Z) as [Z1 Z2]. pose proof (bearing_range south still (Q2R (fst v), Q2R (snd v)) Z1 Z2) as A. rewrite B in A.
  apply abs_between. exact A.
Qed.

(** The case of C57 (whose other conditions are shown there): a wave of which all lags are found exactly. *)
Example C79_record_case : zeros PI 0 /\
  (exists w, cut (in_window 2 0) case_st w /\
     neighbours (fun x y t => t = lag_between (fun d => d) case_correlate 1 (Some 20%Q) x y) w [(-3)%Q; (-6)%Q]) /\
  exists az s a, -180 <= az <= 180 /\ 0 < s /\ lags_of_wave az s (real_points case_ps) [-3; -6] /\
    squares_between (map Q2R [(-3)%Q; (-6)%Q]) [-3; -6] 0 /\ aperture (real_points case_ps) a /\ 0 < a * s.
Proof.
  split; [split; left; reflexivity|]. split.
  - exists (map (fun tr => (fst tr, firstn 2 (snd tr))) case_st). split.
    + unfold case_st. cbn [map]. repeat (apply cut_keep; [|discriminate|]); try apply cut_nil;
        cbn [case_trace snd fst map seq Nat.sub firstn]; repeat (apply tw_yes; [split; cbn; unfold inject_Z; Lqa.lra|]);
        repeat (apply tw_no; [intros [? H]; revert H; cbn; unfold inject_Z; Lqa.lra|]); apply tw_nil.
    + repeat constructor.
  - destruct (bearing_of PI 0 (1, 2)) as [az s] eqn:B. destruct (bearing_vector PI 0 (1, 2) az s (or_introl eq_refl) B) as [V S0].
    pose proof (bearing_range PI 0 (1, 2)) as RG. rewrite B in RG. pose proof PI_RGT_0 as P. cbn [fst] in RG.
    destruct (C79_aperture (real_points case_ps)) as (a & A); [rewrite real_collinear; apply C57_case|].
    unfold vector in V. injection V as V1 V2.
    assert (SP : 0 < s) by (destruct (Req_EM_T s 0) as [E|E]; [rewrite E in V1; lra|lra]).
    exists az, s, a. split; [apply abs_between, RG; rewrite abs_between; lra|]. split; [exact SP|].
    assert (RC : forall p, reaches az s p = fst p + 2 * snd p).
    { intros p. unfold reaches. replace (- (s * (fst p * sin (radians az) + snd p * cos (radians az)))) with (fst p * - (s * sin (radians az)) + snd p * - (s * cos (radians az))) by ring.
      rewrite <- V1, <- V2. ring. }
    split; [|split; [|split; [exact A|destruct A; nra]]].
    + unfold lags_of_wave, real_points, case_ps. cbn [map]. constructor; [rewrite !RC; unfold Q2R; cbn; lra|]. constructor; [rewrite !RC; unfold Q2R; cbn; lra|]. constructor.
    + assert (X3 : Q2R (-3) = -3) by (unfold Q2R; cbn; lra). assert (X6 : Q2R (-6) = -6) by (unfold Q2R; cbn; lra).
      cbn [map]. rewrite X3, X6.
      replace 0 with ((-3 - -3) * (-3 - -3) + ((-6 - -6) * (-6 - -6) + 0)) by ring. repeat constructor.
Qed.

Print Assumptions C79_record.
