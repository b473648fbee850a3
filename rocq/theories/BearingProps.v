(** C79: backazimuth in degrees and slowness. *)
From Coq Require Import String.
From Coq Require Import QArith Qreals Reals List Bool Lia Lra.
From Verif Require Import Lib Base Scan Names Stations Gps GpsProofs Slowness SlownessProofs SlownessSpec Bearing BearingSpec BearingProofs.
Import ListNotations.
Open Scope R_scope.

(** What the C function gives for zeros, whose signs are not modelled. *)
Definition zeros (south still : R) : Prop :=
  (south = PI \/ south = - PI) /\ (still = 0 \/ still = PI \/ still = - PI).

Lemma zeros_range south still : zeros south still -> Rabs south <= PI /\ Rabs still <= PI.
Proof. intros [SO ST]. pose proof PI_RGT_0. rewrite !abs_between. destruct SO as [->| ->], ST as [->|[->| ->]]; lra. Qed.

(** A plane wave from any direction over any array that is not a line is found exactly. *)
Theorem C79_plane_wave south still d n ls ids ps w lags az s :
  zeros south still -> xcorr_table ids d -> Forall simple_id ids -> NoDup (map fst ls) ->
  Forall2 (fun i p => In (i, p) ls) ids ps -> ~ on_a_line ps -> (w < n)%nat ->
  adjacent (lag_in d w) (combine ids ps) lags ->
  0 < s -> -180 <= az <= 180 -> lags_of_wave az s ps lags ->
  exists res az', find_directions south still d n ls = Some res /\ length res = n /\ nth_error res w = Some (Some (az', s)) /\
    (-180 < az < 180 -> az' = az) /\ (az = 180 \/ az = -180 -> az' = 180 \/ az' = -180).
Proof.
  intros Z T F L P C W NB SP AZ WV.
  destruct (directions_line south still d n ls ids ps w lags T F L P C W NB) as (res & v & E1 & E2 & E3 & E4 & E5).
  assert (V : v = vector az s).
  { apply wave_rows in WV. destruct v as [x y]. pose proof (rsolve_normal _ _ _ _ E4) as (D & N1 & N2).
    destruct (rexact_sums _ _ _ _ WV) as [X1 X2]. rewrite X1 in N1. rewrite X2 in N2.
    destruct (rnormal_unique (rrows ps) x y (fst (vector az s)) (snd (vector az s)) D N1 N2) as [-> ->]. reflexivity. }
  subst v. exists res. destruct Z as [SO ST].
  destruct (Req_EM_T az 180) as [A|A]; [|destruct (Req_EM_T az (-180)) as [A'|A']].
  - destruct (bearing_south south still az s SO SP (or_introl A)) as [B1 B2].
    exists (fst (bearing_of south still (vector az s))). rewrite (surjective_pairing (bearing_of _ _ _)) in E3. rewrite B2 in E3.
    split; [exact E1|]. split; [exact E2|]. split; [exact E3|]. split; [lra|auto].
  - destruct (bearing_south south still az s SO SP (or_intror A')) as [B1 B2].
    exists (fst (bearing_of south still (vector az s))). rewrite (surjective_pairing (bearing_of _ _ _)) in E3. rewrite B2 in E3.
    split; [exact E1|]. split; [exact E2|]. split; [exact E3|]. split; [lra|auto].
  - rewrite bearing_exact in E3 by lra. exists az. repeat split; auto; try lra.
Qed.

Lemma squares_exist l : forall r, length l = length r -> exists m, squares_between l r m.
Proof.
  induction l as [|x l IH]; intros [|y r] E; try discriminate E; [exists 0; constructor|].
  destruct (IH r ltac:(cbn in E; lia)) as (m & M). eexists. constructor. exact M.
Qed.

Lemma same_angle a c : sin a = sin c -> cos a = cos c -> exists k : Z, a = c + 2 * IZR k * PI.
Proof.
  intros E1 E2. assert (D : cos (a - c) = 1).
  { rewrite cos_minus, E1, E2. pose proof (sin2_cos2 c) as H. unfold Rsqr in H. lra. }
  replace (a - c) with (2 * ((a - c) / 2)) in D by field. rewrite cos_2a_sin in D.
  assert (Z : sin ((a - c) / 2) = 0) by nra. apply sin_eq_0_0 in Z as (k & Z). exists k. lra.
Qed.

Lemma vector_norm az s : fst (vector az s) * fst (vector az s) + snd (vector az s) * snd (vector az s) = s * s.
Proof.
  unfold vector. cbn [fst snd]. pose proof (sin2_cos2 (radians az)) as H. unfold Rsqr in H.
  replace (- (s * sin (radians az)) * - (s * sin (radians az)) + - (s * cos (radians az)) * - (s * cos (radians az)))
    with (s * s * (sin (radians az) * sin (radians az) + cos (radians az) * cos (radians az))) by ring.
  rewrite H. ring.
Qed.

Lemma same_vector az s az' s' : 0 <= s -> 0 <= s' -> vector az s = vector az' s' ->
  s' = s /\ (0 < s -> exists k : Z, az' = az + 360 * IZR k).
Proof.
  intros S1 S2 E. pose proof PI_RGT_0 as P. assert (N : s * s = s' * s') by (rewrite <- (vector_norm az s), <- (vector_norm az' s'), E; reflexivity).
  assert (SS : s' = s) by nra. split; [exact SS|]. subst s'. intros SP. unfold vector in E. injection E as E1 E2.
  destruct (same_angle (radians az') (radians az)) as (k & K); [nra|nra|]. exists k. unfold radians in K.
  apply (Rmult_eq_reg_r (PI / 180)); [|lra]. lra.
Qed.

(** Whatever the lags, the wave found fits them better than every other wave. *)
Theorem C79_least_squares south still d n ls ids ps w lags :
  zeros south still -> xcorr_table ids d -> Forall simple_id ids -> NoDup (map fst ls) ->
  Forall2 (fun i p => In (i, p) ls) ids ps -> ~ on_a_line ps -> (w < n)%nat ->
  adjacent (lag_in d w) (combine ids ps) lags ->
  exists res az s found m, find_directions south still d n ls = Some res /\ nth_error res w = Some (Some (az, s)) /\
    -180 <= az <= 180 /\ 0 <= s /\ lags_of_wave az s ps found /\ squares_between lags found m /\
    forall az' s' other m', 0 <= s' -> lags_of_wave az' s' ps other -> squares_between lags other m' ->
      m <= m' /\ (m = m' -> s' = s /\ (0 < s -> exists k : Z, az' = az + 360 * IZR k)).
Proof.
  intros Z T F L P C W NB.
  destruct (directions_line south still d n ls ids ps w lags T F L P C W NB) as (res & v & E1 & E2 & E3 & E4 & E5).
  destruct (bearing_of south still v) as [az s] eqn:B. destruct (bearing_vector south still v az s (proj1 Z) B) as [V SP].
  pose proof (zeros_range south still Z) as [Z1 Z2]. pose proof (bearing_range south still v Z1 Z2) as A. rewrite B in A.
  destruct (wave_exists az s ps) as (found & WV & LF). destruct (squares_exist lags found ltac:(congruence)) as (m & M).
  exists res, az, s, found, m. split; [exact E1|]. split; [exact E3|]. split; [cbn [fst] in A; apply abs_between; exact A|]. split; [exact SP|].
  split; [exact WV|]. split; [exact M|]. intros az' s' other m' SP' WV' M'.
  destruct (squares_rrss _ _ _ _ _ _ WV M) as [-> _]. destruct (squares_rrss _ _ _ _ _ _ WV' M') as [-> _].
  rewrite <- V. rewrite (rsolve_splits (rrows ps) lags v (vector az' s') E5 E4).
  set (p := fst (vector az' s') - fst v). set (q := snd (vector az' s') - snd v).
  pose proof (rsum_sq (fun r : R * R => p * fst r + q * snd r) (rrows ps)) as SQ. pose proof (rquad (rrows ps) p q) as RQ. cbv beta in SQ.
  split; [lra|]. intros EQ. apply same_vector; [exact SP|exact SP'|]. rewrite <- V.
  assert (ZZ : rsum (map (fun r : R * R => (p * fst r + q * snd r) * (p * fst r + q * snd r)) (rrows ps)) = 0) by lra.
  apply (rsum_sq_zero (fun r : R * R => p * fst r + q * snd r)) in ZZ.
  assert (PQ : p = 0 /\ q = 0).
  { destruct (Req_EM_T p 0) as [P0|P0]; [destruct (Req_EM_T q 0) as [Q0|Q0]; [auto|]|]; exfalso; apply C, line_rows, rdet_zero; exists p, q; (split; [intros [? ?]; contradiction|exact ZZ]). }
  destruct PQ as [P0 Q0]. unfold p in P0. unfold q in Q0. destruct v as [x y]. cbn [fst snd] in *.
  rewrite (surjective_pairing (vector az' s')). f_equal; lra.
Qed.

Lemma adjacent_rows u v ps ls : adjacent (fun x y t => t = u * (fst x - fst y) + v * (snd x - snd y)) ps ls ->
  ls = map (fun r => u * fst r + v * snd r) (rrows ps).
Proof.
  intros H. induction H as [|x|x y r t l E H IH]; [reflexivity|reflexivity|]. rewrite rrows_cons. cbn [map fst snd]. rewrite <- IH, E. reflexivity.
Qed.
Lemma squares_zero ls zs m : Forall (fun z => z = 0) zs -> squares_between ls zs m -> m = rsum (map (fun x => x * x) ls).
Proof.
  intros F SQ. induction SQ as [|x y l r m SQ IH]; [reflexivity|]. inversion F as [|? ? Y F']; subst. cbn. rewrite IH by exact F'. unfold rsum. ring.
Qed.

Lemma timing_core south still ps lags v az' s' az s true_lags m e a :
  zeros south still -> rsolve (rrows ps) lags = Some v -> length (rrows ps) = length lags -> bearing_of south still v = (az', s') ->
  0 < s -> lags_of_wave az s ps true_lags -> squares_between lags true_lags m ->
  aperture ps a -> 0 <= e -> m <= e * e -> e < a * s ->
  Rabs (s' - s) <= e / a /\ 0 < cos (radians (az' - az)) /\ Rabs (sin (radians (az' - az))) <= e / (a * s).
Proof.
  intros Z E4 E5 B SP WV M [A AP] EP ME EA. destruct (bearing_vector south still v az' s' (proj1 Z) B) as [V SP'].
  destruct (squares_rrss _ _ _ _ _ _ WV M) as [MR _].
  rewrite (rsolve_splits (rrows ps) lags v (vector az s) E5 E4) in MR. pose proof (rrss_pos v (rrows ps) lags) as RP.
  set (p := fst (vector az s) - fst v) in *. set (q := snd (vector az s) - snd v) in *.
  assert (Q : a * a * (p * p + q * q) <= e * e).
  { set (g := map (fun r : R * R => p * fst r + q * snd r) (rrows ps)).
    assert (AD : exists l, adjacent (fun x y t => t = p * (fst x - fst y) + q * (snd x - snd y)) ps l).
    { clear. induction ps as [|x ps (l & H)]; [exists []; constructor|]. destruct ps as [|y ps]; [exists []; constructor|].
      eexists (_ :: l). constructor; [reflexivity|exact H]. }
    destruct AD as (l & AD). destruct (squares_exist l (map (fun _ => 0) l)) as (k & K); [rewrite map_length; reflexivity|].
    assert (ZF : Forall (fun z => z = 0) (map (fun _ : R => 0) l)) by (apply Forall_forall; intros z ZI; apply in_map_iff in ZI as (? & <- & _); reflexivity).
    pose proof (AP p q l _ k AD ZF K) as H. rewrite (squares_zero _ _ _ ZF K), (adjacent_rows _ _ _ _ AD), map_map, rquad in H. lra. }
  (* the difference of the vectors is small *)
  set (D := sqrt (p * p + q * q)). assert (DD : D * D = p * p + q * q) by (apply sqrt_sqrt; nra). assert (DP : 0 <= D) by apply sqrt_pos.
  assert (AD : a * D <= e).
  { apply Rsqr_incr_0; [unfold Rsqr; nra|nra|exact EP]. }
  assert (DE : D <= e / a). { apply (Rmult_le_reg_l a); [exact A|]. replace (a * (e / a)) with e by (field; lra). exact AD. }
  assert (DS : D < s) by nra.
  subst v. unfold vector in p, q. cbn [fst snd] in p, q.
  set (t := radians az) in *. set (t' := radians az') in *.
  pose proof (sin2_cos2 t) as C1. pose proof (sin2_cos2 t') as C2. unfold Rsqr in C1, C2.
  assert (CX : cos (radians (az' - az)) = cos t' * cos t + sin t' * sin t).
  { replace (radians (az' - az)) with (t' - t) by (unfold t, t', radians; field). apply cos_minus. }
  assert (SX : sin (radians (az' - az)) = sin t' * cos t - cos t' * sin t).
  { replace (radians (az' - az)) with (t' - t) by (unfold t, t', radians; field). apply sin_minus. }
  set (c := cos (radians (az' - az))) in *. set (si := sin (radians (az' - az))) in *.
  assert (CS : c * c + si * si = 1) by (pose proof (sin2_cos2 (radians (az' - az))) as H; unfold Rsqr in H; fold c si in H; lra).
  assert (LAW : D * D = s * s + s' * s' - 2 * s * s' * c).
  { rewrite DD, CX. unfold p, q.
    replace ((- (s * sin t) - - (s' * sin t')) * (- (s * sin t) - - (s' * sin t')) + (- (s * cos t) - - (s' * cos t')) * (- (s * cos t) - - (s' * cos t')))
      with (s * s * (sin t * sin t + cos t * cos t) + s' * s' * (sin t' * sin t' + cos t' * cos t') - 2 * s * s' * (cos t' * cos t + sin t' * sin t)) by ring.
    rewrite C1, C2. ring. }
  split; [|split].
  - apply Rle_trans with D; [|exact DE]. apply Rsqr_incr_0; [|apply Rabs_pos|exact DP]. rewrite <- Rsqr_abs. unfold Rsqr.
    assert (c <= 1) by nra. assert (0 <= s * s') by nra. nra.
  - apply Rnot_le_lt. intros H. assert (0 <= s * s') by nra. assert (0 <= s * s' * - c) by (apply Rmult_le_pos; lra). nra.
  - apply Rle_trans with (D / s).
    + apply (Rmult_le_reg_r s); [exact SP|]. replace (D / s * s) with D by (field; lra).
      apply Rsqr_incr_0; [|pose proof (Rabs_pos si); nra|exact DP].
      rewrite Rsqr_mult, <- Rsqr_abs. unfold Rsqr.
      replace (D * D) with ((s' - s * c) * (s' - s * c) + s * s * (si * si)) by (rewrite LAW; replace (si * si) with (1 - c * c) by lra; ring).
      pose proof (Rle_0_sqr (s' - s * c)) as H. unfold Rsqr in H. lra.
    + apply (Rmult_le_reg_r (a * s)); [nra|]. replace (D / s * (a * s)) with (a * D) by (field; lra). replace (e / (a * s) * (a * s)) with e by (field; lra). exact AD.
Qed.

(** Timing errors: the error of the slowness and of the direction is at most the size of the errors of the lags over
    the aperture of the array. *)
Theorem C79_timing_errors south still d n ls ids ps w lags az s true_lags m e a :
  zeros south still -> xcorr_table ids d -> Forall simple_id ids -> NoDup (map fst ls) ->
  Forall2 (fun i p => In (i, p) ls) ids ps -> ~ on_a_line ps -> (w < n)%nat ->
  adjacent (lag_in d w) (combine ids ps) lags ->
  0 < s -> lags_of_wave az s ps true_lags -> squares_between lags true_lags m ->
  aperture ps a -> 0 <= e -> m <= e * e -> e < a * s ->
  exists res az' s', find_directions south still d n ls = Some res /\ nth_error res w = Some (Some (az', s')) /\
    Rabs (s' - s) <= e / a /\ 0 < cos (radians (az' - az)) /\ Rabs (sin (radians (az' - az))) <= e / (a * s).
Proof.
  intros Z T F L P C W NB SP WV M A EP ME EA.
  destruct (directions_line south still d n ls ids ps w lags T F L P C W NB) as (res & v & E1 & E2 & E3 & E4 & E5).
  destruct (bearing_of south still v) as [az' s'] eqn:B.
  exists res, az', s'. split; [exact E1|]. split; [exact E3|].
  exact (timing_core south still ps lags v az' s' az s true_lags m e a Z E4 E5 B SP WV M A EP ME EA).
Qed.

(** Every array that is not a line has an aperture. *)
Theorem C79_aperture ps : ~ on_a_line ps -> exists a, aperture ps a.
Proof.
  intros C. rewrite line_rows in C. set (g := rrows ps) in *.
  assert (A : 0 <= ra g) by (apply (rsum_sq (fun r : R * R => fst r))). assert (B : 0 <= rc g) by (apply (rsum_sq (fun r : R * R => snd r))).
  assert (Q : forall p q, 0 <= ra g * p * p + 2 * rh g * p * q + rc g * q * q).
  { intros p q. rewrite <- rquad. apply (rsum_sq (fun r : R * R => p * fst r + q * snd r)). }
  assert (TR : 0 < ra g + rc g).
  { destruct (Req_EM_T (ra g + rc g) 0) as [E|E]; [|lra]. exfalso. assert (ra g = 0) by lra. assert (rc g = 0) by lra.
    apply C. unfold rdet. pose proof (Q 1 1). pose proof (Q 1 (-1)). assert (rh g = 0) by lra. nra. }
  assert (D : 0 < rdet g).
  { unfold rdet in *. destruct (Req_EM_T (ra g) 0) as [E|E].
    - exfalso. apply C. rewrite E. pose proof (Q (rc g + 1) (- rh g)) as H. rewrite E in H.
      assert (rh g = 0) by nra. nra.
    - pose proof (Q (- rh g) (ra g)) as H. assert (0 < ra g) by lra.
      assert (0 <= ra g * (ra g * rc g - rh g * rh g)) by lra. nra. }
  exists (sqrt (rdet g / (ra g + rc g))). assert (K : 0 < rdet g / (ra g + rc g)) by (apply Rdiv_lt_0_compat; assumption).
  split; [apply sqrt_lt_R0; exact K|]. intros u v l zs m AD ZF SQ.
  rewrite (squares_zero _ _ _ ZF SQ), (adjacent_rows _ _ _ _ AD), map_map, rquad. fold g. rewrite sqrt_sqrt by lra.
  apply (Rmult_le_reg_r (ra g + rc g)); [exact TR|].
  replace (rdet g / (ra g + rc g) * (u * u + v * v) * (ra g + rc g)) with (rdet g * (u * u + v * v)) by (field; lra).
  assert (X : (ra g * u * u + 2 * rh g * u * v + rc g * v * v) * (ra g + rc g) - rdet g * (u * u + v * v)
    = Rsqr (ra g * u + rh g * v) + Rsqr (rh g * u + rc g * v)) by (unfold rdet, Rsqr; ring).
  pose proof (Rle_0_sqr (ra g * u + rh g * v)). pose proof (Rle_0_sqr (rh g * u + rc g * v)). lra.
Qed.

(** It raises exactly if a station is not located or all stations are on one line. *)
Theorem C79_refused south still d n ls ids :
  xcorr_table ids d -> Forall simple_id ids -> NoDup (map fst ls) ->
  find_directions south still d n ls = None <->
  ~ exists ps, Forall2 (fun i p => In (i, p) ls) ids ps /\ ~ on_a_line ps.
Proof.
  intros T F L. destruct (table_ids ids d T F) as (N & E1 & K). unfold find_directions. rewrite E1.
  destruct (rcolumns_exist d ids K) as (cs & ->). destruct ids as [|i0 ids]; [congruence|]. set (l := i0 :: ids) in *.
  destruct (rlocate_all ls l) as [ps|] eqn:E.
  - pose proof (rlocate_all_some _ _ _ E) as P.
    destruct (rsolve (rrows ps) (map (fun _ => 0) (rrows ps))) as [s0|] eqn:V.
    + split; [discriminate|]. intros X. exfalso. apply X. exists ps. split; [exact P|].
      rewrite line_rows. apply (rsolve_some _ (map (fun _ => 0) (rrows ps))). exists s0. exact V.
    + split; [|reflexivity]. intros _ (qs & Q1 & Q2). rewrite (rlocate_all_in ls l qs L Q1) in E. injection E as ->.
      apply rsolve_none in V. apply Q2, line_rows, V.
  - split; [|reflexivity]. intros _ (qs & Q1 & Q2). rewrite (rlocate_all_in ls l qs L Q1) in E. discriminate E.
Qed.

(** On rational data the result is the angle and the root of what the model of C40 gives. *)
Lemma Q2R_0 : Q2R 0 = 0.
Proof. unfold Q2R. cbn. lra. Qed.
Lemma Q2R_minus x y : Q2R (x - y)%Q = Q2R x - Q2R y.
Proof. unfold Qminus, Rminus. rewrite Q2R_plus, Q2R_opp. reflexivity. Qed.
Lemma Q2R_qsum {A} (f : A -> Q) l : Q2R (qsum (map f l)) = rsum (map (fun x => Q2R (f x)) l).
Proof. induction l as [|x l IH]; [apply Q2R_0|]. cbn [map qsum rsum fold_right]. rewrite Q2R_plus. unfold qsum, rsum in IH. rewrite IH. reflexivity. Qed.
Lemma real_rows ps : rrows (real_points ps) = real_points (rows ps).
Proof.
  induction ps as [|p ps IH]; [reflexivity|]. destruct ps as [|q ps]; [reflexivity|].
  rewrite rows_cons. unfold real_points in *. cbn [map] in IH |- *. rewrite rrows_cons, IH. cbn [fst snd map]. rewrite !Q2R_minus. reflexivity.
Qed.
Lemma rsum_map {A B} (h : A -> B) (f : B -> R) l : map f (map h l) = map (fun x => f (h x)) l.
Proof. apply map_map. Qed.
Lemma combine_maps {A B C D} (f : A -> C) (g : B -> D) l m : combine (map f l) (map g m) = map (fun p => (f (fst p), g (snd p))) (combine l m).
Proof. revert m. induction l as [|x l IH]; intros [|y m]; cbn; [reflexivity..|]. rewrite IH. reflexivity. Qed.

Lemma real_sums g t :
  ra (real_points g) = Q2R (ga g) /\ rh (real_points g) = Q2R (gh g) /\ rc (real_points g) = Q2R (gc g) /\
  ru (real_points g) (map Q2R t) = Q2R (gu g t) /\ rv (real_points g) (map Q2R t) = Q2R (gv g t).
Proof.
  unfold ra, rh, rc, ru, rv, ga, gh, gc, gu, gv, real_points. rewrite combine_maps, !map_map, !Q2R_qsum. cbn [fst snd].
  repeat split; f_equal; apply map_ext; intros r; rewrite Q2R_mult; reflexivity.
Qed.
Lemma real_det g : rdet (real_points g) = Q2R (det g).
Proof.
  unfold rdet, det. destruct (real_sums g []) as (-> & -> & -> & _). rewrite Q2R_minus, !Q2R_mult. reflexivity.
Qed.
Lemma real_solve g t : rsolve (real_points g) (map Q2R t) = option_map (fun s => (Q2R (fst s), Q2R (snd s))) (solve g t).
Proof.
  rewrite rsolve_eq, solve_eq, real_det. destruct (real_sums g t) as (-> & -> & -> & -> & ->).
  destruct (Qeq_bool (det g) 0) eqn:E.
  - apply Qeq_bool_iff in E. destruct (Req_EM_T (Q2R (det g)) 0) as [X|X]; [reflexivity|]. destruct X. rewrite (Qeq_eqR _ _ E). apply Q2R_0.
  - assert (N : ~ (det g == 0)%Q) by (intros H; apply Qeq_bool_iff in H; congruence).
    destruct (Req_EM_T (Q2R (det g)) 0) as [X|X]; [destruct N; apply eqR_Qeq; rewrite X; symmetry; apply Q2R_0|].
    cbn [option_map fst snd]. rewrite !Q2R_div, !Q2R_minus, !Q2R_mult by exact N. reflexivity.
Qed.
Lemma real_collinear ps : on_a_line (real_points ps) <-> collinear ps.
Proof.
  rewrite line_rows, real_rows, real_det, collinear_rows, <- det_zero. split.
  - intros H. apply eqR_Qeq. rewrite H. symmetry. apply Q2R_0.
  - intros H. rewrite (Qeq_eqR _ _ H). apply Q2R_0.
Qed.

Lemma real_col d k : rcol (real_table d) k = option_map (map (option_map Q2R)) (col d k).
Proof. induction d as [|[n c] d IH]; [reflexivity|]. cbn [real_table map rcol col fst snd]. destruct (eqb_bytes n k); [reflexivity|exact IH]. Qed.
Lemma real_columns d ks : rlag_columns (real_table d) ks = option_map (map (map (option_map Q2R))) (lag_columns d ks).
Proof.
  induction ks as [|k ks IH]; [reflexivity|]. cbn [rlag_columns lag_columns]. rewrite real_col, IH.
  destruct (col d k); [|reflexivity]. destruct (lag_columns d ks); reflexivity.
Qed.
Lemma real_line cs i : rline (map (map (option_map Q2R)) cs) i = option_map (map Q2R) (line cs i).
Proof.
  induction cs as [|c cs IH]; [reflexivity|]. cbn [map rline line]. rewrite nth_error_map, IH.
  destruct (nth_error c i) as [[x|]|]; try reflexivity. cbn [option_map]. destruct (line cs i); reflexivity.
Qed.
Lemma real_locate ls i : rlocate (real_places ls) i = option_map (fun p => (Q2R (fst p), Q2R (snd p))) (locate ls i).
Proof. induction ls as [|[n c] ls IH]; [reflexivity|]. cbn [real_places map rlocate locate fst snd]. destruct (eqb_bytes n i); [reflexivity|exact IH]. Qed.
Lemma real_locate_all ls ids : rlocate_all (real_places ls) ids = option_map real_points (locate_all ls ids).
Proof.
  induction ids as [|i ids IH]; [reflexivity|]. cbn [rlocate_all locate_all]. rewrite real_locate, IH.
  destruct (locate ls i); [|reflexivity]. destruct (locate_all ls ids); reflexivity.
Qed.

Theorem C79_rational south still d n ls :
  find_directions south still (real_table d) n (real_places ls) =
  option_map (map (option_map (fun a => (arctan2 south still (Q2R (fst (toward a))) (Q2R (snd (toward a))) * 180 / PI, sqrt (Q2R (slowness2 a))))))
    (invert_for_slowness d n ls).
Proof.
  unfold find_directions, invert_for_slowness, keys.
  assert (K : map fst (real_table d) = map fst d) by (unfold real_table; rewrite map_map; reflexivity). rewrite K.
  destruct (short_ids (map fst d)) as [[|i0 ids]|]; [reflexivity| |reflexivity]. set (l := i0 :: ids).
  rewrite real_locate_all, real_columns. destruct (locate_all ls l) as [ps|]; [|reflexivity]. destruct (lag_columns d (lag_keys l)) as [cs|]; [|reflexivity].
  cbn [option_map]. rewrite real_rows.
  assert (Z : map (fun _ => 0) (real_points (rows ps)) = map Q2R (map (fun _ => 0%Q) (rows ps))).
  { unfold real_points. rewrite !map_map. apply map_ext. intros _. symmetry. apply Q2R_0. }
  rewrite Z, real_solve. destruct (solve (rows ps) (map (fun _ => 0%Q) (rows ps))) as [s0|]; [|reflexivity]. cbn [option_map].
  f_equal. rewrite map_map. apply map_ext. intros i. rewrite real_line. destruct (line cs i) as [lags|]; [|reflexivity]. cbn [option_map].
  rewrite real_solve. destruct (solve (rows ps) lags) as [[x y]|]; [|reflexivity].
  cbn [option_map fst snd arrival_of toward slowness2]. unfold bearing_of. cbn [fst snd]. rewrite !Q2R_opp, Q2R_plus, !Q2R_mult. reflexivity.
Qed.

(** Three stations 100 m apart and a wave from 30 degrees at 340 m/s; the second window has a lag missing. *)
Definition bearing_ids := [b "XX.A."; b "XX.B."; b "XX.C."].
Definition bearing_ps : list (R * R) := [(0, 0); (100, 0); (0, 100)].
Definition bearing_lags : list R := [1 / 340 * 50; 1 / 340 * (50 * sqrt 3 - 50)].
Definition bearing_table : list (bytes * list (option R)) :=
  combine (b "t_mid" :: item_names bearing_ids)
    [ [Some 5; Some 10]; [Some 1; Some 1];
      [Some 1; Some 1]; [Some (1 / 340 * 50); Some 1]; [Some 1; Some 1];
      [Some 1; Some 1]; [Some (1 / 340 * (50 * sqrt 3 - 50)); None]; [Some 1; Some 1];
      [Some 1; Some 1]; [Some 9; Some 0]; [Some 1; Some 1];
      [Some 0; Some 1] ].
Lemma bearing_table_ok : xcorr_table bearing_ids bearing_table.
Proof.
  assert (K : map fst bearing_table = b "t_mid" :: item_names bearing_ids) by reflexivity.
  split.
  - rewrite K. vm_compute. repeat (constructor; [cbn; intuition discriminate|]). constructor.
  - exists (b "XX.A."), [b "XX.B."; b "XX.C."]. eexists. split; [reflexivity|]. split; [|rewrite K; reflexivity].
    apply sc_next, sc_next, sc_last.
Qed.
Lemma bearing_not_line : ~ on_a_line bearing_ps.
Proof. rewrite line_rows. unfold rdet, ra, rc, rh, bearing_ps. cbn. lra. Qed.
Lemma bearing_wave : lags_of_wave 30 (1 / 340) bearing_ps bearing_lags.
Proof.
  assert (A : radians 30 = PI / 6) by (unfold radians; field).
  assert (R0 : forall x y, reaches 30 (1 / 340) (x, y) = - (1 / 340 * (x * (1 / 2) + y * (sqrt 3 / 2)))).
  { intros x y. unfold reaches. cbn [fst snd]. rewrite A, sin_PI6, cos_PI6. reflexivity. }
  unfold lags_of_wave, bearing_ps, bearing_lags. constructor; [rewrite !R0; field|]. constructor; [rewrite !R0; field|]. constructor.
Qed.
Example C79_case :
  zeros PI 0 /\ xcorr_table bearing_ids bearing_table /\ Forall simple_id bearing_ids /\ ~ on_a_line bearing_ps /\
  adjacent (lag_in bearing_table 0) (combine bearing_ids bearing_ps) bearing_lags /\ lags_of_wave 30 (1 / 340) bearing_ps bearing_lags /\
  aperture bearing_ps 50 /\
  find_directions PI 0 bearing_table 2 (combine bearing_ids bearing_ps) = Some [Some (30, 1 / 340); None].
Proof.
  assert (ADJ : adjacent (lag_in bearing_table 0) (combine bearing_ids bearing_ps) bearing_lags).
  { constructor; [|constructor; [|constructor]].
    - eexists. split; [unfold bearing_table; cbn [combine item_names bearing_ids pair_items]; do 3 right; left; reflexivity|reflexivity].
    - eexists. split; [unfold bearing_table; cbn [combine item_names bearing_ids pair_items]; do 6 right; left; reflexivity|reflexivity]. }
  assert (SI : Forall simple_id bearing_ids) by (repeat constructor; vm_compute; intuition discriminate).
  assert (Z : zeros PI 0) by (split; left; reflexivity).
  split; [exact Z|]. split; [exact bearing_table_ok|]. split; [exact SI|]. split; [exact bearing_not_line|]. split; [exact ADJ|].
  split; [exact bearing_wave|]. split.
  - split; [lra|]. intros u v l zs m AD ZF SQ. rewrite (squares_zero _ _ _ ZF SQ), (adjacent_rows _ _ _ _ AD), map_map, rquad.
    replace (ra (rrows bearing_ps)) with 20000 by (unfold ra, bearing_ps; cbn; ring).
    replace (rh (rrows bearing_ps)) with (-10000) by (unfold rh, bearing_ps; cbn; ring).
    replace (rc (rrows bearing_ps)) with 10000 by (unfold rc, bearing_ps; cbn; ring).
    pose proof (Rle_0_sqr (u - 4 / 7 * v)) as H. pose proof (Rle_0_sqr v) as H'. unfold Rsqr in H, H'. lra.
  - assert (ND : NoDup (map fst (combine bearing_ids bearing_ps))).
    { change (map fst (combine bearing_ids bearing_ps)) with bearing_ids. vm_compute. repeat (constructor; [cbn; intuition discriminate|]). constructor. }
    assert (LOC : Forall2 (fun i p => In (i, p) (combine bearing_ids bearing_ps)) bearing_ids bearing_ps) by (repeat constructor; cbn; auto).
    destruct (C79_plane_wave PI 0 bearing_table 2 (combine bearing_ids bearing_ps) bearing_ids bearing_ps 0 bearing_lags 30 (1 / 340)
      Z bearing_table_ok SI ND LOC bearing_not_line ltac:(lia) ADJ ltac:(lra) ltac:(lra) bearing_wave) as (res & az' & E & L & N & A & _).
    rewrite A in N by lra. rewrite E. f_equal. destruct res as [|r0 [|r1 [|? ?]]]; try discriminate L. cbn in N. injection N as ->. f_equal. f_equal.
    assert (X : forall r, find_directions PI 0 bearing_table 2 (combine bearing_ids bearing_ps) = Some r -> nth_error r 1 = Some None).
    { unfold find_directions. destruct (table_ids _ _ bearing_table_ok SI) as (_ & -> & _). cbn [bearing_ids].
      rewrite (rlocate_all_in _ _ _ ND LOC). change (rlag_columns bearing_table (lag_keys [b "XX.A."; b "XX.B."; b "XX.C."]))
        with (Some [[Some (1 / 340 * 50); Some 1]; [Some (1 / 340 * (50 * sqrt 3 - 50)); None]]).
      destruct (rsolve (rrows bearing_ps) _); [|discriminate]. intros r H. injection H as <-. reflexivity. }
    specialize (X _ E). cbn in X. injection X as ->. reflexivity.
Qed.

(** Not true: that backazimuths are between 0 and 360 degrees.  A wave from the west has -90. *)
Theorem C79_compass_refuted : exists d ls res az s, xcorr_table bearing_ids d /\
  lags_of_wave 270 (1 / 340) bearing_ps [- (100 / 340); 100 / 340] /\ adjacent (lag_in d 0) (combine bearing_ids bearing_ps) [- (100 / 340); 100 / 340] /\
  ls = combine bearing_ids bearing_ps /\ find_directions PI 0 d 1 ls = Some res /\ nth_error res 0 = Some (Some (az, s)) /\ az = -90.
Proof.
  assert (W : forall az, sin (radians az) = -1 -> cos (radians az) = 0 -> lags_of_wave az (1 / 340) bearing_ps [- (100 / 340); 100 / 340]).
  { intros az S1 C1. assert (R0 : forall x y, reaches az (1 / 340) (x, y) = x / 340).
    { intros x y. unfold reaches. cbn [fst snd]. rewrite S1, C1. field. }
    unfold bearing_ps. constructor; [rewrite !R0; field|]. constructor; [rewrite !R0; field|]. constructor. }
  set (d := combine (b "t_mid" :: item_names bearing_ids) [[Some 0]; [Some 0]; [Some 0]; [Some (- (100 / 340))]; [Some 0]; [Some 0]; [Some (100 / 340)];
    [Some 0]; [Some 0]; [Some 0]; [Some 0]; [Some 0]]).
  assert (T : xcorr_table bearing_ids d).
  { assert (K : map fst d = b "t_mid" :: item_names bearing_ids) by reflexivity. split.
    - rewrite K. vm_compute. repeat (constructor; [cbn; intuition discriminate|]). constructor.
    - exists (b "XX.A."), [b "XX.B."; b "XX.C."]. eexists. split; [reflexivity|]. split; [|rewrite K; reflexivity]. apply sc_next, sc_next, sc_last. }
  assert (ADJ : adjacent (lag_in d 0) (combine bearing_ids bearing_ps) [- (100 / 340); 100 / 340]).
  { constructor; [|constructor; [|constructor]].
    - eexists. split; [unfold d; cbn [combine item_names bearing_ids pair_items]; do 3 right; left; reflexivity|reflexivity].
    - eexists. split; [unfold d; cbn [combine item_names bearing_ids pair_items]; do 6 right; left; reflexivity|reflexivity]. }
  assert (SI : Forall simple_id bearing_ids) by (repeat constructor; vm_compute; intuition discriminate).
  assert (ND : NoDup (map fst (combine bearing_ids bearing_ps))).
  { change (map fst (combine bearing_ids bearing_ps)) with bearing_ids. vm_compute. repeat (constructor; [cbn; intuition discriminate|]). constructor. }
  assert (LOC : Forall2 (fun i p => In (i, p) (combine bearing_ids bearing_ps)) bearing_ids bearing_ps) by (repeat constructor; cbn; auto).
  assert (M90 : radians (-90) = - (PI / 2)) by (unfold radians; field).
  destruct (C79_plane_wave PI 0 d 1 (combine bearing_ids bearing_ps) bearing_ids bearing_ps 0 [- (100 / 340); 100 / 340] (-90) (1 / 340)
    (conj (or_introl eq_refl) (or_introl eq_refl)) T SI ND LOC bearing_not_line ltac:(lia) ADJ ltac:(lra) ltac:(lra)) as (res & az' & E & L & N & A & _).
  { apply W; rewrite M90, ?sin_neg, ?cos_neg, ?sin_PI2, ?cos_PI2; ring. }
  exists d, (combine bearing_ids bearing_ps), res, az', (1 / 340). split; [exact T|]. split.
  { apply W; replace (radians 270) with (3 * (PI / 2)) by (unfold radians; field); [apply sin_3PI2|apply cos_3PI2]. }
  split; [exact ADJ|]. split; [reflexivity|]. split; [exact E|]. split; [exact N|]. apply A. lra.
Qed.

Print Assumptions C79_plane_wave.
Print Assumptions C79_least_squares.
Print Assumptions C79_timing_errors.
Print Assumptions C79_aperture.
Print Assumptions C79_refused.
Print Assumptions C79_rational.
Print Assumptions C79_compass_refuted.
