(** C80: directions are right in spite of noise. *)
From Coq Require Import String.
From Coq Require Import ZArith QArith Qabs Qreals Reals List Bool Lia Lqa Lra.
From Verif Require Import Lib Base Scan Names Stations InventorySpec Gps GpsProofs Windows WindowsSpec WindowsProps Slowness SlownessProofs SlownessSpec SlownessProps Huddle
  Xcorr XcorrSpec XcorrProofs XcorrProps Directions DirectionsProps Bearing BearingSpec BearingProofs BearingProps BearingRecord Correlate CorrelateSpec CorrelateProofs CorrelateProps
  CorrelateRecord CorrelateNoise LagsNoiseSpec LagsNoise DirectionsNoiseSpec.
Import ListNotations.
Open Scope Q_scope.

Lemma prepared_near side w g d eta x : weights side -> balanced w -> (0 < length x)%nat -> near_line w g d eta x -> inside w d x ->
  0 <= eta /\ near w g d (5 * eta) (prepared side x).
Proof.
  intros SD W L0 (c & s & N) I. set (y := map (fun iv => snd iv - (c + s * fst iv)) (combine (positions x) x)).
  assert (Y : forall i v, nth_error x i = Some v -> nth_error y i = Some (v - (c + s * inject_Z (Z.of_nat i)))).
  { intros i v E. assert (L : (i < length x)%nat) by (apply nth_error_Some; congruence).
    unfold y. erewrite map_nth_error; [|apply combine_nth_error; [apply positions_nth, L|exact E]]. reflexivity. }
  assert (LY : length y = length x).
  { unfold y, positions. rewrite map_length, combine_length, map_length, seq_length. lia. }
  assert (EV : forall u u' : Q, Some u = Some u' -> u = u') by congruence.
  assert (NY : near w g d eta y).
  { intros i v E. assert (L : (i < length x)%nat) by (rewrite <- LY; apply nth_error_Some; congruence).
    pose proof (Y i _ (nth_some x i L)) as E'. rewrite E' in E. apply EV in E. subst v. pose proof (N i _ (nth_some x i L)) as P.
    set (u := nth i x 0) in *. set (z := g * value_at w (Z.of_nat i - d)) in *. set (k := s * inject_Z (Z.of_nat i)) in *.
    assert (X : u - (c + k) - z == u - (z + c + k)) by ring. rewrite (Qabs_wd _ _ X). exact P. }
  assert (RS : rescaled 1 c s y x).
  { split; [symmetry; exact LY|]. intros i v E. assert (L : (i < length x)%nat) by (rewrite <- LY; apply nth_error_Some; congruence).
    pose proof (Y i _ (nth_some x i L)) as E'. rewrite E' in E. apply EV in E. subst v. exists (nth i x 0). split; [exact (nth_some x i L)|ring]. }
  assert (IY : inside w d y) by (unfold inside; rewrite LY; exact I).
  pose proof (near_nonneg _ _ _ _ _ NY ltac:(lia)) as E0. split; [exact E0|].
  assert (NP : near w g d (5 * eta) (prepared side y)).
  { apply taper_near; [exact SD|Lqa.lra|unfold inside; rewrite detrend_length; exact IY|]. apply detrend_near; [exact W|apply inside_contained; exact IY|exact NY]. }
  intros i v E. assert (L : (i < length x)%nat) by (rewrite <- (prepared_length side x); apply nth_error_Some; congruence).
  pose proof (prepared_rescaled side 1 c s y x RS i (eq_ind_r (fun k => (i < k)%nat) L LY)) as PR. rewrite (nth_error_nth _ _ _ E) in PR.
  assert (LL : (i < length (prepared side y))%nat) by (rewrite prepared_length, LY; exact L). pose proof (near_nth _ _ _ _ _ _ NP LL) as P.
  set (u := nth i (prepared side y) 0) in *. set (z := g * value_at w (Z.of_nat i - d)) in *.
  assert (X : v - z == u - z) by (rewrite PR; ring). rewrite (Qabs_wd _ _ X). exact P.
Qed.
Lemma loud_prepared side w n eta hits p x : weights side -> balanced w -> hears_through w n eta p x -> clear_of w n eta hits -> In p hits ->
  (0 < length x)%nat /\ 1 # 2 ^ 51 < dot (demean (prepared side x)) (demean (prepared side x)).
Proof.
  intros SD W (L & G & P & N & I) CL Ip.
  assert (L0 : (0 < length x)%nat).
  { destruct I as [I1 I2]. destruct (Nat.eq_dec (length x) 0) as [Z|Z]; [exfalso|lia]. rewrite Z in I1, I2.
    assert (LW : length w = 0%nat) by lia. destruct w; [|discriminate]. set (g := fst p) in *. change (power []) with 0 in P. assert (T : 0 < 1 # 2 ^ 50) by reflexivity. set (e := 1 # 2 ^ 50) in *. clearbody e. Lqa.lra. }
  split; [exact L0|]. destruct (prepared_near side _ _ _ _ _ SD W L0 N I) as [E0 NP]. pose proof (prepared_length side x) as LP.
  assert (CP : contained w (snd p) (prepared side x)) by (apply (contained_length w _ x); [symmetry; exact LP|apply inside_contained; exact I]).
  apply (near_loud w (fst p) (snd p) (2 * (5 * eta))).
  - Lqa.lra.
  - apply centred_near; [exact (proj1 W)|exact CP|exact NP].
  - exact CP.
  - exact P.
  - rewrite LP, L. pose proof (CL p p Ip Ip (Z.of_nat (length w) + 1)%Z ltac:(lia)) as G1. rewrite (lagged_far w (Z.of_nat (length w) + 1) ltac:(lia)) in G1. unfold disturbance in *. Lqa.lra.
Qed.
Lemma noisy_pair root side w n eta hits p q x y m : rough_root root -> weights side -> balanced w -> hears_through w n eta p x -> hears_through w n eta q y ->
  clear_of w n eta hits -> In p hits -> In q hits -> (Z.abs (snd p - snd q) <= m)%Z ->
  fst (find_shift root (prepared side x) (prepared side y) m) = (snd p - snd q)%Z /\ 0 < snd (find_shift root (prepared side x) (prepared side y) m).
Proof.
  intros R SD W H1 H2 CL Ip Iq M. destruct (loud_prepared side w n eta hits p x SD W H1 CL Ip) as [L0 Lx]. destruct (loud_prepared side w n eta hits q y SD W H2 CL Iq) as [L0' Ly].
  destruct H1 as (L1 & G & P & N1 & I1), H2 as (L2 & H & P' & N2 & I2).
  destruct (prepared_near side _ _ _ _ _ SD W L0 N1 I1) as [E0 NX]. destruct (prepared_near side _ _ _ _ _ SD W L0' N2 I2) as [_ NY].
  pose proof (prepared_length side x) as LX. pose proof (prepared_length side y) as LY.
  destruct (C80_noise root w (fst p) (fst q) (snd p) (snd q) (5 * eta) (5 * eta) (prepared side x) (prepared side y) m) as (v & F & V); try assumption.
  - congruence.
  - lia.
  - exact (proj1 W).
  - apply (contained_length w _ x); [symmetry; exact LX|apply inside_contained; exact I1].
  - apply (contained_length w _ y); [symmetry; exact LY|apply inside_contained; exact I2].
  - apply loud_root; assumption.
  - intros j J. rewrite LX, L1. pose proof (CL p q Ip Iq j J) as GAP. unfold disturbance in *. Lqa.lra.
  - rewrite F. split; [reflexivity|exact V].
Qed.

(** One window: if all sensors hear a signal that stands out from the noise, each in its turn and with its own offset and drift, the lags in the table are the differences of
    the times, the coefficients are positive, so is their mean, and the window counts as consistent. *)
Theorem C80_window_noise root side std st s0 maxshift w n eta hits :
  rough_root root -> weights side -> balanced w -> nth_error st 0 = Some s0 -> distinct (list Q) st ->
  Forall2 (fun gd s => hears_through w n eta gd (s_data (list Q) s)) hits st -> clear_of w n eta hits -> within (rint (seconds maxshift / s_delta (list Q) s0)) hits ->
  exists d mean, xcorr_function (list Q) (prepared side) std (find_shift root) st maxshift = Some d /\
    (forall i x y p q, next st i x y -> next hits i p q ->
      In (b "lag_" ++ short_id (list Q) x ++ b "_" ++ short_id (list Q) y, Num (inject_Z (snd p - snd q) * s_delta (list Q) s0)) d /\
      exists r, In (b "r_" ++ short_id (list Q) x ++ b "_" ++ short_id (list Q) y, Num r) d /\ 0 < r) /\
    In (b "mean_coef", Num mean) d /\ 0 < mean /\ In (b "consistency", Flag true) d.
Proof.
  intros R SD W F0 Di HE CL WI. pose proof (Forall2_length_eq _ _ _ HE) as LH.
  assert (ST : forall i x y p q, next st i x y -> next hits i p q ->
    fst (result (list Q) (prepared side) (find_shift root) s0 maxshift x y) = (snd p - snd q)%Z /\ 0 < snd (result (list Q) (prepared side) (find_shift root) s0 maxshift x y)).
  { intros i x y p q [X Y] [P0 Q0]. rewrite LH in Q0. unfold result. apply (noisy_pair root side w n eta hits).
    - exact R.
    - exact SD.
    - exact W.
    - destruct (forall2_nth _ _ _ HE _ _ P0) as (x' & E & H). rewrite X in E. injection E as <-. exact H.
    - destruct (forall2_nth _ _ _ HE _ _ Q0) as (y' & E & H). rewrite Y in E. injection E as <-. exact H.
    - exact CL.
    - eapply nth_error_In; eassumption.
    - eapply nth_error_In; eassumption.
    - apply WI; eapply nth_error_In; eassumption. }
  assert (NX : forall i x y, next st i x y -> exists p q, next hits i p q).
  { intros i x y [X Y]. unfold next. rewrite LH. assert (I : (i < length hits)%nat) by (rewrite LH; apply nth_error_Some; congruence).
    assert (J : ((i + 1) mod length st < length hits)%nat) by (rewrite LH; apply nth_error_Some; congruence).
    destruct (nth_error hits i) as [p|] eqn:E1; [|apply nth_error_None in E1; lia].
    destruct (nth_error hits ((i + 1) mod length st)) as [q|] eqn:E2; [|apply nth_error_None in E2; lia]. exists p, q. split; reflexivity. }
  destruct (C56_items (list Q) (prepared side) std (find_shift root) st maxshift) as (d & E & ND & _ & IT); [destruct st; [discriminate F0|discriminate]|exact Di|].
  set (dl := fun i => match nth_error hits i with Some p => snd p | None => 0%Z end).
  destruct (C56_wave_consistent (list Q) (prepared side) std (find_shift root) st s0 maxshift dl (fun _ => 0%Z) F0 Di) as (d1 & E1 & CF).
  { intros i x y N. destruct (NX i x y N) as (p & q & N'). destruct (ST i x y p q N N') as [S1 _]. rewrite S1. destruct N' as [P0 Q0]. rewrite LH in Q0. unfold dl. rewrite P0, Q0. lia. }
  { intros i _. lia. }
  rewrite E in E1. injection E1 as <-. destruct st as [|s r]; [discriminate F0|]. injection F0 as ->. set (st := s0 :: r) in *.
  set (m := fun p => result (list Q) (prepared side) (find_shift root) s0 maxshift (fst p) (snd p)).
  destruct (C56_mean_and_consistency (list Q) (prepared side) std (find_shift root) st s0 maxshift (map (fun p => fst (m p)) (ring (list Q) s0 st)) (map (fun p => snd (m p)) (ring (list Q) s0 st)))
    as (d2 & mean & f & E2 & IM & QM & _); [reflexivity|exact Di|rewrite map_length, ring_length; reflexivity|rewrite map_length, ring_length; reflexivity| |].
  { intros i x y N. apply ring_next in N. rewrite !nth_error_map. fold st in N. rewrite N. split; reflexivity. }
  rewrite E in E2. injection E2 as <-. exists d, mean. split; [exact E|]. split; [|split; [exact IM|split; [|exact CF]]].
  - intros i x y p q N N'. destruct (IT s0 i x y eq_refl N) as (_ & IL & IR). destruct (ST i x y p q N N') as [S1 S2]. rewrite S1 in IL. split; [exact IL|].
    eexists. split; [exact IR|exact S2].
  - assert (T : 0 < qtotal (map (fun p => snd (m p)) (ring (list Q) s0 st))).
    { assert (A : forall p, In p (ring (list Q) s0 st) -> 0 < snd (m p)).
      { intros [x y] I. apply In_nth_error in I as (i & I). apply ring_next in I. destruct (NX i x y I) as (p & q & N'). exact (proj2 (ST i x y p q I N')). }
      assert (LN : ring (list Q) s0 st <> []) by (intros Z; pose proof (ring_length s0 st) as LR; rewrite Z in LR; discriminate LR).
      clear - A LN. destruct (ring (list Q) s0 st) as [|p l]; [contradiction|]. cbn [map qtotal fold_right]. fold (qtotal (map (fun p => snd (m p)) l)).
      assert (G : 0 <= qtotal (map (fun p => snd (m p)) l)).
      { assert (B : forall p, In p l -> 0 < snd (m p)) by (intros z Z; apply A; right; exact Z). clear - B. induction l as [|q l IH]; [discriminate|]. cbn [map qtotal fold_right]. fold (qtotal (map (fun p => snd (m p)) l)).
        specialize (IH ltac:(intros z Z; apply B; right; exact Z)). pose proof (B q (or_introl eq_refl)) as U. Lqa.lra. }
      pose proof (A p (or_introl eq_refl)) as U. Lqa.lra. }
    assert (N0 : 0 < inject_Z (Z.of_nat (length st))) by (unfold st, inject_Z, Qlt; cbn; lia).
    rewrite <- QM in T. set (k := inject_Z (Z.of_nat (length st))) in *. clearbody k. clear - T N0. apply Qnot_le_lt. intros C. Lqa.nra.
Qed.

(** ** Directions *)
Open Scope R_scope.
Lemma noisy_lags root side dt maxshift w n eta az s t0 e0 : rough_root root -> weights side -> balanced w -> forall hits (win : list (bytes * list (Q * Q))) ps,
  Forall2 (fun gd tr => hears_through w n eta gd (map snd (snd tr))) hits win -> clear_of w n eta hits -> within (rint (seconds maxshift / dt)) hits ->
  Forall2 (fun gd p => Rabs (Q2R dt * IZR (snd gd) - (t0 + reaches az s p)) <= e0) hits ps ->
  exists lags tl k, neighbours (fun x y t => t = lag_between (prepared side) (find_shift root) dt maxshift x y) win lags /\
    lags_of_wave az s ps tl /\ squares_between (map Q2R lags) tl k /\ k <= INR (pred (length ps)) * ((2 * e0) * (2 * e0)).
Proof.
  intros R SD W. induction hits as [|p hits IH]; intros win ps HE CL WI AR; inversion HE as [|? x ? win' H1 HE']; subst; inversion AR as [|? pt ? ps' A1 AR']; subst.
  - exists [], [], 0. split; [constructor|]. split; [constructor|]. split; [constructor|]. cbn. lra.
  - destruct (IH win' ps' HE') as (lags & tl & k & N1 & N2 & N3 & N4); [intros a c I J; apply CL; right; assumption|intros a c I J; apply WI; right; assumption|exact AR'|].
    destruct hits as [|q hits].
    + inversion HE'; subst. inversion AR'; subst. exists [], [], 0. split; [constructor|]. split; [constructor|]. split; [constructor|]. cbn. lra.
    + inversion HE' as [|? y ? win'' H2 HE'']; subst. inversion AR' as [|? pt' ? ps'' A2 AR'']; subst.
      exists (lag_between (prepared side) (find_shift root) dt maxshift x y :: lags), ((reaches az s pt - reaches az s pt') :: tl). eexists.
      split; [constructor; [reflexivity|exact N1]|]. split; [constructor; [reflexivity|exact N2]|]. split; [cbn [map]; constructor; exact N3|].
      assert (LB : Q2R (lag_between (prepared side) (find_shift root) dt maxshift x y) = IZR (snd p - snd q) * Q2R dt).
      { unfold lag_between. destruct (noisy_pair root side w n eta (p :: q :: hits) p q _ _ (rint (seconds maxshift / dt)) R SD W H1 H2 CL (or_introl eq_refl) (or_intror (or_introl eq_refl))) as [-> _]; [apply WI; cbn; auto|].
        rewrite Q2R_mult. f_equal. unfold Q2R, inject_Z. cbn. field. }
      rewrite LB, minus_IZR. set (u := Q2R dt * IZR (snd p) - (t0 + reaches az s pt)) in *. set (v := Q2R dt * IZR (snd q) - (t0 + reaches az s pt')) in *.
      replace ((IZR (snd p) - IZR (snd q)) * Q2R dt - (reaches az s pt - reaches az s pt')) with (u - v) by (unfold u, v; ring).
      apply abs_between in A1, A2. change (pred (length (pt :: pt' :: ps''))) with (S (pred (length (pt' :: ps'')))). rewrite S_INR. nra.
Qed.

(** As [C80_directions], where each sensor has an offset and a drift, and noise from which the signal stands out. *)
Theorem C80_directions_noise root side std dt maxshift south still st t1 t2 win overlap ids ps ls :
  rough_root root -> weights side -> zeros south still ->
  record st t1 t2 -> (0 < win)%Q -> (0 <= overlap < 1)%Q -> (win + (1#1000000) * wanted_step win overlap < t2 - t1)%Q ->
  Forall2 station_is ids st -> NoDup ids -> Forall plain ids -> complete st t1 t2 win ->
  NoDup (map fst ls) -> Forall2 (fun i p => In (i, p) ls) ids ps -> ~ collinear ps ->
  exists m step starts tmid res,
    spread t1 t2 win step m starts /\
    bearings south still (prepared side) std (find_shift root) dt maxshift st win overlap ls = Some (tmid, res) /\ length res = length starts /\
    forall j t w signal n eta hits az s t0 e a, nth_error starts j = Some t -> cut (in_window win t) st w ->
      balanced signal -> Forall2 (fun gd tr => hears_through signal n eta gd (map snd (snd tr))) hits w -> clear_of signal n eta hits -> within (rint (seconds maxshift / dt)) hits ->
      0 < s -> 0 <= e -> Forall2 (fun gd p => Rabs (Q2R dt * IZR (snd gd) - (t0 + reaches az s p)) <= e) hits (real_points ps) ->
      let err := 2 * e * sqrt (INR (length ids - 1)) in
      aperture (real_points ps) a -> err < a * s ->
      exists az' s', nth_error res j = Some (Some (az', s')) /\ -180 <= az' <= 180 /\
        Rabs (s' - s) <= err / a /\ 0 < cos (radians (az' - az)) /\ Rabs (sin (radians (az' - az))) <= err / (a * s).
Proof.
  intros RT SD Z RE WP OV LN ST ND PL CO NL LO NC.
  destruct (C79_record Q (prepared side) std (find_shift root) dt maxshift south still st t1 t2 win overlap ids ps ls Z RE WP OV LN ST ND PL CO NL LO NC)
    as (m & step & starts & tmid & res & SP & _ & BE & _ & LR & ALL).
  exists m, step, starts, tmid, res. split; [exact SP|]. split; [exact BE|]. split; [exact LR|].
  intros j t w signal n eta hits az s t0 e a J CU BA HE CL WI SPOS EP AR err AP ER.
  destruct (noisy_lags root side dt maxshift signal n eta az s t0 e RT SD BA hits w (real_points ps) HE CL WI AR) as (lags & tl & k & N1 & N2 & N3 & N4).
  assert (LP : pred (length (real_points ps)) = (length ids - 1)%nat).
  { unfold real_points. rewrite map_length, <- (Forall2_length_eq _ _ _ LO). lia. }
  apply (ALL j t w lags az s tl k err a J CU N1 SPOS N2 N3 AP).
  - unfold err. pose proof (sqrt_pos (INR (length ids - 1))). nra.
  - rewrite LP in N4. unfold err. pose proof (sqrt_sqrt (INR (length ids - 1)) (pos_INR _)) as SQ.
    replace (2 * e * sqrt (INR (length ids - 1)) * (2 * e * sqrt (INR (length ids - 1)))) with (sqrt (INR (length ids - 1)) * sqrt (INR (length ids - 1)) * (2 * e * (2 * e))) by ring. rewrite SQ. exact N4.
  - exact ER.
Qed.

(** The case of [C80_directions], with noise of a hundredth, an offset and a drift. *)
Definition faint (i : nat) : Q := if Nat.eqb (i mod 3) 0 then 1 # 100 else - (1 # 100).
Definition through_trace (sta : string) (g : Q) (d : nat) : bytes * list (Q * Q) :=
  (b "XX." ++ b sta ++ b "..HDF", map (fun i => (inject_Z (Z.of_nat i), (g * value_at case_signal (Z.of_nat i - Z.of_nat d) + 7 - (3 # 10) * inject_Z (Z.of_nat i) + faint i)%Q)) (seq 0 121)).
Definition through_st := [through_trace "A" 1 10; through_trace "B" 3 13; through_trace "C" (1 # 2) 19].
Definition through_window := map (fun tr : bytes * list (Q * Q) => (fst tr, firstn 60 (snd tr))) through_st.
Lemma through_cut : cut (in_window 60 0) through_st through_window.
Proof.
  assert (T : forall l, forallb (early 60 0) (firstn 60 l) = true -> forallb (fun x => negb (early 60 0 x)) (skipn 60 l) = true ->
    those_with (fun x => in_window 60 0 (fst x)) l (firstn 60 l)).
  { intros l H1 H2. rewrite <- (firstn_skipn 60 l) at 1. rewrite forallb_forall in H1, H2.
    apply those_split; apply Forall_forall; intros x I; [apply early_ok, H1, I|]. intros W. apply early_ok in W. specialize (H2 x I). rewrite W in H2. discriminate H2. }
  unfold through_window, through_st. cbn [map]. repeat (apply cut_keep; [apply T; vm_compute; reflexivity|vm_compute; discriminate|]). apply cut_nil.
Qed.
Lemma through_clear : clear_of case_signal 60 (1 # 100) heard_hits.
Proof.
  intros p q Hp Hq j J. destruct (case_products j J) as [_ H].
  assert (X : (2 * disturbance case_signal 60 (fst p) (fst q) (10 * (1 # 100)) (10 * (1 # 100)) < 14 * (fst p * fst q) /\ 0 <= fst p * fst q)%Q).
  { cbn in Hp, Hq. destruct Hp as [<-|[<-|[<-|[]]]], Hq as [<-|[<-|[<-|[]]]]; split; vm_compute; (reflexivity || discriminate). }
  destruct X as [X G]. set (D := disturbance _ _ _ _ _ _) in *. set (l := lagged case_signal case_signal j) in *. set (g := (fst p * fst q)%Q) in *. clearbody D l g. rewrite case_power. Lqa.nra.
Qed.
Lemma through_all : Forall2 (fun gd tr => hears_through case_signal 60 (1 # 100) gd (map snd (snd tr))) heard_hits through_window.
Proof.
  assert (S : forall g d x, forallb (fun i => Qle_bool (Qabs (nth i x 0 - (g * value_at case_signal (Z.of_nat i - d) + 7 + -(3 # 10) * inject_Z (Z.of_nat i)))) (1 # 100))%Q (seq 0 (length x)) = true -> near_line case_signal g d (1 # 100) x).
  { intros g d x H. exists 7%Q, (-(3 # 10))%Q. intros i v E. rewrite forallb_forall in H. assert (I : (i < length x)%nat) by (apply nth_error_Some; congruence).
    specialize (H i ltac:(apply in_seq; lia)). apply Qle_bool_iff in H. rewrite (nth_error_nth _ _ _ E) in H. exact H. }
  unfold heard_hits, through_window, through_st. cbn [map]. repeat constructor; try (apply S; vm_compute; reflexivity); vm_compute; try reflexivity; discriminate.
Qed.
Example C80_directions_noise_case : weights case_side /\ balanced case_signal /\ clear_of case_signal 60 (1 # 100) heard_hits /\
  within (rint (seconds (Some 20%Q) / 1)) heard_hits /\ Forall2 (fun gd tr => hears_through case_signal 60 (1 # 100) gd (map snd (snd tr))) heard_hits through_window /\
  record through_st 0 120 /\ (60 + (1#1000000) * wanted_step 60 0 < 120 - 0)%Q /\
  Forall2 station_is case_ids through_st /\ complete through_st 0 120 60 /\ cut (in_window 60 0) through_st through_window /\
  exists az s a, 0 < s /\ Forall2 (fun gd p => Rabs (Q2R 1 * IZR (snd gd) - (10 + reaches az s p)) <= 0) heard_hits (real_points case_ps) /\
    aperture (real_points case_ps) a /\ 2 * 0 * sqrt (INR (length case_ids - 1)) < a * s.
Proof.
  split; [exact case_side_ok|]. split; [exact (proj1 heard_all)|]. split; [exact through_clear|]. split; [exact (proj2 (proj2 heard_all))|]. split; [exact through_all|].
  split; [|split; [reflexivity|split; [|split; [|split; [exact through_cut|]]]]].
  - do 3 eexists. split; [reflexivity|]. split; [do 2 eexists; split; reflexivity|].
    exists (120%Q, (1 * value_at case_signal 110 + 7 - (3 # 10) * inject_Z 120 + faint 120)%Q), (firstn 120 (snd (through_trace "A" 1 10))). split; [vm_compute; reflexivity|reflexivity].
  - assert (K : forall sta g d, ~ In 46%Z (b sta) -> station_is (b "XX." ++ b sta ++ b ".") (through_trace sta g d)).
    { intros sta g d N. exists (b "XX"), (b sta), [], (b "HDF"). split; [|split; [reflexivity|reflexivity]].
      intros p I H. cbn [In] in I. destruct I as [<-|[<-|[<-|[<-|[]]]]]; [|contradiction|destruct H|]; cbn in H; repeat (destruct H as [H|H]; [discriminate|]); exact H. }
    constructor; [|constructor; [|constructor; [|constructor]]]; apply K; cbn; intros [H|[]]; discriminate.
  - intros id tr s I H1 H2. set (i := Z.to_nat (Qround.Qceiling s)).
    assert (C1 : (s <= inject_Z (Qround.Qceiling s))%Q) by apply Qround.Qle_ceiling.
    assert (C2 : (inject_Z (Qround.Qceiling s) < s + 1)%Q).
    { pose proof (Qround.Qceiling_lt s) as C. unfold Z.sub in C. rewrite inject_Z_plus in C. change (inject_Z (-(1))) with (-(1))%Q in C. Lqa.lra. }
    assert (C0 : (0 <= Qround.Qceiling s <= 60)%Z).
    { split; [rewrite Zle_Qle; change (inject_Z 0) with 0%Q; Lqa.lra|]. apply Z.lt_succ_r. rewrite Zlt_Qlt. change (inject_Z (Z.succ 60)) with 61%Q. Lqa.lra. }
    assert (E : exists v, nth_error tr i = Some (inject_Z (Z.of_nat i), v)).
    { assert (K : forall sta g d, exists v, nth_error (snd (through_trace sta g d)) i = Some (inject_Z (Z.of_nat i), v)).
      { intros sta g d. eexists. unfold through_trace. cbn [snd]. erewrite map_nth_error; [reflexivity|].
        rewrite (nth_error_nth' _ 0%nat) by (rewrite seq_length; unfold i; lia). rewrite seq_nth by (unfold i; lia). reflexivity. }
      destruct I as [I|[I|[I|[]]]]; apply (f_equal snd) in I; cbn [snd] in I; rewrite <- I; [apply (K "A"%string 1%Q 10%nat)|apply (K "B"%string 3%Q 13%nat)|apply (K "C"%string (1 # 2)%Q 19%nat)]. }
    destruct E as (v & E). exists (inject_Z (Z.of_nat i), v). split; [eapply nth_error_In; exact E|]. unfold in_window. cbn [fst]. unfold i. rewrite Z2Nat.id by lia. split; Lqa.lra.
  - exact (proj2 (proj2 (proj2 (proj2 (proj2 C80_directions_case))))).
Qed.

Definition through_sensors : list (sensor (list Q)) :=
  map (fun c : string * (bytes * list (Q * Q)) => mks (list Q) (b "XX") (b (fst c)) [] 1 (map snd (snd (snd c)))) (combine ["A"; "B"; "C"]%string through_window).
Example C80_window_noise_case : rough_root case_root /\ distinct (list Q) through_sensors /\
  Forall2 (fun gd s => hears_through case_signal 60 (1 # 100) gd (s_data (list Q) s)) heard_hits through_sensors /\
  within (rint (seconds (Some 20%Q) / 1)) heard_hits.
Proof.
  split; [exact case_root_rough|]. split; [|split; [|exact (proj2 (proj2 heard_all))]].
  - split.
    + set (l := map (short_id (list Q)) through_sensors). vm_compute in l. subst l. repeat constructor; cbn; intuition discriminate.
    + intros s I. unfold through_sensors in I. apply in_map_iff in I as (c & <- & I). cbn [combine through_window through_st map] in I.
      destruct I as [<-|[<-|[<-|[]]]]; cbn; intuition discriminate.
  - pose proof through_all as F. inversion F as [|? ? ? ? A1 F1]; subst. inversion F1 as [|? ? ? ? A2 F2]; subst. inversion F2 as [|? ? ? ? A3 F3]; subst.
    constructor; [exact A1|constructor; [exact A2|constructor; [exact A3|constructor]]].
Qed.

Print Assumptions C80_window_noise.
Print Assumptions C80_directions_noise.
