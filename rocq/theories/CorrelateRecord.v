(** C80: from a signal that passes the sensors to the table and to its direction. *)
From Coq Require Import String.
From Coq Require Import ZArith QArith Qreals Reals List Bool Lia Lqa Lra.
From Verif Require Import Lib Base Scan Names Stations InventorySpec Gps GpsProofs Windows WindowsSpec WindowsProps Slowness SlownessProofs SlownessSpec SlownessProps Huddle
  Xcorr XcorrSpec XcorrProofs XcorrProps Directions DirectionsProps Bearing BearingSpec BearingProofs BearingProps BearingRecord Correlate CorrelateSpec CorrelateProofs CorrelateProps.
Import ListNotations.
Open Scope Q_scope.

Lemma heard_pair root side w n p q x y m : exact_root root -> balanced w -> hears w n p x -> hears w n q y -> (Z.abs (snd p - snd q) <= m)%Z ->
  fst (find_shift root (prepared side x) (prepared side y) m) = (snd p - snd q)%Z /\ snd (find_shift root (prepared side x) (prepared side y) m) == 1.
Proof.
  intros R W (L1 & G & P & S1 & I1) (L2 & H & P' & S2 & I2) M. set (g := fst p) in *. set (h := fst q) in *.
  destruct (C80_delayed root side w g h (snd p) (snd q) x y m) as (v & F & V); try assumption; [congruence| |rewrite F; split; [reflexivity|exact V]].
  set (t := 1 # 2 ^ 52) in *. assert (T : 0 < t) by reflexivity. clearbody t g h. set (P0 := power w) in *. clearbody P0. clear - G H P P' T.
  apply Qnot_le_lt. intros C. assert (PP : 0 < P0) by (apply Qnot_le_lt; intros Z; Lqa.nra).
  assert (X : 0 < g * h * P0) by (repeat apply Qmult_lt_0_compat; assumption).
  assert (Y : g * h * P0 * (g * h * P0) <= t * t) by Lqa.nra. assert (Y' : t * t < g * g * P0 * (h * h * P0)) by Lqa.nra.
  assert (E : g * g * P0 * (h * h * P0) == g * h * P0 * (g * h * P0)) by ring. Lqa.lra.
Qed.

(** One window: if all sensors hear a signal, each in its turn, the lags in the table are the differences of the times, the
    coefficients are 1, so is their mean, and the window counts as consistent. *)
Theorem C80_window root side std st s0 maxshift w n hits :
  exact_root root -> balanced w -> nth_error st 0 = Some s0 -> distinct (list Q) st ->
  Forall2 (fun gd s => hears w n gd (s_data (list Q) s)) hits st -> within (rint (seconds maxshift / s_delta (list Q) s0)) hits ->
  exists d mean, xcorr_function (list Q) (prepared side) std (find_shift root) st maxshift = Some d /\
    (forall i x y p q, next st i x y -> next hits i p q ->
      In (b "lag_" ++ short_id (list Q) x ++ b "_" ++ short_id (list Q) y, Num (inject_Z (snd p - snd q) * s_delta (list Q) s0)) d /\
      exists r, In (b "r_" ++ short_id (list Q) x ++ b "_" ++ short_id (list Q) y, Num r) d /\ r == 1) /\
    In (b "mean_coef", Num mean) d /\ mean == 1 /\ In (b "consistency", Flag true) d.
Proof.
  intros R W F0 Di HE WI. pose proof (Forall2_length_eq _ _ _ HE) as LH.
  assert (ST : forall i x y p q, next st i x y -> next hits i p q ->
    fst (result (list Q) (prepared side) (find_shift root) s0 maxshift x y) = (snd p - snd q)%Z /\ snd (result (list Q) (prepared side) (find_shift root) s0 maxshift x y) == 1).
  { intros i x y p q [X Y] [P0 Q0]. rewrite LH in Q0. unfold result. apply (heard_pair root side w n).
    - exact R.
    - exact W.
    - destruct (forall2_nth _ _ _ HE _ _ P0) as (x' & E & H). rewrite X in E. injection E as <-. exact H.
    - destruct (forall2_nth _ _ _ HE _ _ Q0) as (y' & E & H). rewrite Y in E. injection E as <-. exact H.
    - apply WI; eapply nth_error_In; eassumption. }
  assert (NX : forall i x y, next st i x y -> exists p q, next hits i p q).
  { intros i x y [X Y]. unfold next. rewrite LH. assert (I : (i < length hits)%nat) by (rewrite LH; apply nth_error_Some; congruence).
    assert (J : ((i + 1) mod length st < length hits)%nat) by (rewrite LH; apply nth_error_Some; congruence).
    destruct (nth_error hits i) as [p|] eqn:E1; [|apply nth_error_None in E1; lia].
    destruct (nth_error hits ((i + 1) mod length st)) as [q|] eqn:E2; [|apply nth_error_None in E2; lia]. exists p, q. split; reflexivity. }
  destruct (C56_items (list Q) (prepared side) std (find_shift root) st maxshift) as (d & E & ND & _ & IT); [destruct st; [discriminate F0|discriminate]|exact Di|].
  set (dl := fun i => match nth_error hits i with Some p => snd p | None => 0%Z end).
  destruct (C56_wave_consistent (list Q) (prepared side) std (find_shift root) st s0 maxshift dl (fun _ => 0%Z) F0 Di) as (d1 & E1 & CF).
  { intros i x y N. destruct (NX i x y N) as (p & q & N'). destruct (ST i x y p q N N') as [S1 _]. rewrite S1. destruct N' as [P0 Q0]. rewrite LH in Q0. unfold dl. rewrite P0, Q0. lia. }
  { intros i _. lia. }
  rewrite E in E1. injection E1 as <-. destruct st as [|s r]; [discriminate F0|]. injection F0 as ->. set (st := s0 :: r) in *.
  set (m := fun p => result (list Q) (prepared side) (find_shift root) s0 maxshift (fst p) (snd p)).
  destruct (C56_mean_and_consistency (list Q) (prepared side) std (find_shift root) st s0 maxshift (map (fun p => fst (m p)) (ring (list Q) s0 st)) (map (fun p => snd (m p)) (ring (list Q) s0 st)))
    as (d2 & mean & f & E2 & IM & QM & _); [reflexivity|exact Di|rewrite map_length, ring_length; reflexivity|rewrite map_length, ring_length; reflexivity| |].
  { intros i x y N. apply ring_next in N. rewrite !nth_error_map. fold st in N. rewrite N. split; reflexivity. }
  rewrite E in E2. injection E2 as <-. exists d, mean. split; [exact E|]. split; [|split; [exact IM|split; [|exact CF]]].
  - intros i x y p q N N'. destruct (IT s0 i x y eq_refl N) as (_ & IL & IR). destruct (ST i x y p q N N') as [S1 S2]. rewrite S1 in IL. split; [exact IL|].
    eexists. split; [exact IR|exact S2].
  - assert (T : qtotal (map (fun p => snd (m p)) (ring (list Q) s0 st)) == inject_Z (Z.of_nat (length st))).
    { rewrite <- (ring_length s0 st). assert (A : forall p, In p (ring (list Q) s0 st) -> snd (m p) == 1).
      { intros [x y] I. apply In_nth_error in I as (i & I). apply ring_next in I. destruct (NX i x y I) as (p & q & N'). exact (proj2 (ST i x y p q I N')). }
      clear - A. induction (ring (list Q) s0 st) as [|p l IH]; [reflexivity|]. cbn [map qtotal fold_right length]. fold (qtotal (map (fun p => snd (m p)) l)).
      rewrite IH by (intros z Z; apply A; right; exact Z). assert (U : snd (m p) == 1) by (apply A; left; reflexivity). rewrite U, Nat2Z.inj_succ. unfold Z.succ. rewrite inject_Z_plus. ring. }
    rewrite T in QM. assert (N0 : ~ inject_Z (Z.of_nat (length st)) == 0) by (unfold st, inject_Z, Qeq; cbn; lia).
    apply (Qmult_inj_r _ _ _ N0). rewrite QM. ring.
Qed.

(** ** Directions *)
Open Scope R_scope.
Lemma heard_lags root side dt maxshift w n az s t0 e0 : exact_root root -> balanced w -> forall hits (win : list (bytes * list (Q * Q))) ps,
  Forall2 (fun gd tr => hears w n gd (map snd (snd tr))) hits win -> within (rint (seconds maxshift / dt)) hits ->
  Forall2 (fun gd p => Rabs (Q2R dt * IZR (snd gd) - (t0 + reaches az s p)) <= e0) hits ps ->
  exists lags tl k, neighbours (fun x y t => t = lag_between (prepared side) (find_shift root) dt maxshift x y) win lags /\
    lags_of_wave az s ps tl /\ squares_between (map Q2R lags) tl k /\ k <= INR (pred (length ps)) * ((2 * e0) * (2 * e0)).
Proof.
  intros R W. induction hits as [|p hits IH]; intros win ps HE WI AR; inversion HE as [|? x ? win' H1 HE']; subst; inversion AR as [|? pt ? ps' A1 AR']; subst.
  - exists [], [], 0. split; [constructor|]. split; [constructor|]. split; [constructor|]. cbn. lra.
  - destruct (IH win' ps' HE') as (lags & tl & k & N1 & N2 & N3 & N4); [intros a c I J; apply WI; right; assumption|exact AR'|].
    destruct hits as [|q hits].
    + inversion HE'; subst. inversion AR'; subst. exists [], [], 0. split; [constructor|]. split; [constructor|]. split; [constructor|]. cbn. lra.
    + inversion HE' as [|? y ? win'' H2 HE'']; subst. inversion AR' as [|? pt' ? ps'' A2 AR'']; subst.
      exists (lag_between (prepared side) (find_shift root) dt maxshift x y :: lags), ((reaches az s pt - reaches az s pt') :: tl). eexists.
      split; [constructor; [reflexivity|exact N1]|]. split; [constructor; [reflexivity|exact N2]|]. split; [cbn [map]; constructor; exact N3|].
      assert (LB : Q2R (lag_between (prepared side) (find_shift root) dt maxshift x y) = IZR (snd p - snd q) * Q2R dt).
      { unfold lag_between. destruct (heard_pair root side w n p q _ _ (rint (seconds maxshift / dt)) R W H1 H2) as [-> _]; [apply WI; cbn; auto|].
        rewrite Q2R_mult. f_equal. unfold Q2R, inject_Z. cbn. field. }
      rewrite LB, minus_IZR. set (u := Q2R dt * IZR (snd p) - (t0 + reaches az s pt)) in *. set (v := Q2R dt * IZR (snd q) - (t0 + reaches az s pt')) in *.
      replace ((IZR (snd p) - IZR (snd q)) * Q2R dt - (reaches az s pt - reaches az s pt')) with (u - v) by (unfold u, v; ring).
      apply abs_between in A1, A2. change (pred (length (pt :: pt' :: ps''))) with (S (pred (length (pt' :: ps'')))). rewrite S_INR. nra.
Qed.

(** A plane wave passes the array and in a window every sensor hears it: at a time within [e] of the true one, counted
    in whole samples.  Slowness and direction reported for that window are close to those of the wave; if the wave reaches
    every sensor exactly at a sample ([e = 0]), they are those of the wave. *)
Theorem C80_directions root side std dt maxshift south still st t1 t2 win overlap ids ps ls :
  exact_root root -> zeros south still ->
  record st t1 t2 -> (0 < win)%Q -> (0 <= overlap < 1)%Q -> (win + (1#1000000) * wanted_step win overlap < t2 - t1)%Q ->
  Forall2 station_is ids st -> NoDup ids -> Forall plain ids -> complete st t1 t2 win ->
  NoDup (map fst ls) -> Forall2 (fun i p => In (i, p) ls) ids ps -> ~ collinear ps ->
  exists m step starts tmid res,
    spread t1 t2 win step m starts /\
    bearings south still (prepared side) std (find_shift root) dt maxshift st win overlap ls = Some (tmid, res) /\ length res = length starts /\
    forall j t w signal n hits az s t0 e a, nth_error starts j = Some t -> cut (in_window win t) st w ->
      balanced signal -> Forall2 (fun gd tr => hears signal n gd (map snd (snd tr))) hits w -> within (rint (seconds maxshift / dt)) hits ->
      0 < s -> 0 <= e -> Forall2 (fun gd p => Rabs (Q2R dt * IZR (snd gd) - (t0 + reaches az s p)) <= e) hits (real_points ps) ->
      let err := 2 * e * sqrt (INR (length ids - 1)) in
      aperture (real_points ps) a -> err < a * s ->
      exists az' s', nth_error res j = Some (Some (az', s')) /\ -180 <= az' <= 180 /\
        Rabs (s' - s) <= err / a /\ 0 < cos (radians (az' - az)) /\ Rabs (sin (radians (az' - az))) <= err / (a * s).
Proof.
  intros RT Z RE WP OV LN ST ND PL CO NL LO NC.
  destruct (C79_record Q (prepared side) std (find_shift root) dt maxshift south still st t1 t2 win overlap ids ps ls Z RE WP OV LN ST ND PL CO NL LO NC)
    as (m & step & starts & tmid & res & SP & _ & BE & _ & LR & ALL).
  exists m, step, starts, tmid, res. split; [exact SP|]. split; [exact BE|]. split; [exact LR|].
  intros j t w signal n hits az s t0 e a J CU BA HE WI SPOS EP AR err AP ER.
  destruct (heard_lags root side dt maxshift signal n az s t0 e RT BA hits w (real_points ps) HE WI AR) as (lags & tl & k & N1 & N2 & N3 & N4).
  assert (LP : pred (length (real_points ps)) = (length ids - 1)%nat).
  { unfold real_points. rewrite map_length, <- (Forall2_length_eq _ _ _ LO). lia. }
  apply (ALL j t w lags az s tl k err a J CU N1 SPOS N2 N3 AP).
  - unfold err. pose proof (sqrt_pos (INR (length ids - 1))). nra.
  - rewrite LP in N4. unfold err. pose proof (sqrt_sqrt (INR (length ids - 1)) (pos_INR _)) as SQ.
    replace (2 * e * sqrt (INR (length ids - 1)) * (2 * e * sqrt (INR (length ids - 1)))) with (sqrt (INR (length ids - 1)) * sqrt (INR (length ids - 1)) * (2 * e * (2 * e))) by ring. rewrite SQ. exact N4.
  - exact ER.
Qed.

(** ** A case: a signal of four samples passes three stations from the direction (-1, -2), with slowness of the root of 5
    seconds per metre (the stations are few metres apart and the samples a second); the sensors have different gains. *)
Definition heard_trace (sta : string) (g : Q) (d : nat) : bytes * list (Q * Q) :=
  (b "XX." ++ b sta ++ b "..HDF", combine (map (fun i => inject_Z (Z.of_nat i)) (seq 0 121)) (case_record g d 60 ++ repeat 0%Q 61)).
Definition heard_st := [heard_trace "A" 1 10; heard_trace "B" 3 13; heard_trace "C" (1 # 2) 19].
Definition heard_hits : list (Q * Z) := [(1%Q, 10%Z); (3%Q, 13%Z); ((1 # 2)%Q, 19%Z)].
Definition heard_window := map (fun tr : bytes * list (Q * Q) => (fst tr, firstn 60 (snd tr))) heard_st.
Lemma heard_station sta g d : ~ In 46%Z (b sta) -> station_is (b "XX." ++ b sta ++ b ".") (heard_trace sta g d).
Proof.
  intros N. exists (b "XX"), (b sta), [], (b "HDF"). split; [|split; [reflexivity|reflexivity]].
  intros p I H. cbn [In] in I. destruct I as [<-|[<-|[<-|[<-|[]]]]]; [|contradiction|destruct H|]; cbn in H; repeat (destruct H as [H|H]; [discriminate|]); exact H.
Qed.
Lemma those_split {A} (P : A -> Prop) l r : Forall P l -> Forall (fun x => ~ P x) r -> those_with P (l ++ r) l.
Proof.
  intros F N. induction F as [|x l H F IH]; cbn [app]; [|constructor; assumption]. induction N as [|x r H N IH]; [constructor|apply tw_no; assumption].
Qed.
Definition early (win t : Q) (x : Q * Q) : bool := Qle_bool (t - (1 # 1000000)) (fst x) && Qle_bool (fst x) (t + win - (1 # 1000000)).
Lemma early_ok win t x : early win t x = true <-> in_window win t (fst x).
Proof. unfold early, in_window. rewrite andb_true_iff, !Qle_bool_iff. reflexivity. Qed.
Lemma heard_cut : cut (in_window 60 0) heard_st heard_window.
Proof.
  assert (T : forall l, forallb (early 60 0) (firstn 60 l) = true -> forallb (fun x => negb (early 60 0 x)) (skipn 60 l) = true ->
    those_with (fun x => in_window 60 0 (fst x)) l (firstn 60 l)).
  { intros l H1 H2. rewrite <- (firstn_skipn 60 l) at 1. rewrite forallb_forall in H1, H2.
    apply those_split; apply Forall_forall; intros x I; [apply early_ok, H1, I|]. intros W. apply early_ok in W. specialize (H2 x I). rewrite W in H2. discriminate H2. }
  unfold heard_window, heard_st. cbn [map]. repeat (apply cut_keep; [apply T; vm_compute; reflexivity|vm_compute; discriminate|]). apply cut_nil.
Qed.
Lemma heard_all : balanced case_signal /\ Forall2 (fun gd tr => hears case_signal 60 gd (map snd (snd tr))) heard_hits heard_window /\ within (rint (seconds (Some 20%Q) / 1)) heard_hits.
Proof.
  split; [split; reflexivity|].
  assert (S : forall g d x, forallb (fun i => Qeq_bool (nth i x 0) (g * value_at case_signal (Z.of_nat i - d)))%Q (seq 0 (length x)) = true -> sees case_signal g d x).
  { intros g d x H i v E. rewrite forallb_forall in H. assert (I : (i < length x)%nat) by (apply nth_error_Some; congruence).
    specialize (H i ltac:(apply in_seq; lia)). apply Qeq_bool_iff in H. rewrite (nth_error_nth _ _ _ E) in H. exact H. }
  split.
  - unfold heard_hits, heard_window, heard_st. cbn [map]. repeat constructor; try (apply S; vm_compute; reflexivity); vm_compute; try reflexivity; discriminate.
  - assert (R : rint (seconds (Some 20%Q) / 1) = 20%Z) by reflexivity. rewrite R. intros x y I J. cbn [heard_hits In] in I, J.
    destruct I as [<-|[<-|[<-|[]]]], J as [<-|[<-|[<-|[]]]]; cbn; lia.
Qed.
Example C80_directions_case : record heard_st 0 120 /\ (60 + (1#1000000) * wanted_step 60 0 < 120 - 0)%Q /\
  Forall2 station_is case_ids heard_st /\ complete heard_st 0 120 60 /\ cut (in_window 60 0) heard_st heard_window /\
  exists az s a, 0 < s /\ Forall2 (fun gd p => Rabs (Q2R 1 * IZR (snd gd) - (10 + reaches az s p)) <= 0) heard_hits (real_points case_ps) /\
    aperture (real_points case_ps) a /\ 2 * 0 * sqrt (INR (length case_ids - 1)) < a * s.
Proof.
  split; [|split; [reflexivity|split; [|split; [|split; [exact heard_cut|]]]]].
  - do 3 eexists. split; [reflexivity|]. split; [do 2 eexists; split; reflexivity|].
    exists (120%Q, 0%Q), (firstn 120 (snd (heard_trace "A" 1 10))). split; [vm_compute; reflexivity|reflexivity].
  - constructor; [|constructor; [|constructor; [|constructor]]]; apply heard_station; cbn; intros [H|[]]; discriminate.
  - intros id tr s I H1 H2. set (i := Z.to_nat (Qround.Qceiling s)).
    assert (C1 : (s <= inject_Z (Qround.Qceiling s))%Q) by apply Qround.Qle_ceiling.
    assert (C2 : (inject_Z (Qround.Qceiling s) < s + 1)%Q).
    { pose proof (Qround.Qceiling_lt s) as C. unfold Z.sub in C. rewrite inject_Z_plus in C. change (inject_Z (-(1))) with (-(1))%Q in C. Lqa.lra. }
    assert (C0 : (0 <= Qround.Qceiling s <= 60)%Z).
    { split; [rewrite Zle_Qle; change (inject_Z 0) with 0%Q; Lqa.lra|]. apply Z.lt_succ_r. rewrite Zlt_Qlt. change (inject_Z (Z.succ 60)) with 61%Q. Lqa.lra. }
    assert (E : exists v, nth_error tr i = Some (inject_Z (Z.of_nat i), v)).
    { assert (K : forall g d, length (case_record g d 60 ++ repeat 0%Q 61) = 121%nat -> exists v, nth_error (snd (heard_trace "A" g d)) i = Some (inject_Z (Z.of_nat i), v)).
      { intros g d L. destruct (nth_error (case_record g d 60 ++ repeat 0%Q 61) i) as [v|] eqn:V; [|apply nth_error_None in V; unfold i in V; lia].
        exists v. apply combine_nth_error; [|exact V]. erewrite map_nth_error; [reflexivity|].
        rewrite (nth_error_nth' _ 0%nat) by (rewrite seq_length; unfold i; lia). rewrite seq_nth by (unfold i; lia). reflexivity. }
      destruct I as [I|[I|[I|[]]]]; apply (f_equal snd) in I; cbn [snd] in I; rewrite <- I; [apply (K 1%Q 10%nat)|apply (K 3%Q 13%nat)|apply (K (1 # 2)%Q 19%nat)]; reflexivity. }
    destruct E as (v & E). exists (inject_Z (Z.of_nat i), v). split; [eapply nth_error_In; exact E|]. unfold in_window. cbn [fst]. unfold i. rewrite Z2Nat.id by lia. split; Lqa.lra.
  - destruct (bearing_of PI 0 (1, 2)) as [az s] eqn:B. destruct (bearing_vector PI 0 (1, 2) az s (or_introl eq_refl) B) as [V S0].
    destruct (C79_aperture (real_points case_ps)) as (a & A); [rewrite real_collinear; apply C57_case|].
    unfold vector in V. injection V as V1 V2.
    assert (SP : 0 < s) by (destruct (Req_EM_T s 0) as [E|E]; [rewrite E in V1; lra|lra]).
    exists az, s, a. split; [exact SP|].
    assert (RC : forall p, reaches az s p = fst p + 2 * snd p).
    { intros p. unfold reaches. replace (- (s * (fst p * sin (radians az) + snd p * cos (radians az)))) with (fst p * - (s * sin (radians az)) + snd p * - (s * cos (radians az))) by ring.
      rewrite <- V1, <- V2. ring. }
    split; [|split; [exact A|destruct A; nra]].
    unfold heard_hits, real_points, case_ps. cbn [map]. 
    assert (Z0 : forall x, x = 0 -> Rabs x <= 0) by (intros x ->; rewrite Rabs_R0; lra).
    repeat (apply Forall2_cons; [rewrite RC; apply Z0; unfold Q2R; cbn; lra|]). apply Forall2_nil.
Qed.

Print Assumptions C80_window.
Print Assumptions C80_directions.
