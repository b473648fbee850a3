(** C56: lags, coefficients and consistency of a window. *)
From Coq Require Import String.
From Coq Require Import ZArith QArith Qround Qabs List Bool Lia Lqa.
From Verif Require Import Base Lib UnwrapProofs NamesProofs Windows WindowsProps Huddle HuddleTempProofs Slowness Xcorr XcorrSpec XcorrProofs.
Import ListNotations.
Open Scope Z_scope.

Section C56.
Variable D : Type.
Variable prepare : D -> D.
Variable std : D -> Q.
Variable correlate : D -> D -> Z -> Z * Q.
Notation short_id := (short_id D).
Notation xcorr := (xcorr_function D prepare std correlate).

(** The sensors have different names, none with an underscore. *)
Definition distinct (st : list (sensor D)) : Prop :=
  NoDup (map short_id st) /\ forall s, In s st -> ~ In 95 (short_id s).
Definition seconds (m : option Q) : Q := match m with Some x => x | None => 1%Q end.
Definition result (s0 : sensor D) (maxshift : option Q) (x y : sensor D) : Z * Q :=
  correlate (prepare (s_data D x)) (prepare (s_data D y)) (rint (seconds maxshift / s_delta D s0)).

Lemma shape s0 r maxshift : distinct (s0 :: r) ->
  let st := s0 :: r in let n := Z.of_nat (length st) in
  let m := measured D prepare correlate (rint (seconds maxshift / s_delta D s0)) in
  exists c q, xcorr st maxshift = Some ((b "mean_coef", Num q) ::
      flat_map (entries D prepare std correlate (rint (seconds maxshift / s_delta D s0)) (s_delta D s0)) (ring D s0 st)
      ++ [(b "consistency", Flag (Qle_bool (Qabs c) (inject_Z n)))]) /\
    (q == qtotal (map (fun p => snd (m p)) (ring D s0 st)) / inject_Z n)%Q /\
    (c == inject_Z (total (map (fun p => fst (m p)) (ring D s0 st))) / inject_Z n)%Q.
Proof.
  intros [ND P] st n m. unfold xcorr_function. fold st. unfold st at 1. cbv zeta. fold st. fold (seconds maxshift). fold n.
  set (g := rint (seconds maxshift / s_delta D s0)) in *.
  pose proof (entries_names D prepare std correlate g (s_delta D s0) s0 st) as EN.
  assert (ND' : NoDup (pair_items (short_id s0) (map short_id st))).
  { apply pair_items_nodup; [|exact ND]. intros i I. apply in_map_iff in I as (s & <- & I). apply P. exact I. }
  rewrite loop by (cbn [app]; rewrite EN; exact ND'). cbn [app].
  exists (fold_left (fun c p => c + inject_Z (fst (m p)) / inject_Z n)%Q (ring D s0 st) 0%Q).
  exists (fold_left (fun c p => c + snd (m p) / inject_Z n)%Q (ring D s0 st) 0%Q).
  assert (N0 : (~ inject_Z n == 0)%Q) by (unfold n, st; intros E; unfold Qeq in E; cbn in E; lia).
  split; [|split].
  - rewrite set_fresh; [reflexivity|]. rewrite EN. intros I. apply pair_items_in in I as (i & _ & [H|[(j & H)|(j & H)]]); discriminate.
  - rewrite sum_fold by exact N0. lra.
  - rewrite (sum_fold (fun p => inject_Z (fst (m p)))) by exact N0. rewrite (qtotal_Z (fun p => fst (m p))). lra.
Qed.

(** The items of a window: one RMS for each sensor, and a lag in seconds and a coefficient for each sensor with
    the next around the ring; the names are the ones from which the directions are computed later. *)
Theorem C56_items st maxshift : st <> [] -> distinct st ->
  exists d, xcorr st maxshift = Some d /\ NoDup (map fst d) /\
    map fst d = item_names (map short_id st) /\
    forall s0 i x y, nth_error st 0 = Some s0 -> next st i x y ->
      In (b "rms_" ++ short_id x, Num (std (prepare (s_data D x)))) d /\
      In (b "lag_" ++ short_id x ++ b "_" ++ short_id y, Num (inject_Z (fst (result s0 maxshift x y)) * s_delta D s0)) d /\
      In (b "r_" ++ short_id x ++ b "_" ++ short_id y, Num (snd (result s0 maxshift x y))) d.
Proof.
  intros N Di. destruct st as [|s0 r]; [congruence|]. destruct (shape s0 r maxshift Di) as (c & q & E & _ & _).
  eexists. split; [exact E|]. set (g := rint (seconds maxshift / s_delta D s0)) in *.
  assert (M : forall v w, map fst ((b "mean_coef", Num v) :: flat_map (entries D prepare std correlate g (s_delta D s0)) (ring D s0 (s0 :: r)) ++ [(b "consistency", Flag w)])
    = item_names (map short_id (s0 :: r))).
  { intros v w. cbn [map fst]. rewrite map_app, entries_names. reflexivity. }
  split; [|split].
  - rewrite M. destruct Di as [ND P].
    assert (ND' : NoDup (pair_items (short_id s0) (map short_id (s0 :: r)))).
    { apply pair_items_nodup; [|exact ND]. intros i I. apply in_map_iff in I as (s & <- & I). apply P. exact I. }
    change (item_names (map short_id (s0 :: r))) with (b "mean_coef" :: pair_items (short_id s0) (map short_id (s0 :: r)) ++ [b "consistency"]).
    constructor.
    + intros I. apply in_app_iff in I as [I|[I|[]]]; [|discriminate]. apply pair_items_in in I as (i & _ & [H|[(j & H)|(j & H)]]); discriminate.
    + apply NoDup_rev in ND'. rewrite <- (rev_involutive (_ ++ _)). apply NoDup_rev. rewrite rev_app_distr. cbn [rev app]. constructor; [|exact ND'].
      intros I. apply in_rev in I. apply pair_items_in in I as (i & _ & [H|[(j & H)|(j & H)]]); discriminate.
  - apply M.
  - intros s i x y F Nx. injection F as <-. apply ring_next in Nx. apply nth_error_In in Nx.
    assert (I : forall e, In e (entries D prepare std correlate g (s_delta D s0) (x, y)) ->
      In e ((b "mean_coef", Num q) :: flat_map (entries D prepare std correlate g (s_delta D s0)) (ring D s0 (s0 :: r)) ++ [(b "consistency", Flag (Qle_bool (Qabs c) (inject_Z (Z.of_nat (length (s0 :: r))))))])).
    { intros e J. right. apply in_or_app. left. apply in_flat_map. exists (x, y). auto. }
    split; [|split]; apply I; unfold entries; cbn [In fst snd]; auto.
Qed.

(** The mean coefficient is the mean of the coefficients; the lags are called consistent exactly if the shifts
    around the ring, in samples, add up to at most the square of the number of sensors. *)
Lemma list_is {A} (f : sensor D * sensor D -> A) s0 r l : length l = length (s0 :: r) ->
  (forall i x y, next (s0 :: r) i x y -> nth_error l i = Some (f (x, y))) -> map f (ring D s0 (s0 :: r)) = l.
Proof.
  intros L H. assert (G : forall i, nth_error (map f (ring D s0 (s0 :: r))) i = nth_error l i).
  { intros i. rewrite nth_error_map. destruct (nth_error (ring D s0 (s0 :: r)) i) as [[x y]|] eqn:E; cbn [option_map].
    - symmetry. apply H, ring_next, E.
    - symmetry. apply nth_error_None. apply nth_error_None in E. rewrite ring_length in E. lia. }
  clear - G. revert l G. induction (map f (ring D s0 (s0 :: r))) as [|a m IH]; intros [|c l] G; [reflexivity|specialize (G O); discriminate|specialize (G O); discriminate|].
  f_equal; [specialize (G O); cbn in G; congruence|]. apply IH. intros i. exact (G (S i)).
Qed.
Theorem C56_mean_and_consistency st s0 maxshift shifts values : nth_error st 0 = Some s0 -> distinct st ->
  length shifts = length st -> length values = length st ->
  (forall i x y, next st i x y -> nth_error shifts i = Some (fst (result s0 maxshift x y)) /\
                                  nth_error values i = Some (snd (result s0 maxshift x y))) ->
  exists d q f, xcorr st maxshift = Some d /\
    In (b "mean_coef", Num q) d /\ (q * inject_Z (Z.of_nat (length st)) == qtotal values)%Q /\
    In (b "consistency", Flag f) d /\
    (f = true <-> Z.abs (total shifts) <= Z.of_nat (length st) * Z.of_nat (length st)).
Proof.
  intros F Di L1 L2 H. destruct st as [|s r]; [discriminate|]. injection F as ->.
  destruct (shape s0 r maxshift Di) as (c & q & E & Q1 & C1).
  set (g := rint (seconds maxshift / s_delta D s0)) in *. set (n := Z.of_nat (length (s0 :: r))) in *.
  rewrite (list_is (fun p => snd (measured D prepare correlate g p)) s0 r values) in Q1 by (try exact L2; intros i x y Nx; apply (H i x y Nx)).
  rewrite (list_is (fun p => fst (measured D prepare correlate g p)) s0 r shifts) in C1 by (try exact L1; intros i x y Nx; apply (H i x y Nx)).
  assert (Np : 0 < n) by (unfold n; cbn; lia). assert (N0 : (~ inject_Z n == 0)%Q) by (unfold Qeq; cbn; lia).
  eexists. exists q, (Qle_bool (Qabs c) (inject_Z n)). split; [exact E|]. split; [left; reflexivity|]. split; [|split].
  - rewrite Q1. field. exact N0.
  - right. apply in_or_app. right. left. reflexivity.
  - rewrite Qle_bool_iff. assert (A : (Qabs c * inject_Z n == inject_Z (Z.abs (total shifts)))%Q).
    { rewrite C1. unfold Qdiv. rewrite Qabs_Qmult. rewrite (Qabs_pos (/ inject_Z n)).
      - change (Qabs (inject_Z (total shifts))) with (inject_Z (Z.abs (total shifts))). field. exact N0.
      - apply Qinv_le_0_compat. unfold Qle; cbn; lia. }
    assert (Nq : (0 < inject_Z n)%Q) by (unfold Qlt; cbn; lia). split; intros G.
    + apply (Qmult_le_compat_r _ _ (inject_Z n)) in G; [|lra]. rewrite A, <- inject_Z_mult in G. rewrite <- Zle_Qle in G. exact G.
    + rewrite Zle_Qle, inject_Z_mult, <- A in G. apply Qmult_le_r in G; [exact G|exact Nq].
Qed.

(** A wave seen by all sensors, each shift correct to one sample (the "one sample error per cross-correlation"
    of the source): always called consistent.  [d i] is the delay of sensor [i]. *)
Lemma total_around (d e : nat -> Z) l : forall k, (forall i, (i < length l)%nat -> nth_error l i = Some (d (k + i)%nat - d (k + S i)%nat + e (k + i)%nat)) ->
  total l = d k - d (k + length l)%nat + total (map (fun i => e (k + i)%nat) (seq 0 (length l))).
Proof.
  induction l as [|x l IH]; intros k H; [cbn; replace (k + 0)%nat with k by lia; lia|].
  cbn [total fold_right]. fold (total l). rewrite (IH (S k)).
  2:{ intros i Hi. specialize (H (S i)). cbn [nth_error length] in H. rewrite H by lia. f_equal.
      replace (k + S i)%nat with (S k + i)%nat by lia. replace (k + S (S i))%nat with (S k + S i)%nat by lia. reflexivity. }
  specialize (H O). cbn in H. assert (X : x = d (k + 0)%nat - d (k + 1)%nat + e (k + 0)%nat) by (specialize (H ltac:(lia)); congruence).
  cbn [length seq map total fold_right]. rewrite <- seq_shift, map_map.
  rewrite (map_ext (fun i => e (k + S i)%nat) (fun i => e (S k + i)%nat)) by (intros; f_equal; lia).
  fold (total (map (fun i => e (S k + i)%nat) (seq 0 (length l)))).
  replace (k + S (length l))%nat with (S k + length l)%nat by lia. replace (k + 1)%nat with (S k) in X by lia. replace (k + 0)%nat with k in X |- * by lia. lia.
Qed.
Lemma total_bound (e : nat -> Z) bnd n : (forall i, (i < n)%nat -> Z.abs (e i) <= bnd) -> Z.abs (total (map e (seq 0 n))) <= Z.of_nat n * bnd.
Proof.
  intros H. assert (G : forall l, (forall i, In i l -> Z.abs (e i) <= bnd) -> Z.abs (total (map e l)) <= Z.of_nat (length l) * bnd).
  { clear. induction l as [|x l IH]; intros H; [cbn; lia|]. cbn [map total fold_right]. fold (total (map e l)).
    pose proof (H x (or_introl eq_refl)). assert (Z.abs (total (map e l)) <= Z.of_nat (length l) * bnd) by (apply IH; intros i I; apply H; right; exact I).
    cbn [length]. rewrite Nat2Z.inj_succ. lia. }
  specialize (G (seq 0 n)). rewrite seq_length in G. apply G. intros i I. apply in_seq in I. apply H. lia.
Qed.
Theorem C56_wave_consistent st s0 maxshift (d e : nat -> Z) : nth_error st 0 = Some s0 -> distinct st ->
  (forall i x y, next st i x y ->
     fst (result s0 maxshift x y) = d i - d (Nat.modulo (i + 1) (length st)) + e i) ->
  (forall i, (i < length st)%nat -> Z.abs (e i) <= 1) ->
  exists items, xcorr st maxshift = Some items /\ In (b "consistency", Flag true) items.
Proof.
  intros F Di H B. destruct st as [|s r]; [discriminate|]. injection F as ->. set (st := s0 :: r) in *.
  set (m := fun p => result s0 maxshift (fst p) (snd p)).
  destruct (C56_mean_and_consistency st s0 maxshift (map (fun p => fst (m p)) (ring D s0 st)) (map (fun p => snd (m p)) (ring D s0 st)))
    as (it & q & f & E & _ & _ & I & C); [reflexivity|exact Di|rewrite map_length, ring_length; reflexivity|rewrite map_length, ring_length; reflexivity| |].
  { intros i x y Nx. apply ring_next in Nx. rewrite !nth_error_map. fold st in Nx. rewrite Nx. split; reflexivity. }
  exists it. split; [exact E|]. assert (Ft : f = true); [|rewrite Ft in I; exact I]. apply C.
  set (n := length st) in *. assert (Nn : (0 < n)%nat) by (unfold n, st; cbn; lia).
  set (d' := fun i => d (Nat.modulo i n)).
  rewrite (total_around d' e _ 0).
  - rewrite map_length, ring_length. fold n. unfold d'. cbn [Nat.add]. rewrite Nat.mod_same, Nat.mod_0_l by lia.
    pose proof (total_bound e 1 n B) as T. change (map (fun i => e i) (seq 0 n)) with (map e (seq 0 n)).
    set (tt := total (map e (seq 0 n))) in *. clearbody tt. assert (Z.of_nat n <= Z.of_nat n * Z.of_nat n) by nia. lia.
  - intros i Hi. rewrite map_length, ring_length in Hi. fold n in Hi. rewrite nth_error_map.
    destruct (nth_error (ring D s0 st) i) as [[x y]|] eqn:G; [|apply nth_error_None in G; rewrite ring_length in G; fold n in G; lia].
    cbn [option_map]. apply ring_next in G. unfold m. cbn [fst snd]. rewrite (H i x y G). f_equal. unfold d'. cbn [Nat.add].
    rewrite (Nat.mod_small i) by lia. replace (i + 1)%nat with (S i) by lia. reflexivity.
Qed.

(** If the correlation keeps within the lag it is asked for, no lag exceeds the largest shift (one second
    unless given) by more than half a sample. *)
Theorem C56_lag_bound st s0 maxshift : nth_error st 0 = Some s0 -> distinct st -> (0 < s_delta D s0)%Q ->
  (forall m, maxshift = Some m -> 0 <= m)%Q -> (forall x y m, 0 <= m -> Z.abs (fst (correlate x y m)) <= m) ->
  forall d k q, xcorr st maxshift = Some d -> In (k, Num q) d -> (exists r, k = b "lag_" ++ r) ->
  (Qabs q <= (match maxshift with Some m => m | None => 1 end) + s_delta D s0 * (1 # 2))%Q.
Proof.
  intros F Di Dt Pm Co d k q E I [k' ->]. destruct st as [|s r]; [discriminate|]. injection F as ->.
  destruct (shape s0 r maxshift Di) as (c & q' & E' & _ & _). rewrite E' in E. apply (f_equal (fun o => match o with Some v => v | None => [] end)) in E. cbv beta iota in E. subst d. clear E'.
  destruct I as [I|I]; [discriminate|]. apply in_app_iff in I as [I|[I|[]]]; [|discriminate].
  apply in_flat_map in I as ([x y] & _ & I). unfold entries in I. cbn [In fst snd] in I. destruct I as [I|[I|[I|[]]]]; [discriminate| |discriminate].
  assert (Q : (inject_Z (fst (result s0 maxshift x y)) * s_delta D s0)%Q = q) by (unfold result; unfold measured in I; cbn [fst snd] in I; congruence).
  rewrite <- Q. fold (seconds maxshift). unfold result. set (g := rint (seconds maxshift / s_delta D s0)).
  pose proof (rint_near (seconds maxshift / s_delta D s0)) as [R R']. fold g in R, R'.
  assert (G0 : 0 <= g).
  { assert (0 <= seconds maxshift)%Q by (destruct maxshift as [m|]; [apply Pm; reflexivity|cbn; lra]).
    assert (0 <= seconds maxshift / s_delta D s0)%Q by (apply Qle_shift_div_l; [exact Dt|lra]).
    assert (X : (inject_Z (-1) < inject_Z g)%Q) by (change (inject_Z (-1)) with (- (1))%Q; lra). rewrite <- Zlt_Qlt in X. lia. }
  pose proof (Co (prepare (s_data D x)) (prepare (s_data D y)) g G0) as B. set (sh := fst (correlate (prepare (s_data D x)) (prepare (s_data D y)) g)) in *.
  rewrite Qabs_Qmult, (Qabs_pos (s_delta D s0)) by lra. change (Qabs (inject_Z sh)) with (inject_Z (Z.abs sh)).
  assert (G : (inject_Z (Z.abs sh) * s_delta D s0 <= inject_Z g * s_delta D s0)%Q) by (apply Qmult_le_compat_r; [rewrite <- Zle_Qle; exact B|lra]).
  assert (G2 : (inject_Z g * s_delta D s0 <= (seconds maxshift / s_delta D s0 + (1 # 2)) * s_delta D s0)%Q) by (apply Qmult_le_compat_r; lra).
  assert (G3 : ((seconds maxshift / s_delta D s0 + (1 # 2)) * s_delta D s0 == seconds maxshift + s_delta D s0 * (1 # 2))%Q) by (field; lra).
  rewrite G3 in G2. lra.
Qed.
End C56.

(** ** Upsampling *)
Lemma ceiling_index N k m : (0 < N)%Q -> (k < Z.to_nat (Qceiling (N * inject_Z m)))%nat -> (inject_Z (Z.of_nat k) / N < inject_Z m)%Q.
Proof.
  intros Np H. apply Qlt_shift_div_r; [exact Np|]. assert (Z.of_nat k <= Qceiling (N * inject_Z m) - 1) by lia.
  pose proof (Qceiling_lt (N * inject_Z m)) as C. rewrite Zle_Qle in H0. rewrite (Qmult_comm (inject_Z m)). eapply Qle_lt_trans; eassumption.
Qed.
(** Every upsampled value is the spline at a time from the first sample to before the last one, [1/N] apart: the
    spline is never extrapolated.  The interval between samples is divided by the ratio. *)
Theorem C56_upsample spline delta data N : (0 < N)%Q -> (2 <= length data)%nat ->
  exists out, upsample spline delta data N = Some ((delta / N)%Q, out) /\
    Z.of_nat (length out) = Qceiling (N * inject_Z (Z.of_nat (length data) - 1)) /\
    forall k v, nth_error out k = Some v -> exists t, v = spline data t /\ (t * N == inject_Z (Z.of_nat k))%Q /\
      (0 <= t < inject_Z (Z.of_nat (length data) - 1))%Q.
Proof.
  intros Np L. destruct data as [|a [|c r]]; cbn [length] in L; try lia. set (data := a :: c :: r) in *.
  eexists. split; [reflexivity|]. unfold upsample_times. rewrite !map_length, seq_length. split.
  - apply Z2Nat.id. apply (Z.le_trans _ (Qceiling 0)); [cbn; lia|]. apply Qceiling_resp_le. apply Qmult_le_0_compat; [lra|].
    change 0%Q with (inject_Z 0). rewrite <- Zle_Qle. unfold data. cbn [length]. lia.
  - intros k v H. rewrite !nth_error_map in H. destruct (nth_error (seq 0 _) k) as [j|] eqn:E; [|discriminate]. cbn [option_map] in H. injection H as <-.
    assert (K : (k < Z.to_nat (Qceiling (N * inject_Z (Z.of_nat (length data) - 1))))%nat).
    { rewrite <- (seq_length (Z.to_nat (Qceiling (N * inject_Z (Z.of_nat (length data) - 1)))) 0). apply nth_error_Some. congruence. }
    assert (J : j = k). { apply (nth_error_nth _ _ O) in E. rewrite seq_nth in E by exact K. cbn [Nat.add] in E. congruence. }
    subst j. exists (inject_Z (Z.of_nat k) / N)%Q. split; [reflexivity|]. split; [field; lra|]. split; [|apply ceiling_index; [exact Np|exact K]].
    apply Qle_shift_div_l; [exact Np|]. rewrite Qmult_0_l. unfold Qle; cbn; lia.
Qed.
(** A whole ratio and a spline through the samples: sample [i] is at index [i * N], except for the last sample,
    which is no longer there. *)
Theorem C56_upsample_keeps spline delta data N : (0 < N)%nat -> (2 <= length data)%nat ->
  (forall i x t, nth_error data i = Some x -> (t == inject_Z (Z.of_nat i))%Q -> (spline data t == x)%Q) ->
  exists out, upsample spline delta data (inject_Z (Z.of_nat N)) = Some ((delta / inject_Z (Z.of_nat N))%Q, out) /\
    length out = (N * (length data - 1))%nat /\
    forall i x, (i < length data - 1)%nat -> nth_error data i = Some x -> exists v, nth_error out (i * N) = Some v /\ (v == x)%Q.
Proof.
  intros Np L Sp. assert (Nq : (0 < inject_Z (Z.of_nat N))%Q) by (unfold Qlt; cbn; lia).
  destruct (C56_upsample spline delta data _ Nq L) as (out & E & Lo & V). exists out. split; [exact E|].
  assert (Lo' : length out = (N * (length data - 1))%nat). { rewrite <- inject_Z_mult, Qceiling_Z in Lo. nia. }
  split; [exact Lo'|]. intros i x Hi H. destruct (nth_error out (i * N)) as [v|] eqn:G; [|apply nth_error_None in G; nia].
  exists v. split; [reflexivity|]. destruct (V _ _ G) as (t & -> & T & _). apply (Sp i); [exact H|].
  rewrite Nat2Z.inj_mul, inject_Z_mult in T. apply (Qmult_inj_r _ _ (inject_Z (Z.of_nat N))); [lra|exact T].
Qed.
Theorem C56_upsample_last_refuted : ~ (forall spline delta data N, (0 < N)%nat -> (2 <= length data)%nat ->
  (forall i x t, nth_error data i = Some x -> (t == inject_Z (Z.of_nat i))%Q -> (spline data t == x)%Q) ->
  exists out, upsample spline delta data (inject_Z (Z.of_nat N)) = Some ((delta / inject_Z (Z.of_nat N))%Q, out) /\
    forall i x, nth_error data i = Some x -> exists v, nth_error out (i * N) = Some v /\ (v == x)%Q).
Proof.
  intros H. destruct (H (fun d t => t) 1%Q [0; 1]%Q 1%nat) as (out & E & V); [lia|cbn; lia| |].
  { intros [|[|[|i]]] x t G T; cbn in G; try discriminate; injection G as <-; exact T. }
  vm_compute in E. injection E as <-. destruct (V 1%nat 1%Q eq_refl) as (v & G & _). discriminate.
Qed.

(** ** Parameters *)
(** Each parameter left out has its default; all given and valid: used as given. *)
Theorem C56_parameters fl fh win overlap ratio :
  (0 <= fl -> fl < fh -> 0 < win -> 0 <= overlap -> overlap < 1 -> 1 <= ratio ->
   choose (mkp (Some fl) (Some fh) (Some win) (Some overlap) (Some ratio)) = Some (mkc fl fh win overlap ratio))%Q.
Proof.
  intros A B C E F G. unfold choose. cbn [p_fl p_fh p_win p_overlap p_ratio default].
  replace (validate_inputs (Some fl) (Some fh) (Some win) (Some overlap) (Some ratio)) with true; [reflexivity|].
  symmetry. apply C38_validated. repeat split; intros; repeat match goal with H : Some _ = Some _ |- _ => injection H as <- end; try lra; eexists; (split; [reflexivity|lra]).
Qed.
(** Whatever is used is valid, and each value given, other than the ratio, is used. *)
Theorem C56_parameters_used a c : choose a = Some c ->
  (0 <= c_fl c < c_fh c /\ 0 < c_win c /\ 0 <= c_overlap c < 1 /\ 1 <= c_ratio c)%Q /\
  c_fl c = (match p_fl a with Some x => x | None => 5%Q end) /\ c_fh c = (match p_fh a with Some x => x | None => 40%Q end) /\
  c_win c = (match p_win a with Some x => x | None => 5%Q end) /\ c_overlap c = (match p_overlap a with Some x => x | None => 0%Q end) /\
  (p_overlap a <> None -> p_ratio a = Some (c_ratio c)) /\ (p_overlap a = None -> c_ratio c = 1%Q).
Proof.
  intros E. unfold choose in E. destruct (match p_overlap a with Some _ => p_ratio a | None => Some 1%Q end) as [ra|] eqn:R; [|discriminate].
  destruct (validate_inputs _ _ _ _ _) eqn:V; [|discriminate]. injection E as <-. cbn [c_fl c_fh c_win c_overlap c_ratio].
  apply C38_validated in V as (V1 & V2 & V3 & V4 & (o & O1 & O2) & (u & U1 & U2)). injection O1 as <-. injection U1 as <-.
  specialize (V1 _ eq_refl). specialize (V3 _ _ eq_refl eq_refl). specialize (V4 _ eq_refl).
  split; [split; [lra|split; [lra|split; [lra|lra]]]|]. repeat (split; [reflexivity|]).
  destruct (p_overlap a); split; intros H; try congruence; destruct (H ltac:(congruence)).
Qed.
(** Two parameters are tangled: without an overlap, a given ratio is not used, and with an overlap the ratio
    cannot be left out. *)
Theorem C56_ratio_ignored_refuted : ~ (forall a c r, choose a = Some c -> p_ratio a = Some r -> c_ratio c = r).
Proof. intros H. pose proof (H (mkp None None None None (Some 4%Q)) (mkc 5 40 5 0 1) 4%Q eq_refl eq_refl) as E. discriminate. Qed.
Theorem C56_ratio_default_refuted : ~ (forall a, (forall o, p_overlap a = Some o -> (0 <= o < 1)%Q) -> p_fl a = None -> p_fh a = None -> p_win a = None -> p_ratio a = None -> choose a <> None).
Proof.
  intros H. apply (H (mkp None None None (Some (1 # 2)) None)); try reflexivity. intros o E. injection E as <-. split; [discriminate|reflexivity].
Qed.

(** ** Cases and refutations *)
Definition ex_corr (a c : Z) (m : Z) : Z * Q := (a - c, (1 # 2)%Q).
Definition ex_sensor (sta : string) (d : Z) : sensor Z := mks Z (b "XP") (b sta) [] (1 # 100) d.
Definition ex_st : list (sensor Z) := [ex_sensor "A1" 3; ex_sensor "A2" 7; ex_sensor "A3" 5].
Definition ex_run := xcorr_function Z (fun d => d) (fun d => inject_Z d).
Lemma ex_distinct : distinct Z ex_st.
Proof.
  split.
  - repeat constructor; cbn; intros H; repeat (destruct H as [H|H]; [discriminate|]); exact H.
  - intros s I H. cbn in I. destruct I as [<-|[<-|[<-|[]]]]; cbn in H; repeat (destruct H as [H|H]; [discriminate|]); exact H.
Qed.
Example C56_case : exists d, ex_run ex_corr ex_st None = Some d /\ length d = 11%nat /\
  In (b "lag_XP.A1._XP.A2.", Num (inject_Z (-4) * (1 # 100))%Q) d /\ In (b "consistency", Flag true) d.
Proof. eexists. split; [vm_compute; reflexivity|]. split; [reflexivity|]. split; vm_compute; auto 20. Qed.
Example C56_wave_case : distinct Z ex_st /\ forall i x y, next ex_st i x y ->
  fst (result Z (fun d => d) ex_corr (ex_sensor "A1" 3) None x y) =
  nth i [3; 7; 5] 0 - nth (Nat.modulo (i + 1) 3) [3; 7; 5] 0 + 0.
Proof.
  split; [exact ex_distinct|]. intros [|[|[|i]]] x y [A B]; cbn in A, B; try (destruct i; discriminate); injection A as <-; injection B as <-; reflexivity.
Qed.

(** The tolerance is larger than the comment in the source says: with three sensors, a single correlation wrong
    by nine samples, the other two exact, is still called consistent. *)
Definition bad_corr (a c : Z) (m : Z) : Z * Q := (a - c + (if a =? 3 then 9 else 0), (1 # 2)%Q).
Theorem C56_tolerance_refuted : ~ (forall st s0 maxshift (d e : nat -> Z) correlate, nth_error st 0 = Some s0 -> distinct Z st ->
  (forall i x y, next st i x y ->
     fst (result Z (fun d => d) correlate s0 maxshift x y) = d i - d (Nat.modulo (i + 1) (length st)) + e i) ->
  total (map e (seq 0 (length st))) > Z.of_nat (length st) ->
  exists items, ex_run correlate st maxshift = Some items /\ In (b "consistency", Flag false) items).
Proof.
  intros H. destruct (H ex_st (ex_sensor "A1" 3) None (fun i => nth i [3; 7; 5] 0) (fun i => nth i [9; 0; 0] 0) bad_corr) as (it & E & I);
    [reflexivity|exact ex_distinct| |reflexivity|].
  - intros [|[|[|i]]] x y [A B]; cbn in A, B; try (destruct i; discriminate); injection A as <-; injection B as <-; reflexivity.
  - vm_compute in E. injection E as <-. cbn in I. repeat (destruct I as [I|I]; [discriminate|]). exact I.
Qed.
(** Two channels of one station and location have the same name: their items overwrite each other. *)
Theorem C56_channels_refuted : ~ (forall st maxshift, st <> [] -> exists d, ex_run ex_corr st maxshift = Some d /\ length d = (3 * length st + 2)%nat).
Proof.
  intros H. destruct (H [ex_sensor "A1" 3; ex_sensor "A1" 7; ex_sensor "A2" 5] None) as (d & E & L); [discriminate|].
  vm_compute in E. injection E as <-. discriminate.
Qed.
Example C56_lag_case : (0 < s_delta Z (ex_sensor "A1" 3))%Q /\
  (forall x y m, 0 <= m -> Z.abs (fst ((fun a c m => (Z.max (- m) (Z.min m (a - c)), 0%Q)) x y m)) <= m).
Proof. split; [reflexivity|]. intros x y m H. cbn [fst]. lia. Qed.
Example C56_upsample_case : exists out, upsample (fun d t => t) (1 # 100) [0; 1; 2]%Q 4 = Some (((1 # 100) / 4)%Q, out) /\ length out = 8%nat.
Proof. eexists. split; [reflexivity|]. reflexivity. Qed.

Example C56_parameters_case : choose (mkp (Some 1%Q) (Some 20%Q) None (Some (1 # 2)) (Some 4%Q)) = Some (mkc 1 20 5 (1 # 2) 4) /\
  choose (mkp (Some 20%Q) (Some 1%Q) None None None) = None.
Proof. split; reflexivity. Qed.

Print Assumptions C56_items.
Print Assumptions C56_mean_and_consistency.
Print Assumptions C56_wave_consistent.
Print Assumptions C56_lag_bound.
Print Assumptions C56_upsample.
Print Assumptions C56_upsample_keeps.
Print Assumptions C56_upsample_last_refuted.
Print Assumptions C56_parameters.
Print Assumptions C56_parameters_used.
Print Assumptions C56_ratio_ignored_refuted.
Print Assumptions C56_ratio_default_refuted.
Print Assumptions C56_tolerance_refuted.
Print Assumptions C56_channels_refuted.
