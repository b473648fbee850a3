(** C71: noise spectra. *)
From Coq Require Import String.
From Coq Require Import ZArith QArith Qreals Reals List Bool Lia Lra.
From Verif Require Import Base Lib UnwrapSpec Names Reference Noise NoiseSpec.
Import ListNotations.
Open Scope R_scope.

Lemma eqb_bytes_iff x y : eqb_bytes x y = true <-> x = y.
Proof. unfold eqb_bytes. destruct (list_eq_dec Z.eq_dec x y); split; congruence. Qed.
Lemma lower_spelled w s : Forall (fun d => (97 <= d <= 122)%Z) w -> (lower s = w <-> spelled w s).
Proof.
  intros F. revert s. induction F as [|d w D F IH]; intros [|c s]; unfold spelled; (split; intros H); try (inversion H; fail); try constructor.
  - cbn [lower map] in H. injection H as H _. destruct ((65 <=? c)%Z && (c <=? 90)%Z) eqn:E; [right|left; exact H].
    apply andb_prop in E as [E1 E2]. apply Z.leb_le in E1, E2. lia.
  - cbn [lower map] in H. injection H as _ H. apply IH, H.
  - inversion H as [|? ? ? ? X Y]; subst. apply IH in Y. cbn [lower map]. unfold lower in Y. rewrite Y. f_equal.
    destruct X as [->|[X ->]].
    + replace ((65 <=? d)%Z && (d <=? 90)%Z) with false; [reflexivity|]. symmetry. apply andb_false_iff. right. apply Z.leb_gt. lia.
    + replace ((65 <=? c)%Z && (c <=? 90)%Z) with true; [reflexivity|]. symmetry. apply andb_true_iff. split; apply Z.leb_le; lia.
Qed.
Ltac letters := repeat (apply Forall_cons; [vm_compute; split; discriminate|]); apply Forall_nil.
Lemma asks_power s : eqb_bytes (lower s) (b "power") = true <-> asks Power s.
Proof. rewrite eqb_bytes_iff. apply lower_spelled. letters. Qed.
Lemma power_power : asks Power (b "power").
Proof. apply asks_power. reflexivity. Qed.
Lemma asks_decibels s : eqb_bytes (lower s) (b "db") = true <-> asks Decibels s.
Proof. rewrite eqb_bytes_iff. apply lower_spelled. letters. Qed.
Lemma lower_firstn n s : firstn n (lower s) = lower (firstn n s).
Proof. apply firstn_map. Qed.
Lemma asks_amplitude s : eqb_bytes (firstn 3 (lower s)) (b "amp") = true <-> asks Amplitude s.
Proof.
  rewrite eqb_bytes_iff, lower_firstn. rewrite lower_spelled by letters. split.
  - intros H. exists (firstn 3 s), (skipn 3 s). split; [symmetry; apply firstn_skipn|exact H].
  - intros (s1 & s2 & -> & H). pose proof (Forall2_length_eq _ _ _ H) as L. change (length (b "amp")) with 3%nat in L.
    rewrite firstn_app, <- L. change (firstn (3 - 3) s2) with (@nil Z). rewrite app_nil_r.
    replace (firstn 3 s1) with s1; [exact H|]. symmetry. apply firstn_all2. lia.
Qed.
(** Nobody can ask for two kinds at once. *)
Lemma asks_one k k' s : asks k s -> asks k' s -> k = k'.
Proof.
  intros H H'. 
  assert (PA : asks Power s -> asks Amplitude s -> False).
  { intros A B. apply asks_power, eqb_bytes_iff in A. apply asks_amplitude, eqb_bytes_iff in B. rewrite A in B. vm_compute in B. discriminate. }
  assert (PD : asks Power s -> asks Decibels s -> False).
  { intros A B. apply asks_power, eqb_bytes_iff in A. apply asks_decibels, eqb_bytes_iff in B. rewrite A in B. vm_compute in B. discriminate. }
  assert (AD : asks Decibels s -> asks Amplitude s -> False).
  { intros A B. apply asks_decibels, eqb_bytes_iff in A. apply asks_amplitude, eqb_bytes_iff in B. rewrite A in B. vm_compute in B. discriminate. }
  destruct k, k'; try reflexivity; exfalso; eauto.
Qed.

Definition in_kind (k : kind) : num -> num := match k with Power => fun v => v | Amplitude => np_sqrt | Decibels => ten_log10 end.

Lemma ln10 : 0 < ln 10.
Proof. rewrite <- ln_1. apply ln_increasing; lra. Qed.
Lemma in_kind_converts k p : p <> MinusInf -> converts k p (in_kind k p).
Proof.
  intros N. destruct p as [x| |]; [|contradiction|].
  - destruct k; cbn [in_kind np_sqrt ten_log10].
    + left. exists x. split; [reflexivity|constructor].
    + destruct (Rlt_dec x 0) as [L|L]; [right; split; [reflexivity|]; right; split; [discriminate|]; exists x; auto|].
      left. exists x. split; [reflexivity|]. replace x with (sqrt x * sqrt x) at 2 by (apply sqrt_sqrt; lra). constructor. apply sqrt_pos.
    + destruct (Rlt_dec x 0) as [L|L]; [right; split; [reflexivity|]; right; split; [discriminate|]; exists x; auto|].
      left. exists x. split; [reflexivity|]. destruct (Req_EM_T x 0) as [->|E]; [constructor|].
      replace x with (Rpower 10 (10 * (ln x / ln 10) / 10)) at 2; [constructor|]. unfold Rpower.
      replace (10 * (ln x / ln 10) / 10 * ln 10) with (ln x) by (pose proof ln10; field; lra). apply exp_ln. lra.
  - right. split; [destruct k; reflexivity|left; reflexivity].
Qed.
(** What stands for a power is determined by it. *)
Lemma stands_unique k v v' p : stands_for k v p -> stands_for k v' p -> v = v'.
Proof.
  intros H. destruct H as [p|x X|x|]; intros H'.
  - inversion H'; subst. reflexivity.
  - remember (x * x) as p eqn:Ep. remember Amplitude as k eqn:Ek. destruct H' as [|y Y| |]; try discriminate Ek. f_equal. nra.
  - assert (Pos : Rpower 10 (x / 10) <> 0) by (unfold Rpower; apply Rgt_not_eq, exp_pos).
    remember (Rpower 10 (x / 10)) as p eqn:Ep. remember Decibels as k eqn:Ek. destruct H' as [| |y|]; try discriminate Ek; [|destruct (Pos eq_refl)].
    assert (E : y / 10 * ln 10 = x / 10 * ln 10) by (apply exp_inv; exact Ep). apply Rmult_eq_reg_r in E; [|pose proof ln10; lra]. f_equal. lra.
  - remember 0 as p eqn:Ep. remember Decibels as k eqn:Ek. destruct H' as [| |y|]; try discriminate Ek; [|reflexivity].
    exfalso. revert Ep. unfold Rpower. apply Rgt_not_eq, exp_pos.
Qed.

Section any_scipy.
Variable spline : list R -> list R -> option (R -> num).
Variable quad : (R -> num) -> R -> R -> num.
Hypothesis Spline : spline_contract spline.

Lemma helper_spec xs ps freq s lo hi : usable_table xs -> length ps = length xs ->
  exists f, spline xs ps = Some f /\
    (forall i x y, nth_error xs i = Some x -> nth_error ps i = Some y -> f x = Num y) /\
    (forall x, within xs x -> exists y, f x = Num y) /\ (forall x, ~ within xs x -> f x = NaN) /\
    (forall k, asks k s -> let F := match freq with None => xs | Some l => l end in
      noise_spectrum_helper spline quad xs ps freq s lo hi =
      inr (mkanswer F (map (in_kind k) (map f F)) s (fst (units_of k)) lo hi
             (in_kind k (match lo, hi with Some lo, Some hi => quad f lo hi | _, _ => NaN end)) (snd (units_of k)))) /\
    ((forall k, ~ asks k s) -> noise_spectrum_helper spline quad xs ps freq s lo hi = inl Unsupported).
Proof.
  intros U L. destruct (Spline xs ps U L) as (f & E & K & W & O). exists f. split; [exact E|]. split; [exact K|]. split; [exact W|]. split; [exact O|].
  unfold noise_spectrum_helper. rewrite E. cbv zeta. split.
  - intros k A. destruct k; cbn [in_kind units_of fst snd].
    + apply asks_power in A. rewrite A, map_id. reflexivity.
    + destruct (eqb_bytes (lower s) (b "power")) eqn:P; [apply asks_power in P; discriminate (asks_one _ _ _ A P)|].
      apply asks_amplitude in A. rewrite A. reflexivity.
    + destruct (eqb_bytes (lower s) (b "power")) eqn:P; [apply asks_power in P; discriminate (asks_one _ _ _ A P)|].
      destruct (eqb_bytes (firstn 3 (lower s)) (b "amp")) eqn:M; [apply asks_amplitude in M; discriminate (asks_one _ _ _ A M)|].
      apply asks_decibels in A. rewrite A. reflexivity.
  - intros N. destruct (eqb_bytes (lower s) (b "power")) eqn:P; [apply asks_power in P; destruct (N _ P)|].
    destruct (eqb_bytes (firstn 3 (lower s)) (b "amp")) eqn:M; [apply asks_amplitude in M; destruct (N _ M)|].
    destruct (eqb_bytes (lower s) (b "db")) eqn:D; [apply asks_decibels in D; destruct (N _ D)|reflexivity].
Qed.

Lemma within_dec xs x : within xs x \/ ~ within xs x.
Proof.
  assert (D : forall P : R -> Prop, (forall a, P a \/ ~ P a) -> forall l, (exists a, In a l /\ P a) \/ ~ exists a, In a l /\ P a).
  { intros P Dp. induction l as [|a l [(c & I & H)|H]].
    - right. intros (a & [] & _).
    - left. exists c. split; [right; exact I|exact H].
    - destruct (Dp a) as [X|X]; [left; exists a; split; [left; reflexivity|exact X]|]. right. intros (c & [<-|I] & Y); [contradiction|]. apply H. eauto. }
  destruct (D (fun a => a <= x) (fun a => ltac:(lra)) xs) as [(a & Ia & A)|N].
  - destruct (D (fun c => x <= c) (fun c => ltac:(lra)) xs) as [(c & Ic & C)|N].
    + left. exists a, c. auto.
    + right. intros (a' & c & _ & Ic & _ & C). apply N. eauto.
  - right. intros (a & c & Ia & _ & A & _). apply N. eauto.
Qed.

(** A call of one of the two functions; only frequencies, type of spectrum and band are left open.  [xs] are the frequencies of
    its table and [ps] the powers there. *)
Inductive noise_function : (option (list R) -> bytes -> option R -> option R -> exn + answer) -> list R -> list R -> Prop :=
| nf_gem table version v : dec_float version = Some v -> (97 # 100 <= v)%Q -> usable_table (map fst table) ->
    noise_function (fun freq s lo hi => gem_noise spline quad table freq s version lo hi)
      (map fst table) (map (fun row => snd row * snd row) table)
| nf_ims table model (column : ims_row -> R) :
    (exists w, spelled w model /\ ((In w [b "low"; b "min"] /\ column = im_min) \/ (w = b "med" /\ column = im_med) \/
      (In w [b "high"; b "hi"; b "max"] /\ column = im_max))) -> usable_table (map im_f table) ->
    noise_function (fun freq s lo hi => ims_noise spline quad table model freq s lo hi)
      (map im_f table) (map (fun row => Rpower 10 (column row)) table).

Lemma column_spec model column :
  (exists w, spelled w model /\ ((In w [b "low"; b "min"] /\ column = im_min) \/ (w = b "med" /\ column = im_med) \/
      (In w [b "high"; b "hi"; b "max"] /\ column = im_max))) -> ims_column model = Some column.
Proof.
  intros (w & Sp & H). unfold ims_column.
  assert (E : lower model = w).
  { apply lower_spelled; [|exact Sp]. cbn [In] in H. destruct H as [([<-|[<-|[]]] & _)|[[-> _]|([<-|[<-|[<-|[]]]] & _)]]; letters. }
  cbv zeta. rewrite E. cbn [In] in H. destruct H as [([<-|[<-|[]]] & ->)|[[-> ->]|([<-|[<-|[<-|[]]]] & ->)]]; reflexivity.
Qed.

Lemma function_helper call xs ps : noise_function call xs ps -> usable_table xs /\ length ps = length xs /\
  forall freq s lo hi, call freq s lo hi = noise_spectrum_helper spline quad xs ps freq s lo hi.
Proof.
  intros [table version v E V U|table model column M U]; (split; [exact U|]; split; [rewrite !map_length; reflexivity|]); intros.
  - unfold gem_noise. rewrite E, (proj2 (Qle_bool_iff _ _) V). f_equal. apply map_ext. intros []. cbn [snd]. ring.
  - unfold ims_noise. rewrite (column_spec _ _ M). reflexivity.
Qed.
Lemma function_spec call xs ps freq s lo hi : noise_function call xs ps ->
  exists f, spline xs ps = Some f /\
    (forall i x y, nth_error xs i = Some x -> nth_error ps i = Some y -> f x = Num y) /\
    (forall x, within xs x -> exists y, f x = Num y) /\ (forall x, ~ within xs x -> f x = NaN) /\
    (forall k, asks k s -> let F := match freq with None => xs | Some l => l end in
      call freq s lo hi =
      inr (mkanswer F (map (in_kind k) (map f F)) s (fst (units_of k)) lo hi
             (in_kind k (match lo, hi with Some lo, Some hi => quad f lo hi | _, _ => NaN end)) (snd (units_of k)))) /\
    ((forall k, ~ asks k s) -> call freq s lo hi = inl Unsupported).
Proof.
  intros H. apply function_helper in H as (U & L & E).
  destruct (helper_spec xs ps freq s lo hi U L) as (f & A & K & W & O & X & Y). exists f.
  split; [exact A|]. split; [exact K|]. split; [exact W|]. split; [exact O|]. split; [intros k Ak; rewrite E; apply X, Ak|intros N; rewrite E; apply Y, N].
Qed.

(** The answer has the units that were asked for; its spectrum has a number for every frequency asked for (those of the table if
    none are given): at a frequency of the table it stands for the power in the table, outside the table it is NaN. *)
Theorem C71_spectrum call xs ps k freq s lo hi : noise_function call xs ps -> asks k s ->
  exists r, call freq s lo hi = inr r /\
    freqs r = match freq with None => xs | Some l => l end /\ length (spectrum r) = length (freqs r) /\
    (forall i f v, nth_error (freqs r) i = Some f -> nth_error (spectrum r) i = Some v ->
       (forall j p, nth_error xs j = Some f -> nth_error ps j = Some p -> 0 <= p -> stands_for k v p) /\
       (~ within xs f -> v = NaN)) /\
    type r = s /\ (spectrum_units r, noise_units r) = units_of k /\ band_min r = lo /\ band_max r = hi.
Proof.
  intros N A. destruct (function_spec call xs ps freq s lo hi N) as (f & _ & K & W & O & X & _). specialize (X k A). cbv zeta in X.
  eexists. split; [exact X|]. cbn [freqs spectrum type spectrum_units noise_units band_min band_max].
  split; [reflexivity|]. split; [rewrite !map_length; reflexivity|]. split; [|split; [reflexivity|split; [destruct k; reflexivity|auto]]].
  intros i x v Nf Nv. rewrite map_map, nth_error_map, Nf in Nv. cbn [option_map] in Nv. injection Nv as <-. split.
  - intros j p J P Pos. rewrite (K j x p J P). destruct (in_kind_converts k (Num p) ltac:(discriminate)) as [(y & E & H)|(_ & [E|(_ & y & E & H)])].
    + injection E as <-. exact H.
    + discriminate E.
    + injection E as <-. lra.
  - intros Nw. rewrite (O x Nw). destruct k; reflexivity.
Qed.

(** The powers of the tables are not negative, so that the amplitudes of the table of the Gem and the exponents of the IMS
    models come back. *)
Theorem C71_powers call xs ps : noise_function call xs ps -> Forall (fun p => 0 <= p) ps.
Proof.
  intros [table version v _ _ _|table model column _ _]; apply Forall_forall; intros p I; apply in_map_iff in I as (row & <- & _).
  - nra.
  - unfold Rpower. left. apply exp_pos.
Qed.

(** Amplitudes and decibels are those of the powers: between the frequencies of the table, and over the band. *)
Theorem C71_same_power call xs ps k freq s lo hi p r : noise_function call xs ps -> asks k s ->
  call freq (b "power") lo hi = inr p -> call freq s lo hi = inr r ->
  freqs r = freqs p /\ Forall2 (converts k) (spectrum p) (spectrum r) /\ (noise p <> MinusInf -> converts k (noise p) (noise r)).
Proof.
  intros N A Ep Er. destruct (function_spec call xs ps freq s lo hi N) as (f & E & K & W & O & X & _). specialize (X k A). cbv zeta in X.
  destruct (function_spec call xs ps freq (b "power") lo hi N) as (f' & E' & _ & _ & _ & X' & _).
  rewrite E in E'. injection E' as <-. specialize (X' Power power_power). cbv zeta in X'. cbn [in_kind] in X'. rewrite map_id in X'.
  rewrite X in Er. rewrite X' in Ep. injection Er as <-. injection Ep as <-. cbn [freqs spectrum noise].
  split; [reflexivity|]. split; [|apply in_kind_converts].
  generalize (match freq with None => xs | Some l => l end). clear - W O. intros l. induction l as [|x l IH]; constructor; [|exact IH].
  apply in_kind_converts. destruct (within_dec xs x) as [H|H]; [destruct (W x H) as (y & ->); discriminate|rewrite (O x H); discriminate].
Qed.

(** Without a lower or an upper limit there is no noise over a band. *)
Theorem C71_no_band call xs ps freq s lo hi r : noise_function call xs ps -> lo = None \/ hi = None -> call freq s lo hi = inr r -> noise r = NaN.
Proof.
  intros N H Er. assert (D : (exists k, asks k s) \/ forall k, ~ asks k s).
  { destruct (eqb_bytes (lower s) (b "power")) eqn:P; [left; exists Power; apply asks_power, P|].
    destruct (eqb_bytes (firstn 3 (lower s)) (b "amp")) eqn:M; [left; exists Amplitude; apply asks_amplitude, M|].
    destruct (eqb_bytes (lower s) (b "db")) eqn:Db; [left; exists Decibels; apply asks_decibels, Db|].
    right. intros [] A; [apply asks_power in A|apply asks_amplitude in A|apply asks_decibels in A]; congruence. }
  destruct (function_spec call xs ps freq s lo hi N) as (f & _ & _ & _ & _ & X & Y). destruct D as [(k & A)|D]; [|rewrite (Y D) in Er; discriminate].
  rewrite (X k A) in Er. injection Er as <-. cbn [noise]. destruct lo; [destruct hi; [destruct H; discriminate|]|]; destruct k; reflexivity.
Qed.

(** The noise over a band stands for a power between the least and the greatest power in it, times its width. *)
Theorem C71_band call xs ps k freq s lo hi low high r : noise_function call xs ps -> asks k s -> lo <= hi ->
  (forall f, spline xs ps = Some f -> integrates quad f lo hi) ->
  (forall x q v, lo <= x <= hi -> call (Some [x]) (b "power") None None = inr q -> spectrum q = [Num v] -> low <= v <= high) ->
  call freq s (Some lo) (Some hi) = inr r ->
  exists p, low * (hi - lo) <= p <= high * (hi - lo) /\ converts k (Num p) (noise r).
Proof.
  intros N A L Int B Er. destruct (function_spec call xs ps freq s (Some lo) (Some hi) N) as (f & E & _ & _ & _ & X & _).
  specialize (X k A). cbv zeta in X. rewrite X in Er. injection Er as <-. cbn [noise].
  destruct (Int f E) as (g & pr & G & ->). exists (RiemannInt pr). split; [|apply in_kind_converts; discriminate].
  assert (Bg : forall x, lo <= x <= hi -> low <= g x <= high).
  { intros x Hx. destruct (function_spec call xs ps (Some [x]) (b "power") None None N) as (f' & E' & _ & _ & _ & X' & _).
    rewrite E in E'. injection E' as <-. apply (B x _ (g x) Hx (X' Power power_power)).
    cbn [spectrum in_kind map]. rewrite (G x Hx). reflexivity. }
  assert (C1 : forall c, Riemann_integrable (fct_cte c) lo hi) by (intros c; apply RiemannInt_P14).
  pose proof (RiemannInt_P15 (C1 low)) as I1. pose proof (RiemannInt_P15 (C1 high)) as I2.
  assert (J1 : RiemannInt (C1 low) <= RiemannInt pr) by (apply RiemannInt_P19; [exact L|]; intros x Hx; apply Bg; lra).
  assert (J2 : RiemannInt pr <= RiemannInt (C1 high)) by (apply RiemannInt_P19; [exact L|]; intros x Hx; apply Bg; lra).
  lra.
Qed.

(** The noise powers of two bands that meet add up to that of both together. *)
Theorem C71_bands_add call xs ps k freq s lo mid hi r1 r2 r : noise_function call xs ps -> asks k s -> lo <= mid <= hi ->
  (forall f, spline xs ps = Some f -> integrates quad f lo mid /\ integrates quad f mid hi /\ integrates quad f lo hi) ->
  call freq s (Some lo) (Some mid) = inr r1 -> call freq s (Some mid) (Some hi) = inr r2 -> call freq s (Some lo) (Some hi) = inr r ->
  exists p1 p2, converts k (Num p1) (noise r1) /\ converts k (Num p2) (noise r2) /\ converts k (Num (p1 + p2)) (noise r).
Proof.
  intros N A L Int E1 E2 E3.
  destruct (function_spec call xs ps freq s (Some lo) (Some mid) N) as (f & E & _ & _ & _ & X1 & _).
  destruct (function_spec call xs ps freq s (Some mid) (Some hi) N) as (f' & E' & _ & _ & _ & X2 & _). rewrite E in E'. injection E' as <-.
  destruct (function_spec call xs ps freq s (Some lo) (Some hi) N) as (f' & E' & _ & _ & _ & X3 & _). rewrite E in E'. injection E' as <-.
  rewrite (X1 k A) in E1. rewrite (X2 k A) in E2. rewrite (X3 k A) in E3. injection E1 as <-. injection E2 as <-. injection E3 as <-. cbn [noise].
  destruct (Int f E) as ((g1 & pr1 & G1 & ->) & (g2 & pr2 & G2 & ->) & (g & pr & G & ->)).
  exists (RiemannInt pr1), (RiemannInt pr2). split; [apply in_kind_converts; discriminate|]. split; [apply in_kind_converts; discriminate|].
  replace (RiemannInt pr1 + RiemannInt pr2) with (RiemannInt pr); [apply in_kind_converts; discriminate|].
  pose proof (RiemannInt_P22 pr L) as q1. pose proof (RiemannInt_P23 pr L) as q2.
  rewrite <- (RiemannInt_P26 q1 q2 pr). f_equal; apply RiemannInt_P18; try lra; intros x Hx.
  - specialize (G x ltac:(lra)). rewrite (G1 x) in G by lra. injection G as ->. reflexivity.
  - specialize (G x ltac:(lra)). rewrite (G2 x) in G by lra. injection G as ->. reflexivity.
Qed.

(** What is not supported raises: other types of spectrum, versions before 0.97, other models. *)
Theorem C71_other_types call xs ps freq s lo hi : noise_function call xs ps -> (forall k, ~ asks k s) -> call freq s lo hi = inl Unsupported.
Proof. intros N H. destruct (function_spec call xs ps freq s lo hi N) as (f & _ & _ & _ & _ & _ & Y). apply Y, H. Qed.
Theorem C71_old_versions table freq s version lo hi v : dec_float version = Some v -> (v < 97 # 100)%Q ->
  gem_noise spline quad table freq s version lo hi = inl Unsupported.
Proof.
  intros E L. unfold gem_noise. rewrite E. destruct (Qle_bool (97 # 100) v) eqn:B; [|reflexivity].
  apply Qle_bool_iff in B. exfalso. exact (Qlt_not_le _ _ L B).
Qed.
Theorem C71_other_models table model freq s lo hi :
  (forall w, In w [b "low"; b "min"; b "med"; b "high"; b "hi"; b "max"] -> ~ spelled w model) ->
  ims_noise spline quad table model freq s lo hi = inl InvalidModel.
Proof.
  intros H. unfold ims_noise, ims_column.
  assert (F : forall w, In w [b "low"; b "min"; b "med"; b "high"; b "hi"; b "max"] -> eqb_bytes (lower model) w = false).
  { intros w I. destruct (eqb_bytes (lower model) w) eqn:E; [|reflexivity]. apply eqb_bytes_iff in E. destruct (H w I). apply lower_spelled; [|exact E].
    cbn [In] in I. destruct I as [<-|[<-|[<-|[<-|[<-|[<-|[]]]]]]]; letters. }
  cbv zeta. rewrite !F by (cbn [In]; tauto). reflexivity.
Qed.
(** The documentation names the models 'high', 'medium' and 'low'; there is no 'medium'. *)
Theorem C71_medium_refuted table freq s lo hi : ims_noise spline quad table (b "medium") freq s lo hi = inl InvalidModel.
Proof. reflexivity. Qed.
End any_scipy.

(** Straight lines between the points do what is asked of the spline. *)
Fixpoint straight (xs ys : list R) (x : R) : num :=
  match xs, ys with
  | x1 :: ((x2 :: _) as xr), y1 :: ((y2 :: _) as yr) =>
      if Rlt_dec x x1 then NaN else if Rle_dec x x2 then Num (y1 + (y2 - y1) / (x2 - x1) * (x - x1)) else straight xr yr x
  | _, _ => NaN
  end.
Lemma chain_lt x l c : chain Rlt (x :: l) -> In c l -> x < c.
Proof. revert x. induction l as [|y l IH]; intros x C []; destruct C as [L C]; [subst; exact L|]. specialize (IH y C H). lra. Qed.
Theorem straight_contract : spline_contract (fun xs ys => Some (straight xs ys)).
Proof.
  intros [|x1 [|x2 xr]] ys [L C] Ly; try (cbn in L; lia). destruct ys as [|y1 [|y2 yr]]; try discriminate Ly.
  exists (straight (x1 :: x2 :: xr) (y1 :: y2 :: yr)). split; [reflexivity|]. clear L. revert x1 x2 y1 y2 yr C Ly.
  induction xr as [|x3 xr IH]; intros x1 x2 y1 y2 yr C Ly.
  - destruct yr as [|]; [|discriminate Ly]. destruct C as [L _]. cbn [straight]. split; [|split].
    + intros [|[|i]] x y X Y; try (destruct i; discriminate X); injection X as <-; injection Y as <-.
      * destruct (Rlt_dec x1 x1); [lra|]. destruct (Rle_dec x1 x2); [|lra]. f_equal. lra.
      * destruct (Rlt_dec x2 x1); [lra|]. destruct (Rle_dec x2 x2); [|lra]. f_equal. field. lra.
    + intros x (a & c & Ia & Ic & A). cbn [In] in Ia, Ic. destruct (Rlt_dec x x1); [exfalso; destruct Ia as [<-|[<-|[]]]; lra|].
      destruct (Rle_dec x x2); [eauto|]. exfalso. destruct Ic as [<-|[<-|[]]]; lra.
    + intros x N. destruct (Rlt_dec x x1); [reflexivity|]. destruct (Rle_dec x x2); [|reflexivity]. destruct N. exists x1, x2. cbn [In]. split; [auto|]. split; [auto|lra].
  - destruct yr as [|y3 yr]; [discriminate Ly|]. pose proof C as [L C'].
    destruct (IH x2 x3 y2 y3 yr C' ltac:(cbn in Ly |- *; lia)) as (K & W & O).
    change (straight (x1 :: x2 :: x3 :: xr) (y1 :: y2 :: y3 :: yr)) with (fun x =>
      if Rlt_dec x x1 then NaN else if Rle_dec x x2 then Num (y1 + (y2 - y1) / (x2 - x1) * (x - x1)) else straight (x2 :: x3 :: xr) (y2 :: y3 :: yr) x).
    cbv beta. split; [|split].
    + intros [|[|i]] x y X Y.
      * injection X as <-. injection Y as <-. destruct (Rlt_dec x1 x1); [lra|]. destruct (Rle_dec x1 x2); [|lra]. f_equal. lra.
      * injection X as <-. injection Y as <-. destruct (Rlt_dec x2 x1); [lra|]. destruct (Rle_dec x2 x2); [|lra]. f_equal. field. lra.
      * assert (x2 < x) by (apply (chain_lt _ _ _ C'), (nth_error_In _ i), X).
        destruct (Rlt_dec x x1); [lra|]. destruct (Rle_dec x x2); [lra|]. exact (K (Datatypes.S i) x y X Y).
    + intros x (a & c & Ia & Ic & A). destruct (Rlt_dec x x1).
      { exfalso. destruct Ia as [<-|Ia]; [lra|]. pose proof (chain_lt _ _ _ C Ia). lra. }
      destruct (Rle_dec x x2); [eauto|]. apply W. exists x2, c. split; [left; reflexivity|]. split; [|lra]. destruct Ic as [<-|Ic]; [lra|exact Ic].
    + intros x N. destruct (Rlt_dec x x1); [reflexivity|]. destruct (Rle_dec x x2).
      * destruct N. exists x1, x2. split; [left; reflexivity|]. split; [right; left; reflexivity|lra].
      * apply O. intros (a & c & Ia & Ic & A). apply N. exists a, c. split; [right; exact Ia|]. split; [right; exact Ic|exact A].
Qed.

(** A table with amplitude 2 at frequencies 0 and 10: the integral of its power is 4 times the width of the band. *)
Definition flat_table : list (R * R) := [(0, 2); (10, 2)].
Definition flat_quad (f : R -> num) (lo hi : R) : num := Num (4 * (hi - lo)).
Example C71_case :
  noise_function (fun xs ys => Some (straight xs ys)) flat_quad
    (fun freq s lo hi => gem_noise (fun xs ys => Some (straight xs ys)) flat_quad flat_table freq s (b "1.0") lo hi) [0; 10] [2 * 2; 2 * 2] /\
  asks Amplitude (b "AMPlitude") /\
  (forall lo hi, 0 <= lo <= hi -> hi <= 10 -> integrates flat_quad (straight [0; 10] [2 * 2; 2 * 2]) lo hi) /\
  (exists r, gem_noise (fun xs ys => Some (straight xs ys)) flat_quad flat_table None (b "AMPlitude") (b "1.0") (Some 1) (Some 2) = inr r /\
     freqs r = [0; 10] /\ spectrum r = [Num 2; Num 2] /\ noise r = Num 2).
Proof.
  assert (N : noise_function (fun xs ys => Some (straight xs ys)) flat_quad
    (fun freq s lo hi => gem_noise (fun xs ys => Some (straight xs ys)) flat_quad flat_table freq s (b "1.0") lo hi) [0; 10] [2 * 2; 2 * 2]).
  { apply (nf_gem _ _ flat_table (b "1.0") (10 # 10)); [vm_compute; reflexivity|vm_compute; discriminate|]. split; [cbn; lia|cbn; lra]. }
  assert (A : asks Amplitude (b "AMPlitude")) by (apply asks_amplitude; reflexivity).
  split; [exact N|]. split; [exact A|]. split.
  - intros lo hi L H. exists (fct_cte 4), (RiemannInt_P14 lo hi 4). split.
    + intros x X. cbn [straight]. destruct (Rlt_dec x 0); [lra|]. destruct (Rle_dec x 10); [|lra]. f_equal. unfold fct_cte. lra.
    + rewrite (RiemannInt_P15 (RiemannInt_P14 lo hi 4)). reflexivity.
  - pose proof (C71_spectrum _ flat_quad straight_contract _ _ _ Amplitude None (b "AMPlitude") (Some 1) (Some 2) N A) as (r & E & F & Ln & V & _).
    exists r. split; [exact E|]. split; [exact F|]. rewrite F in V, Ln. split.
    + assert (V' : forall i, (i < 2)%nat -> forall v, nth_error (spectrum r) i = Some v -> v = Num 2).
      { intros i Li v Nv.
        assert (St : stands_for Amplitude v (2 * 2)).
        { destruct i as [|[|i]]; [| |lia].
          - apply (V 0%nat 0 v eq_refl Nv) with (j := 0%nat); [reflexivity|reflexivity|lra].
          - apply (V 1%nat 10 v eq_refl Nv) with (j := 1%nat); [reflexivity|reflexivity|lra]. }
        apply (stands_unique _ _ _ _ St). constructor. lra. }
      destruct (spectrum r) as [|v1 [|v2 [|]]]; try discriminate Ln.
      rewrite (V' 0%nat ltac:(lia) v1 eq_refl), (V' 1%nat ltac:(lia) v2 eq_refl). reflexivity.
    + unfold gem_noise in E. cbn in E. injection E as <-. cbn [noise]. unfold flat_quad, np_sqrt. destruct (Rlt_dec (4 * (2 - 1)) 0); [lra|].
      f_equal. replace (4 * (2 - 1)) with (2 * 2) by lra. apply sqrt_square. lra.
Qed.

Print Assumptions C71_spectrum.
Print Assumptions C71_powers.
Print Assumptions C71_same_power.
Print Assumptions C71_no_band.
Print Assumptions C71_band.
Print Assumptions C71_bands_add.
Print Assumptions C71_other_types.
Print Assumptions C71_old_versions.
Print Assumptions C71_other_models.
Print Assumptions C71_medium_refuted.
