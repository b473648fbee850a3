From Coq Require Import String.
From Coq Require Import ZArith List Bool Lia Permutation.
From Verif Require Import Lib Base Stations StationsProofs Names NamesProofs Select SelectProofs Ids IdsSpec IdsProofs Days DaysSpec.
Import ListNotations.
Open Scope Z_scope.

Ltac units := unfold midnight_after, next_midnight, time_of_day, fraction, one_day, one_second, day, second in *.

Lemma next_eq t : next_midnight t = (t + 86402000000) / 86400000000 * 86400000000 + t mod 1000000.
Proof.
  units. cbv zeta. change (86400 * 1000000) with 86400000000. change (2 * 1000000) with 2000000.
  replace (t + 86400000000 + 2000000) with (t + 86402000000) by lia. f_equal.
  replace (t + 86402000000) with (t + 86402 * 1000000) by lia. apply Z.mod_add. lia.
Qed.
Lemma next_early t : time_of_day t < one_day - 2 * one_second -> next_midnight t = midnight_after t.
Proof.
  rewrite next_eq. units. intros H. pose proof (Z.div_mod t 86400000000 ltac:(lia)) as D. pose proof (Z.mod_pos_bound t 86400000000 ltac:(lia)) as B.
  assert (X : (t + 86402000000) / 86400000000 = t / 86400000000 + 1).
  { symmetry. apply Z.div_unique with (r := t mod 86400000000 + 2000000); lia. }
  rewrite X. lia.
Qed.
Lemma next_late t : one_day - 2 * one_second <= time_of_day t -> next_midnight t = midnight_after t + one_day.
Proof.
  rewrite next_eq. units. intros H. pose proof (Z.div_mod t 86400000000 ltac:(lia)) as D. pose proof (Z.mod_pos_bound t 86400000000 ltac:(lia)) as B.
  assert (X : (t + 86402000000) / 86400000000 = t / 86400000000 + 2).
  { symmetry. apply Z.div_unique with (r := t mod 86400000000 + 2000000 - 86400000000); lia. }
  rewrite X. lia.
Qed.
Lemma frac_tod t : fraction t = time_of_day t mod one_second.
Proof.
  units. pose proof (Z.div_mod t 86400000000 ltac:(lia)) as D.
  rewrite D at 1. replace (86400000000 * (t / 86400000000) + t mod 86400000000) with (t mod 86400000000 + (86400 * (t / 86400000000)) * 1000000) by lia.
  apply Z.mod_add. lia.
Qed.
Lemma next_regular t : time_of_day t < one_second -> next_midnight t = t + one_day.
Proof.
  intros H. rewrite next_early by (unfold one_day, one_second in *; lia). unfold midnight_after. rewrite frac_tod.
  rewrite Z.mod_small; [lia|]. split; [|exact H]. unfold time_of_day. apply Z.mod_pos_bound. reflexivity.
Qed.
Lemma regular_next t : time_of_day t < one_second -> time_of_day (t + one_day) < one_second.
Proof. unfold time_of_day. intros H. rewrite <- (Z.mul_1_l one_day) at 1. rewrite Z.mod_add by discriminate. exact H. Qed.
Lemma midnight_regular t : time_of_day (midnight_after t) < one_second.
Proof.
  unfold midnight_after. replace (time_of_day (t - time_of_day t + one_day + fraction t)) with (fraction t).
  - unfold fraction. apply Z.mod_pos_bound. reflexivity.
  - unfold time_of_day at 1. pose proof (Z.mod_pos_bound t one_second ltac:(reflexivity)) as B. fold (fraction t) in B.
    apply Z.mod_unique with (q := t / one_day + 1); [unfold one_second, one_day in *; lia|].
    unfold time_of_day. pose proof (Z.div_mod t one_day ltac:(discriminate)). lia.
Qed.

Lemma times_regular fuel : forall t2 s, time_of_day s < one_second -> t2 - s <= (Z.of_nat fuel + 1) * one_day ->
  exists n, (1 <= n)%nat /\ times_before fuel t2 s = map (fun k => s + Z.of_nat k * one_day) (seq 0 n) /\
    forall k, (1 <= k)%nat -> (k < n)%nat <-> s + Z.of_nat k * one_day < t2.
Proof.
  induction fuel as [|fuel IH]; intros t2 s H L.
  - exists 1%nat. split; [lia|]. cbn [times_before]. rewrite next_regular by exact H.
    destruct (Z.ltb_spec (s + one_day) t2) as [X|X]; [unfold one_day in *; lia|]. cbn [seq map]. split.
    + f_equal. lia.
    + intros k K. split; [lia|]. unfold one_day in *. intros. nia.
  - cbn [times_before]. rewrite next_regular by exact H. destruct (Z.ltb_spec (s + one_day) t2) as [X|X].
    + destruct (IH t2 (s + one_day) (regular_next s H)) as (n & N & E & F); [unfold one_day in *; lia|].
      exists (Datatypes.S n). split; [lia|]. split.
      * cbn [seq map]. rewrite E, <- seq_shift, map_map. f_equal; [lia|]. apply map_ext. intros k. lia.
      * intros k K. destruct (Nat.eq_dec k 1) as [->|NK].
        { split; [intros _|lia]. change (Z.of_nat 1) with 1. lia. }
        specialize (F (k - 1)%nat ltac:(lia)). rewrite Nat2Z.inj_sub in F by lia. change (Z.of_nat 1) with 1 in F.
        split; intros Y.
        { apply Nat.succ_lt_mono in Y || idtac. assert (Y' : (k - 1 < n)%nat) by lia. apply F in Y'. lia. }
        { assert (Y' : (k - 1 < n)%nat) by (apply F; lia). lia. }
    + exists 1%nat. split; [lia|]. cbn [seq map]. split.
      * f_equal. lia.
      * intros k K. split; [lia|]. unfold one_day in *. intros. nia.
Qed.

(** Times that continue at [m]. *)
Lemma times_from fuel t2 s m : next_midnight s = m -> time_of_day m < one_second -> t2 - m <= Z.of_nat fuel * one_day ->
  exists n, times_before fuel t2 s = s :: map (fun k => m + Z.of_nat k * one_day) (seq 0 n) /\
    forall k, (k < n)%nat <-> m + Z.of_nat k * one_day < t2.
Proof.
  intros E H L. destruct fuel as [|fuel].
  - exists 0%nat. cbn [times_before]. rewrite E. destruct (Z.ltb_spec m t2) as [X|X]; [lia|]. split; [reflexivity|].
    intros k. split; [lia|]. unfold one_day in *. nia.
  - cbn [times_before]. rewrite E. destruct (Z.ltb_spec m t2) as [X|X].
    + destruct (times_regular fuel t2 m H ltac:(lia)) as (n & N & En & F). exists n. split; [rewrite En; reflexivity|].
      intros k. destruct k as [|k]; [split; [intros _; lia|lia]|]. apply F. lia.
    + exists 0%nat. split; [reflexivity|]. intros k. split; [lia|]. unfold one_day in *. nia.
Qed.

Lemma combine_minutes (f g : nat -> Z) t2 n n' : (forall k, (k < n)%nat <-> f k < t2) -> (forall k, (k < n')%nat <-> g k < t2) ->
  (forall k, g k = f (Datatypes.S k)) -> forall j, n = (j + (n - j))%nat -> n' = pred n ->
  combine (map f (seq j (n - j))) (map g (seq j (n' - j)) ++ [t2]) = map (fun k => (f k, Z.min (g k) t2)) (seq j (n - j)).
Proof.
  intros F G E j J ->. remember (n - j)%nat as d eqn:D. revert j J D. induction d as [|d IH]; intros j J D; [reflexivity|].
  cbn [seq map]. destruct (Nat.eq_dec j (pred n)) as [L|L].
  - assert (d = 0)%nat by lia. subst d. replace (pred n - j)%nat with 0%nat by lia. cbn.
    rewrite Z.min_r; [reflexivity|]. assert (~ (j < pred n)%nat) by lia. rewrite G in H. lia.
  - replace (pred n - j)%nat with (Datatypes.S (pred n - Datatypes.S j)) by lia. cbn [seq map app combine].
    rewrite (IH (Datatypes.S j)) by lia. f_equal. rewrite Z.min_l; [reflexivity|]. assert (H : (j < pred n)%nat) by lia.
    apply G in H. lia.
Qed.

Lemma windows_from t1 t2 m : next_midnight t1 = m -> next_midnight (t1 + day) = m + one_day -> time_of_day m < one_second ->
  t1 < m -> exists n, (forall k, (k < n)%nat <-> m + Z.of_nat k * one_day < t2) /\
    day_windows t1 t2 = (t1, t1 + one_day) ::
      map (fun k => (m + Z.of_nat k * one_day, Z.min (m + (Z.of_nat k + 1) * one_day) t2)) (seq 0 n).
Proof.
  intros E1 E2 H LT. unfold day_windows, day_starts, day_ends.
  assert (FU : t2 - m <= Z.of_nat (enough t1 t2) * one_day).
  { unfold enough. change day with one_day. destruct (Z.le_gt_cases t2 t1) as [X|X]; [unfold one_day in *; lia|].
    rewrite !Nat2Z.inj_succ, Z2Nat.id by (apply Z.div_pos; unfold one_day; lia). unfold one_day in *. lia. }
  destruct (times_from _ t2 t1 m E1 H FU) as (n & A1 & A2).
  destruct (times_from (enough t1 t2) t2 (t1 + day) (m + one_day) E2) as (n' & B1 & B2).
  { apply regular_next. exact H. }
  { unfold one_day in *. lia. }
  exists n. split; [exact A2|]. rewrite A1, B1. cbn [app combine]. f_equal.
  assert (N : n' = pred n).
  { assert (X : forall k, (k < n')%nat <-> (Datatypes.S k < n)%nat).
    { intros k. rewrite A2, B2. rewrite Nat2Z.inj_succ. split; intros; lia. }
    clear - X. destruct (Nat.lt_trichotomy n' (pred n)) as [C|[C|C]]; [|exact C|].
    - assert (Y := proj2 (X n') ltac:(lia)). lia.
    - assert (Y := proj1 (X (pred n)) C). lia. }
  pose proof (combine_minutes (fun k => m + Z.of_nat k * one_day) (fun k => m + one_day + Z.of_nat k * one_day) t2 n n' A2 B2) as C.
  specialize (C ltac:(intros k; cbv beta; lia) 0%nat ltac:(lia) N). rewrite !Nat.sub_0_r in C. rewrite C.
  apply map_ext. intros k. f_equal. f_equal. lia.
Qed.

Lemma tod_day t : time_of_day (t + day) = time_of_day t /\ midnight_after (t + day) = midnight_after t + one_day.
Proof.
  change day with one_day.
  assert (A : time_of_day (t + one_day) = time_of_day t).
  { unfold time_of_day. rewrite <- (Z.mul_1_l one_day) at 1. apply Z.mod_add. discriminate. }
  split; [exact A|]. unfold midnight_after. rewrite !frac_tod, A. lia.
Qed.
Lemma before_midnight t : t < midnight_after t.
Proof.
  unfold midnight_after. pose proof (Z.mod_pos_bound t one_second ltac:(reflexivity)) as B.
  pose proof (Z.mod_pos_bound t one_day ltac:(reflexivity)) as C. fold (fraction t) in B. fold (time_of_day t) in C. lia.
Qed.

Fixpoint ascending_starts (ws : list (Z * Z)) : Prop :=
  match ws with [] => True | w :: r => (forall w', In w' r -> fst w <= fst w') /\ ascending_starts r end.

(** * Data *)

Lemma nth_last {A} (l : list A) d : nth (length l - 1) l d = last l d.
Proof.
  induction l as [|x l IH]; [reflexivity|]. destruct l as [|y l]; [reflexivity|].
  change (last (x :: y :: l) d) with (last (y :: l) d). rewrite <- IH.
  replace (length (x :: y :: l) - 1)%nat with (Datatypes.S (length (y :: l) - 1)) by (cbn; lia). reflexivity.
Qed.


Lemma fold_min l : forall x, earliest_of (x :: l) (fold_left Z.min l x).
Proof.
  induction l as [|y l IH]; intros x; cbn [fold_left].
  - split; [left; reflexivity|]. intros t [->|[]]. lia.
  - destruct (IH (Z.min x y)) as [I1 I2]. split.
    + destruct I1 as [E|I1]; [|right; right; exact I1]. rewrite <- E. destruct (Z.min_spec x y) as [[_ ->]|[_ ->]]; cbn; auto.
    + pose proof (I2 _ (or_introl eq_refl)). intros t [->|[->|T]]; [lia|lia|]. apply I2. right. exact T.
Qed.
Lemma fold_max l : forall x, latest_of (x :: l) (fold_left Z.max l x).
Proof.
  induction l as [|y l IH]; intros x; cbn [fold_left].
  - split; [left; reflexivity|]. intros t [->|[]]. lia.
  - destruct (IH (Z.max x y)) as [I1 I2]. split.
    + destruct I1 as [E|I1]; [|right; right; exact I1]. rewrite <- E. destruct (Z.max_spec x y) as [[_ ->]|[_ ->]]; cbn; auto.
    + pose proof (I2 _ (or_introl eq_refl)). intros t [->|[->|T]]; [lia|lia|]. apply I2. right. exact T.
Qed.
Lemma earliest_unique l m m' : earliest_of l m -> earliest_of l m' -> m = m'.
Proof. intros [A1 A2] [B1 B2]. pose proof (A2 m' B1). pose proof (B2 m A1). lia. Qed.
Lemma latest_unique l m m' : latest_of l m -> latest_of l m' -> m = m'.
Proof. intros [A1 A2] [B1 B2]. pose proof (A2 m' B1). pose proof (B2 m A1). lia. Qed.

Lemma NoDup_app_intro {A} (l m : list A) : NoDup l -> NoDup m -> (forall x, In x l -> ~ In x m) -> NoDup (l ++ m).
Proof.
  intros L M D. induction L as [|x l N L IH]; [exact M|]. cbn. constructor.
  - rewrite in_app_iff. intros [C|C]; [contradiction|]. apply (D x); [left; reflexivity|exact C].
  - apply IH. intros y Y. apply D. right. exact Y.
Qed.

Section Data.
  Variable V : Type.
  Implicit Types (tr : Days.trace V) (st : list (Days.trace V)).

  Definition p_time (a z : Z) (s : @sample V) : bool := (a <=? snd (fst s)) && (snd (fst s) <=? z).
  Definition p_id (ids : list bytes) (s : @sample V) : bool := existsb (eqb_bytes (fst (fst s))) ids.

  Lemma samples_app st st' : samples (st ++ st') = samples st ++ samples st'.
  Proof. apply flat_map_app. Qed.
  Lemma samples_trim a z st : samples (trim a z st) = filter (p_time a z) (samples st).
  Proof.
    unfold trim. induction st as [|[i l] st IH]; [reflexivity|]. change ((i, l) :: st) with ([(i, l)] ++ st). rewrite samples_app.
    rewrite filter_app, <- IH. cbn [app map filter]. unfold cut at 1 2. cbn [fst snd].
    assert (E : samples [(i, filter (fun s => (a <=? fst s) && (fst s <=? z)) l)] = filter (p_time a z) (samples [(i, l)])).
    { unfold samples. cbn [flat_map fst snd]. rewrite !app_nil_r. induction l as [|[t v] l IHl]; [reflexivity|].
      cbn [map filter fst snd]. unfold p_time at 1. cbn [fst snd]. destruct ((a <=? t) && (t <=? z)); cbn [map fst snd]; rewrite IHl; reflexivity. }
    rewrite <- E. unfold has_samples at 1. cbn [snd]. destruct (filter (fun s => (a <=? fst s) && (fst s <=? z)) l) as [|x r]; [reflexivity|].
    rewrite <- samples_app. reflexivity.
  Qed.
  Lemma samples_ids ids st : samples (filter (fun tr => existsb (eqb_bytes (fst tr)) ids) st) = filter (p_id ids) (samples st).
  Proof.
    induction st as [|[i l] st IH]; [reflexivity|]. change ((i, l) :: st) with ([(i, l)] ++ st). rewrite samples_app.
    rewrite (filter_app (p_id ids)), <- IH. cbn [app filter fst].
    assert (E : filter (p_id ids) (samples [(i, l)]) = if existsb (eqb_bytes i) ids then samples [(i, l)] else []).
    { unfold samples. cbn [flat_map fst snd]. rewrite !app_nil_r. induction l as [|[t v] l IHl]; [cbn; destruct (existsb _ _); reflexivity|].
      cbn [map filter fst snd]. unfold p_id at 1. cbn [fst snd]. rewrite IHl. destruct (existsb (eqb_bytes i) ids); reflexivity. }
    rewrite E. destruct (existsb (eqb_bytes i) ids); [rewrite <- samples_app; reflexivity|reflexivity].
  Qed.
  Lemma samples_in st s : In s (samples st) <-> exists tr x, In tr st /\ In x (snd tr) /\ s = (fst tr, fst x, snd x).
  Proof.
    unfold samples. rewrite in_flat_map. split.
    - intros (tr & T & H). apply in_map_iff in H. destruct H as (x & <- & X). exists tr, x. auto.
    - intros (tr & x & T & X & ->). exists tr. split; [exact T|]. apply in_map_iff. exists x. auto.
  Qed.

  Lemma filter_filter {A} (p q : A -> bool) l : filter p (filter q l) = filter (fun x => q x && p x) l.
  Proof. induction l as [|x l IH]; [reflexivity|]. cbn. destruct (q x); cbn; [destruct (p x)|]; rewrite IH; reflexivity. Qed.

  Variable fs : bytes -> option (list (Days.trace V)).
  Let data (l : list bytes) := flat_map (content fs) l.

  Lemma read_new_spec names : forall read st read' st', read_new fs names read st = (read', st') -> NoDup read ->
    exists new, read' = read ++ new /\ st' = st ++ data new /\ NoDup read' /\ (forall x, In x read' <-> In x read \/ In x names).
  Proof.
    induction names as [|n names IH]; intros read st read' st' H ND; cbn [read_new] in H.
    - injection H as <- <-. exists []. rewrite !app_nil_r. split; [reflexivity|]. split; [reflexivity|]. split; [exact ND|]. cbn. tauto.
    - destruct (existsb (eqb_bytes n) read) eqn:E.
      + destruct (IH _ _ _ _ H ND) as (new & -> & -> & ND' & M). exists new. split; [reflexivity|]. split; [reflexivity|]. split; [exact ND'|].
        intros x. rewrite M. cbn [In]. apply existsb_exists in E. destruct E as (y & Y & E). apply eqb_bytes_iff in E. subst y.
        split; [tauto|]. intros [X|[<-|X]]; auto.
      + assert (N : ~ In n read).
        { intros C. apply not_true_iff_false in E. apply E. apply existsb_exists. exists n. split; [exact C|]. apply eqb_bytes_iff. reflexivity. }
        assert (ND2 : NoDup (read ++ [n])).
        { apply Permutation_NoDup with (l := n :: read); [apply Permutation_cons_append|]. constructor; assumption. }
        destruct (IH _ _ _ _ H ND2) as (new & -> & -> & ND' & M). exists (n :: new). rewrite <- !app_assoc.
        split; [reflexivity|]. split; [reflexivity|]. split; [rewrite <- app_assoc in ND'; exact ND'|].
        intros x. rewrite <- app_assoc in M. rewrite M, in_app_iff. cbn [In]. tauto.
  Qed.

  (** Files that are not read do not matter. *)
  Lemma flat_perm {A B} (g : A -> list B) (dec : forall x y : A, {x = y} + {x <> y}) l m : NoDup l -> NoDup m -> incl l m ->
    (forall x, In x m -> ~ In x l -> g x = []) -> Permutation (flat_map g l) (flat_map g m).
  Proof.
    intros L M I G. set (rest := filter (fun x => if in_dec dec x l then false else true) m).
    assert (P : Permutation (l ++ rest) m).
    { apply NoDup_Permutation.
      - apply NoDup_app_intro; [exact L|apply NoDup_filter; exact M|]. intros x X R. apply filter_In in R. destruct R as [_ R].
        destruct (in_dec dec x l); [discriminate|contradiction].
      - exact M.
      - intros x. rewrite in_app_iff. unfold rest. rewrite filter_In. split.
        + intros [X|[X _]]; [apply I; exact X|exact X].
        + intros X. destruct (in_dec dec x l) as [Y|Y]; [left; exact Y|right; split; [exact X|reflexivity]]. }
    rewrite <- P, flat_map_app.
    assert (E : flat_map g rest = []).
    { assert (F : forall x, In x rest -> g x = []).
      { intros x X. apply filter_In in X. destruct X as [X R]. apply G; [exact X|]. destruct (in_dec dec x l); [discriminate|assumption]. }
      clear P. clearbody rest. induction rest as [|y r IH]; [reflexivity|]. cbn. rewrite (F y (or_introl eq_refl)), IH; [reflexivity|]. intros x X. apply F. right. exact X. }
    rewrite E, app_nil_r. reflexivity.
  Qed.

  Lemma bounds tr x : in_order tr -> In x (snd tr) -> t_first tr <= fst x <= t_last tr.
  Proof.
    destruct tr as [i l]. unfold in_order, t_first, t_last. cbn [snd]. intros [NE O] X. destruct (In_nth_error _ _ X) as (k & K).
    assert (LK : (k < length l)%nat) by (apply nth_error_Some; congruence). split.
    - destruct l as [|y l]; [destruct X|]. cbn [map hd]. apply (O 0%nat k y x); [lia|reflexivity|exact K].
    - rewrite <- nth_last. rewrite map_length. rewrite nth_indep with (d' := fst x) by (rewrite map_length; lia). rewrite map_nth.
      apply (O k (length l - 1)%nat x); [lia|exact K|]. apply nth_error_nth'. lia.
  Qed.

  Lemma p_id_iff ids s : p_id ids s = true <-> In (fst (fst s)) ids.
  Proof.
    unfold p_id. rewrite existsb_exists. split.
    - intros (y & Y & E). apply eqb_bytes_iff in E. rewrite E. exact Y.
    - intros H. exists (fst (fst s)). split; [exact H|]. apply eqb_bytes_iff. reflexivity.
  Qed.

  Lemma data_in l tr : In tr (data l) <-> exists n, In n l /\ In tr (content fs n).
  Proof. apply in_flat_map. Qed.
  Lemma samples_data p l : filter p (samples (data l)) = flat_map (fun n => filter p (samples (content fs n))) l.
  Proof. induction l as [|n l IH]; [reflexivity|]. unfold data. cbn [flat_map]. rewrite samples_app, filter_app. fold (data l). rewrite IH. reflexivity. Qed.

  Variables (R : Type) (f : list (Days.trace V) -> option R).
  Variables (rows : list row) (ids : list bytes) (t1 t2 : Z) (all : list bytes).
  Hypothesis all_nodup : NoDup all.
  Hypothesis ordered : forall n tr, In n all -> In tr (content fs n) -> in_order tr.
  Hypothesis rows_files : forall r, In r rows -> In (r_file r) all.
  Hypothesis rows_all : forall n tr, In n all -> In tr (content fs n) -> In (fst tr) ids -> t_first tr <= t2 -> t1 <= t_last tr ->
    In (mkrow n (fst tr) (t_first tr) (t_last tr)) rows.

  Definition wanted_in (a z : Z) (s : @sample V) : bool := p_id ids s && p_time a z s.

  Lemma loop_calls ws : forall a0 read st,
    NoDup read -> incl read all -> samples st = filter (wanted_in a0 t2) (samples (data read)) ->
    t1 <= a0 -> (forall w, In w ws -> a0 <= fst w) -> ascending_starts ws ->
    exists calls, outputs f calls (loop fs f rows ids t2 ws read st) /\
      Forall2 (fun w c => Permutation (samples c) (filter (wanted_in (fst w) (Z.min (snd w) t2)) (samples (data all)))) ws calls.
  Proof using all_nodup ordered rows_files rows_all.
    induction ws as [|[a z] ws IH]; intros a0 read st ND INC INV T1 LE ASC.
    - exists []. cbn [loop]. split; constructor.
    - cbn [loop]. set (names := map r_file (filter (fun r => (r_t1 r <=? z) && (a <=? r_t2 r)) rows)).
      destruct (read_new fs names read st) as [read' st'] eqn:E.
      destruct (read_new_spec _ _ _ _ _ E ND) as (new & ER & ES & ND' & M).
      set (st2 := filter (fun tr => existsb (eqb_bytes (fst tr)) ids) (trim a t2 st')).
      pose proof (LE _ (or_introl eq_refl)) as LEa. cbn [fst] in LEa. destruct ASC as [ASC1 ASC2].
      assert (INC' : incl read' all).
      { intros x X. apply M in X. destruct X as [X|X]; [apply INC; exact X|]. unfold names in X. apply in_map_iff in X.
        destruct X as (r & <- & X). apply filter_In in X. apply rows_files. apply X. }
      assert (INV' : samples st2 = filter (wanted_in a t2) (samples (data read'))).
      { unfold st2. rewrite samples_ids, samples_trim, ES, ER. unfold data. rewrite flat_map_app. fold (data read) (data new).
        rewrite !samples_app, INV, !filter_app, !filter_filter. f_equal; apply filter_ext; intros s; unfold wanted_in, p_time;
        destruct (p_id ids s); cbn; rewrite ?andb_true_r, ?andb_false_r; try reflexivity.
        destruct (Z.leb_spec a (snd (fst s))), (Z.leb_spec a0 (snd (fst s))), (Z.leb_spec (snd (fst s)) t2); cbn; try reflexivity; lia. }
      destruct (IH a read' st2 ND' INC' INV' ltac:(lia) ASC1 ASC2) as (calls & O & F).
      exists (trim a z st2 :: calls). split.
      + match goal with |- outputs _ _ (match ?x with _ => _ end) => change x with (f (trim a z st2)) end.
        destruct (f (trim a z st2)) eqn:EF; [apply out_some|apply out_none]; assumption.
      + constructor; [|exact F]. cbn [fst snd]. rewrite samples_trim, INV', filter_filter.
        assert (EX : filter (fun x => wanted_in a t2 x && p_time a z x) (samples (data read')) = filter (wanted_in a (Z.min z t2)) (samples (data read'))).
        { apply filter_ext. intros s. unfold wanted_in, p_time. destruct (p_id ids s); cbn; [|reflexivity].
          destruct (Z.leb_spec a (snd (fst s))), (Z.leb_spec (snd (fst s)) t2), (Z.leb_spec (snd (fst s)) z), (Z.leb_spec (snd (fst s)) (Z.min z t2)); cbn; try reflexivity; lia. }
        rewrite EX, !samples_data. apply flat_perm; [apply list_eq_dec, Z.eq_dec|exact ND'|exact all_nodup|exact INC'|].
        intros n NA NR. destruct (filter (wanted_in a (Z.min z t2)) (samples (content fs n))) as [|s r] eqn:EF; [reflexivity|]. exfalso.
        assert (HS : In s (filter (wanted_in a (Z.min z t2)) (samples (content fs n)))) by (rewrite EF; left; reflexivity).
        apply filter_In in HS. destruct HS as [HS W]. apply samples_in in HS. destruct HS as (tr & x & TR & X & ->).
        unfold wanted_in in W. apply andb_true_iff in W. destruct W as [W1 W2]. apply p_id_iff in W1. cbn [fst snd] in W1.
        unfold p_time in W2. cbn [fst snd] in W2. apply andb_true_iff in W2. rewrite !Z.leb_le in W2.
        pose proof (bounds tr x (ordered n tr NA TR) X) as B.
        apply NR. apply M. right. unfold names. apply in_map_iff. exists (mkrow n (fst tr) (t_first tr) (t_last tr)).
        split; [reflexivity|]. apply filter_In. split.
        * apply rows_all; try assumption; lia.
        * cbn [r_t1 r_t2]. rewrite andb_true_iff, !Z.leb_le. lia.
  Qed.
End Data.
