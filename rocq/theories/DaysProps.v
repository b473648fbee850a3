(** C39: day-by-day processing. *)
From Coq Require Import String.
From Coq Require Import ZArith List Bool Lia Permutation.
From Verif Require Import Lib Base Stations StationsProofs Names NamesProofs Select SelectProofs Gps Ids IdsSpec IdsProofs IdsProps Days DaysSpec DaysProofs.
Import ListNotations.
Open Scope Z_scope.

(** * The days *)

(** Unless it starts in the last two seconds of a day: the first window is a whole day; the others are cut at midnight. *)
Theorem C39_windows : forall t1 t2, time_of_day t1 < one_day - 2 * one_second ->
  exists n, (forall k, (k < n)%nat <-> midnight_after t1 + Z.of_nat k * one_day < t2) /\
    day_windows t1 t2 = (t1, t1 + one_day) ::
      map (fun k => (midnight_after t1 + Z.of_nat k * one_day,
                     Z.min (midnight_after t1 + (Z.of_nat k + 1) * one_day) t2)) (seq 0 n).
Proof.
  intros t1 t2 H. destruct (tod_day t1) as [D1 D2]. apply windows_from.
  - apply next_early. exact H.
  - rewrite next_early by (rewrite D1; exact H). exact D2.
  - apply midnight_regular.
  - apply before_midnight.
Qed.

Lemma late_windows t1 t2 : one_day - 2 * one_second <= time_of_day t1 ->
  exists n, (forall k, (k < n)%nat <-> midnight_after t1 + one_day + Z.of_nat k * one_day < t2) /\
    day_windows t1 t2 = (t1, t1 + one_day) ::
      map (fun k => (midnight_after t1 + one_day + Z.of_nat k * one_day,
                     Z.min (midnight_after t1 + one_day + (Z.of_nat k + 1) * one_day) t2)) (seq 0 n).
Proof.
  intros H. destruct (tod_day t1) as [D1 D2]. apply windows_from.
  - apply next_late. exact H.
  - rewrite next_late by (rewrite D1; exact H). rewrite D2. reflexivity.
  - apply regular_next, midnight_regular.
  - pose proof (before_midnight t1). unfold one_day. lia.
Qed.

Lemma tod_bounds t : 0 <= fraction t <= time_of_day t /\ time_of_day t < one_day /\ fraction t < one_second.
Proof.
  pose proof (Z.mod_pos_bound t one_day ltac:(reflexivity)) as B. pose proof (Z.mod_pos_bound t one_second ltac:(reflexivity)) as C.
  fold (time_of_day t) in B. fold (fraction t) in C. split; [|lia]. split; [lia|]. rewrite frac_tod. apply Z.mod_le; [lia|reflexivity].
Qed.

(** Every instant of the interval is in a window, and only the end of the first window (as long as the time of
    day at which the interval starts) and the borders of days are in two. *)
Theorem C39_covered : forall t1 t2 t, time_of_day t1 < one_day - 2 * one_second -> t1 <= t <= t2 ->
  Exists (inside t) (day_windows t1 t2) /\
  (forall i j w w', nth_error (day_windows t1 t2) i = Some w -> nth_error (day_windows t1 t2) j = Some w' ->
     inside t w -> inside t w' -> (i < j)%nat ->
     t = fst w' \/ i = 0%nat /\ j = 1%nat /\ midnight_after t1 < t <= t1 + one_day).
Proof.
  intros t1 t2 t H T. destruct (C39_windows t1 t2 H) as (n & N & ->). set (m := midnight_after t1) in *.
  assert (MB : t1 < m <= t1 + one_day).
  { split; [apply before_midnight|]. unfold m, midnight_after. pose proof (tod_bounds t1). lia. }
  split.
  - destruct (Z.le_gt_cases t m) as [L|L].
    + apply Exists_cons_hd. unfold inside. cbn [fst snd]. lia.
    + apply Exists_cons_tl. set (k := Z.to_nat ((t - m - 1) / one_day)).
      assert (K : Z.of_nat k = (t - m - 1) / one_day) by (apply Z2Nat.id, Z.div_pos; [lia|reflexivity]).
      pose proof (Z.div_mod (t - m - 1) one_day ltac:(discriminate)) as D. pose proof (Z.mod_pos_bound (t - m - 1) one_day ltac:(reflexivity)) as B.
      assert (KN : (k < n)%nat) by (apply N; rewrite K; unfold one_day in *; lia).
      apply Exists_exists. exists (m + Z.of_nat k * one_day, Z.min (m + (Z.of_nat k + 1) * one_day) t2). split.
      * apply in_map_iff. exists k. split; [reflexivity|]. apply in_seq. lia.
      * unfold inside. cbn [fst snd]. rewrite K. unfold one_day in *. lia.
  - intros i j w w' Wi Wj Ii Ij L. destruct j as [|j]; [lia|]. cbn [nth_error] in Wj.
    assert (JN : (j < n)%nat).
    { assert (X : nth_error (map (fun k => (m + Z.of_nat k * one_day, Z.min (m + (Z.of_nat k + 1) * one_day) t2)) (seq 0 n)) j <> None) by congruence.
      apply nth_error_Some in X. rewrite map_length, seq_length in X. exact X. }
    erewrite map_nth_error in Wj; [|apply (nth_error_nth' _ 0%nat); rewrite seq_length; exact JN].
    rewrite seq_nth in Wj by exact JN. injection Wj as <-. cbn [plus] in Ij. unfold inside in Ij. cbn [fst snd] in Ij |- *.
    destruct i as [|i].
    + injection Wi as <-. unfold inside in Ii. cbn [fst snd] in Ii. destruct j as [|j].
      * cbn in Ij |- *. destruct (Z.eq_dec t (m + 0)) as [E|E]; [left; exact E|]. right. lia.
      * left. rewrite Nat2Z.inj_succ in *. cbn [plus]. unfold one_day in *. lia.
    + cbn [nth_error] in Wi.
      assert (JI : (i < n)%nat) by lia.
      erewrite map_nth_error in Wi; [|apply (nth_error_nth' _ 0%nat); rewrite seq_length; exact JI].
      rewrite seq_nth in Wi by exact JI. injection Wi as <-. unfold inside in Ii. cbn [plus fst snd] in Ii |- *.
      left. unfold one_day in *. lia.
Qed.

(** Windows start in the interval, one after the other. *)
Lemma windows_ascending t1 t2 : t1 <= t2 -> (forall w, In w (day_windows t1 t2) -> t1 <= fst w <= t2) /\ ascending_starts (day_windows t1 t2).
Proof.
  intros T. assert (G : exists m n, t1 < m /\ (forall k, (k < n)%nat <-> m + Z.of_nat k * one_day < t2) /\
    day_windows t1 t2 = (t1, t1 + one_day) :: map (fun k => (m + Z.of_nat k * one_day, Z.min (m + (Z.of_nat k + 1) * one_day) t2)) (seq 0 n)).
  { pose proof (before_midnight t1). destruct (Z.lt_ge_cases (time_of_day t1) (one_day - 2 * one_second)) as [L|L].
    - destruct (C39_windows t1 t2 L) as (n & N & E). exists (midnight_after t1), n. auto.
    - destruct (late_windows t1 t2 L) as (n & N & E). exists (midnight_after t1 + one_day), n. split; [unfold one_day; lia|]. auto. }
  destruct G as (m & n & M & N & ->).
  assert (X : forall k, In k (seq 0 n) -> m + Z.of_nat k * one_day < t2) by (intros k K; apply in_seq in K; apply N; lia).
  split.
  - intros w [<-|W]; [cbn; lia|]. apply in_map_iff in W. destruct W as (k & <- & K). cbn [fst]. specialize (X k K). unfold one_day in *. lia.
  - cbn [ascending_starts fst]. split.
    + intros w W. apply in_map_iff in W. destruct W as (k & <- & K). cbn [fst]. unfold one_day. lia.
    + clear. generalize 0%nat. induction n as [|n IH]; intros j; cbn [seq map ascending_starts]; [exact Logic.I|]. split; [|apply IH].
      intros w W. apply in_map_iff in W. destruct W as (k & <- & K). apply in_seq in K. cbn [fst]. unfold one_day. lia.
Qed.

(** * The data *)

Definition s_id {V} (s : @sample V) : bytes := fst (fst s).
Definition s_time {V} (s : @sample V) : Z := snd (fst s).

Section Run.
  Variables (V R : Type) (fs : bytes -> option (list (bytes * list (Z * V)))) (f : list (bytes * list (Z * V)) -> option R).
  Variable search : bytes -> bytes -> option bool.

  Lemma metadata_traces files : map (fun r => (r_id r, r_t1 r, r_t2 r)) (metadata fs files) =
    map (fun tr => (fst tr, first_time tr, last_time tr)) (traces_of fs files).
  Proof.
    unfold metadata, traces_of. induction files as [|n l IH]; [reflexivity|]. cbn [flat_map]. rewrite !map_app, IH. f_equal.
    rewrite map_map. reflexivity.
  Qed.
  Lemma metadata_ids files : map r_id (metadata fs files) = map fst (traces_of fs files).
  Proof. pose proof (f_equal (map (fun x => fst (fst x))) (metadata_traces files)) as H. rewrite !map_map in H. exact H. Qed.
  Lemma metadata_t1 files : map r_t1 (metadata fs files) = map first_time (traces_of fs files).
  Proof. pose proof (f_equal (map (fun x => snd (fst x))) (metadata_traces files)) as H. rewrite !map_map in H. exact H. Qed.
  Lemma metadata_t2 files : map r_t2 (metadata fs files) = map last_time (traces_of fs files).
  Proof. pose proof (f_equal (map (fun x => snd x)) (metadata_traces files)) as H. rewrite !map_map in H. exact H. Qed.
  Lemma metadata_in files r : In r (metadata fs files) <->
    exists n tr, In n files /\ In tr (content fs n) /\ r = mkrow n (fst tr) (t_first tr) (t_last tr).
  Proof.
    unfold metadata. rewrite in_flat_map. split.
    - intros (n & N & H). apply in_map_iff in H. destruct H as (tr & <- & T). exists n, tr. auto.
    - intros (n & tr & N & T & ->). exists n. split; [exact N|]. apply in_map_iff. exists tr. auto.
  Qed.

  (** What the code computes first. *)
  Lemma prelude files t1 t2 : 
    match metadata fs files with
    | [] => traces_of fs files = []
    | r0 :: more => forall a z, limits (traces_of fs files) t1 t2 a z <->
        a = Z.max t1 (fold_left Z.min (map r_t1 more) (r_t1 r0)) /\ z = Z.min t2 (fold_left Z.max (map r_t2 more) (r_t2 r0))
    end.
  Proof.
    pose proof (metadata_t1 files) as E1. pose proof (metadata_t2 files) as E2.
    destruct (metadata fs files) as [|r0 more]; [symmetry in E1; apply map_eq_nil in E1; exact E1|].
    intros a z. unfold limits. rewrite <- E1, <- E2. cbn [map].
    pose proof (fold_min (map r_t1 more) (r_t1 r0)) as M1. pose proof (fold_max (map r_t2 more) (r_t2 r0)) as M2. split.
    - intros (e & l & H1 & H2 & -> & ->). rewrite (earliest_unique _ _ _ H1 M1), (latest_unique _ _ _ H2 M2). auto.
    - intros [-> ->]. eexists. eexists. split; [exact M1|]. split; [exact M2|]. auto.
  Qed.

  Lemma fits_iff a z ids r : fits a z ids r = true <-> In (r_id r) ids /\ r_t1 r <= z /\ a <= r_t2 r.
  Proof.
    unfold fits. rewrite !andb_true_iff, !Z.leb_le, existsb_exists. split.
    - intros ((A & B) & y & Y & E). apply eqb_bytes_iff in E. rewrite E. auto.
    - intros (A & B & C). split; [auto|]. exists (r_id r). split; [exact A|]. apply eqb_bytes_iff. reflexivity.
  Qed.

  (** It runs exactly if some trace of a wanted channel is in the interval; every window's call then gets exactly
      the samples of the wanted channels in the window and the interval, and the outputs of the calls that did
      not raise are joined in order. *)
  Theorem C39_data : forall files all t1 t2 ids excl,
    NoDup all -> (forall n, In n all <-> In n files) ->
    (forall n l tr, fs n = Some l -> In tr l -> in_order tr) ->
    let data := traces_of fs files in
    match loop_through_days fs f search files t1 t2 ids excl with
    | Some outs => exists a z chans calls, limits data t1 t2 a z /\ a <= z /\ ~ invalid search (map fst data) ids excl /\
        (forall x, In x chans <-> asked search (map fst data) ids x /\ ~ excluded search excl x) /\
        (exists tr, In tr data /\ In (fst tr) chans /\ first_time tr <= z /\ a <= last_time tr) /\
        Forall2 (fun w c => picked (fun s => In (s_id s) chans /\ inside (s_time s) w /\ s_time s <= z)
                              (samples (traces_of fs all)) (samples c)) (day_windows a z) calls /\
        outputs f calls outs
    | None => ~ exists a z tr, limits data t1 t2 a z /\ a <= z /\ ~ invalid search (map fst data) ids excl /\
        In tr data /\ asked search (map fst data) ids (fst tr) /\ ~ excluded search excl (fst tr) /\
        first_time tr <= z /\ a <= last_time tr
    end.
  Proof.
    intros files all t1 t2 ids excl ND SAME ORD data.
    pose proof (prelude files t1 t2) as PRE. pose proof (metadata_ids files) as MID. pose proof (metadata_in files) as MIN.
    unfold loop_through_days. destruct (metadata fs files) as [|r0 more] eqn:META.
    { intros (a & z & tr & _ & _ & _ & T & _). fold data in PRE. rewrite PRE in T. destruct T. }
    set (a := Z.max t1 (fold_left Z.min (map r_t1 more) (r_t1 r0))) in *.
    set (z := Z.min t2 (fold_left Z.max (map r_t2 more) (r_t2 r0))) in *.
    pose proof (proj2 (PRE a z) (conj eq_refl eq_refl)) as LIM.
    assert (TR : forall tr, In tr data <-> exists n, In n files /\ In tr (content fs n)) by (intros tr; apply in_flat_map).
    rewrite MID. fold data. pose proof (C41_channels search (map fst data) ids excl) as CH.
    destruct (channels search (map fst data) ids excl) as [chans|].
    2:{ intros (a' & z' & tr & _ & _ & N & _). contradiction. }
    destruct CH as (_ & _ & CH & VAL).
    set (rows := sort_by (fun x y => r_t1 x <=? r_t1 y) (filter (fits a z chans) (r0 :: more))).
    assert (ROWS : forall r, In r rows <-> exists n tr, In n files /\ In tr (content fs n) /\
      r = mkrow n (fst tr) (t_first tr) (t_last tr) /\ In (fst tr) chans /\ t_first tr <= z /\ a <= t_last tr).
    { intros r. unfold rows. transitivity (In r (filter (fits a z chans) (r0 :: more))).
      - split; apply Permutation_in; [|symmetry]; apply sort_perm.
      - rewrite filter_In, MIN, fits_iff. split.
        + intros ((n & tr & N & T & ->) & F1 & F2 & F3). exists n, tr. cbn in F1, F2, F3. auto 10.
        + intros (n & tr & N & T & -> & F). split; [exists n, tr; auto|]. exact F. }
    destruct rows as [|r1 rs].
    { intros (a' & z' & tr & L & _ & _ & T & A & X & F1 & F2). apply PRE in L. destruct L as [-> ->].
      apply TR in T. destruct T as (n & N & T).
      assert (I : In (mkrow n (fst tr) (t_first tr) (t_last tr)) (@nil row)).
      { apply ROWS. exists n, tr. repeat split; auto. apply CH. auto. }
      destruct I. }
    destruct (Z.ltb_spec z a) as [LT|LE].
    { intros (a' & z' & tr & L & AZ & _). apply PRE in L. destruct L as [-> ->]. lia. }
    assert (GOAL : exists calls, outputs f calls (loop fs f (r1 :: rs) chans z (day_windows a z) [] []) /\
      Forall2 (fun w c => Permutation (samples c) (filter (wanted_in V chans (fst w) (Z.min (snd w) z)) (samples (traces_of fs all)))) (day_windows a z) calls).
    { destruct (windows_ascending a z LE) as [W1 W2].
      apply (loop_calls V fs R f (r1 :: rs) chans a z all ND) with (a0 := a).
      - intros n tr N T. unfold content in T. destruct (fs n) as [l|] eqn:E; [|destruct T]. eapply ORD; eassumption.
      - intros r Hr. apply ROWS in Hr. destruct Hr as (n & tr & N & _ & -> & _). apply SAME. exact N.
      - intros n tr N T I F1 F2. apply ROWS. exists n, tr. apply SAME in N. auto 10.
      - constructor.
      - intros x [].
      - reflexivity.
      - lia.
      - intros w W. apply W1 in W. lia.
      - exact W2. }
    destruct GOAL as (calls & O & F). exists a, z, chans, calls.
    split; [exact LIM|]. split; [exact LE|]. split; [exact VAL|]. split; [exact CH|]. split.
    { assert (I : In r1 (r1 :: rs)) by (left; reflexivity). apply ROWS in I. destruct I as (n & tr & N & T & _ & I).
      exists tr. split; [apply TR; exists n; auto|]. exact I. }
    split; [|exact O]. eapply Forall2_impl; [|exact F]. intros w c P. exists (wanted_in V chans (fst w) (Z.min (snd w) z)).
    split; [|exact P]. intros s. unfold wanted_in. rewrite andb_true_iff, p_id_iff. unfold p_time, inside, s_id, s_time.
    rewrite andb_true_iff, !Z.leb_le. split; [intros (X & Y & Y2)|intros (X & Y & Y2)]; repeat split; try assumption; lia.
  Qed.
End Run.

(** No sample of a wanted channel in the interval is lost. *)
Theorem C39_no_sample_lost : forall V R fs (f : list (bytes * list (Z * V)) -> option R) search files t1 t2 ids excl outs,
  (forall n l tr, fs n = Some l -> In tr l -> in_order tr) ->
  loop_through_days fs f search files t1 t2 ids excl = Some outs ->
  exists a z calls, limits (traces_of fs files) t1 t2 a z /\ outputs f calls outs /\
    (time_of_day a < one_day - 2 * one_second ->
     forall s, In s (samples (traces_of fs files)) -> asked search (map fst (traces_of fs files)) ids (s_id s) ->
       ~ excluded search excl (s_id s) -> a <= s_time s <= z -> exists c, In c calls /\ In s (samples c)).
Proof.
  intros V R fs f search files t1 t2 ids excl outs ORD H. destruct (unique_props files) as [U1 U2].
  pose proof (C39_data V R fs f search files _ t1 t2 ids excl U1 U2 ORD) as D. cbv zeta in D. rewrite H in D.
  destruct D as (a & z & chans & calls & L & _ & _ & CH & _ & F & O). exists a, z, calls. split; [exact L|]. split; [exact O|].
  intros TOD s HS A X T. destruct (C39_covered a z (s_time s) TOD T) as [E _].
  assert (HS' : In s (samples (traces_of fs (unique eqb_bytes files)))).
  { apply samples_in in HS. destruct HS as (tr & x & TR & HX & ->). apply samples_in. exists tr, x. split; [|auto].
    unfold traces_of in *. apply in_flat_map in TR. destruct TR as (n & N & TR). apply in_flat_map. exists n. rewrite U2. auto. }
  clear L O. induction F as [|w c ws cs P F IH]; [inversion E|]. inversion E as [? ? IN|? ? E']; subst.
  - exists c. split; [left; reflexivity|]. destruct P as (p & P1 & P2). apply (Permutation_in _ (Permutation_sym P2)).
    apply filter_In. split; [exact HS'|]. apply P1. split; [apply CH; auto|]. split; [exact IN|]. apply T.
  - destruct (IH E') as (c' & C1 & C2). exists c'. split; [right; exact C1|exact C2].
Qed.

Lemma second_to_midnight t : t + one_second <= midnight_after t.
Proof.
  unfold midnight_after. rewrite frac_tod. pose proof (Z.mod_pos_bound t one_day ltac:(reflexivity)) as B. fold (time_of_day t) in B.
  pose proof (Z.div_mod (time_of_day t) one_second ltac:(discriminate)) as D.
  pose proof (Z.mod_pos_bound (time_of_day t) one_second ltac:(reflexivity)) as C. unfold one_day, one_second in *. lia.
Qed.

(** An interval that starts in the last two seconds of a day leaves a gap after the first day. *)
Theorem C39_late_start_refuted : forall t1 t2, one_day - 2 * one_second <= time_of_day t1 -> t1 + one_day < t2 ->
  exists t, t1 <= t <= t2 /\ ~ Exists (inside t) (day_windows t1 t2).
Proof.
  intros t1 t2 H T. destruct (late_windows t1 t2 H) as (n & N & ->). exists (t1 + one_day + 1). split; [unfold one_day in *; lia|].
  intros E. inversion E as [? ? I|? ? E']; subst.
  - unfold inside in I. cbn [fst snd] in I. lia.
  - apply Exists_exists in E'. destruct E' as (w & W & I). apply in_map_iff in W. destruct W as (k & <- & _).
    unfold inside in I. cbn [fst snd] in I. pose proof (second_to_midnight t1). unfold one_day, one_second in *. lia.
Qed.
(** An interval that does not start at midnight is processed twice from the first midnight to the same time of day. *)
Theorem C39_once_refuted : forall t1 t2 t, one_second <= time_of_day t1 < one_day - 2 * one_second ->
  midnight_after t1 < t <= t1 + one_day -> t <= t2 ->
  exists w w', nth_error (day_windows t1 t2) 0 = Some w /\ nth_error (day_windows t1 t2) 1 = Some w' /\ inside t w /\ inside t w'.
Proof.
  intros t1 t2 t [H1 H2] T L. destruct (C39_windows t1 t2 H2) as (n & N & ->). pose proof (before_midnight t1).
  assert (N0 : (0 < n)%nat) by (apply N; cbn; lia). destruct n as [|n]; [lia|].
  eexists. eexists. split; [reflexivity|]. split; [reflexivity|]. unfold inside. cbn [fst snd Z.of_nat].
  assert (midnight_after t1 + (0 + 1) * one_day >= t1 + one_day) by (unfold one_day; lia). change (Z.of_nat 0) with 0. unfold one_day in *. lia.
Qed.

(** Two days from 18:00; channel A in two files (one listed twice), channel B not wanted; nothing raises on the second day. *)
Definition h (n : Z) : Z := n * 3600 * one_second.
Definition case_fs (n : bytes) : option (list (bytes * list (Z * Z))) :=
  if eqb_bytes n (b "f1") then Some [(b "XX.A..HDF", [(h 18, 1); (h 20, 2); (h 23, 3)]); (b "XX.B..HDF", [(h 19, 9)])]
  else if eqb_bytes n (b "f2") then Some [(b "XX.A..HDF", [(h 25, 4); (h 43, 5)])]
  else None.
Definition case_f (st : list (bytes * list (Z * Z))) : option (list Z) :=
  match st with [] => None | _ => Some (flat_map (fun tr => map snd (snd tr)) st) end.
Example C39_case :
  loop_through_days case_fs case_f literal_search [b "f1"; b "missing"; b "f2"; b "f1"] 0 (h 100) None (Some [b "B"]) =
    Some [[1; 2; 3; 4]; [4; 5]] /\
  loop_through_days case_fs case_f literal_search [b "f1"; b "f2"] 0 (h 100) None (Some [b "X"]) = None /\
  day_windows (h 18) (h 43) = [(h 18, h 42); (h 24, h 43)] /\ day_windows (h 0) (h 43) = [(h 0, h 24); (h 24, h 43)] /\
  (forall n l tr, case_fs n = Some l -> In tr l -> in_order tr) /\
  time_of_day (h 18) < one_day - 2 * one_second.
Proof.
  split; [vm_compute; reflexivity|]. split; [vm_compute; reflexivity|]. split; [vm_compute; reflexivity|]. split; [vm_compute; reflexivity|].
  split; [|vm_compute; reflexivity].
  assert (O : forall i l, l <> [] -> (forall j s s', nth_error l j = Some s -> nth_error l (Datatypes.S j) = Some s' -> fst s <= fst s') ->
    @in_order Z (i, l)).
  { intros i l NE A. split; [exact NE|]. cbn [snd]. intros p q s s' L. revert s'. induction L as [|q L IH]; intros s' E1 E2.
    - rewrite E1 in E2. injection E2 as <-. lia.
    - destruct (nth_error l q) as [y|] eqn:E.
      + pose proof (IH y E1 eq_refl). pose proof (A q y s' E E2). lia.
      + apply nth_error_None in E. assert (nth_error l (Datatypes.S q) = None) by (apply nth_error_None; lia). congruence. }
  intros n l tr H T. unfold case_fs in H.
  destruct (eqb_bytes n (b "f1")); [|destruct (eqb_bytes n (b "f2")); [|discriminate H]]; injection H as <-; cbn [In] in T;
  repeat match goal with T : _ \/ _ |- _ => destruct T as [<-|T] | T : False |- _ => destruct T end;
  (apply O; [discriminate|]; intros [|[|[|j]]] s s' E1 E2; cbn in E1, E2; try discriminate;
   try (destruct j; discriminate); injection E1 as <-; injection E2 as <-; cbn; unfold h, one_second; lia).
Qed.

Print Assumptions C39_windows.
Print Assumptions C39_covered.
Print Assumptions C39_data.
Print Assumptions C39_no_sample_lost.
Print Assumptions C39_late_start_refuted.
Print Assumptions C39_once_refuted.
