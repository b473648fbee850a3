(** Property C60: summaries of converted files. *)
From Coq Require Import String.
From Coq Require Import ZArith QArith List Bool Lia Permutation.
From Verif Require Import Base Lib UnwrapSpec Names NamesProofs Select SelectSpec SelectProofs Stations Database DatabaseSpec DatabaseProofs.
Import ListNotations.
Open Scope Z_scope.

Lemma le_comes x : forall y, le_bytes x y = true -> x = y \/ comes_before x y.
Proof.
  induction x as [|a x IH]; intros [|c y] E; cbn in E; try discriminate; [left; reflexivity| |].
  - right. exists []. left. exists c, y. auto.
  - destruct (Z.ltb_spec a c) as [L|L].
    + right. exists []. right. exists a, c, x, y. auto.
    + destruct (Z.ltb_spec c a) as [G|G]; [discriminate|]. assert (a = c) by lia. subst c. destruct (IH y E) as [->|(p & H)]; [left; reflexivity|]. right. exists (a :: p).
      destruct H as [(d & r & -> & ->)|(d & e & r & s & -> & -> & H)]; [left; exists d, r; auto|right; exists d, e, r, s; auto].
Qed.

(** C60.  The database of a folder has one row for each file that can be read and has a trace, in the order of the names;
    the row tells station, location, times and extremes of the file's first trace.  [files]: what the pattern matches, in
    any order; [amp]: the amplitude after detrending and filtering. *)
Theorem C60_database : forall amp files tab, NoDup (map fst files) -> make_db amp files = Some tab ->
  tab <> [] /\ chain comes_before (map r_file tab) /\
  (forall fn, In fn (map r_file tab) <-> exists tr trs, In (fn, Some (tr :: trs)) files) /\
  (forall r, In r tab -> exists tr trs a, In (r_file r, Some (tr :: trs)) files /\ amp (tr_data tr) = Some a /\ describes (r_file r) tr a r).
Proof.
  intros amp files tab N E. unfold make_db in E. set (s := sort_by (fun f g => le_bytes (fst f) (fst g)) files) in E.
  assert (P : Permutation s files) by apply sort_perm.
  destruct (rows_of amp s) as [t|] eqn:R; [|discriminate]. assert (t = tab /\ tab <> []) as [-> NE] by (destruct t; [discriminate|]; split; congruence). clear E.
  pose proof (rows_spec amp s tab R) as F.
  assert (M : map r_file tab = map fst (filter usable s)).
  { clear -F. induction F as [|f r l t (tr & trs & a & _ & _ & D) F IH]; [reflexivity|]. cbn. rewrite IH. destruct D as [-> _]. reflexivity. }
  split; [exact NE|]. split.
  { rewrite M. assert (C : chain (fun f g : bytes * option (list trace) => le_bytes (fst f) (fst g) = true) s).
    { apply (sort_chain _ (fun f g : bytes * option (list trace) => le_bytes (fst f) (fst g) = true)); [auto|]. intros x y. apply le_bytes_total. }
    assert (C2 : chain (fun f g : bytes * option (list trace) => le_bytes (fst f) (fst g) = true) (filter usable s)).
    { apply chain_filter; [|exact C]. intros x y z. apply le_bytes_trans. }
    assert (N2 : NoDup (map fst (filter usable s))).
    { assert (N1 : NoDup (map fst s)) by (apply (Permutation_NoDup (Permutation_sym (Permutation_map fst P)) N)). clear -N1.
      induction s as [|f s IH]; [constructor|]. inversion N1 as [|? ? X Y]; subst. cbn [filter]. destruct (usable f); [|apply IH; exact Y].
      cbn. constructor; [|apply IH; exact Y]. intros C. apply X. apply in_map_iff in C. destruct C as (g & <- & G). apply filter_In in G. apply in_map. apply G. }
    clear -C2 N2. induction (filter usable s) as [|f l IH]; [exact I|]. inversion N2 as [|? ? X Y]; subst. destruct l as [|g l]; [exact I|].
    destruct C2 as [H C2]. cbn [map chain]. split; [|apply IH; assumption]. destruct (le_comes _ _ H) as [K|K]; [|exact K]. exfalso. apply X. left. symmetry. exact K. }
  split.
  - intros fn. rewrite M, in_map_iff. split.
    + intros ((fn' & o) & K & I'). cbn in K. subst fn'. apply filter_In in I'. destruct I' as [I' U]. destruct o as [[|tr trs]|]; try discriminate. exists tr, trs.
      apply (Permutation_in _ P). exact I'.
    + intros (tr & trs & I'). exists (fn, Some (tr :: trs)). split; [reflexivity|]. apply filter_In. split; [|reflexivity]. apply (Permutation_in _ (Permutation_sym P)). exact I'.
  - intros r Ir. assert (G : exists f, In f (filter usable s) /\ exists tr trs a, f = (fst f, Some (tr :: trs)) /\ amp (tr_data tr) = Some a /\ describes (fst f) tr a r).
    { clear -F Ir. induction F as [|f r' l t D F IH]; [destruct Ir|]. destruct Ir as [->|Ir]; [exists f; split; [left; reflexivity|exact D]|].
      destruct (IH Ir) as (g & G & K). exists g. split; [right; exact G|exact K]. }
    destruct G as (f & If & tr & trs & a & Ef & Ea & D). exists tr, trs, a. assert (r_file r = fst f) as -> by apply D. split; [|split; assumption].
    apply filter_In in If. rewrite <- Ef. apply (Permutation_in _ P). apply If.
Qed.

(** C60.  There is no database exactly if no file can be read, or the first trace of one that can be read has no samples or
    no amplitude.  Files that cannot be read do no harm. *)
Theorem C60_no_database : forall amp files, make_db amp files = None <->
  (forall fn tr trs, ~ In (fn, Some (tr :: trs)) files) \/
  (exists fn tr trs, In (fn, Some (tr :: trs)) files /\ (tr_data tr = [] \/ amp (tr_data tr) = None)).
Proof.
  intros amp files. unfold make_db. set (s := sort_by (fun f g => le_bytes (fst f) (fst g)) files).
  assert (P : Permutation s files) by apply sort_perm.
  assert (Q1 : (exists fn tr trs, In (fn, Some (tr :: trs)) files /\ (tr_data tr = [] \/ amp (tr_data tr) = None)) <-> rows_of amp s = None).
  { rewrite rows_none. split; intros (fn & tr & trs & H & K); exists fn, tr, trs; (split; [|exact K]); [apply (Permutation_in _ (Permutation_sym P))|apply (Permutation_in _ P)]; exact H. }
  rewrite Q1. destruct (rows_of amp s) as [t|] eqn:R; [|tauto].
  pose proof (rows_spec amp s t R) as F. destruct t as [|r t].
  - split; [|reflexivity]. intros _. left. intros fn tr trs H. inversion F as [U|]. assert (K : In (fn, Some (tr :: trs)) (filter usable s)).
    { apply filter_In. split; [|reflexivity]. apply (Permutation_in _ (Permutation_sym P)). exact H. }
    rewrite <- U in K. destruct K.
  - split; [discriminate|]. intros [H|H]; [|discriminate]. exfalso. inversion F as [|f ? l ? (tr & trs & a & Ef & _) F' U]; subst.
    apply (H (fst f) tr trs). rewrite <- Ef. apply (Permutation_in _ P).
    apply (filter_In usable). rewrite <- U. left. reflexivity.
Qed.

(** C60.  [check_lags]: the windows begin a whole number of window lengths, at least one, after the full hour of the first
    data (and a microsecond); as long as the one before began before the end of the data, a window counts exactly if each
    of the first pieces there can be correlated with the next one.  The four outputs have an entry for each of these windows,
    in order. *)
Theorem C60_lags : forall bandpass cut cor read fuel DB win shift fl fh f st n t0 tmax,
  lag_input read DB st n t0 tmax -> 0 < win -> check_lags bandpass cut cor read fuel DB win shift fl fh = Some f ->
  exists ks, chain Z.lt ks /\ f_t f = map (fun k => t0 + 1000 + k * win) ks /\
    (forall k, In k ks <-> 1 <= k /\ t0 + 1000 + (k - 1) * win < tmax /\ exists ls vs, in_window cut cor shift win st n (t0 + 1000 + k * win) ls vs) /\
    entries (in_window cut cor shift win st n) (f_t f) (f_lag f) (f_coef f) (f_sum f).
Proof.
  intros bp cut cor read fuel DB win shift fl fh f st n t0 tmax L W E. rewrite (check_lags_eq bp cut cor read fuel DB win shift fl fh st n t0 tmax L) in E.
  destruct (lag_loop cut cor fuel st (Z.of_nat n) shift win tmax (t0 + 1000) (mkfound [] [repeat 0 n] [map inject_Z (repeat 0 n)] [])) as [g|] eqn:G; [|discriminate]. injection E as <-.
  replace (t0 + 1000) with (t0 + 1000 + 0 * win) in G by lia.
  apply (loop_spec cut cor st n shift win tmax (t0 + 1000) (repeat 0 n, map inject_Z (repeat 0 n))) in G; [|exact W|lia|].
  - destruct G as (k' & K & (ks & C & J & T & lags & vals & GL & GC & GE) & End & Before). exists ks. split; [exact C|]. split; [exact T|]. split.
    + intros k. rewrite J. split.
      * intros [A B]. split; [lia|]. split; [|exact B]. assert (X : (k - 1) * win <= (k' - 1) * win) by (apply Z.mul_le_mono_nonneg_r; lia). lia.
      * intros (A & B & D). split; [|exact D]. split; [exact A|]. destruct (Z.le_gt_cases k k') as [X|X]; [exact X|].
        assert (X' : k' * win <= (k - 1) * win) by (apply Z.mul_le_mono_nonneg_r; lia). lia.
    + cbn [f_t f_lag f_coef f_sum]. rewrite GL, GC. exact GE.
  - exists []. split; [exact I|]. split; [|split; [reflexivity|]].
    + intros j. cbn. split; [tauto|]. intros [X _]. lia.
    + exists [], []. split; [reflexivity|]. split; [reflexivity|]. constructor.
Qed.

(** C60.  A call with a positive window length ends, and gives a result if all files of the table can be read. *)
Theorem C60_lags_end : forall bandpass cut cor read DB win shift fl fh st n t0 tmax,
  lag_input read DB st n t0 tmax -> 0 < win -> exists fuel f, check_lags bandpass cut cor read fuel DB win shift fl fh = Some f.
Proof.
  intros bp cut cor read DB win shift fl fh st n t0 tmax L W. exists (Z.to_nat (tmax - (t0 + 1000))).
  rewrite (check_lags_eq bp cut cor read _ DB win shift fl fh st n t0 tmax L).
  destruct (loop_ends cut cor st n shift win tmax (Z.to_nat (tmax - (t0 + 1000))) (t0 + 1000) (mkfound [] [repeat 0 n] [map inject_Z (repeat 0 n)] []) W) as [g ->]; [|eexists; reflexivity].
  assert (X : Z.of_nat (Z.to_nat (tmax - (t0 + 1000))) * 1 <= Z.of_nat (Z.to_nat (tmax - (t0 + 1000))) * win) by (apply Z.mul_le_mono_nonneg_l; lia). lia.
Qed.

(** C60.  If the shifts are differences of arrival times, the consistency of every window is zero. *)
Theorem C60_consistent : forall bandpass cut cor read fuel DB win shift fl fh f st n t0 tmax,
  lag_input read DB st n t0 tmax -> 0 < win -> check_lags bandpass cut cor read fuel DB win shift fl fh = Some f ->
  (forall t p, pieces cut t (t + win) st p -> exists arrival : trace -> Z,
     forall x y l v, In x p -> In y p -> cor x y shift = Some (l, v) -> l = arrival y - arrival x) ->
  Forall (eq 0) (f_sum f).
Proof.
  intros bp cut cor read fuel DB win shift fl fh f st n t0 tmax L W E H.
  destruct (C60_lags bp cut cor read fuel DB win shift fl fh f st n t0 tmax L W E) as (ks & _ & _ & _ & X).
  clear E. induction X as [|t ls vs ts lags vals sums (p & P & A) X IH]; constructor; [|exact IH].
  destruct (H t p P) as (d & D). symmetry. exact (around_zero cor shift p n ls vs d A D).
Qed.

(** C60, finding.  The frequency band has no effect on the result: the filter is applied before there are data. *)
Theorem C60_band_ignored : forall bandpass bandpass' cut cor read fuel DB win shift fl fh fl' fh',
  check_lags bandpass cut cor read fuel DB win shift fl fh = check_lags bandpass' cut cor read fuel DB win shift fl' fh'.
Proof. reflexivity. Qed.

(** C60, finding.  With a window length of zero or less the call never ends, if there are data after the full hour. *)
Theorem C60_endless : forall bandpass cut cor read fuel DB win shift fl fh st n t0 tmax,
  lag_input read DB st n t0 tmax -> win <= 0 -> t0 + 1000 < tmax -> check_lags bandpass cut cor read fuel DB win shift fl fh = None.
Proof.
  intros bp cut cor read fuel DB win shift fl fh st n t0 tmax L W H. rewrite (check_lags_eq bp cut cor read fuel DB win shift fl fh st n t0 tmax L).
  rewrite loop_endless by assumption. reflexivity.
Qed.

(** C60, finding.  [calc_channel_stats] raises an exception for every database and every time span. *)
Theorem C60_statistics_refuted : forall quantile DB t1 t2, calc_channel_stats quantile DB t1 t2 = None.
Proof.
  intros quantile DB t1 t2. unfold calc_channel_stats. set (nh := (inject_Z (t2 - t1) / inject_Z (3600 * 10 ^ 9))%Q).
  assert (G : forall l, stations_loop quantile DB t1 t2 nh l (PyList []) = Some (PyList []) \/ stations_loop quantile DB t1 t2 nh l (PyList []) = None).
  { induction l as [|sta l IH]; [left; reflexivity|]. cbn [stations_loop].
    destruct (filter (fun x => eqb_bytes (r_station x) sta && (t1 <? r_t1 x) && (r_t2 x <? t2)) DB); [exact IH|]. right. reflexivity. }
  destruct (G (unique eqb_bytes (map r_station DB))) as [->| ->]; reflexivity.
Qed.

(** * Cases *)
(** Three files: one of two traces, one that cannot be read, one of one trace. *)
Definition amp1 (l : list Q) : option Q := Some 1%Q.
Definition tr_a := mktrace (b "AAA") (b "00") 1000 5000 [1; 3; 2]%Q.
Definition tr_a2 := mktrace (b "AAA") (b "00") 9000 12000 [7; 8]%Q.
Definition tr_b := mktrace (b "BBB") (b "00") 2000 5000 [5; -4]%Q.
Definition folder : list (bytes * option (list trace)) := [(b "c.sac", Some [tr_b]); (b "b.txt", None); (b "a.mseed", Some [tr_a; tr_a2])].
Example C60_case : NoDup (map fst folder) /\
  make_db amp1 folder = Some [mkrow (b "a.mseed") (b "AAA") (b "00") 1 3 1 1000 5000; mkrow (b "c.sac") (b "BBB") (b "00") 1 5 (-4) 2000 5000].
Proof.
  split; [|vm_compute; reflexivity].
  repeat constructor; cbn; intros H; repeat (destruct H as [H|H]; [discriminate|]); exact H.
Qed.
Example C60_no_database_case : make_db amp1 [(b "b.txt", None); (b "c.txt", Some [])] = None /\ make_db amp1 [(b "a.sac", Some [mktrace (b "A") [] 0 0 []])] = None.
Proof. split; reflexivity. Qed.

(** C60, refuted.  The row does not cover the whole file: of a file with a gap only the part before it counts. *)
Theorem C60_whole_file_refuted : ~ forall amp files tab r trs tr, NoDup (map fst files) -> make_db amp files = Some tab -> In r tab ->
  In (r_file r, Some trs) files -> In tr trs -> tr_end tr <= r_t2 r.
Proof.
  intros H. specialize (H amp1 folder _ (mkrow (b "a.mseed") (b "AAA") (b "00") 1 3 1 1000 5000) [tr_a; tr_a2] tr_a2 (proj1 C60_case) (proj2 C60_case)
    (or_introl eq_refl) (or_intror (or_intror (or_introl eq_refl))) (or_intror (or_introl eq_refl))). cbn in H. lia.
Qed.

(** Two stations for 10000 s; windows of 1000 s, with a shift by the difference of the starts. *)
Definition sec := 10 ^ 9.
Definition cut1 (tr : trace) (a e : Z) : option trace :=
  if (Z.max a (tr_start tr) <=? Z.min e (tr_end tr)) then Some (mktrace (tr_station tr) (tr_location tr) (tr_start tr) (tr_end tr) (tr_data tr)) else None.
Definition cor1 (x y : trace) (m : Z) : option (Z * Q) :=
  Some (tr_start y - tr_start x, if eqb_bytes (tr_station x) (tr_station y) then 1%Q else (1 # 2)%Q).
Definition two : list row := [mkrow (b "a") (b "AAA") [] 1 1 0 (600 * sec) (3000 * sec); mkrow (b "b") (b "BBB") [] 1 1 0 (500 * sec) (3000 * sec)].
Definition read2 (fn : bytes) : option (list trace) :=
  if eqb_bytes fn (b "a") then Some [mktrace (b "AAA") [] (600 * sec) (3000 * sec) []] else Some [mktrace (b "BBB") [] (500 * sec) (3000 * sec) []].
Definition st2 := [mktrace (b "AAA") [] (600 * sec) (3000 * sec) []; mktrace (b "BBB") [] (500 * sec) (3000 * sec) []].
Lemma input2 : lag_input read2 two st2 2 0 (3000 * sec).
Proof. apply lag_input_iff. split; [reflexivity|]. split; [reflexivity|]. split; [|reflexivity]. exists (500 * sec). split; reflexivity. Qed.
Example C60_lags_case : lag_input read2 two st2 2 0 (3000 * sec) /\
  (forall t p, pieces cut1 t (t + 1000 * sec) st2 p -> exists arrival : trace -> Z,
     forall x y l v, In x p -> In y p -> cor1 x y 10 = Some (l, v) -> l = arrival y - arrival x) /\
  check_lags (fun _ _ tr => tr) cut1 cor1 read2 9 two (1000 * sec) 10 (1 # 2) 20 =
    Some (mkfound [1000 * sec + 1000; 2000 * sec + 1000] [[-100 * sec; 100 * sec]; [-100 * sec; 100 * sec]] [[1 # 2; 1 # 2]; [1 # 2; 1 # 2]]%Q [0; 0]).
Proof.
  split; [exact input2|]. split; [|vm_compute; reflexivity].
  intros t p _. exists tr_start. intros x y l v _ _ E. injection E as <- _. reflexivity.
Qed.
Example C60_endless_case : lag_input read2 two st2 2 0 (3000 * sec) /\ 0 + 1000 < 3000 * sec.
Proof. split; [exact input2|reflexivity]. Qed.

(** C60, refuted.  The windows do not begin with the data: the first one is never looked at. *)
Theorem C60_first_window_refuted : ~ forall cut cor read fuel DB win shift f st n t0 tmax,
  lag_input read DB st n t0 tmax -> 0 < win -> check_lags (fun _ _ tr => tr) cut cor read fuel DB win shift (1 # 2) 20 = Some f ->
  (exists ls vs, in_window cut cor shift win st n (t0 + 1000) ls vs) -> In (t0 + 1000) (f_t f).
Proof.
  intros H. specialize (H cut1 cor1 read2 9%nat two (1000 * sec) 10 _ st2 2%nat 0 (3000 * sec) input2 eq_refl (proj2 (proj2 C60_lags_case))).
  assert (K : In (0 + 1000) [1000 * sec + 1000; 2000 * sec + 1000]); [|destruct K as [K|[K|[]]]; discriminate].
  apply H. exists [-100 * sec; 100 * sec], [1 # 2; 1 # 2]%Q. apply pairs_window. vm_compute. reflexivity.
Qed.

(** C60, refuted.  The correlated pieces need not be of different stations: if a file has a gap inside a window, its two parts
    are correlated with each other, and the other station is left out. *)
Definition read3 (fn : bytes) : option (list trace) :=
  if eqb_bytes fn (b "a") then Some [mktrace (b "AAA") [] (600 * sec) (1500 * sec) []; mktrace (b "AAA") [] (1600 * sec) (3000 * sec) []]
  else Some [mktrace (b "BBB") [] (500 * sec) (3000 * sec) []].
Definition st3 := [mktrace (b "AAA") [] (600 * sec) (1500 * sec) []; mktrace (b "AAA") [] (1600 * sec) (3000 * sec) []; mktrace (b "BBB") [] (500 * sec) (3000 * sec) []].
Theorem C60_stations_refuted : ~ forall cut cor read fuel DB win shift f st n t0 tmax,
  lag_input read DB st n t0 tmax -> 0 < win -> check_lags (fun _ _ tr => tr) cut cor read fuel DB win shift (1 # 2) 20 = Some f ->
  (1 < n)%nat -> (forall tr a e p, cut tr a e = Some p -> tr_station p = tr_station tr) ->
  (forall x y l v, cor x y shift = Some (l, v) -> (v == 1)%Q <-> tr_station x = tr_station y) ->
  Forall (Forall (fun v => ~ v == 1)%Q) (f_coef f).
Proof.
  intros H.
  assert (L : lag_input read3 two st3 2 0 (3000 * sec)).
  { apply lag_input_iff. split; [reflexivity|]. split; [reflexivity|]. split; [|reflexivity]. exists (500 * sec). split; reflexivity. }
  assert (E : check_lags (fun _ _ tr => tr) cut1 cor1 read3 9 two (1000 * sec) 10 (1 # 2) 20 =
    Some (mkfound [1000 * sec + 1000; 2000 * sec + 1000] [[1000 * sec; -1000 * sec]; [-1100 * sec; 1100 * sec]] [[1; 1]; [1 # 2; 1 # 2]]%Q [0; 0])) by (vm_compute; reflexivity).
  specialize (H cut1 cor1 read3 9%nat two (1000 * sec) 10 _ st3 2%nat 0 (3000 * sec) L eq_refl E ltac:(lia)).
  assert (X : Forall (Forall (fun v => ~ v == 1)%Q) [[1; 1]; [1 # 2; 1 # 2]]%Q).
  { apply H.
    - intros tr a e p. unfold cut1. destruct (_ <=? _); [|discriminate]. intros K. injection K as <-. reflexivity.
    - intros x y l v K. injection K as _ <-. destruct (eqb_bytes (tr_station x) (tr_station y)) eqn:Eb.
      + apply eqb_bytes_iff in Eb. split; [intros _; exact Eb|reflexivity].
      + split; [discriminate|]. intros K. apply eqb_bytes_iff in K. congruence. }
  inversion X as [|? ? Y _]. inversion Y as [|? ? Z1 _]. apply Z1. reflexivity.
Qed.

Print Assumptions C60_database.
Print Assumptions C60_no_database.
Print Assumptions C60_lags.
Print Assumptions C60_lags_end.
Print Assumptions C60_consistent.
Print Assumptions C60_band_ignored.
Print Assumptions C60_endless.
Print Assumptions C60_statistics_refuted.
Print Assumptions C60_whole_file_refuted.
Print Assumptions C60_first_window_refuted.
Print Assumptions C60_stations_refuted.
