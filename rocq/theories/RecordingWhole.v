(** Property C62 for whole conversions: from what was recorded to the output files. *)
From Coq Require Import String.
From Coq Require Import ZArith QArith Qabs Qround List Bool Lia Lqa.
From Verif Require Import Base Lib UnwrapSpec UnwrapProofs Scan Parser ParserSpec Process ReadSeveral ReadSeveralSpec ReadSeveralProofs Drift DriftSpec
  Segments SegmentsSpec SegmentsProofs Interp InterpSpec InterpProofs InterpProps Stream StreamSpec StreamProofs StreamProps
  Convert ConvertSpec ConvertProofs ConvertProps Select SelectSpec SelectProofs Fields Breaks Block BlockSpec BlockProofs BlockProps
  RecordingSpec RecordingProofs RecordingTotal RecordingProps.
Import ListNotations.
Open Scope Q_scope.

Section Whole.
  Variable sc : scanner.
  Variable buf0 : bytes.
  Variable ear : bool.
  Variable fit3 : list point -> option cubic.
  Variable fit1 : list point -> option Drift.linear.
  Variable spline : list (Q * option Q) -> option (Q -> Q).
  Variable content : entry -> raw_file.
  Variable adc_range : entry -> Z.
  Variable now : Q.
  Notation read := (read_files sc buf0 ear fit3 fit1 spline content adc_range now true).
  Notation join := (Block.join sc buf0 ear fit3 fit1 content true).
  Variable evs : entry -> list RecordingSpec.event.
  Variable tau : entry -> cubic.
  Notation record_of := (record_of evs tau).

  Variable d : list entry.
  Variable sn : bytes.
  Notation outcome_of := (fun bl => block_outcome (read d sn bl)).

  (** The libraries do what is used of them. *)
  Definition libraries : Prop := reads_decimal sc /\ fits_cubics fit3 /\ fits_lines fit1 /\ spline_contract spline.

  (** [files bl] are the recordings with the numbers [bl], in this order; they have a readable format line and a valid
      gain; there may be none, and if there are some they are a continuous record. *)
  Definition recorded_block (files : list Z -> list entry) (bl : list Z) : Prop :=
    (forall f, In f d -> readable sn bl f -> e_version f <> None /\ (adc_range f = 0%Z \/ adc_range f = 1%Z)) /\
    (forall f, In f (files bl) <-> In f d /\ readable sn bl f) /\
    (forall v fl, files_of d sn bl v fl -> fl = files bl) /\
    recordings content evs tau d sn bl /\
    (files bl <> [] -> continuous evs tau (files bl)).

  Lemma no_files bl : sn <> b "TXT" -> (forall f, ~ (In f d /\ readable sn bl f)) -> read d sn bl = NoFiles.
  Proof.
    intros N X. unfold read_files, read_gem. destruct (find_nonmissing d sn bl) as [|f l] eqn:E; [reflexivity|]. exfalso.
    apply (X f). apply (find_in d sn bl f N). rewrite E. left. reflexivity.
  Qed.

  (** A block is skipped or read. *)
  Lemma block_read files bl : sn <> b "TXT" -> (3 <= val_digits (map (fun c => c - 48) sn))%Z -> libraries -> recorded_block files bl ->
    (files bl = [] /\ read d sn bl = NoFiles) \/
    (files bl <> [] /\ exists g, read d sn bl = Gives (inl g) /\ g_problems g = [] /\
       forall s e, begins (map fst (record_of (files bl))) s -> finishes (map fst (record_of (files bl))) e ->
       forall k, s + (1 # 200) <= inject_Z k * (1 # 100) <= e - (25 # 1000) ->
          (exists x, sample (map to_grid (a_data (g_times g))) k x) /\
          forall t x, (forall m : Z, ~ s * 100 == inject_Z m + (1 # 2)) -> In (t, x) (record_of (files bl)) -> t == inject_Z k * (1 # 100) ->
            forall y, sample (map to_grid (a_data (g_times g))) k y -> y = x).
  Proof.
    intros N N3 (Hs & H3 & H1 & Sp) (Hv & Hf & Hu & Rc & Ct). destruct (files bl) as [|f fl] eqn:E.
    - left. split; [reflexivity|]. apply no_files; [exact N|]. intros g Hg. apply Hf in Hg. destruct Hg.
    - right. split; [discriminate|]. destruct (proj1 (Hf f) (or_introl eq_refl)) as [F1 F2].
      destruct (C62_continuous sc buf0 ear fit3 fit1 spline content adc_range now evs tau d sn bl N) as (g & v & fl' & Er & Ep & Fo & K); auto.
      + exists f. split; [exact F1|]. split; [exact F2|]. apply (Hv f F1 F2).
      + intros g G1 G2. apply (Hv g G1 G2).
      + intros v fl' Fo. rewrite (Hu v fl' Fo). apply Ct. discriminate.
      + exists g. split; [exact Er|]. split; [exact Ep|]. rewrite (Hu v fl' Fo) in K. exact K.
  Qed.

  Lemma block_times files bl : sn <> b "TXT" -> libraries -> recorded_block files bl ->
    times_of sc buf0 ear fit3 fit1 content true d sn bl (map fst (record_of (files bl))) /\
    forall out pts, joined_of sc buf0 ear fit3 fit1 content true d sn bl out -> timed_by out pts -> Forall2 is_recorded (record_of (files bl)) pts.
  Proof.
    intros N (Hs & H3 & H1 & Sp) (Hv & Hf & Hu & Rc & Ct).
    assert (X : forall out pts, joined_of sc buf0 ear fit3 fit1 content true d sn bl out -> timed_by out pts -> Forall2 is_recorded (record_of (files bl)) pts).
    { intros out pts Jo Tb.
      assert (P : jproblems out = []).
      { destruct Jo as (v & arg & fl & Fo & V & J & Nd). destruct (proj2 Rc v fl Fo) as [Vm _]. rewrite (modern_argument _ _ Vm V) in J.
        pose proof (files_recorded _ _ _ _ _ _ _ _ Rc Fo) as Fr. pose proof (Hu v fl Fo) as Efl. subst fl.
        assert (Nf : files bl <> []) by (destruct Fo as (bf & f & rest & E & _); rewrite E; discriminate).
        destruct (Ct Nf) as (Sd & _).
        assert (Fi : Forall (fine entry bytes content e_sn evs tau) (files bl)).
        { rewrite Forall_forall in *. intros x Ix. destruct (Sd x Ix) as [Sx Nx]. split; [exact (Fr x Ix)|]. split; [exact (steady_weaken 25 1000 _ _ ltac:(discriminate) Sx)|exact Nx]. }
        destruct (loop_total entry bytes sc buf0 ear content e_sn fit3 fit1 evs tau Hs H3 H1 (files bl) Fi 0 (mkj [] [] [] [] [])) as (out' & J' & Pb).
        unfold Block.join, read_several in J. cbn [as_version] in J. rewrite J' in J. injection J as <-. exact Pb. }
      destruct (joined_record sc buf0 ear fit3 fit1 content evs tau d sn bl out Hs H3 Rc Jo P) as (v & fl & Fo & Rec). rewrite (Hu v fl Fo) in Rec.
      pose proof (timed_by_unique _ _ _ (joined_timed _ _ _ _ _ _ _ _ _ _ _ Jo) Tb) as U. clear - U Rec. revert pts U.
      induction Rec as [|w p l m (A & x & B & C) Rec IH]; intros pts U; inversion U as [|? q ? pts' (Q1 & Q2) U']; subst; constructor; [|apply IH; exact U'].
      split; [rewrite <- Q1; exact A|]. exists x. split; [congruence|exact C]. }
    split; [|exact X]. intros out pts Jo Tb. pose proof (X out pts Jo Tb) as F. clear - F. induction F as [|w p l m (A & _) F IH]; constructor; assumption.
  Qed.

  Lemma sample_all blocks bl k v : In bl blocks -> sample (data_of (outcome_of bl)) k v -> sample (all_of outcome_of data_of blocks) k v.
  Proof. intros Ib (tr & i & It & R). exists tr, i. split; [|exact R]. apply in_flat_map. exists bl. auto. Qed.

  (** C62, whole conversions.  The file numbers are divided in blocks; each block has no files, or recordings that are a
      continuous record; the recorded samples are in time order throughout and after the epoch; one of the
      records ([bl1]) lasts 1.1 s or more; and the end time of the conversion is late enough.  Then the conversion returns, without a problem to
      report; the output files are in time order without overlap, each within a window of the file length; there is a
      value at every grid time of every record, from a second after the beginning of [bl1]; where a sample was recorded at a grid
      time, it is the recorded one; and every value is explained by recorded samples at their true times, or fills a gap
      of at most three intervals. *)
  Theorem C62_conversion files nums blockdays f t2 blocks bl1 s1 e1 :
    sn <> b "TXT" -> (3 <= val_digits (map (fun c => c - 48) sn))%Z -> libraries ->
    0 < blockdays -> (0 < f)%Z -> divided nums (12 * blockdays) blocks -> Forall (recorded_block files) blocks ->
    chain Qlt (map fst (flat_map (fun bl => record_of (files bl)) blocks)) ->
    (forall t x, In (t, x) (flat_map (fun bl => record_of (files bl)) blocks) -> 1 # 200 <= t /\ t * 100 + day * blockdays + inject_Z f + 200 <= t2) ->
    In bl1 blocks -> begins (map fst (record_of (files bl1))) s1 -> finishes (map fst (record_of (files bl1))) e1 -> 11 # 10 <= e1 - s1 ->
    exists n h, (forall fuel, (n <= fuel)%nat -> convert _ _ _ position_time outcome_of nums blockdays (inject_Z f) None t2 fuel = (h, Returns [])) /\
      in_order (written h) /\ Forall (in_window (inject_Z f)) (written h) /\
      (forall bl s e k, In bl blocks -> begins (map fst (record_of (files bl))) s -> finishes (map fst (record_of (files bl))) e ->
         s + (1 # 200) <= inject_Z k * (1 # 100) <= e - (25 # 1000) -> s1 + (101 # 100) <= inject_Z k * (1 # 100) ->
         (exists x, sample (written h) k x) /\
         forall t x, (forall m : Z, ~ s * 100 == inject_Z m + (1 # 2)) -> In (t, x) (record_of (files bl)) -> t == inject_Z k * (1 # 100) ->
           sample (written h) k x /\ forall y, sample (written h) k y -> y = x) /\
      (forall k v, sample (written h) k v ->
         (exists bl pts, In bl blocks /\ Forall2 is_recorded (record_of (files bl)) pts /\ explained spline pts k v) \/
         fills (sample (all_of outcome_of data_of blocks)) k v).
  Proof.
    intros N N3 Li Hb Hf Hd Rb Ch Ht Ib1 Bs1 Fe1 L1.
    assert (Rd : forall bl, In bl blocks -> recorded_block files bl) by (rewrite Forall_forall in Rb; exact Rb).
    assert (Fm : forall bs, map fst (flat_map (fun bl => record_of (files bl)) bs) = flat_map (fun bl => map fst (record_of (files bl))) bs).
    { clear. induction bs as [|bl bs IH]; [reflexivity|]. cbn [flat_map]. rewrite map_app, IH. reflexivity. }
    assert (Hd' : forall bs, (forall bl, In bl bs -> recorded_block files bl) ->
      flat_map (fun bl => map fst (record_of (files bl))) (filter (has_data sc buf0 ear fit3 fit1 spline content adc_range now true d sn) bs) = flat_map (fun bl => map fst (record_of (files bl))) bs).
    { induction bs as [|bl bs IH]; intros R; [reflexivity|]. cbn [filter flat_map].
      destruct (block_read files bl N N3 Li (R bl (or_introl eq_refl))) as [(Ef & Er)|(_ & g & Er & _)]; unfold has_data at 1; rewrite Er.
      - rewrite Ef. cbn [RecordingProps.record_of flat_map map app]. apply IH. intros x Ix. apply R. right. exact Ix.
      - cbn [flat_map]. f_equal. apply IH. intros x Ix. apply R. right. exact Ix. }
    assert (G : good_conversion sc buf0 ear fit3 fit1 spline content adc_range now true d sn (fun bl => map fst (record_of (files bl))) nums blockdays f t2 blocks).
    { split; [exact Hb|]. split; [exact Hf|]. split; [exact Hd|]. split; [|split; [|split]].
      - apply Forall_forall. intros bl Ib. destruct (block_read files bl N N3 Li (Rd bl Ib)) as [(_ & ->)|(_ & g & -> & _)]; discriminate.
      - apply Forall_forall. intros bl Ib. exact (proj1 (block_times files bl N Li (Rd bl Ib))).
      - rewrite (Hd' blocks Rd), <- Fm. exact Ch.
      - intros t It. rewrite (Hd' blocks Rd), <- Fm in It. apply in_map_iff in It as ([t' x] & Et & It). cbn [fst] in Et. subst t'. exact (Ht t x It). }
    (* the first block *)
    destruct (block_read files bl1 N N3 Li (Rd bl1 Ib1)) as [(X & _)|(_ & g1 & Er1 & _ & K1)]; [rewrite X in Bs1; discriminate|]. specialize (K1 s1 e1 Bs1 Fe1).
    assert (D1 : data_of (outcome_of bl1) = map to_grid (a_data (g_times g1))) by (cbn beta; rewrite Er1; reflexivity).
    pose proof (data_in_order sc buf0 ear fit3 fit1 spline content adc_range now true d sn (fun bl => map fst (record_of (files bl))) blocks N) as Ord.
    destruct G as (G1 & G2 & G3 & G4 & G5 & G6 & G7). specialize (Ord G5 G6).
    assert (Sm : forall c, 0 <= c -> c <= 106 -> exists k, s1 * 100 + (1 # 2) + c <= inject_Z k /\ inject_Z k < s1 * 100 + (3 # 2) + c /\ exists v, sample (all_of outcome_of data_of blocks) k v).
    { intros c C0 C1. set (q := s1 * 100 + (1 # 2) + c). exists (Qceiling q). pose proof (Qle_ceiling q) as A1. pose proof (Qceiling_lt q) as A2.
      unfold Z.sub in A2. rewrite inject_Z_plus in A2. change (inject_Z (-(1))) with (-1) in A2. fold q. subst q. set (z := inject_Z (Qceiling (s1 * 100 + (1 # 2) + c))) in *.
      split; [exact A1|]. split; [lra|]. destruct (proj1 (K1 (Qceiling (s1 * 100 + (1 # 2) + c)) ltac:(fold z; split; lra))) as (v & Sv).
      exists v. apply (sample_all blocks bl1 _ v Ib1). rewrite D1. exact Sv. }
    destruct (Sm 0 ltac:(lra) ltac:(lra)) as (k0 & K0 & K0' & v0 & S0).
    destruct (all_of outcome_of data_of blocks) as [|tr st] eqn:Ea; [destruct S0 as (tr & i & [] & _)|].
    assert (Hmin : forall l w, sample (tr :: st) l w -> (gs tr <= l)%Z) by (intros l w; apply from_head; exact Ord).
    assert (F0 : exists v, sample (tr :: st) (gs tr) v).
    { pose proof (order_head _ _ Ord) as Ng. destruct (gd tr) as [|v l] eqn:Eg; [contradiction|]. exists v, tr, 0%nat. split; [left; reflexivity|]. rewrite Eg. split; [reflexivity|lia]. }
    set (T1 := (100 * - ((- gs tr) / 100))%Z).
    assert (TB : (gs tr <= T1 < gs tr + 100)%Z) by (unfold T1; pose proof (Z.mul_div_le (- gs tr) 100 ltac:(lia)); pose proof (Z.mul_succ_div_gt (- gs tr) 100 ltac:(lia)); lia).
    assert (Tu : inject_Z T1 <= s1 * 100 + (201 # 2)).
    { assert (X : (T1 <= k0 + 99)%Z) by (specialize (Hmin k0 v0 S0); lia). rewrite Zle_Qle, inject_Z_plus in X. change (inject_Z 99) with 99 in X. lra. }
    assert (Fs : first_second (all_of outcome_of data_of blocks) T1).
    { rewrite Ea. split; [eexists; reflexivity|]. destruct F0 as (v & Fv). exists (gs tr), v. split; [exact Fv|]. split; [exact Hmin|lia]. }
    destruct (Sm 101 ltac:(lra) ltac:(lra)) as (k2 & K2 & _ & v2 & S2).
    assert (Ex : exists k v, sample (all_of outcome_of data_of blocks) k v /\ (T1 <= k)%Z).
    { exists k2, v2. rewrite Ea. split; [exact S2|]. rewrite Zle_Qle. lra. }
    assert (G : good_conversion sc buf0 ear fit3 fit1 spline content adc_range now true d sn (fun bl => map fst (record_of (files bl))) nums blockdays f t2 blocks).
    { split; [exact G1|]. split; [exact G2|]. split; [exact G3|]. split; [exact G4|]. split; [exact G5|]. split; [exact G6|exact G7]. }
    destruct (C50_output_files sc buf0 ear fit3 fit1 spline content adc_range now true d sn _ nums blockdays f t2 blocks T1 N G Fs Ex) as (n & h & Run & A & B & C & D).
    exists n, h. split.
    { intros fuel L. rewrite (Run fuel L). f_equal. f_equal. clear - Rd N N3 Li. induction blocks as [|bl bs IH]; [reflexivity|].
      change (all_of outcome_of problems_of (bl :: bs)) with (problems_of (outcome_of bl) ++ all_of outcome_of problems_of bs). rewrite IH by (intros x Ix; apply Rd; right; exact Ix).
      cbn beta. destruct (block_read files bl N N3 Li (Rd bl (or_introl eq_refl))) as [(_ & ->)|(_ & g & -> & P & _)]; [reflexivity|]. cbn [block_outcome problems_of]. rewrite P. destruct (map to_grid _); reflexivity. }
    split; [exact A|]. split; [exact B|]. split.
    - intros bl s e k Ib Bs Fe K Kt.
      assert (KT : (T1 <= k)%Z) by (rewrite Zle_Qle; lra).
      destruct (block_read files bl N N3 Li (Rd bl Ib)) as [(X & _)|(_ & g & Er & _ & Kb)]; [rewrite X in Bs; discriminate|]. specialize (Kb s e Bs Fe k K).
      assert (Db : data_of (outcome_of bl) = map to_grid (a_data (g_times g))) by (cbn beta; rewrite Er; reflexivity).
      destruct Kb as [(x & Sx) U].
      assert (Wx : sample (written h) k x).
      { apply D; [|exact KT]. rewrite <- Ea in *. apply (sample_all blocks bl _ x Ib). rewrite Db. exact Sx. }
      split; [exists x; exact Wx|]. intros t y Hm I Et. specialize (U t y Hm I Et x Sx). subst y. split; [exact Wx|].
      intros y Sy. exact (sample_unique _ _ _ _ A Sy Wx).
    - intros k v Sk'. destruct (C k v Sk') as [_ [(bl & out & pts & Ib & Jo & Tb & Xp)|Fi]]; [left|right].
      + exists bl, pts. split; [exact Ib|]. split; [exact (proj2 (block_times files bl N Li (Rd bl Ib)) out pts Jo Tb)|exact Xp].
      + rewrite <- Ea. exact Fi.
  Qed.
End Whole.
