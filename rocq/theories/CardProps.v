(** Property C66: from the card of a logger to the output files. *)
From Coq Require Import String.
From Coq Require Import ZArith QArith Qabs Qround List Bool Lia Lqa.
From Verif Require Import Base Lib UnwrapSpec UnwrapProofs Scan Parser ParserSpec Process ReadSeveral ReadSeveralSpec ReadSeveralProofs Drift DriftSpec
  Segments SegmentsSpec Interp InterpSpec InterpProofs Stream StreamSpec StreamProofs
  Convert ConvertSpec ConvertProofs ConvertProps Select SelectSpec SelectProofs CliSpec Header HeaderSpec Block BlockSpec BlockProofs BlockProps
  RecordingSpec RecordingProofs RecordingTotal RecordingProps RecordingWhole Card CardSpec CardProofs.
Import ListNotations.
Open Scope Q_scope.

(** * Times of a record *)
Lemma step_span l : chain (fun t t' => 0 < t' - t /\ t' - t <= 25 # 1000) l -> forall s e, begins l s -> finishes l e ->
  s <= e /\ e - s <= (25 # 1000) * inject_Z (Z.of_nat (length l) - 1).
Proof.
  induction l as [|x l IH]; intros C s e Bs Fe; [discriminate|]. injection Bs as ->. destruct l as [|y l].
  - destruct Fe as (l' & E). destruct l' as [|z l']; [|destruct l'; discriminate]. injection E as <-. cbn [length]. change (inject_Z (Z.of_nat 1 - 1)) with 0. split; lra.
  - destruct C as [[A B] C]. assert (Fe' : finishes (y :: l) e).
    { destruct Fe as (l' & E). destruct l' as [|z l']; [discriminate|]. injection E as _ E. exists l'. exact E. }
    destruct (IH C y e eq_refl Fe') as [H1 H2].
    assert (E : inject_Z (Z.of_nat (length (s :: y :: l)) - 1) == inject_Z (Z.of_nat (length (y :: l)) - 1) + 1).
    { replace (Z.of_nat (length (s :: y :: l)) - 1)%Z with (Z.of_nat (length (y :: l)) - 1 + 1)%Z by (cbn [length]; lia). rewrite inject_Z_plus. reflexivity. }
    rewrite E. set (q := inject_Z (Z.of_nat (length (y :: l)) - 1)) in *. split; lra.
Qed.
Lemma finishes_app l m e : m <> [] -> finishes (l ++ m) e -> finishes m e.
Proof.
  intros N (l' & E). destruct (exists_last N) as (m' & x & ->). rewrite app_assoc in E. apply app_inj_tail in E as [_ ->]. exists m'. reflexivity.
Qed.
Lemma finishes_exists (l : list Q) : l <> [] -> exists e, finishes l e.
Proof. intros N. destruct (exists_last N) as (m' & x & ->). exists x, m'. reflexivity. Qed.
Lemma begins_exists (l : list Q) : l <> [] -> exists s, begins l s.
Proof. destruct l as [|x l]; [contradiction|]. intros _. exists x. reflexivity. Qed.

Lemma wave_times r s e : true_clock (r_clock r) (r_events r) ->
  chain (fun t t' => 0 < t' - t /\ t' - t <= 25 # 1000) (map fst (wave r)) ->
  begins (map fst (wave r)) s -> finishes (map fst (wave r)) e -> 11 # 10 <= e - s -> (5 <= length (wave r))%nat.
Proof.
  intros _ C Bs Fe L. destruct (step_span _ C s e Bs Fe) as [_ H]. rewrite map_length in H.
  destruct (le_lt_dec 5 (length (wave r))) as [G|G]; [exact G|exfalso].
  assert (X : inject_Z (Z.of_nat (length (wave r)) - 1) <= inject_Z 4) by (rewrite <- Zle_Qle; lia). change (inject_Z 4) with 4 in X. lra.
Qed.
Lemma waveform_app clock e e' : forall level, exists level', waveform clock level (e ++ e') = waveform clock level e ++ waveform clock level' e'.
Proof.
  induction e as [|x e IH]; intros level; [exists level; reflexivity|]. destruct x as [a k|a t|a|a]; cbn [app waveform].
  - destruct (IH (level + k)%Z) as (level' & ->). exists level'. reflexivity.
  - apply IH.
  - apply IH.
  - apply IH.
Qed.
Lemma wave_some r : true_clock (r_clock r) (r_events r) -> map fst (wave r) <> [].
Proof.
  intros T. destruct (tc_begin _ _ T) as (pre & a & k & rest & E & _). unfold wave. rewrite E. destruct (waveform_app (r_clock r) pre (Sample a k :: rest) 0) as (level & ->).
  rewrite map_app. cbn [waveform map]. destruct (map fst (waveform (r_clock r) 0 pre)); discriminate.
Qed.

(** A part of an unbroken record. *)
Lemma unbroken_part l1 part l3 : unbroken (l1 ++ part ++ l3) -> unbroken part.
Proof.
  intros (A & B & C & D). split; [|split; [|split]].
  - apply Forall_app in A as [_ A]. apply Forall_app in A as [A _]. exact A.
  - exact (chain_sub _ _ _ _ B).
  - rewrite !flat_map_app in C. exact (chain_sub _ _ _ _ C).
  - unfold record in D. rewrite !flat_map_app, !map_app in D. exact (chain_sub _ _ _ _ D).
Qed.
Lemma unbroken_span part : unbroken part -> Forall (fun r => true_clock (r_clock r) (r_events r)) part -> part <> [] ->
  (5 <= length (record part))%nat /\ forall s e, begins (map fst (record part)) s -> finishes (map fst (record part)) e -> 11 # 10 <= e - s.
Proof.
  intros (A & _ & _ & D) T N. destruct part as [|r part]; [contradiction|]. inversion A as [|? ? [_ L] _]; subst. inversion T as [|? ? Tr Tp]; subst.
  pose proof (wave_some r Tr) as Nw. destruct (begins_exists _ Nw) as (s0 & Bs0). destruct (finishes_exists _ Nw) as (e0 & Fe0). specialize (L s0 e0 Bs0 Fe0).
  change (record (r :: part)) with (wave r ++ record part) in *. rewrite map_app in *.
  pose proof (chain_app_l _ _ _ D) as Dr.
  split.
  - pose proof (wave_times r s0 e0 Tr Dr Bs0 Fe0 L). rewrite app_length. lia.
  - intros s e Bs Fe. assert (s = s0) as ->.
    { unfold begins in *. destruct (map fst (wave r)); [contradiction|]. cbn [app hd_error] in *. congruence. }
    destruct (map fst (record part)) as [|y l] eqn:E.
    + rewrite app_nil_r in Fe. destruct Fe as (m & Em). destruct Fe0 as (m0 & Em0). rewrite Em in Em0. apply app_inj_tail in Em0 as [_ ->]. exact L.
    + apply finishes_app in Fe; [|discriminate]. destruct Fe0 as (m0 & Em0). rewrite Em0, <- app_assoc in D. apply chain_app_r in D. cbn [app] in D.
      destruct (step_span (e0 :: y :: l) D e0 e eq_refl) as [H _]; [|lra]. destruct Fe as (m & ->). exists (e0 :: m). reflexivity.
Qed.
Lemma continues_apart e e' : continues e e' -> apart e e'.
Proof.
  intros C x y Fx By (k & E). destruct (map reading e') as [|a l] eqn:Em.
  - destruct e'; [discriminate By|discriminate Em].
  - destruct (C x a y Fx) as (_ & _ & H1 & H2); [rewrite Em; reflexivity|exact By|].
    assert (X : (0 < - k)%Z \/ (- k <= 0)%Z) by lia. destruct X as [X|X].
    + assert (Y : inject_Z 1 <= inject_Z (- k)) by (rewrite <- Zle_Qle; lia). rewrite inject_Z_opp in Y. change (inject_Z 1) with 1 in Y. change (inject_Z 8192) with 8192 in E. lra.
    + rewrite Zle_Qle, inject_Z_opp in X. change (inject_Z 0) with 0 in X. change (inject_Z 8192) with 8192 in E. lra.
Qed.

Section C66.
  Variable sc : scanner.
  Variable buf0 : bytes.
  Variable ear : bool.
  Variable fit3 : list point -> option cubic.
  Variable fit1 : list point -> option Drift.linear.
  Variable spline : list (Q * option Q) -> option (Q -> Q).
  Variable now : Q.
  Variable oddS : list bytes -> option (option bytes).
  Variable oddV : list bytes -> option bytes.
  Variable oddC : list bytes -> option config.
  Variables reader9 reader8 : bytes -> bool -> res (list drow).
  Notation convert_card := (convert_card sc buf0 ear fit3 fit1 spline now oddS oddV oddC reader9 reader8).

  Lemma block_recorded sn recs c bl l1 l3 taken : serial_number sn -> card_of sn recs c ->
    (forall r, In r taken -> In r recs) -> unbroken taken -> taken = l1 ++ filter (in_block bl) recs ++ l3 ->
    recorded_block (content_of reader9 reader8 c) (range_of oddC c) (events_in recs) (clock_in recs) (entries oddS oddV c) sn (files oddS oddV sn recs) bl.
  Proof.
    intros Hsn Hc Ht Hu E.
    set (part := filter (in_block bl) recs) in *.
    assert (Hp : forall r, In r part -> In r recs) by (intros r Hr; apply filter_In in Hr; exact (proj1 Hr)).
    assert (Up : unbroken part) by (rewrite E in Hu; exact (unbroken_part _ _ _ Hu)).
    pose proof Hc as (_ & _ & W & _). rewrite Forall_forall in W.
    assert (Ch : forall (R : list RecordingSpec.event -> list RecordingSpec.event -> Prop), chain (fun r r' => R (r_events r) (r_events r')) part ->
      chain (fun f g => R (events_in recs f) (events_in recs g)) (files oddS oddV sn recs bl)).
    { intros R C. unfold files. fold part. apply chain_map. clear - Hp C Hc Hsn. induction part as [|r l IH]; [exact I|]. destruct l as [|r' l]; [exact I|]. destruct C as [C1 C2]. split.
      - rewrite (found_events oddS oddV sn recs c Hc r), (found_events oddS oddV sn recs c Hc r') by (apply Hp; cbn; auto). exact C1.
      - apply IH; [intros x Hx; apply Hp; right; exact Hx|exact C2]. }
    split; [|split; [|split; [|split]]].
    - intros f Hf R. destruct (proj1 (readable_entry oddS oddV oddC reader9 reader8 sn recs c Hsn Hc bl f) (conj Hf R)) as (r & Hr & _ & ->).
      destruct (entry_facts oddS oddV oddC reader9 reader8 sn recs c Hsn Hc r Hr) as (_ & (v & V & _) & _ & G & _). split; [rewrite V; discriminate|exact G].
    - intros f. exact (files_in oddS oddV oddC reader9 reader8 sn recs c Hsn Hc bl f).
    - intros v fl Fo. exact (proj1 (files_unique oddS oddV oddC reader9 reader8 sn recs c Hsn Hc bl v fl Fo)).
    - split.
      + intros f Hf R. destruct (proj1 (readable_entry oddS oddV oddC reader9 reader8 sn recs c Hsn Hc bl f) (conj Hf R)) as (r & Hr & _ & ->).
        destruct (entry_facts oddS oddV oddC reader9 reader8 sn recs c Hsn Hc r Hr) as (_ & _ & _ & _ & Ec).
        rewrite (found_events oddS oddV sn recs c Hc r Hr), (found_clock oddS oddV sn recs c Hc r Hr). exists (r_bytes r). split; [exact Ec|]. destruct (W r Hr) as (_ & _ & A & B). auto.
      + intros v fl Fo. destruct (files_unique oddS oddV oddC reader9 reader8 sn recs c Hsn Hc bl v fl Fo) as [-> V]. split; [exact V|].
        apply (Ch apart). destruct Up as (_ & C & _). eapply chain_weaken; [|exact C]. intros r r'. apply continues_apart.
    - intros Nf. assert (Np : part <> []) by (intros X; apply Nf; unfold files; fold part; rewrite X; reflexivity).
      destruct (unbroken_span part Up) as [L5 Sp]; [apply Forall_forall; intros r Hr; destruct (W r (Hp r Hr)) as (_ & _ & _ & B); exact B|exact Np|].
      destruct Up as (U1 & U2 & U3 & U4).
      pose proof (files_record oddS oddV sn recs c Hc bl) as Er. fold part in Er.
      split; [|split; [|split; [|split; [|split]]]].
      + apply Forall_forall. intros f Hf. apply in_map_iff in Hf as (r & <- & Hr). fold part in Hr. rewrite (found_events oddS oddV sn recs c Hc r (Hp r Hr)), (found_clock oddS oddV sn recs c Hc r (Hp r Hr)).
        rewrite Forall_forall in U1. split; [exact (proj1 (U1 r Hr))|]. destruct (entry_facts oddS oddV oddC reader9 reader8 sn recs c Hsn Hc r (Hp r Hr)) as (Es & _). rewrite Es. discriminate.
      + apply (Ch continues). exact U2.
      + assert (X : flat_map (fun f => map snd (fixes_of (events_in recs f))) (files oddS oddV sn recs bl) = flat_map (fun r => map snd (fixes_of (r_events r))) part).
        { unfold files. fold part. clear - Hp Hc Hsn. induction part as [|r l IH]; [reflexivity|]. cbn [map flat_map]. rewrite IH by (intros x Hx; apply Hp; right; exact Hx).
          rewrite (found_events oddS oddV sn recs c Hc r) by (apply Hp; left; reflexivity). reflexivity. }
        rewrite X. exact U3.
      + rewrite Er. exact L5.
      + rewrite Er. exact U4.
      + rewrite Er. intros s e Bs Fe. specialize (Sp s e Bs Fe). lra.
  Qed.

  (** C66.  A card with the files of a logger, as bytes, and with any other files; the recordings asked for ([taken]; all of them
      if no numbers are given) are one unbroken record.  Then the conversion of the card returns without a problem to report.  Its
      output files are in time order without overlap, each within a window of the file length.  For each block of recordings there
      is a value at every grid time from its first sample to 25 ms before its last, from 1.01 s after the beginning of the whole
      record; where a sample was recorded at a grid time, it is the recorded one; and every value is explained by recorded
      samples at their true times, or fills a gap of at most three intervals between such values. *)
  Theorem C66_archive sn recs taken c nums blockdays f t2 s1 :
    libraries sc fit3 fit1 spline -> serial_number sn -> card_of sn recs c ->
    (forall r, In r taken <-> In r recs /\ asked_for nums r) -> chain Z.lt (map r_number taken) -> taken <> [] -> unbroken taken ->
    0 < blockdays -> (0 < f)%Z ->
    (forall t x, In (t, x) (record taken) -> 1 # 200 <= t /\ t * 100 + day * blockdays + inject_Z f + 200 <= t2) ->
    begins (map fst (record taken)) s1 ->
    exists parts n h, in_blocks (12 * blockdays) taken parts /\
      (forall fuel, (n <= fuel)%nat -> convert_card c sn nums blockdays (inject_Z f) None t2 fuel = inr (h, Returns [])) /\
      in_order (written h) /\ Forall (in_window (inject_Z f)) (written h) /\
      (forall part s e k, In part parts -> begins (map fst (record part)) s -> finishes (map fst (record part)) e ->
         s + (1 # 200) <= inject_Z k * (1 # 100) <= e - (25 # 1000) -> s1 + (101 # 100) <= inject_Z k * (1 # 100) ->
         (exists x, sample (written h) k x) /\
         forall t x, (forall m : Z, ~ s * 100 == inject_Z m + (1 # 2)) -> In (t, x) (record part) -> t == inject_Z k * (1 # 100) ->
           sample (written h) k x /\ forall y, sample (written h) k y -> y = x) /\
      exists P : Z -> Z -> Prop, (forall k v, P k v -> recorded_value spline parts k v) /\
        forall k v, sample (written h) k v -> recorded_value spline parts k v \/ fills P k v.
  Proof.
    intros Li Hsn Hc Ht Ct Nt Hu Hb Hf Hw Bs1. destruct (serial_value sn Hsn) as (N3 & _ & _ & T & _).
    assert (Ew : taken = wanted_recs recs nums).
    { apply (strict_unique (fun r r' => r_number r < r_number r')%Z); [intros x y z; lia|intros x; lia|apply (proj1 (chain_map r_number Z.lt taken)); exact Ct| |].
      - destruct Hc as (_ & C & _). apply (proj1 (chain_map r_number Z.lt recs)) in C. apply (chain_filter _ (fun r => asked nums (r_number r))) in C; [exact C|intros x y z; lia].
      - intros r. unfold wanted_recs. rewrite filter_In, asked_spec. apply Ht. }
    assert (Tr : forall r, In r taken -> In r recs) by (intros r Hr; apply Ht in Hr; exact (proj1 Hr)).
    pose proof (selected oddS oddV oddC reader9 reader8 sn recs c Hsn Hc nums) as Sel. rewrite <- Ew in Sel. specialize (Sel Nt).
    assert (Np : 0 < 12 * blockdays) by lra.
    destruct (divided_exists (12 * blockdays) (map r_number taken) Np) as (blocks & Hd).
    { destruct taken; [contradiction|discriminate]. }
    { clear - Ct. induction (map r_number taken) as [|x l IH]; [exact I|]. destruct l as [|y l]; [exact I|]. destruct Ct as [A B]. split; [lia|apply IH; exact B]. }
    assert (Nd : NoDup (map r_number taken)) by (apply chain_nodup; apply (proj1 (chain_map r_number Z.lt taken)); exact Ct).
    assert (Bl : forall bl, In bl blocks -> exists l1 l3, taken = l1 ++ filter (in_block bl) recs ++ l3 /\ map r_number (filter (in_block bl) recs) = bl).
    { intros bl Ib. destruct Hd as (_ & Ec & _). destruct (in_split _ _ Ib) as (b1 & b2 & Eb). rewrite Eb, concat_app in Ec. cbn [concat] in Ec.
      destruct (filter_part r_number taken (concat b1) bl (concat b2) (eq_sym Ec) Nd) as (l1 & l3 & E1 & E2 & _ & _).
      assert (X : filter (in_block bl) recs = filter (fun x => existsb (Z.eqb (r_number x)) bl) taken).
      { apply (strict_unique (fun r r' => r_number r < r_number r')%Z); [intros x y z; lia|intros x; lia| | |].
        - destruct Hc as (_ & C & _). apply (proj1 (chain_map r_number Z.lt recs)) in C. apply (chain_filter _ (in_block bl)) in C; [exact C|intros x y z; lia].
        - apply (proj1 (chain_map r_number Z.lt taken)) in Ct. apply (chain_filter _ (fun x => existsb (Z.eqb (r_number x)) bl)) in Ct; [exact Ct|intros x y z; lia].
        - intros r. rewrite !filter_In. fold (in_block bl r). split; [|intros [A B]; split; [exact (Tr r A)|exact B]].
          intros [A B]. split; [|exact B]. apply in_block_iff in B.
          assert (In (r_number r) (map r_number taken)) as Hr.
          { rewrite <- Ec. apply in_or_app. right. apply in_or_app. left. exact B. }
          apply in_map_iff in Hr as (r' & En & Hr'). rewrite <- (numbers_distinct sn recs c Hc r' r (Tr r' Hr') A En). exact Hr'. }
      exists l1, l3. rewrite X. split; [exact E1|exact E2]. }
    set (parts := map (fun bl => filter (in_block bl) recs) blocks).
    assert (Ep : concat parts = taken).
    { assert (X : map r_number (concat parts) = map r_number taken).
      { destruct Hd as (_ & <- & _). unfold parts. clear - Bl. induction blocks as [|bl bs IH]; [reflexivity|]. cbn [map concat]. rewrite map_app, IH by (intros x Hx; apply Bl; right; exact Hx).
        destruct (Bl bl (or_introl eq_refl)) as (l1 & l3 & _ & ->). reflexivity. }
      assert (Y : forall r, In r (concat parts) -> In r recs).
      { intros r Hr. apply in_concat in Hr as (p & Hp & Hr). apply in_map_iff in Hp as (bl & <- & _). apply filter_In in Hr. exact (proj1 Hr). }
      clear - X Y Tr Hc. revert X Y Tr. generalize (concat parts) as l. induction taken as [|r t IH]; intros l X Y Tr; destruct l as [|r' l]; try discriminate; [reflexivity|].
      cbn [map] in X. injection X as X1 X2. f_equal.
      - apply (numbers_distinct sn recs c Hc); [apply Y; left; reflexivity|apply Tr; left; reflexivity|exact X1].
      - apply IH; [exact X2|intros x Hx; apply Y; right; exact Hx|intros x Hx; apply Tr; right; exact Hx]. }
    assert (Rb : forall bl, In bl blocks -> recorded_block (content_of reader9 reader8 c) (range_of oddC c) (events_in recs) (clock_in recs) (entries oddS oddV c) sn (files oddS oddV sn recs) bl).
    { intros bl Ib. destruct (Bl bl Ib) as (l1 & l3 & E & _). exact (block_recorded sn recs c bl l1 l3 taken Hsn Hc Tr Hu E). }
    assert (Er : forall bl, record_of (events_in recs) (clock_in recs) (files oddS oddV sn recs bl) = record (filter (in_block bl) recs)) by (intros bl; exact (files_record oddS oddV sn recs c Hc bl)).
    assert (Ew' : flat_map (fun bl => record_of (events_in recs) (clock_in recs) (files oddS oddV sn recs bl)) blocks = record taken).
    { rewrite <- Ep. unfold parts. clear - Er. induction blocks as [|bl bs IH]; [reflexivity|]. cbn [flat_map map concat]. rewrite IH, Er. unfold record. rewrite flat_map_app. reflexivity. }
    (* the first block *)
    assert (F1 : exists bl1, In bl1 blocks /\ filter (in_block bl1) recs <> [] /\ begins (map fst (record (filter (in_block bl1) recs))) s1).
    { destruct taken as [|r0 t]; [contradiction|].
      assert (H0 : In r0 (concat parts)) by (rewrite Ep; left; reflexivity).
      apply in_concat in H0 as (p & Hp & Hr). apply in_map_iff in Hp as (bl & <- & Ib). exists bl. split; [exact Ib|]. split; [intros X; rewrite X in Hr; exact Hr|].
      destruct (Bl bl Ib) as (l1 & l3 & E & _). destruct l1 as [|x l1].
      - cbn [app] in E. destruct (filter (in_block bl) recs) as [|r' p] eqn:Ef; [destruct Hr|]. cbn [app] in E. injection E as <- _.
        assert (Tk : true_clock (r_clock r0) (r_events r0)).
        { pose proof Hc as (_ & _ & W & _). rewrite Forall_forall in W. destruct (W r0 (Tr r0 (or_introl eq_refl))) as (_ & _ & _ & B). exact B. }
        pose proof (wave_some r0 Tk) as Nw. unfold begins in *. change (record (r0 :: p)) with (wave r0 ++ record p). change (record (r0 :: t)) with (wave r0 ++ record t) in Bs1.
        rewrite map_app in *. destruct (map fst (wave r0)); [contradiction|]. exact Bs1.
      - exfalso. cbn [app] in E. injection E as -> E. cbn [map] in Nd. inversion Nd as [|? ? Nd1 _]; subst. apply Nd1. apply in_map.
        apply in_or_app. right. apply in_or_app. left. exact Hr. }
    destruct F1 as (bl1 & Ib1 & Nb1 & Bb1).
    assert (Tp : forall bl, Forall (fun r => true_clock (r_clock r) (r_events r)) (filter (in_block bl) recs)).
    { intros bl. apply Forall_forall. intros r Hr. apply filter_In in Hr as [Hr _]. pose proof Hc as (_ & _ & W & _). rewrite Forall_forall in W. destruct (W r Hr) as (_ & _ & _ & B). exact B. }
    destruct (Bl bl1 Ib1) as (l1 & l3 & E1 & _).
    assert (Hu1 : unbroken (filter (in_block bl1) recs)) by (rewrite E1 in Hu; exact (unbroken_part _ _ _ Hu)).
    destruct (unbroken_span _ Hu1 (Tp bl1) Nb1) as [L5 Sp1].
    destruct (finishes_exists (map fst (record (filter (in_block bl1) recs)))) as (e1 & Fe1).
    { intros X. rewrite X in Bb1. discriminate. }
    destruct (C62_conversion sc buf0 ear fit3 fit1 spline (content_of reader9 reader8 c) (range_of oddC c) now (events_in recs) (clock_in recs) (entries oddS oddV c) sn (files oddS oddV sn recs)
      (map r_number taken) blockdays f t2 blocks bl1 s1 e1 T N3 Li Hb Hf Hd) as (n & h & Run & O & Wn & Cov & Exp).
    { apply Forall_forall. exact Rb. }
    { rewrite Ew'. destruct Hu as (_ & _ & _ & D). eapply chain_weaken; [|exact D]. intros x y [A _]. lra. }
    { rewrite Ew'. exact Hw. }
    { exact Ib1. }
    { rewrite Er. exact Bb1. }
    { rewrite Er. exact Fe1. }
    { exact (Sp1 s1 e1 Bb1 Fe1). }
    exists parts, n, h. split; [split; [exact Ep|]|].
    { intros i part r first Hn Hr Hh. unfold parts in Hn. rewrite nth_error_map in Hn. destruct (nth_error blocks i) as [bl|] eqn:En; [|discriminate]. injection Hn as <-.
      destruct Hd as (_ & _ & _ & Db). apply filter_In in Hr as [_ Hr]. apply in_block_iff in Hr. specialize (Db i bl (r_number r) En Hr).
      destruct taken as [|r0 t]; [discriminate|]. injection Hh as <-. exact Db. }
    split; [intros fuel Hn; unfold Card.convert_card; rewrite Sel, (Run fuel Hn); reflexivity|].
    split; [exact O|]. split; [exact Wn|]. split.
    - intros part s e k Hp Bs Fe. apply in_map_iff in Hp as (bl & <- & Ib). rewrite <- Er in Bs, Fe |- *. exact (Cov bl s e k Ib Bs Fe).
    - exists (sample (all_of (fun bl => block_outcome (read_files sc buf0 ear fit3 fit1 spline (content_of reader9 reader8 c) (range_of oddC c) now true (entries oddS oddV c) sn bl)) data_of blocks)). split.
      + intros k v (tr & i & It & R). apply in_flat_map in It as (bl & Ib & It).
        destruct (block_read sc buf0 ear fit3 fit1 spline (content_of reader9 reader8 c) (range_of oddC c) now (events_in recs) (clock_in recs) (entries oddS oddV c) sn (files oddS oddV sn recs) bl T N3 Li (Rb bl Ib))
          as [(_ & Eg)|(_ & g & Eg & _)]; rewrite Eg in It; [destruct It|]. cbn [block_outcome data_of] in It.
        destruct (C50_block_samples sc buf0 ear fit3 fit1 spline (content_of reader9 reader8 c) (range_of oddC c) now true (entries oddS oddV c) sn bl g Eg T) as (out & pts & J & Tb & _ & X).
        exists (filter (in_block bl) recs), pts. split; [unfold parts; apply in_map_iff; eauto|]. split.
        * rewrite <- Er. exact (proj2 (block_times sc buf0 ear fit3 fit1 spline (content_of reader9 reader8 c) (range_of oddC c) (events_in recs) (clock_in recs) (entries oddS oddV c) sn (files oddS oddV sn recs) bl T Li (Rb bl Ib)) out pts J Tb).
        * apply X. exists tr, i. auto.
      + intros k v Hk. destruct (Exp k v Hk) as [(bl & pts & Ib & F & X)|X]; [left|right; exact X].
        exists (filter (in_block bl) recs), pts. split; [unfold parts; apply in_map_iff; eauto|]. split; [rewrite <- Er; exact F|exact X].
  Qed.
End C66.

(** * Other files *)
Section Extension.
  Variables M G P : Type.
  Variable gps_time : G -> Q.
  Variables o o' : list Z -> outcome M G P.
  Hypothesis Ho : forall bl, o bl = o' bl.
  Variables blockdays flen : Q.
  Variable t1 : option Q.
  Variable t2 : Q.
  Lemma first_block_ext nums fuel : forall n1, first_block M G P o nums blockdays fuel n1 = first_block M G P o' nums blockdays fuel n1.
  Proof.
    induction fuel as [|fuel IH]; intros n1; [reflexivity|]. cbn [first_block]. rewrite <- Ho. destruct (more nums n1); [|reflexivity].
    destruct (o _) as [| |[|tr st] m g pb]; rewrite ?IH; reflexivity.
  Qed.
  Lemma read_more_ext nums fuel : forall n1 tt2 p pbs, read_more M G P o nums blockdays fuel n1 tt2 p pbs = read_more M G P o' nums blockdays fuel n1 tt2 p pbs.
  Proof.
    induction fuel as [|fuel IH]; intros n1 tt2 p pbs; [reflexivity|]. cbn [read_more]. rewrite <- Ho. destruct (end_time p) as [e|]; [|reflexivity]. destruct (Qltb e tt2 && more nums n1); [|reflexivity].
    destruct (o _) as [| |[|tr st] m g pb]; rewrite ?IH; reflexivity.
  Qed.
  Lemma main_loop_ext nums fuel fuel2 : forall n1 t p hour pbs, main_loop M G P o nums blockdays flen t2 fuel fuel2 n1 t p hour pbs = main_loop M G P o' nums blockdays flen t2 fuel fuel2 n1 t p hour pbs.
  Proof.
    induction fuel as [|fuel IH]; intros n1 t p hour pbs; [reflexivity|]. cbn [main_loop]. destruct (negb (more nums n1) || Qltb t2 t); [reflexivity|].
    cbv zeta. rewrite read_more_ext. destruct (read_more M G P o' nums blockdays fuel2 n1 _ p pbs) as [ev [[[n1' p'] pbs']| |]]; [|reflexivity|reflexivity].
    destruct (write_files M G flen t2 fuel2 false p' hour) as [ev' [[p'' hour']| |]]; [|reflexivity|reflexivity]. destruct (trim p'' hour' t2); [|reflexivity]. rewrite IH. reflexivity.
  Qed.
  Lemma convert_ext nums fuel : convert M G P gps_time o nums blockdays flen t1 t2 fuel = convert M G P gps_time o' nums blockdays flen t1 t2 fuel.
  Proof.
    unfold convert. destruct nums as [|n l]; [reflexivity|]. rewrite first_block_ext. destruct (first_block M G P o' (n :: l) blockdays fuel (inject_Z n)) as [ev [(n1 & [[st m] g] & pb)| |]]; [|reflexivity|reflexivity].
    cbv zeta. destruct (start_time _) as [s|]; [|reflexivity]. rewrite main_loop_ext. reflexivity.
  Qed.
End Extension.

Lemma read_several_ext {F H S} (read read' : F -> string -> Q -> bool -> res tables) drift (sn : F -> option S) version gps :
  forall fns, (forall fn, In fn fns -> read fn = read' fn) -> forall start acc, loop F H S read drift sn version gps start acc fns = loop F H S read' drift sn version gps start acc fns.
Proof.
  induction fns as [|fn fns IH]; intros E start acc; [reflexivity|]. cbn [loop].
  assert (X : one_file F H S read drift sn version gps fn start = one_file F H S read' drift sn version gps fn start).
  { unfold one_file, ReadSeveral.read. rewrite (E fn (or_introl eq_refl)). reflexivity. }
  rewrite X. clear X. destruct (one_file F H S read' drift sn version gps fn start) as [h [L|[[]| |]]]; cbv zeta; try reflexivity; apply IH; intros x Hx; apply E; right; exact Hx.
Qed.

Lemma le_bytes_antisym x : forall y, le_bytes x y = true -> le_bytes y x = true -> x = y.
Proof.
  induction x as [|a x IH]; intros [|c y] H H'; cbn [le_bytes] in *; try reflexivity; try discriminate.
  destruct (Z.ltb_spec a c), (Z.ltb_spec c a); try discriminate; try lia. f_equal; [lia|]. apply IH; assumption.
Qed.

Section Others.
  Variable sc : scanner.
  Variable buf0 : bytes.
  Variable ear : bool.
  Variable fit3 : list point -> option cubic.
  Variable fit1 : list point -> option Drift.linear.
  Variable spline : list (Q * option Q) -> option (Q -> Q).
  Variable now : Q.
  Variable oddS : list bytes -> option (option bytes).
  Variable oddV : list bytes -> option bytes.
  Variable oddC : list bytes -> option config.
  Variables reader9 reader8 : bytes -> bool -> res (list drow).
  Notation convert_card := (convert_card sc buf0 ear fit3 fit1 spline now oddS oddV oddC reader9 reader8).

  (** The two cards have the same files of the logger [sn], that is, the same files FILEnnnn.[sn] and FILEnnnn.TXT. *)
  Definition same_files (sn : bytes) (c c' : card) : Prop :=
    forall name bs n x, named name n x -> x = sn \/ x = b "TXT" -> (In (name, bs) c <-> In (name, bs) c').

  Lemma bytes_unique (c : card) name bs : NoDup (map fst c) -> In (name, bs) c -> bytes_of c name = Some bs.
  Proof.
    intros N. induction c as [|[n x] l IH]; intros Hi; [destruct Hi|]. cbn [map fst] in N. inversion N as [|? ? N1 N2]; subst. cbn [bytes_of].
    destruct Hi as [Hi|Hi].
    - injection Hi as -> ->. assert (eqb_bytes name name = true) as -> by (apply eqb_bytes_spec; reflexivity). reflexivity.
    - destruct (eqb_bytes n name) eqn:E; [|exact (IH N2 Hi)]. apply eqb_bytes_spec in E. subst n. exfalso. apply N1. apply in_map_iff. exists (name, bs). auto.
  Qed.

  Section Two.
    Variables c c' : card.
    Variable sn : bytes.
    Hypothesis Hsn : serial_number sn.
    Hypothesis N : NoDup (map fst c).
    Hypothesis N' : NoDup (map fst c').
    Hypothesis Same : same_files sn c c'.
    Notation d := (entries oddS oddV c).
    Notation d' := (entries oddS oddV c').

    Lemma same_entry f n x : named (e_name f) n x -> x = sn \/ x = b "TXT" -> (In f d <-> In f d').
    Proof.
      intros Nm Hx. unfold entries. rewrite !in_map_iff. split; intros ([name bs] & <- & Hi); exists (name, bs); (split; [reflexivity|]); cbn [fst snd entry_of e_name] in Nm; apply (Same name bs n x Nm Hx); exact Hi.
    Qed.
    Lemma same_chosen nums f : In f (chosen d sn nums) <-> In f (chosen d' sn nums).
    Proof.
      rewrite !chosen_in. split; intros [A B]; (split; [|exact B]); destruct B as ([B|B] & _); (eapply same_entry; [exact B|auto|exact A]).
    Qed.
    Lemma sorted_equal : forall l m : list Z, chain Z.le l -> chain Z.le m -> Permutation.Permutation l m -> l = m.
    Proof.
      induction l as [|x l IH]; intros m Cl Cm P.
      - apply Permutation.Permutation_nil in P. subst m. reflexivity.
      - destruct m as [|y m]; [apply Permutation.Permutation_sym, Permutation.Permutation_nil in P; discriminate|].
        pose proof (chain_all Z.le Z.le_trans l x Cl) as Fl. pose proof (chain_all Z.le Z.le_trans m y Cm) as Fm. rewrite Forall_forall in Fl, Fm.
        assert (x = y).
        { assert (A : In x (y :: m)) by (apply (Permutation.Permutation_in _ P); left; reflexivity).
          assert (B : In y (x :: l)) by (apply (Permutation.Permutation_in _ (Permutation.Permutation_sym P)); left; reflexivity).
          destruct A as [A|A]; [congruence|]. destruct B as [B|B]; [congruence|]. specialize (Fm _ A). specialize (Fl _ B). lia. }
        subst y. f_equal. apply IH; [exact (ReadSeveralProofs.chain_tail _ _ _ Cl)|exact (ReadSeveralProofs.chain_tail _ _ _ Cm)|exact (Permutation.Permutation_cons_inv P)].
    Qed.
    Lemma distinct_entries (k : card) : NoDup (map fst k) -> NoDup (entries oddS oddV k).
    Proof. intros H. apply (NoDup_map_inv e_name). unfold entries. rewrite map_map. exact H. Qed.

    Lemma same_select nums : select (Some d) sn nums = select (Some d') sn nums.
    Proof.
      destruct (serial_value sn Hsn) as (_ & L3 & L & T & _).
      assert (X : forall e, select (Some e) sn nums =
        match map num (chosen e sn nums) with [] => inl (if existsb unreadable (fns e sn) then Corrupted else Missing) | ns => inr (sort_by Z.leb ns) end).
      { intros e. destruct (existsb is_raw e) eqn:E; [exact (select_eq e sn nums E L L3)|]. unfold select. rewrite E. cbn [negb].
        assert (Nf : fns e sn = []).
        { destruct (fns e sn) as [|f l] eqn:Ef; [reflexivity|exfalso]. assert (H : In f (fns e sn)) by (rewrite Ef; left; reflexivity). apply fns_in in H as [H (n & Hn)].
          assert (K : is_raw f = true) by (apply is_raw_spec; destruct Hn; eauto). assert (Y : existsb is_raw e = true) by (apply existsb_exists; eauto). congruence. }
        unfold chosen. rewrite Nf. reflexivity. }
      assert (P : Permutation.Permutation (map num (chosen d sn nums)) (map num (chosen d' sn nums))).
      { apply Permutation.Permutation_map. apply Permutation.NoDup_Permutation.
        - apply NoDup_filter, fns_nodup; [exact T|apply distinct_entries; exact N].
        - apply NoDup_filter, fns_nodup; [exact T|apply distinct_entries; exact N'].
        - intros f. apply same_chosen. }
      assert (U : existsb unreadable (fns d sn) = existsb unreadable (fns d' sn)).
      { assert (Y : forall a a', (forall f n x, named (e_name f) n x -> x = sn \/ x = b "TXT" -> In f a -> In f a') -> existsb unreadable (fns a sn) = true -> existsb unreadable (fns a' sn) = true).
        { intros a a' H K. apply existsb_exists in K as (f & Hf & Uf). apply fns_in in Hf as [Hf Cf]. apply existsb_exists. exists f. split; [|exact Uf]. apply fns_in. split; [|exact Cf].
          destruct Cf as (n & [Cf|Cf]); eapply H; eauto. }
        pose proof (Y d d' (fun f n x A B => proj1 (same_entry f n x A B))) as Y1. pose proof (Y d' d (fun f n x A B => proj2 (same_entry f n x A B))) as Y2.
        destruct (existsb unreadable (fns d sn)), (existsb unreadable (fns d' sn)); try reflexivity; [symmetry; apply Y1; reflexivity|apply Y2; reflexivity]. }
      rewrite !X, U.
      assert (So : sort_by Z.leb (map num (chosen d sn nums)) = sort_by Z.leb (map num (chosen d' sn nums))).
      { apply sorted_equal; [apply sort_Z_chain|apply sort_Z_chain|]. eapply Permutation.perm_trans; [apply sort_perm|]. eapply Permutation.perm_trans; [exact P|]. apply Permutation.Permutation_sym, sort_perm. }
      destruct (map num (chosen d sn nums)) as [|a l] eqn:E1, (map num (chosen d' sn nums)) as [|a' l'] eqn:E2.
      - reflexivity.
      - apply Permutation.Permutation_nil in P. discriminate.
      - apply Permutation.Permutation_sym, Permutation.Permutation_nil in P. discriminate.
      - rewrite So. reflexivity.
    Qed.

    Lemma same_find bl : find_nonmissing d sn bl = find_nonmissing d' sn bl.
    Proof.
      destruct (serial_value sn Hsn) as (_ & _ & _ & T & _).
      assert (Strict : forall k, NoDup (map fst k) -> chain (fun f g => le_bytes (e_name f) (e_name g) = true /\ e_name f <> e_name g) (find_nonmissing (entries oddS oddV k) sn bl)).
      { intros k Nk. pose proof (find_sorted (entries oddS oddV k) sn bl) as S.
        assert (Nn : NoDup (map e_name (find_nonmissing (entries oddS oddV k) sn bl))).
        { assert (Ne : NoDup (map e_name (entries oddS oddV k))) by (unfold entries; rewrite map_map; exact Nk).
          pose proof (find_nodup _ sn bl (distinct_entries k Nk)) as Nf.
          assert (Sub : forall f, In f (find_nonmissing (entries oddS oddV k) sn bl) -> In f (entries oddS oddV k)) by (intros f Hf; apply find_in in Hf; [exact (proj1 Hf)|exact T]).
          clear - Ne Nf Sub. induction (find_nonmissing (entries oddS oddV k) sn bl) as [|f l IH]; [constructor|]. inversion Nf as [|? ? N1 N2]; subst. cbn [map].
          constructor; [|apply IH; [exact N2|intros x Hx; apply Sub; right; exact Hx]]. intros H. apply in_map_iff in H as (g & E & Hg).
          assert (f = g); [|subst g; exact (N1 Hg)]. pose proof (Sub f (or_introl eq_refl)) as A. pose proof (Sub g (or_intror Hg)) as B. clear - Ne A B E. induction (entries oddS oddV k) as [|x e IH]; [destruct A|].
          cbn [map] in Ne. inversion Ne as [|? ? M1 M2]; subst. destruct A as [->|A], B as [->|B]; [reflexivity| | |exact (IH M2 A B)]; exfalso; apply M1; [rewrite <- E|rewrite E]; apply in_map; assumption. }
        clear - S Nn. induction (find_nonmissing (entries oddS oddV k) sn bl) as [|f l IH]; [exact I|]. destruct l as [|g l]; [exact I|]. destruct S as [S1 S2]. cbn [map] in Nn. inversion Nn as [|? ? M1 M2]; subst.
        split; [split; [exact S1|intros E; apply M1; left; congruence]|apply IH; assumption]. }
      apply (strict_unique (fun f g => le_bytes (e_name f) (e_name g) = true /\ e_name f <> e_name g)).
      - intros x y z [A1 A2] [B1 B2]. split; [exact (le_bytes_trans _ _ _ A1 B1)|]. intros E. rewrite <- E in B1. apply A2. exact (le_bytes_antisym _ _ A1 B1).
      - intros x [_ H]. apply H. reflexivity.
      - exact (Strict c N).
      - exact (Strict c' N').
      - intros f. rewrite !find_in by exact T. split; intros [A B]; (split; [|exact B]); destruct B as (n & x & Nm & _ & _ & Hx); (eapply same_entry; [exact Nm|tauto|exact A]).
    Qed.

    Lemma same_bytes bl f : In f (find_nonmissing d sn bl) -> bytes_of c (e_name f) = bytes_of c' (e_name f).
    Proof.
      destruct (serial_value sn Hsn) as (_ & _ & _ & T & _). intros Hf. apply find_in in Hf as [Hf (n & x & Nm & _ & _ & Hx)]; [|exact T].
      apply in_map_iff in Hf as ([name bs] & <- & Hi). cbn [fst snd entry_of e_name] in *. rewrite (bytes_unique c name bs N Hi).
      symmetry. apply bytes_unique; [exact N'|]. apply (Same name bs n x Nm); [tauto|exact Hi].
    Qed.
    Lemma dropped l v fl : drop_unreadable l = Some (v, fl) -> forall f, In f fl -> In f l.
    Proof.
      induction l as [|g l IH]; [discriminate|]. cbn [drop_unreadable]. destruct (e_version g); intros E f Hf; [injection E as _ <-; exact Hf|right; exact (IH E f Hf)].
    Qed.
    Lemma same_block bl :
      read_files sc buf0 ear fit3 fit1 spline (content_of reader9 reader8 c) (range_of oddC c) now true d sn bl =
      read_files sc buf0 ear fit3 fit1 spline (content_of reader9 reader8 c') (range_of oddC c') now true d' sn bl.
    Proof.
      unfold read_files, read_gem. rewrite <- same_find. pose proof (same_bytes bl) as Sb.
      destruct (find_nonmissing d sn bl) as [|f0 l0]; [reflexivity|]. destruct (drop_unreadable (f0 :: l0)) as [[v fl]|] eqn:E; [|reflexivity].
      pose proof (dropped _ _ _ E) as Dr.
      assert (J : forall a, Block.join sc buf0 ear fit3 fit1 (content_of reader9 reader8 c) true a fl = Block.join sc buf0 ear fit3 fit1 (content_of reader9 reader8 c') true a fl).
      { intros a. unfold Block.join, read_several. apply read_several_ext. intros fn Hfn. unfold content_of. rewrite (Sb fn (Dr fn Hfn)). reflexivity. }
      assert (Fi : forall j, finish_block spline (range_of oddC c) now sn (hd_error fl) j = finish_block spline (range_of oddC c') now sn (hd_error fl) j).
      { intros j. unfold finish_block. destruct fl as [|f r]; [reflexivity|]. cbn [hd_error]. unfold range_of. rewrite (Sb f (Dr f (or_introl eq_refl))). reflexivity. }
      cbv zeta beta. rewrite !J.
      destruct (existsb _ _); [|destruct (_ || _)]; try reflexivity; (destruct (Block.join sc buf0 ear fit3 fit1 (content_of reader9 reader8 c') true _ fl) as [j|]; [|reflexivity]); cbn [fst snd];
        (destruct (jdata j); [reflexivity|]); rewrite Fi; reflexivity.
    Qed.
  End Two.

  (** C66.  The conversion depends only on the files FILEnnnn.[sn] and FILEnnnn.TXT: not on what else is in the folder, nor on
      the order in which its files are listed.  This holds for all files, damaged ones too. *)
  Theorem C66_other_files c c' sn nums blockdays flen t1 t2 fuel : serial_number sn -> NoDup (map fst c) -> NoDup (map fst c') -> same_files sn c c' ->
    convert_card c sn nums blockdays flen t1 t2 fuel = convert_card c' sn nums blockdays flen t1 t2 fuel.
  Proof.
    intros Hsn N N' S. unfold Card.convert_card. rewrite (same_select c c' sn Hsn N N' S nums). destruct (select _ sn nums) as [r|ns]; [reflexivity|]. f_equal.
    apply convert_ext. intros bl. rewrite (same_block c c' sn Hsn N N' S bl). reflexivity.
  Qed.
End Others.
