(** Properties C68 and C70: a card whose recordings have pauses between them or in them; conversions from a given start time. *)
From Coq Require Import String.
From Coq Require Import ZArith QArith Qabs Qround List Bool Lia Lqa.
From Verif Require Import Base Lib UnwrapSpec UnwrapProofs Scan Parser ParserSpec ParserProps Process ReadSeveral ReadSeveralSpec ReadSeveralProofs Drift DriftSpec
  Segments SegmentsSpec SegmentsProofs Interp InterpSpec InterpProofs InterpProps Stream StreamProofs StreamProps
  Convert ConvertSpec ConvertProofs ConvertProps Select SelectSpec SelectProofs Fields Breaks Block BlockSpec BlockProofs BlockProps
  RecordingSpec RecordingProofs RecordingTotal RecordingProps RecordingWhole Header Card CardSpec CardProofs CardProps
  PausesSpec PausesProofs PausesBlock PausesWhole StreamSpec.
Import ListNotations.
Open Scope Q_scope.

(** A part of recordings in turn. *)
Lemma in_turn_part now l1 part l3 : in_turn now (l1 ++ part ++ l3) -> in_turn now part.
Proof.
  intros (A & B & C & D). split; [|split; [|split]].
  - apply Forall_app in A as [_ A]. apply Forall_app in A as [A _]. exact A.
  - exact (chain_sub _ _ _ _ B).
  - rewrite !flat_map_app in C. exact (chain_sub _ _ _ _ C).
  - unfold record in D. rewrite !flat_map_app, !map_app in D. exact (chain_sub _ _ _ _ D).
Qed.

Section C68.
  Variable sc : scanner.
  Variable buf0 : bytes.
  Variable ear : bool.
  Variable fit3 : list point -> option cubic.
  Variable fit1 : list point -> option Drift.linear.
  Variable spline : list (Q * option Q) -> option (Q -> Q).
  Variable now : Q.
  Variable oddS : list bytes -> option (option bytes).
  Variable oddV : list bytes -> option bytes.
  Variable oddC : list bytes -> option config.
  Variables reader9 reader8 : bytes -> bool -> res (list drow).
  Notation convert_card := (convert_card sc buf0 ear fit3 fit1 spline now oddS oddV oddC reader9 reader8).

  Lemma block_paused sn recs c bl l1 l3 taken : serial_number sn -> card_of sn recs c ->
    (forall r, In r taken -> In r recs) -> in_turn now taken -> taken = l1 ++ filter (in_block bl) recs ++ l3 ->
    paused_block (content_of reader9 reader8 c) (range_of oddC c) now (events_in recs) (clock_in recs) (entries oddS oddV c) sn (files oddS oddV sn recs) bl.
  Proof.
    intros Hsn Hc Ht Hu E.
    set (part := filter (in_block bl) recs) in *.
    assert (Hp : forall r, In r part -> In r recs) by (intros r Hr; apply filter_In in Hr; exact (proj1 Hr)).
    assert (Up : in_turn now part) by (rewrite E in Hu; exact (in_turn_part _ _ _ _ Hu)).
    pose proof Hc as (_ & _ & W & _). rewrite Forall_forall in W.
    split; [|split; [|split; [|split]]].
    - intros f Hf R. destruct (proj1 (readable_entry oddS oddV oddC reader9 reader8 sn recs c Hsn Hc bl f) (conj Hf R)) as (r & Hr & _ & ->).
      destruct (entry_facts oddS oddV oddC reader9 reader8 sn recs c Hsn Hc r Hr) as (_ & (v & V & _) & _ & G & _). split; [rewrite V; discriminate|exact G].
    - intros f. exact (files_in oddS oddV oddC reader9 reader8 sn recs c Hsn Hc bl f).
    - intros v fl Fo. exact (proj1 (files_unique oddS oddV oddC reader9 reader8 sn recs c Hsn Hc bl v fl Fo)).
    - split.
      + intros f Hf R. destruct (proj1 (readable_entry oddS oddV oddC reader9 reader8 sn recs c Hsn Hc bl f) (conj Hf R)) as (r & Hr & _ & ->).
        destruct (entry_facts oddS oddV oddC reader9 reader8 sn recs c Hsn Hc r Hr) as (_ & _ & _ & _ & Ec).
        rewrite (found_events oddS oddV sn recs c Hc r Hr), (found_clock oddS oddV sn recs c Hc r Hr). exists (r_bytes r). split; [exact Ec|]. destruct (W r Hr) as (_ & _ & A & B). auto.
      + intros v fl Fo. destruct (files_unique oddS oddV oddC reader9 reader8 sn recs c Hsn Hc bl v fl Fo) as [-> V]. split; [exact V|].
        unfold files. fold part. apply chain_map. destruct Up as (_ & C & _). clear - Hp C Hc Hsn. induction part as [|r l IH]; [exact I|]. destruct l as [|r' l]; [exact I|]. destruct C as [C1 C2]. split.
        * rewrite (found_events oddS oddV sn recs c Hc r), (found_events oddS oddV sn recs c Hc r') by (apply Hp; cbn; auto). exact C1.
        * apply IH; [intros x Hx; apply Hp; right; exact Hx|exact C2].
    - intros _. destruct Up as (U1 & U2 & U3 & U4).
      pose proof (files_record oddS oddV sn recs c Hc bl) as Er. fold part in Er.
      split; [|split].
      + apply Forall_forall. intros f Hf. apply in_map_iff in Hf as (r & <- & Hr). fold part in Hr. rewrite Forall_forall in U1. pose proof (U1 r Hr) as Ua.
        pose proof (found_events oddS oddV sn recs c Hc r (Hp r Hr)) as Fe. pose proof (found_clock oddS oddV sn recs c Hc r (Hp r Hr)) as Fc.
        destruct (entry_facts oddS oddV oddC reader9 reader8 sn recs c Hsn Hc r (Hp r Hr)) as (Es & _ & _ & _ & Ec). destruct (W r (Hp r Hr)) as (_ & _ & _ & Tk).
        split; rewrite ?Fe, ?Fc.
        * exact (ua_steady _ _ Ua).
        * rewrite Es. discriminate.
        * exact (ua_stretches _ _ Ua).
        * exact (ua_rate _ _ Ua).
        * exists (r_bytes r). rewrite Fe, Fc. split; [exact Ec|]. split; [exact (ua_fixes _ _ Ua)|exact Tk].
        * exact (ua_past _ _ Ua).
        * exact (ua_daily _ _ Ua).
        * exact (ua_first _ _ Ua).
      + assert (X : flat_map (fun f => map snd (fixes_of (events_in recs f))) (files oddS oddV sn recs bl) = flat_map (fun r => map snd (fixes_of (r_events r))) part).
        { unfold files. fold part. clear - Hp Hc Hsn. induction part as [|r l IH]; [reflexivity|]. cbn [map flat_map]. rewrite IH by (intros x Hx; apply Hp; right; exact Hx).
          rewrite (found_events oddS oddV sn recs c Hc r) by (apply Hp; left; reflexivity). reflexivity. }
        rewrite X. exact U3.
      + rewrite Er. exact U4.
  Qed.

  (** The blocks of the conversion of a card. *)
  Definition parts_of (recs : list recording) (blocks : list (list Z)) : list (list recording) := map (fun bl => filter (in_block bl) recs) blocks.

  Lemma card_blocks sn recs taken c nums blockdays : serial_number sn -> card_of sn recs c ->
    (forall r, In r taken <-> In r recs /\ asked_for nums r) -> chain Z.lt (map r_number taken) -> taken <> [] -> in_turn now taken -> 0 < blockdays ->
    exists blocks, divided (map r_number taken) (12 * blockdays) blocks /\
      select (Some (entries oddS oddV c)) sn nums = inr (map r_number taken) /\
      in_blocks (12 * blockdays) taken (parts_of recs blocks) /\
      (forall bl, In bl blocks -> forall r, In r (filter (in_block bl) recs) -> In r taken) /\
      (forall bl, In bl blocks -> paused_block (content_of reader9 reader8 c) (range_of oddC c) now (events_in recs) (clock_in recs) (entries oddS oddV c) sn (files oddS oddV sn recs) bl) /\
      (forall bl, record_of (events_in recs) (clock_in recs) (files oddS oddV sn recs bl) = record (filter (in_block bl) recs)) /\
      flat_map (fun bl => record_of (events_in recs) (clock_in recs) (files oddS oddV sn recs bl)) blocks = record taken.
  Proof.
    intros Hsn Hc Ht Ct Nt Hu Hb.
    assert (Ew : taken = wanted_recs recs nums).
    { apply (strict_unique (fun r r' => r_number r < r_number r')%Z); [intros x y z; lia|intros x; lia|apply (proj1 (chain_map r_number Z.lt taken)); exact Ct| |].
      - destruct Hc as (_ & C & _). apply (proj1 (chain_map r_number Z.lt recs)) in C. apply (chain_filter _ (fun r => asked nums (r_number r))) in C; [exact C|intros x y z; lia].
      - intros r. unfold wanted_recs. rewrite filter_In, asked_spec. apply Ht. }
    assert (Tr : forall r, In r taken -> In r recs) by (intros r Hr; apply Ht in Hr; exact (proj1 Hr)).
    pose proof (selected oddS oddV oddC reader9 reader8 sn recs c Hsn Hc nums) as Sel. rewrite <- Ew in Sel. specialize (Sel Nt).
    assert (Np : 0 < 12 * blockdays) by lra.
    destruct (divided_exists (12 * blockdays) (map r_number taken) Np) as (blocks & Hd).
    { destruct taken; [contradiction|discriminate]. }
    { clear - Ct. induction (map r_number taken) as [|x l IH]; [exact I|]. destruct l as [|y l]; [exact I|]. destruct Ct as [A B]. split; [lia|apply IH; exact B]. }
    assert (Nd : NoDup (map r_number taken)) by (apply chain_nodup; apply (proj1 (chain_map r_number Z.lt taken)); exact Ct).
    assert (Bl : forall bl, In bl blocks -> exists l1 l3, taken = l1 ++ filter (in_block bl) recs ++ l3 /\ map r_number (filter (in_block bl) recs) = bl).
    { intros bl Ib. destruct Hd as (_ & Ec & _). destruct (in_split _ _ Ib) as (b1 & b2 & Eb). rewrite Eb, concat_app in Ec. cbn [concat] in Ec.
      destruct (filter_part r_number taken (concat b1) bl (concat b2) (eq_sym Ec) Nd) as (l1 & l3 & E1 & E2 & _ & _).
      assert (X : filter (in_block bl) recs = filter (fun x => existsb (Z.eqb (r_number x)) bl) taken).
      { apply (strict_unique (fun r r' => r_number r < r_number r')%Z); [intros x y z; lia|intros x; lia| | |].
        - destruct Hc as (_ & C & _). apply (proj1 (chain_map r_number Z.lt recs)) in C. apply (chain_filter _ (in_block bl)) in C; [exact C|intros x y z; lia].
        - apply (proj1 (chain_map r_number Z.lt taken)) in Ct. apply (chain_filter _ (fun x => existsb (Z.eqb (r_number x)) bl)) in Ct; [exact Ct|intros x y z; lia].
        - intros r. rewrite !filter_In. fold (in_block bl r). split; [|intros [A B]; split; [exact (Tr r A)|exact B]].
          intros [A B]. split; [|exact B]. apply in_block_iff in B.
          assert (In (r_number r) (map r_number taken)) as Hr.
          { rewrite <- Ec. apply in_or_app. right. apply in_or_app. left. exact B. }
          apply in_map_iff in Hr as (r' & En & Hr'). rewrite <- (numbers_distinct sn recs c Hc r' r (Tr r' Hr') A En). exact Hr'. }
      exists l1, l3. rewrite X. split; [exact E1|exact E2]. }
    set (parts := map (fun bl => filter (in_block bl) recs) blocks).
    assert (Ep : concat parts = taken).
    { assert (X : map r_number (concat parts) = map r_number taken).
      { destruct Hd as (_ & <- & _). unfold parts. clear - Bl. induction blocks as [|bl bs IH]; [reflexivity|]. cbn [map concat]. rewrite map_app, IH by (intros x Hx; apply Bl; right; exact Hx).
        destruct (Bl bl (or_introl eq_refl)) as (l1 & l3 & _ & ->). reflexivity. }
      assert (Y : forall r, In r (concat parts) -> In r recs).
      { intros r Hr. apply in_concat in Hr as (p & Hp & Hr). apply in_map_iff in Hp as (bl & <- & _). apply filter_In in Hr. exact (proj1 Hr). }
      clear - X Y Tr Hc. revert X Y Tr. generalize (concat parts) as l. induction taken as [|r t IH]; intros l X Y Tr; destruct l as [|r' l]; try discriminate; [reflexivity|].
      cbn [map] in X. injection X as X1 X2. f_equal.
      - apply (numbers_distinct sn recs c Hc); [apply Y; left; reflexivity|apply Tr; left; reflexivity|exact X1].
      - apply IH; [exact X2|intros x Hx; apply Y; right; exact Hx|intros x Hx; apply Tr; right; exact Hx]. }
    assert (Rb : forall bl, In bl blocks -> paused_block (content_of reader9 reader8 c) (range_of oddC c) now (events_in recs) (clock_in recs) (entries oddS oddV c) sn (files oddS oddV sn recs) bl).
    { intros bl Ib. destruct (Bl bl Ib) as (l1 & l3 & E & _). exact (block_paused sn recs c bl l1 l3 taken Hsn Hc Tr Hu E). }
    assert (Er : forall bl, record_of (events_in recs) (clock_in recs) (files oddS oddV sn recs bl) = record (filter (in_block bl) recs)) by (intros bl; exact (files_record oddS oddV sn recs c Hc bl)).
    assert (Ew' : flat_map (fun bl => record_of (events_in recs) (clock_in recs) (files oddS oddV sn recs bl)) blocks = record taken).
    { rewrite <- Ep. unfold parts. clear - Er. induction blocks as [|bl bs IH]; [reflexivity|]. cbn [flat_map map concat]. rewrite IH, Er. unfold record. rewrite flat_map_app. reflexivity. }
    exists blocks. split; [exact Hd|]. split; [exact Sel|]. split; [split; [exact Ep|]|].
    { intros i part r first Hn Hr Hh. unfold parts_of in Hn. rewrite nth_error_map in Hn. destruct (nth_error blocks i) as [bl|] eqn:En; [|discriminate]. injection Hn as <-.
      destruct Hd as (_ & _ & _ & Db). apply filter_In in Hr as [_ Hr]. apply in_block_iff in Hr. specialize (Db i bl (r_number r) En Hr).
      destruct taken as [|rr t]; [discriminate|]. injection Hh as <-. exact Db. }
    split; [|split; [exact Rb|split; [exact Er|exact Ew']]].
    intros bl Ib r Hr. destruct (Bl bl Ib) as (l1 & l3 & E & _). rewrite E. apply in_or_app. right. apply in_or_app. left. exact Hr.
  Qed.

  (** C70.  As C68 below, but the conversion may be asked to start at a given time, 35 ms or more before the end of the record.  It starts
      there (or, if no time is given, at a whole second that is at most 1.005 s after the beginning of the record): no value
      is before that time, and from it on the output is that of C68. *)
  Theorem C70_archive_from_a_time sn recs taken c nums blockdays f t1 t2 s1 e1 :
    libraries sc fit3 fit1 spline -> serial_number sn -> card_of sn recs c ->
    (forall r, In r taken <-> In r recs /\ asked_for nums r) -> chain Z.lt (map r_number taken) -> taken <> [] -> in_turn now taken ->
    0 < blockdays -> (0 < f)%Z ->
    (forall t x, In (t, x) (record taken) -> 1 # 200 <= t /\ t * 100 + day * blockdays + inject_Z f + 200 <= t2) ->
    begins (map fst (record taken)) s1 -> finishes (map fst (record taken)) e1 -> can_start s1 e1 t1 ->
    exists parts T n h, in_blocks (12 * blockdays) taken parts /\ starts_at s1 t1 T /\
      (forall fuel, (n <= fuel)%nat -> convert_card c sn nums blockdays (inject_Z f) t1 t2 fuel = inr (h, Returns [])) /\
      in_order (written h) /\ Forall (in_window (inject_Z f)) (written h) /\
      (forall k v, sample (written h) k v -> T <= inject_Z k) /\
      (forall part l piece l' s e k, In part parts -> record part = l ++ piece ++ l' -> chain follows (map fst piece) ->
         begins (map fst piece) s -> finishes (map fst piece) e ->
         s + (1 # 200) <= inject_Z k * (1 # 100) <= e - (25 # 1000) -> T <= inject_Z k ->
         (exists x, sample (written h) k x) /\
         forall t x, begins_plainly part -> In (t, x) (record part) -> t == inject_Z k * (1 # 100) ->
           sample (written h) k x /\ forall y, sample (written h) k y -> y = x) /\
      (forall x y k v, (forall t a, In (t, a) (record taken) -> t <= x \/ y <= t) -> (3 # 100) < y - x ->
         x - (1 # 200) < inject_Z k * (1 # 100) -> inject_Z k * (1 # 100) < y - (1 # 200) -> ~ sample (written h) k v) /\
      exists P : Z -> Z -> Prop, (forall k v, P k v -> recorded_value spline parts k v) /\
        forall k v, sample (written h) k v -> recorded_value spline parts k v \/ fills P k v.
  Proof.
    intros Li Hsn Hc Ht Ct Nt Hu Hb Hf Hw Bs1 Fe1 Cs. destruct (serial_value sn Hsn) as (N3 & _ & _ & T & _).
    assert (Tr : forall r, In r taken -> In r recs) by (intros r Hr; apply Ht in Hr; exact (proj1 Hr)).
    destruct (card_blocks sn recs taken c nums blockdays Hsn Hc Ht Ct Nt Hu Hb) as (blocks & Hd & Sel & Ib' & Pt & Rb & Er & Ew').
    destruct (started_conversion sc buf0 ear fit3 fit1 spline (content_of reader9 reader8 c) (range_of oddC c) now (events_in recs) (clock_in recs) (entries oddS oddV c) sn (files oddS oddV sn recs)
      (map r_number taken) blockdays f t2 blocks T N3 Li Hb Hf Hd Rb) with (s1 := s1) (e1 := e1) (t1 := t1) as (T0 & n & h & St & Run & O & Wn & Cov & Exp & _).
    { rewrite Ew'. destruct Hu as (_ & _ & _ & D). exact D. }
    { rewrite Ew'. exact Hw. }
    { rewrite Ew'. exact Bs1. }
    { rewrite Ew'. exact Fe1. }
    { exact Cs. }
    assert (Tn : forall bl, In bl blocks -> forall pts, Forall2 is_recorded (record (filter (in_block bl) recs)) pts -> filter (in_block bl) recs <> [] ->
      turn (content_of reader9 reader8 c) now (events_in recs) (clock_in recs) (files oddS oddV sn recs bl)).
    { intros bl Ib pts _ Nb. destruct (Rb bl Ib) as (_ & _ & _ & _ & T'). apply T'. unfold files. destruct (filter (in_block bl) recs); [contradiction|discriminate]. }
    set (parts := parts_of recs blocks) in *.
    set (data := fun bl => data_of (block_outcome (read_files sc buf0 ear fit3 fit1 spline (content_of reader9 reader8 c) (range_of oddC c) now true (entries oddS oddV c) sn bl))) in *.
    assert (Xb : forall bl k v, In bl blocks -> sample (data bl) k v -> exists pts, Forall2 is_recorded (record (filter (in_block bl) recs)) pts /\ explained spline pts k v).
    { intros bl k v Ib Sk. unfold data in Sk.
      destruct (paused_read sc buf0 ear fit3 fit1 spline (content_of reader9 reader8 c) (range_of oddC c) now (events_in recs) (clock_in recs) (entries oddS oddV c) sn (files oddS oddV sn recs) bl T N3 Li (Rb bl Ib))
        as [(_ & Eg)|(_ & g & Eg & _ & _ & pts & Rec & X)]; rewrite Eg in Sk; [destruct Sk as (tr & i & [] & _)|]. cbn [block_outcome data_of] in Sk. rewrite Er in Rec. exists pts. split; [exact Rec|exact (X k v Sk)]. }
    assert (Px : forall k v, sample (all_of (fun bl => block_outcome (read_files sc buf0 ear fit3 fit1 spline (content_of reader9 reader8 c) (range_of oddC c) now true (entries oddS oddV c) sn bl)) data_of blocks) k v -> recorded_value spline parts k v).
    { intros k v (tr & i & It & R). apply in_flat_map in It as (bl & Ib & It). destruct (Xb bl k v Ib) as (pts & Rec & X); [exists tr, i; auto|].
      exists (filter (in_block bl) recs), pts. split; [unfold parts, parts_of; apply in_map_iff; eauto|]. split; assumption. }
    (* no value in a pause *)
    assert (Pz : forall x y k v, (forall t a, In (t, a) (record taken) -> t <= x \/ y <= t) -> (25 # 1000) < y - x -> x - (1 # 200) < inject_Z k * (1 # 100) -> inject_Z k * (1 # 100) < y - (1 # 200) -> ~ recorded_value spline parts k v).
    { intros x y k v Gap L K1 K2 (part & pts & Hp & Rec & X). unfold parts, parts_of in Hp. apply in_map_iff in Hp as (bl & <- & Ib).
      assert (Nb : filter (in_block bl) recs <> []).
      { intros Y. rewrite Y in Rec. inversion Rec; subst. destruct X as (runs & r & s & e & ff & gg & (Ec & a & z & Ba & _) & _). discriminate. }
      pose proof (Tn bl Ib pts Rec Nb) as Tb. rewrite <- Er in Rec. eapply (explained_pause spline _ now _ _ _ pts k v x y Tb Rec X); [|exact L|exact K1|exact K2].
      intros t a Ha. rewrite Er in Ha. apply (Gap t a). unfold record in *. apply in_flat_map in Ha as (r & Hr & Ha). apply in_flat_map. exists r. split; [exact (Pt bl Ib r Hr)|exact Ha]. }
    exists parts, T0, n, h. split; [exact Ib'|]. split; [exact St|].
    split; [intros fuel Hn; unfold Card.convert_card; rewrite Sel, (Run fuel Hn); reflexivity|].
    split; [exact O|]. split; [exact Wn|]. split; [intros k v Sk; exact (proj1 (Exp k v Sk))|]. split.
    - intros part l piece l' s e k Hp Epc Wp Bs Fe K Kt. unfold parts, parts_of in Hp. apply in_map_iff in Hp as (bl & Ebl & Ib).
      destruct (paused_read sc buf0 ear fit3 fit1 spline (content_of reader9 reader8 c) (range_of oddC c) now (events_in recs) (clock_in recs) (entries oddS oddV c) sn (files oddS oddV sn recs) bl T N3 Li (Rb bl Ib))
        as [(Ef & _)|(_ & g & Eg & _ & Cv & _)].
      { exfalso. unfold files in Ef. rewrite Ebl in Ef. apply map_eq_nil in Ef. rewrite Ef in Epc. symmetry in Epc. apply app_eq_nil in Epc as [_ Epc]. apply app_eq_nil in Epc as [-> _]. discriminate. }
      destruct (Cv (map fst l) (map fst piece) (map fst l') s e k) as (x & Sx).
      { rewrite Er, Ebl, Epc, !map_app. reflexivity. }
      { exact Wp. }
      { exact Bs. }
      { exact Fe. }
      { exact K. }
      assert (Sd : sample (data bl) k x) by (unfold data; rewrite Eg; exact Sx).
      assert (Wx : sample (written h) k x) by (apply Cov; [|exact Kt]; exact (sample_all sc buf0 ear fit3 fit1 spline _ _ now _ sn blocks bl k x Ib Sd)). split; [exists x; exact Wx|].
      intros t a Bp It Et. destruct (Xb bl k x Ib Sd) as (pts & Rec & X). rewrite Ebl in Rec.
      assert (Npt : part <> []) by (intros Y; rewrite Y in It; destruct It).
      assert (x = a).
      { rewrite <- Ebl in Rec, Npt, It, Bp. pose proof (Tn bl Ib pts Rec Npt) as Tb. rewrite <- Er in Rec, It. destruct Li as (_ & _ & _ & Sp).
        eapply (explained_exact spline _ now _ _ _ pts k x t a Tb Rec Sp); [|exact X|exact It|exact Et].
        rewrite Er. exact Bp. }
      subst a. split; [exact Wx|]. intros y Sy. exact (sample_unique _ _ _ _ O Sy Wx).
    - split.
      + intros x y k v Gap L K1 K2 Sk. destruct (proj2 (Exp k v Sk)) as [X|(i & j & a & z & Si & Sj & Kij & Lij & _)].
        * eapply (Pz x y k v); [exact Gap|lra|exact K1|exact K2|exact (Px k v X)].
        * assert (Bi : inject_Z i * (1 # 100) <= x - (1 # 200)).
          { destruct (Qlt_le_dec (x - (1 # 200)) (inject_Z i * (1 # 100))) as [Y|Y]; [exfalso|exact Y]. apply (Pz x y i a Gap); [lra|exact Y| |exact (Px i a Si)].
            assert (Z : inject_Z i < inject_Z k) by (rewrite <- Zlt_Qlt; lia). lra. }
          assert (Bj : y - (1 # 200) <= inject_Z j * (1 # 100)).
          { destruct (Qlt_le_dec (inject_Z j * (1 # 100)) (y - (1 # 200))) as [Y|Y]; [exfalso|exact Y]. apply (Pz x y j z Gap); [lra| |exact Y|exact (Px j z Sj)].
            assert (Z : inject_Z k < inject_Z j) by (rewrite <- Zlt_Qlt; lia). lra. }
          assert (Z : inject_Z (j - i) <= inject_Z 3) by (rewrite <- Zle_Qle; lia). unfold Z.sub in Z. rewrite inject_Z_plus, inject_Z_opp in Z. change (inject_Z 3) with 3 in Z. lra.
      + eexists. split; [exact Px|].
        intros k v Hk. destruct (proj2 (Exp k v Hk)) as [X|X]; [left; exact (Px k v X)|right; exact X].
  Qed.

  (** C68.  As C66, but the logger may have been switched off and on between the recordings (its counter starts anew), and samples
      may be missing within them (up to 1000 counts): each recording can be used by itself, they are in time order, and the record lasts
      1.04 s or more.  Then the conversion returns without a problem to report, and its output files are in time order without
      overlap, each within a window of the file length.  Where samples of a block follow each other without a pause, there is a
      value at every grid time from the first of them to 25 ms before the last, from 1.005 s after the beginning of the whole record; where a
      sample was recorded at such a grid time, it is the recorded one.  In a pause of more than 30 ms there is no value at all,
      so a pause stays a pause.  Every value is explained by recorded samples at their true times, or fills a gap of at most
      three intervals between such values. *)
  Theorem C68_archive_with_pauses sn recs taken c nums blockdays f t2 s1 e1 :
    libraries sc fit3 fit1 spline -> serial_number sn -> card_of sn recs c ->
    (forall r, In r taken <-> In r recs /\ asked_for nums r) -> chain Z.lt (map r_number taken) -> taken <> [] -> in_turn now taken ->
    0 < blockdays -> (0 < f)%Z ->
    (forall t x, In (t, x) (record taken) -> 1 # 200 <= t /\ t * 100 + day * blockdays + inject_Z f + 200 <= t2) ->
    begins (map fst (record taken)) s1 -> finishes (map fst (record taken)) e1 -> 104 # 100 <= e1 - s1 ->
    exists parts n h, in_blocks (12 * blockdays) taken parts /\
      (forall fuel, (n <= fuel)%nat -> convert_card c sn nums blockdays (inject_Z f) None t2 fuel = inr (h, Returns [])) /\
      in_order (written h) /\ Forall (in_window (inject_Z f)) (written h) /\
      (forall part l piece l' s e k, In part parts -> record part = l ++ piece ++ l' -> chain follows (map fst piece) ->
         begins (map fst piece) s -> finishes (map fst piece) e ->
         s + (1 # 200) <= inject_Z k * (1 # 100) <= e - (25 # 1000) -> s1 + (1005 # 1000) <= inject_Z k * (1 # 100) ->
         (exists x, sample (written h) k x) /\
         forall t x, begins_plainly part -> In (t, x) (record part) -> t == inject_Z k * (1 # 100) ->
           sample (written h) k x /\ forall y, sample (written h) k y -> y = x) /\
      (forall x y k v, (forall t a, In (t, a) (record taken) -> t <= x \/ y <= t) -> (3 # 100) < y - x ->
         x - (1 # 200) < inject_Z k * (1 # 100) -> inject_Z k * (1 # 100) < y - (1 # 200) -> ~ sample (written h) k v) /\
      exists P : Z -> Z -> Prop, (forall k v, P k v -> recorded_value spline parts k v) /\
        forall k v, sample (written h) k v -> recorded_value spline parts k v \/ fills P k v.
  Proof.
    intros Li Hsn Hc Ht Ct Nt Hu Hb Hf Hw Bs1 Fe1 L.
    destruct (C70_archive_from_a_time sn recs taken c nums blockdays f None t2 s1 e1 Li Hsn Hc Ht Ct Nt Hu Hb Hf Hw Bs1 Fe1 L)
      as (parts & T & n & h & A & (_ & _ & B) & C & D & E & _ & F & G & H).
    exists parts, n, h. split; [exact A|]. split; [exact C|]. split; [exact D|]. split; [exact E|]. split; [|split; [exact G|exact H]].
    intros part l piece l' s e k I1 I2 I3 I4 I5 I6 I7. apply (F part l piece l' s e k I1 I2 I3 I4 I5 I6). lra.
  Qed.
End C68.
