(** Property C69: the logs of the conversion of a card. *)
From Coq Require Import String.
From Coq Require Import ZArith QArith Qabs Qround List Bool Lia Lqa.
From Verif Require Import Base Lib UnwrapSpec UnwrapProofs Scan Parser ParserSpec ParserProps Process ProcessSpec ReadSeveral ReadSeveralSpec ReadSeveralProofs Drift DriftSpec
  Segments SegmentsSpec SegmentsProofs Interp InterpSpec InterpProofs InterpProps Stream StreamProofs StreamProps
  Convert ConvertSpec ConvertProofs ConvertProps Select SelectSpec SelectProofs Fields Breaks Block BlockSpec BlockProofs BlockProps
  RecordingSpec RecordingProofs RecordingTotal RecordingProps RecordingWhole Header Card CardSpec CardProofs CardProps
  PausesSpec PausesProofs PausesBlock PausesWhole PausesProps LogsSpec LogsProofs LogsBlock StreamSpec.
Import ListNotations.
Open Scope Q_scope.

Lemma split_notes {A B} (R : A -> B -> Prop) parts : forall ns, Forall2 R (concat parts) ns -> exists nss, concat nss = ns /\ Forall2 (Forall2 R) parts nss.
Proof.
  induction parts as [|p parts IH]; intros ns F; cbn [concat] in F.
  - inversion F; subst. exists []. split; [reflexivity|constructor].
  - apply Forall2_app_inv_l in F as (n1 & n2 & F1 & F2 & ->). destruct (IH n2 F2) as (nss & <- & G). exists (n1 :: nss). split; [reflexivity|constructor; assumption].
Qed.

Section Card.
  Variable sc : scanner.
  Variable buf0 : bytes.
  Variable ear : bool.
  Variable fit3 : list point -> option cubic.
  Variable fit1 : list point -> option Drift.linear.
  Variable spline : list (Q * option Q) -> option (Q -> Q).
  Variable now : Q.
  Variable oddS : list bytes -> option (option bytes).
  Variable oddV : list bytes -> option bytes.
  Variable oddC : list bytes -> option config.
  Variables reader9 reader8 : bytes -> bool -> res (list drow).
  Notation convert_card := (convert_card sc buf0 ear fit3 fit1 spline now oddS oddV oddC reader9 reader8).

  (** The notes of a file of the card. *)
  Lemma noted_entry sn recs c r n : serial_number sn -> card_of sn recs c -> In r recs -> noted_text (r_events r) (r_bytes r) (fst n) (snd n) ->
    noted_file entry (content_of reader9 reader8 c) (events_in recs) (clock_in recs) (entry_for oddS oddV sn r) n.
  Proof.
    intros Hsn Hc Hr Hn. destruct (entry_facts oddS oddV oddC reader9 reader8 sn recs c Hsn Hc r Hr) as (_ & _ & _ & _ & Ec).
    pose proof Hc as (_ & _ & W & _). rewrite Forall_forall in W. destruct (W r Hr) as (_ & _ & _ & Tk).
    unfold noted_file. rewrite (found_events oddS oddV sn recs c Hc r Hr), (found_clock oddS oddV sn recs c Hc r Hr). exists (r_bytes r). auto.
  Qed.

  Notation outcome_of c sn := (fun bl => block_outcome (read_files sc buf0 ear fit3 fit1 spline (content_of reader9 reader8 c) (range_of oddC c) now true (entries oddS oddV c) sn bl)).

  (** The logs of the blocks. *)
  Lemma logs_of_blocks sn recs c blocks nss : libraries sc fit3 fit1 spline -> serial_number sn -> card_of sn recs c ->
    (forall bl, In bl blocks -> paused_block (content_of reader9 reader8 c) (range_of oddC c) now (events_in recs) (clock_in recs) (entries oddS oddV c) sn (files oddS oddV sn recs) bl) ->
    Forall2 (Forall2 (fun r n => noted_text (r_events r) (r_bytes r) (fst n) (snd n))) (parts_of recs blocks) nss ->
    Forall2 place_row (flat_map fst (concat nss)) (concat (all_of (outcome_of c sn) gps_of blocks)) /\
    Forall2 health_row (flat_map (fun p => map (pair (fst p)) (snd (snd p))) (combine (concat (parts_of recs blocks)) (concat nss))) (all_of (outcome_of c sn) meta_of blocks) /\
    forall ns nss', nss = ns :: nss' -> hd [] (parts_of recs blocks) <> [] -> exists rows gs, all_of (outcome_of c sn) gps_of blocks = rows :: gs /\ Forall2 place_row (flat_map fst ns) rows.
  Proof.
    intros Li Hsn Hc Rb. destruct (serial_value sn Hsn) as (N3 & _ & _ & T & _). revert nss. induction blocks as [|bl bs IH]; intros nss F; unfold parts_of in F; cbn [map] in F.
    { inversion F; subst. split; [constructor|]. split; [constructor|]. discriminate. }
    inversion F as [|part ns l m F1 F2]; subst. destruct (IH (fun x Hx => Rb x (or_intror Hx)) m F2) as (A & B & _). clear IH.
    assert (No : Forall2 (noted_file entry (content_of reader9 reader8 c) (events_in recs) (clock_in recs)) (files oddS oddV sn recs bl) ns).
    { unfold files. assert (Hp : forall r, In r (filter (in_block bl) recs) -> In r recs) by (intros r Hr; apply filter_In in Hr; exact (proj1 Hr)).
      clear - F1 Hp Hsn Hc oddC. induction F1 as [|r n l m X F1 IH]; [constructor|]. cbn [map]. constructor; [|apply IH; intros x Hx; apply Hp; right; exact Hx].
      apply noted_entry; [exact Hsn|exact Hc|apply Hp; left; reflexivity|exact X]. }
    destruct (block_noted sc buf0 ear fit3 fit1 spline _ _ now (events_in recs) (clock_in recs) (entries oddS oddV c) sn (files oddS oddV sn recs) bl ns T N3 Li (Rb bl (or_introl eq_refl)) No) as (E0 & E1 & Hl).
    assert (Hh : Forall2 health_row (flat_map (fun p => map (pair (fst p)) (snd (snd p))) (combine (filter (in_block bl) recs) ns)) (meta_of (outcome_of c sn bl))).
    { revert Hl. cbn beta. unfold healths, files. generalize (meta_of (block_outcome (read_files sc buf0 ear fit3 fit1 spline (content_of reader9 reader8 c) (range_of oddC c) now true (entries oddS oddV c) sn bl))).
      assert (Hp : forall r, In r (filter (in_block bl) recs) -> In r recs) by (intros r Hr; apply filter_In in Hr; exact (proj1 Hr)).
      clear - F1 Hp Hc. induction F1 as [|r n l m X F1 IH]; intros R Hl; cbn [map combine flat_map fst snd] in *; [inversion Hl; constructor|].
      apply Forall2_app_inv_l in Hl as (R1 & R2 & H1 & H2 & ->). apply Forall2_app; [|apply IH; [intros x Hx; apply Hp; right; exact Hx|exact H2]].
      clear - H1 Hp Hc. revert R1 H1. induction (snd n) as [|q hs IH]; intros R1 H1; cbn [map] in *; inversion H1 as [|? row ? R' D H1']; subst; constructor; [|apply IH; exact H1']. unfold health_line in D. destruct D as [D1 D2].
      rewrite (found_events oddS oddV sn recs c Hc r), (found_clock oddS oddV sn recs c Hc r) in D2 by (apply Hp; left; reflexivity). split; [exact D1|exact D2]. }
    unfold parts_of. cbn [map concat].
    change (all_of (outcome_of c sn) gps_of (bl :: bs)) with (gps_of (outcome_of c sn bl) ++ all_of (outcome_of c sn) gps_of bs).
    change (all_of (outcome_of c sn) meta_of (bl :: bs)) with (meta_of (outcome_of c sn bl) ++ all_of (outcome_of c sn) meta_of bs).
    assert (Le : length (filter (in_block bl) recs) = length ns) by exact (Forall2_length_eq _ _ _ F1).
    rewrite flat_map_app, concat_app. split; [|split].
    - apply Forall2_app; [|exact A]. destruct (files oddS oddV sn recs bl) as [|e fl] eqn:Ef.
      + destruct (E0 eq_refl) as [-> _]. inversion No; subst. constructor.
      + destruct E1 as (rows & -> & Pr); [discriminate|]. cbn [concat]. rewrite app_nil_r. exact Pr.
    - assert (Ec : forall l l', combine (filter (in_block bl) recs ++ l) (ns ++ l') = combine (filter (in_block bl) recs) ns ++ combine l (l' : list (list place * list health))).
      { clear - Le. revert ns Le. induction (filter (in_block bl) recs) as [|r p IH]; intros [|n ns] Le l l'; cbn in Le |- *; try discriminate; [reflexivity|]. f_equal. apply IH. congruence. }
      rewrite Ec, flat_map_app. apply Forall2_app; [exact Hh|exact B].
    - intros ns' nss' E Nh. injection E as <- _. cbn [hd] in Nh. destruct E1 as (rows & Eg & Pr).
      { unfold files. destruct (filter (in_block bl) recs); [contradiction|discriminate]. }
      cbn beta. rewrite Eg. eexists. eexists. split; [reflexivity|exact Pr].
  Qed.

  (** C69.  The logs of such a conversion.  The GPS log has, for every fix in the recordings (in their order), a row with its time and coordinates
      -- except that fixes a second or more before the start of the conversion are dropped, if they are in the first block.
      The state-of-health log has for every reading a row with the numbers that were written down and the true time at which
      it was taken (if that is between the first and the last sample of its file). *)
  Theorem C69_logs sn recs taken notes c nums blockdays f t1 t2 s1 e1 :
    libraries sc fit3 fit1 spline -> serial_number sn -> card_of sn recs c ->
    (forall r, In r taken <-> In r recs /\ asked_for nums r) -> chain Z.lt (map r_number taken) -> taken <> [] -> in_turn now taken ->
    Forall2 (fun r n => noted_text (r_events r) (r_bytes r) (fst n) (snd n)) taken notes ->
    0 < blockdays -> (0 < f)%Z ->
    (forall t x, In (t, x) (record taken) -> 1 # 200 <= t /\ t * 100 + day * blockdays + inject_Z f + 200 <= t2) ->
    begins (map fst (record taken)) s1 -> finishes (map fst (record taken)) e1 -> can_start s1 e1 t1 ->
    exists parts T n h, in_blocks (12 * blockdays) taken parts /\ starts_at s1 t1 T /\
      (forall fuel, (n <= fuel)%nat -> convert_card c sn nums blockdays (inject_Z f) t1 t2 fuel = inr (h, Returns [])) /\
      (exists first later kept, notes = first ++ later /\ length first = length (hd [] parts) /\ first <> [] /\
         ProcessSpec.selected (fun p q => q = p /\ T * (1 # 100) - 1 < inject_Z (fst p)) (flat_map fst first) kept /\
         Forall2 place_row (kept ++ flat_map fst later) (concat (gpss h))) /\
      Forall2 health_row (flat_map (fun p => map (pair (fst p)) (snd (snd p))) (combine taken notes)) (metas h).
  Proof.
    intros Li Hsn Hc Ht Ct Nt Hu Hn Hb Hf Hw Bs1 Fe1 Cs. destruct (serial_value sn Hsn) as (N3 & _ & _ & T & _).
    destruct (card_blocks ear now oddS oddV oddC reader9 reader8 sn recs taken c nums blockdays Hsn Hc Ht Ct Nt Hu Hb) as (blocks & Hd & Sel & Ib' & Pt & Rb & Er & Ew').
    destruct (started_conversion sc buf0 ear fit3 fit1 spline (content_of reader9 reader8 c) (range_of oddC c) now (events_in recs) (clock_in recs) (entries oddS oddV c) sn (files oddS oddV sn recs)
      (map r_number taken) blockdays f t2 blocks T N3 Li Hb Hf Hd Rb) with (s1 := s1) (e1 := e1) (t1 := t1) as (T0 & n & h & St & Run & _ & _ & _ & _ & Me & g & gs & Eg & g' & Gp & Eg').
    { rewrite Ew'. destruct Hu as (_ & _ & _ & D). exact D. }
    { rewrite Ew'. exact Hw. }
    { rewrite Ew'. exact Bs1. }
    { rewrite Ew'. exact Fe1. }
    { exact Cs. }
    destruct Ib' as [Ep Ib']. rewrite <- Ep in Hn. destruct (split_notes _ _ _ Hn) as (nss & <- & Fn).
    destruct (logs_of_blocks sn recs c blocks nss Li Hsn Hc Rb Fn) as (A & B & C). rewrite Ep in B.
    (* the first block is not empty *)
    assert (Nh : hd [] (parts_of recs blocks) <> []).
    { destruct taken as [|r0 t] eqn:Et; [contradiction|]. intros X.
      assert (H0 : In r0 (concat (parts_of recs blocks))) by (rewrite Ep; left; reflexivity).
      apply in_concat in H0 as (p & Hp & Hr). destruct (In_nth_error _ _ Hp) as (i & Hi). pose proof (Ib' i p r0 r0 Hi Hr eq_refl) as W.
      destruct i as [|i]; [destruct (parts_of recs blocks); [discriminate|]; cbn in Hi, X; injection Hi as ->; rewrite X in Hr; destruct Hr|].
      assert (P : 0 < 12 * blockdays) by lra. assert (I1 : 1 <= inject_Z (Z.of_nat (Datatypes.S i))) by (change 1 with (inject_Z 1); rewrite <- Zle_Qle; lia).
      rewrite Z.sub_diag in W. change (inject_Z 0) with 0 in W.
      assert (1 * (12 * blockdays) <= inject_Z (Z.of_nat (Datatypes.S i)) * (12 * blockdays)) by (apply Qmult_le_compat_r; [exact I1|lra]). lra. }
    destruct (parts_of recs blocks) as [|part parts'] eqn:Epa; [contradiction|]. inversion Fn as [|? ns ? nss' F1 F2]; subst. cbn [hd] in Nh.
    destruct (C ns nss' eq_refl Nh) as (rows & gs' & Eg2 & Pr). rewrite Eg in Eg2. injection Eg2 as <- <-.
    exists (part :: parts'), T0, n, h. split; [split; [reflexivity|exact Ib']|]. split; [exact St|].
    split; [intros fuel Hm; unfold Card.convert_card; rewrite Sel, (Run fuel Hm); reflexivity|]. split; [|rewrite Me; exact B].
    assert (Nf : forall p row, place_row p row -> Qltb (T0 - 100) (position_time row) = Qltb (T0 * (1 # 100) - 1) (inject_Z (fst p))).
    { intros p row (X1 & _).
      assert (Ti : position_time row == inject_Z (fst p) * 100) by (unfold position_time; rewrite <- X1, inject_Z_mult; reflexivity).
      destruct (Qltb (T0 * (1 # 100) - 1) (inject_Z (fst p))) eqn:E; [apply Qltb_lt in E; apply Qltb_lt|apply Qltb_ge in E; apply Qltb_ge]; lra. }
    set (ok := fun p : place => Qltb (T0 * (1 # 100) - 1) (inject_Z (fst p))).
    exists ns, (concat nss'), (filter ok (flat_map fst ns)). split; [reflexivity|]. split; [symmetry; exact (Forall2_length_eq _ _ _ F1)|].
    split; [intros ->; inversion F1; subst; contradiction|]. split.
    - clear. induction (flat_map fst ns) as [|p l IH]; [constructor|]. cbn [filter]. destruct (ok p) eqn:E.
      + apply Qltb_lt in E. constructor; [split; [reflexivity|exact E]|exact IH].
      + apply Qltb_ge in E. apply sel_skip; [|exact IH]. intros y [_ Y]. lra.
    - rewrite Gp. cbn [concat]. apply Forall2_app.
      + clear - Pr Nf. induction Pr as [|p row l m X Pr IH]; [constructor|]. cbn [filter]. rewrite (Nf p row X). fold (ok p). destruct (ok p); [constructor; assumption|exact IH].
      + rewrite Eg in A. cbn [concat] in A. rewrite flat_map_app in A. apply Forall2_app_inv_l in A as (r1 & r2 & A1 & A2 & E).
        assert (L1 : length r1 = length g) by (rewrite <- (Forall2_length_eq _ _ _ A1), <- (Forall2_length_eq _ _ _ Pr); reflexivity).
        assert (concat gs = r2) as ->; [|exact A2].
        clear - E L1. revert r1 L1 E. induction g as [|x g IH]; intros [|y r1] L1 E; cbn in *; try discriminate; [exact E|]. injection E as _ E. apply (IH r1); [congruence|exact E].
  Qed.
End Card.
