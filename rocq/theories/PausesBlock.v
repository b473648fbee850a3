(** A block of recordings with pauses is read, and its stream covers them. *)
From Coq Require Import String.
From Coq Require Import ZArith QArith Qabs Qround List Bool Lia Lqa.
From Verif Require Import Base Lib UnwrapSpec UnwrapProofs Scan Parser ParserSpec ParserProps Process ReadSeveral ReadSeveralSpec ReadSeveralProofs ReadSeveralProps Drift DriftSpec DriftProofs DriftProps
  Segments SegmentsSpec SegmentsProofs SegmentsProps Interp InterpSpec InterpProofs InterpProps Stream StreamSpec StreamProofs
  Convert ConvertSpec ConvertProps Select SelectSpec SelectProofs SelectProps Specs SpecsProps Fields Breaks BreaksSpec BreaksProofs BreaksProps Block BlockSpec BlockProofs BlockProps
  RecordingSpec RecordingProofs RecordingTotal RecordingProps CardSpec CardProofs CardProps PausesSpec PausesProofs.
Import ListNotations.
Open Scope Q_scope.

(** A stretch has five samples or more. *)
Lemma stretch_long w : stretch w -> (5 <= length w)%nat.
Proof.
  intros (N & C & L). destruct (begins_exists _ N) as (s & Bs). destruct (finishes_exists _ N) as (e & Fe). specialize (L s e Bs Fe).
  destruct (step_span _ C s e Bs Fe) as [_ H]. destruct (le_lt_dec 5 (length w)) as [G|G]; [exact G|exfalso].
  assert (X : inject_Z (Z.of_nat (length w) - 1) <= inject_Z 3) by (rewrite <- Zle_Qle; lia). change (inject_Z 3) with 3 in X. lra.
Qed.
Lemma stretch_Qeq v w : Forall2 Qeq v w -> stretch v -> stretch w.
Proof.
  intros H (N & C & L). split; [intros ->; inversion H; subst; contradiction|]. split; [exact (chain_Qeq_follows _ _ H C)|]. intros s e Bs Fe.
  assert (Q1 : exists s', begins v s' /\ s' == s).
  { unfold begins in Bs. inversion H as [Y1 Y2|x y l m Hxy Fq' Y1 Y2]; rewrite <- Y2 in Bs; [discriminate|]. injection Bs as <-. exists x. split; [reflexivity|exact Hxy]. }
  assert (Q2 : exists e', finishes v e' /\ e' == e).
  { destruct Fe as (l & El). rewrite El in H. apply Forall2_app_inv_r in H as (l1 & l2 & _ & F2 & Y). inversion F2 as [|x y ? ? Hxy F3]; subst. inversion F3; subst.
    exists x. split; [exists l1; reflexivity|exact Hxy]. }
  destruct Q1 as (s' & Bs' & Es). destruct Q2 as (e' & Fe' & Ee). specialize (L s' e' Bs' Fe'). lra.
Qed.

Section Files.
  Variable content : entry -> raw_file.
  Variable now : Q.
  Variable evs : entry -> list event.
  Variable tau : entry -> cubic.
  Notation record_of := (record_of evs tau).
  Notation file_wave := (fun f => map fst (waveform (tau f) 0 (evs f))).

  (** [usable_alone], for the entries of a folder. *)
  Record alone (f : entry) : Prop := {
    al_steady : steady_within 1000 (tau f) (evs f);
    al_known : e_sn f <> None;
    al_stretches : in_stretches (file_wave f);
    al_rate : (9999 # 10) * c1 (tau f) <= 1024 # 1000 /\ 1024 # 1000 <= (10001 # 10) * c1 (tau f);
    al_sound : sound_file entry content evs tau f;
    al_past : forall c t, In (c, t) (fixes_of (evs f)) -> inject_Z t <= now;
    al_daily : chain (fun f g => (snd g - snd f <= 86400)%Z) (fixes_of (evs f));
    al_first : exact_fixes (tau f) (firstn 2 (fixes_of (evs f))) }.
  Definition turn (fl : list entry) : Prop :=
    Forall alone fl /\ chain Z.lt (flat_map (fun f => map snd (fixes_of (evs f))) fl) /\ chain Qlt (map fst (record_of fl)).

  Lemma wave_of f : true_clock (tau f) (evs f) -> file_wave f <> [].
  Proof.
    intros T. destruct (tc_begin _ _ T) as (pre & a & k & rest & E & _). rewrite E. destruct (waveform_app (tau f) pre (Sample a k :: rest) 0) as (level & ->).
    rewrite map_app. cbn [waveform map]. destruct (map fst (waveform (tau f) 0 pre)); discriminate.
  Qed.
  Lemma alone_begins f : alone f -> exists w l, file_wave f = w ++ l /\ stretch w.
  Proof.
    intros A. destruct (al_sound f A) as (bs & _ & _ & T). pose proof (wave_of f T) as N. destruct (al_stretches f A) as (ws & E & F). cbn beta in N. rewrite E in *.
    destruct ws as [|w ws]; [contradiction|]. inversion F as [|? ? Fw _]; subst. exists w, (concat ws). split; [reflexivity|exact Fw].
  Qed.
  Lemma alone_long f : alone f -> (5 <= length (waveform (tau f) 0 (evs f)))%nat.
  Proof.
    intros A. destruct (alone_begins f A) as (w & l & E & S). apply stretch_long in S. rewrite <- (map_length fst). cbn beta in E. rewrite E, app_length. lia.
  Qed.
  Lemma record_waves fl : map fst (record_of fl) = concat (map file_wave fl).
  Proof. unfold RecordingProps.record_of. induction fl as [|f fl IH]; [reflexivity|]. cbn [flat_map map concat]. rewrite map_app, IH. reflexivity. Qed.

  (** The timed samples, stretch by stretch. *)
  Lemma record_stretches fl : Forall alone fl -> in_stretches (map fst (record_of fl)).
  Proof.
    intros A. rewrite record_waves. induction A as [|f fl Af A (l & E & F)]; [exists []; split; [reflexivity|constructor]|].
    destruct (al_stretches f Af) as (ws & Ew & Fw). exists (ws ++ l). cbn [map concat]. rewrite concat_app, <- E, <- Ew. split; [reflexivity|]. apply Forall_app. auto.
  Qed.
  Lemma timed_waves fl ts : turn fl -> Forall2 Qeq (map fst (record_of fl)) ts -> exists W, concat W = ts /\ chain Qlt ts /\ Forall stretch W.
  Proof.
    intros (A & _ & C) F. destruct (record_stretches fl A) as (V & EV & FV). pose proof (chain_Qeq _ _ F C) as C'. rewrite EV in F.
    destruct (concat_Qeq _ _ F) as (W & E & G). exists W. split; [exact E|]. split; [exact C'|]. clear - FV G.
    induction G as [|v w V W H G IH]; [constructor|]. inversion FV; subst. constructor; [eapply stretch_Qeq; eassumption|auto].
  Qed.
  Lemma run_span W ts runs r s e : concat W = ts -> chain Qlt ts ->
    Forall stretch W -> runs_of ts runs -> In r runs -> begins r s -> finishes r e -> 1 # 10 <= e - s.
  Proof.
    intros E C F Ru I Bs Fe. subst ts.
    assert (F' : Forall (fun w => w <> [] /\ chain follows w) W) by (eapply Forall_impl; [|exact F]; unfold stretch; cbn beta; tauto).
    destruct (run_whole W runs r Ru C F' I) as (w & r' & Iw & ->). rewrite Forall_forall in F. destruct (F w Iw) as (Nw & _ & Sp).
    destruct (begins_exists _ Nw) as (s' & Bs'). destruct (finishes_exists _ Nw) as (e' & Fe'). pose proof (Sp s' e' Bs' Fe') as L.
    assert (s = s') as -> by (unfold begins in *; destruct w; [contradiction|]; cbn in Bs, Bs'; congruence).
    assert (e' <= e); [|lra]. destruct (in_split _ _ I) as (R1 & R2 & ER). destruct Ru as (Ec & _). rewrite <- Ec, ER, concat_app in C. cbn [concat] in C.
    apply chain_app_r in C. apply chain_app_l in C. destruct r' as [|x r'].
    - rewrite app_nil_r in Fe. destruct Fe as (a & Ea), Fe' as (a' & Ea'). rewrite Ea in Ea'. apply app_inj_tail in Ea' as [_ ->]. apply Qle_refl.
    - apply finishes_app in Fe; [|discriminate]. destruct Fe' as (a' & Ea'). rewrite Ea', <- app_assoc in C. apply chain_app_r in C. cbn [app] in C.
      destruct Fe as (a & Ea). rewrite Ea in C. assert (e' < e); [|lra]. change (e' :: a ++ [e]) with ((e' :: a) ++ [e]) in C. exact (chain_lt_last _ _ _ _ C eq_refl).
  Qed.

End Files.
Arguments al_steady {content now evs tau} f _.
Arguments al_known {content now evs tau} f _.
Arguments al_stretches {content now evs tau} f _.
Arguments al_rate {content now evs tau} f _.
Arguments al_sound {content now evs tau} f _.
Arguments al_past {content now evs tau} f _.
Arguments al_daily {content now evs tau} f _.
Arguments al_first {content now evs tau} f _.
Arguments alone_begins {content now evs tau} f _.
Arguments alone_long {content now evs tau} f _.
Arguments timed_waves {content now evs tau} fl ts _ _.

Section Block.
  Variable sc : scanner.
  Variable buf0 : bytes.
  Variable ear : bool.
  Variable fit3 : list point -> option cubic.
  Variable fit1 : list point -> option Drift.linear.
  Variable spline : list (Q * option Q) -> option (Q -> Q).
  Variable content : entry -> raw_file.
  Variable adc_range : entry -> Z.
  Variable now : Q.
  Notation read := (read_files sc buf0 ear fit3 fit1 spline content adc_range now true).
  Notation join := (join sc buf0 ear fit3 fit1 content true).
  Variable evs : entry -> list event.
  Variable tau : entry -> cubic.
  Notation record_of := (record_of evs tau).
  Notation file_wave := (fun f => map fst (waveform (tau f) 0 (evs f))).

  Notation turn := (turn content now evs tau).
  Notation alone := (alone content now evs tau).

  (** The block is read, without a problem. *)
  Theorem turn_read d sn nums : sn <> b "TXT" -> (exists f, In f d /\ readable sn nums f /\ e_version f <> None) ->
    (3 <= val_digits (map (fun c => c - 48) sn))%Z -> (forall f, In f d -> readable sn nums f -> adc_range f = 0%Z \/ adc_range f = 1%Z) ->
    reads_decimal sc -> fits_cubics fit3 -> fits_lines fit1 -> recordings content evs tau d sn nums ->
    (forall v fl, files_of d sn nums v fl -> turn fl) ->
    exists g, read d sn nums = Gives (inl g) /\ g_problems g = [].
  Proof.
    intros N Ex N3 Ra Hs H3 H1 Rc Ct.
    destruct (C27_files_read (joined_files * option entry) (gem + trouble)
                (fun v fl => match join v fl with Some j => Some (j, hd_error fl) | None => None end)
                (fun j => match jdata (fst j) with [] => false | _ => true end)
                (fun j => finish_block spline adc_range now sn (snd j) (fst j)) d sn nums N Ex)
      as (before & f & rest & v & P1 & P2 & P3 & P4 & P5 & P6). cbv zeta in P6. destruct P6 as (M1 & _).
    assert (Fo : files_of d sn nums v (f :: rest)) by (exists before, f, rest; split; [reflexivity|]; split; [exact P1|]; split; [exact P2|]; split; [exact P3|]; split; assumption).
    destruct (proj2 Rc v _ Fo) as [Vm Ap]. pose proof (files_recorded _ _ _ _ _ _ _ _ Rc Fo) as Fr. pose proof (Ct v _ Fo) as (Al & Tg & Ch).
    pose proof (Forall_inv Al) as Af. pose proof (alone_long f Af) as L5f.
    assert (Fi : Forall (fine entry bytes content e_sn evs tau) (f :: rest)).
    { rewrite Forall_forall in *. intros x Ix. split; [exact (Fr x Ix)|]. split; [exact (al_steady x (Al x Ix))|exact (al_known x (Al x Ix))]. }
    assert (L5 : (5 <= length (record_of (f :: rest)))%nat) by (cbn [RecordingProps.record_of flat_map]; rewrite app_length; lia).
    destruct (loop_total entry bytes sc buf0 ear content e_sn fit3 fit1 evs tau Hs H3 H1 (f :: rest) Fi 0 (mkj [] [] [] [] [])) as (out & J & Pb). cbn [jproblems] in Pb.
    assert (J' : join None (f :: rest) = Some out) by exact J.
    destruct (loop_laid entry bytes sc buf0 ear content e_sn fit3 fit1 evs tau Hs _ Fr 0 (mkj [] [] [] [] []) out J Pb) as (parts & La & E1 & E2 & E3).
    cbn [jheader jdata jgps lines map app] in E1, E2, E3.
    assert (Lw : length (jdata out) = length (record_of (f :: rest))).
    { rewrite E2. symmetry. eapply Forall2_length_eq. exact (laid_times entry content fit3 fit1 evs tau 0 _ parts H3 La Fr Ap []). }
    assert (Nd : jdata out <> []) by (intros X; rewrite <- Lw, X in L5; cbn in L5; lia).
    assert (Jo : BlockProps.joined_of sc buf0 ear fit3 fit1 content true d sn nums out).
    { exists v, None, (f :: rest). split; [exact Fo|]. split; [left; auto|]. auto. }
    unfold read_files. rewrite (M1 Vm). rewrite J'. cbn [fst snd hd_error].
    destruct (jdata out) as [|p0 D] eqn:Ed; [contradiction|].
    assert (Gt : map snd (jgps out) = flat_map (fun f => map snd (fixes_of (evs f))) (f :: rest)).
    { rewrite E3. revert La. generalize (f :: rest). clear. intros fl La. induction La as [|start f fl k L h parts Tr Dr N Ch St Se La IH]; [reflexivity|]. cbn [map concat flat_map fst]. rewrite map_app, IH. f_equal.
      destruct Tr as [_ B]. clear - B. induction B as [|x y l m (_ & H) B IH]; [reflexivity|]. cbn [map]. congruence. }
    assert (Pl : Forall placed (jgps out)).
    { eapply (loop_placed entry bytes sc buf0 ear content e_sn fit3 fit1 evs tau Hs (f :: rest)); [|exact J|constructor].
      eapply Forall_impl; [|exact Al]. intros x Hx. exact (al_sound x Hx). }
    (* the first file *)
    assert (First : exists k L, track k (evs f) L /\ (exists D', map fst (p0 :: D) = map fst (data L) ++ D') /\ exists G', jgps out = gps L ++ G').
    { rewrite E2, E3. inversion La as [|? ? ? k L h parts' Tr Dr N' Ch' St Se La']; subst. exists k, L. split; [exact Tr|]. cbn [map concat fst]. rewrite map_app. eauto. }
    destruct First as (k & L & Tr & (D' & ED) & G' & EG).
    assert (Cs : exists x y l, map fst (data L) = x :: y :: l /\ 0 < y - x <= 25).
    { destruct (alone_begins f Af) as (w & lw & Ew & Sw). pose proof (stretch_long w Sw) as Lw5. destruct Sw as (_ & Cw & _).
      destruct w as [|t0 [|t1 w]]; cbn [length] in Lw5; try lia. destruct Cw as [[D1 D2] _]. cbn [app] in Ew.
      pose proof (track_waveform _ _ _ (tau f) Tr) as Wf. destruct (st_line _ _ (al_steady f Af)) as (Z2 & Z3 & C1 & _). destruct (al_rate f Af) as [R1 R2].
      inversion Wf as [Y1 Y2|w0 q0 lw0 ld0 (A0 & _) Wf1 Y1 Y2]; [rewrite <- Y1 in Ew; discriminate|]. rewrite <- Y1 in Ew. cbn [map] in Ew. injection Ew as Ea0 Ew.
      inversion Wf1 as [V1 V2|w1 q1 lw1 ld1 (A1 & _) _ V1 V2]; [rewrite <- V1 in Ew; discriminate|]. rewrite <- V1 in Ew. cbn [map] in Ew. injection Ew as Ea1 _.
      exists (fst q0), (fst q1), (map fst ld1). split; [reflexivity|]. rewrite (line_at _ (fst q0 - 8192 * inject_Z k) Z2 Z3) in A0. rewrite (line_at _ (fst q1 - 8192 * inject_Z k) Z2 Z3) in A1. rewrite Ea0 in A0. rewrite Ea1 in A1.
      assert (Dl : t1 - t0 == c1 (tau f) * (fst q1 - fst q0)) by (rewrite <- A0, <- A1; ring).
      rewrite Dl in D1, D2. split.
      - destruct (Qlt_le_dec 0 (fst q1 - fst q0)) as [G|G]; [exact G|exfalso]. assert (0 <= c1 (tau f) * (fst q0 - fst q1)) by (apply Qmult_le_0_compat; lra). lra.
      - destruct (Qlt_le_dec 25 (fst q1 - fst q0)) as [G|G]; [exfalso|exact G]. assert (0 < c1 (tau f) * (fst q1 - fst q0 - 25)) by (apply Qmult_lt_0_compat; lra). lra. }
    assert (LL : length (data L) = length (waveform (tau f) 0 (evs f))) by (symmetry; exact (Forall2_length_eq _ _ _ (track_waveform _ _ _ (tau f) Tr))).
    pose proof (st_fixes _ _ (al_steady f Af)) as L10.
    destruct (fixes_of (evs f)) as [|[ca ta] [|[cb tb] fx]] eqn:Ef; cbn [length] in L10; try lia.
    assert (Gx : exists g0 g1 gr, gps L = g0 :: g1 :: gr /\ msPPS (fst g0) == ca + 8192 * inject_Z k /\ snd g0 = ta /\ msPPS (fst g1) == cb + 8192 * inject_Z k /\ snd g1 = tb).
    { destruct Tr as [_ B]. rewrite Ef in B. inversion B as [|? g0 ? ? (A1 & A2) B' X1 X2]; subst. inversion B' as [|? g1 ? gr (A3 & A4) B'' X3 X4]; subst. exists g0, g1, gr. auto. }
    destruct Gx as (g0 & g1 & gr & Eg & M0 & T0 & M1' & T1).
    assert (Ng : jgps out <> []) by (rewrite EG, Eg; discriminate).
    assert (Fb : find_breaks now (jgps out) (map fst (p0 :: D)) <> None).
    { destruct (usable_tags now (jgps out)) as [gs|] eqn:U.
      2:{ destruct (jgps out); [contradiction|discriminate]. }
      apply (usable_iff _ _ _ Ng) in U.
      assert (Cg : chain (fun e e' : tag => (snd e < snd e')%Z) gs).
      { rewrite <- Gt in Tg. clear - U Tg. unfold usable in U. revert U. generalize (trusted now (jgps out)) 0%nat. intros R i U.
        assert (G : forall l x, chain Z.lt (map snd (x :: l : list tag)) -> forall y, In y l -> (snd x < snd y)%Z).
        { clear. induction l as [|z l IH]; intros x C y I; [contradiction|]. destruct C as [A C]. destruct I as [<-|I]; [exact A|]. specialize (IH z C y I). lia. }
        assert (Sb : forall i l l', picked R i l l' -> forall y, In y l' -> In y l).
        { clear. intros i l l' H. induction H as [|i x l l' Hx H IH|i x l l' Hx H IH]; intros y Iy; [auto| |right; auto]. destruct Iy as [->|Iy]; [left; reflexivity|right; auto]. }
        induction U as [|i x l l' Hx U IH|i x l l' Hx U IH]; [exact I| |apply IH; exact (chain_tail _ _ _ Tg)].
        specialize (IH (chain_tail _ _ _ Tg)). destruct l' as [|y l']; [exact I|]. split; [|exact IH]. apply (G l x Tg). eapply Sb; [exact U|left; reflexivity]. }
      (* the first two tags are trusted *)
      assert (E01 : exists gs', gs = g0 :: g1 :: gs').
      { clear - U EG Eg Pl Af Ef Tg T0 T1. unfold usable in U. rewrite EG, Eg in U, Pl. cbn [app] in U, Pl. inversion Pl as [|? ? (A1 & A2 & A3) Pl']; subst. inversion Pl' as [|? ? (B1 & B2 & B3) _]; subst.
        pose proof (al_past f Af) as Pa. pose proof (al_daily f Af) as Da. rewrite Ef in Pa, Da. destruct Da as [Da _]. cbn [snd] in Da.
        assert (Lt : (snd g0 < snd g1)%Z) by (cbn [flat_map] in Tg; rewrite Ef in Tg; cbn [map app snd] in Tg; destruct Tg as [K _]; exact K).
        inversion U as [|? ? ? l' _ U1 X1 X2 X3|? ? ? l' Nt U1 X1 X2 X3].
        - inversion U1 as [|? ? ? l2 _ U2 Y1 Y2 Y3|? ? ? l2 Nt U2 Y1 Y2 Y3]; [eauto|]. exfalso. apply Nt.
          split; [apply (Pa cb); right; left; reflexivity|]. split; [exact B1|]. split; [exact B2|]. split; [exact B3|]. right. right. left. exists g0. split; [reflexivity|]. unfold close. lia.
        - exfalso. apply Nt. split; [apply (Pa ca); left; reflexivity|]. split; [exact A1|]. split; [exact A2|]. split; [exact A3|]. left. reflexivity. }
      intros X. apply (C49_fails_iff now (jgps out) _ gs Ng) in X; [|rewrite map_length, Lw; exact L5|exact U|exact Cg].
      destruct X as [(x & y & z & r & E & J1 & _)|(e0 & e1 & e2 & gr' & pre & x & y & z & post & E & Off & _)].
      - rewrite ED in E. destruct Cs as (x' & y' & l & Em & K1 & K2). rewrite Em in E. cbn [app] in E. injection E as -> -> _. destruct J1; lra.
      - (* and agree *)
        destruct E01 as (gs' & E01). rewrite E01 in E. injection E as <- <- _.
        destruct (al_sound f Af) as (bs & _ & _ & T). pose proof (tc_forward _ _ T) as Fw. pose proof (al_first f Af) as Xt. rewrite Ef in Fw, Xt. cbn [map fst] in Fw. destruct Fw as [Fw _].
        pose proof (Xt ca ta (or_introl eq_refl)) as Xa. pose proof (Xt cb tb (or_intror (or_introl eq_refl))) as Xb.
        destruct (st_line _ _ (al_steady f Af)) as (Z2 & Z3 & C1 & _). rewrite (line_at _ ca Z2 Z3) in Xa. rewrite (line_at _ cb Z2 Z3) in Xb. destruct (al_rate f Af) as [R1 R2].
        assert (Dt : inject_Z tb - inject_Z ta == c1 (tau f) * (cb - ca)) by (rewrite Xa, Xb; ring).
        assert (Dm : msPPS (fst g1) - msPPS (fst g0) == cb - ca) by (rewrite M0, M1'; ring).
        assert (W1 : (9999 # 10) * (c1 (tau f) * (cb - ca)) <= (1024 # 1000) * (cb - ca)).
        { assert (K : 0 <= ((1024 # 1000) - (9999 # 10) * c1 (tau f)) * (cb - ca)) by (apply Qmult_le_0_compat; lra). lra. }
        assert (W2 : (1024 # 1000) * (cb - ca) <= (10001 # 10) * (c1 (tau f) * (cb - ca))).
        { assert (K : 0 <= ((10001 # 10) * c1 (tau f) - (1024 # 1000)) * (cb - ca)) by (apply Qmult_le_0_compat; lra). lra. }
        assert (Pos : 0 < c1 (tau f) * (cb - ca)) by (apply Qmult_lt_0_compat; lra).
        unfold off_rate in Off. rewrite T0, T1 in Off. cbv zeta in Off. rewrite Dt, Dm in Off. destruct Off as [(_ & [O|O])|(_ & [O|O])]; lra. }
    assert (Df : filled (jgps out) = jgps out) by (destruct (jgps out); [contradiction|reflexivity]).
    assert (Dd : Forall dated (jgps out)).
    { unfold Block.join, read_several in J'. eapply loop_dated; [|exact J'|constructor]. intros fn v' start L'. cbn beta. apply read_raw_dated. }
    destruct (C49_positions _ Dd) as (ps & Ep & _).
    destruct (joined_record sc buf0 ear fit3 fit1 content evs tau d sn nums out Hs H3 Rc Jo Pb) as (v' & fl' & Fo' & Rec).
    pose proof (Ct v' fl' Fo') as Tn'.
    assert (In_ : interp spline (timed (jheader out) (jdata out)) <> None).
    { intros X. apply C20_raises_iff in X as [X|(pts & runs & X & Ru & Xs)].
      - apply points_unique in X. rewrite <- X in Rec. inversion Rec as [Rc0|].
        destruct fl' as [|f' fl']; [destruct Fo' as (? & ? & ? & Y & _); discriminate|]. cbn [RecordingProps.record_of flat_map] in Rc0. symmetry in Rc0. apply app_eq_nil in Rc0 as [Rc0 _].
        pose proof (alone_long f' (Forall_inv (proj1 Tn'))) as L'. rewrite Rc0 in L'. cbn in L'. lia.
      - apply points_unique in X. rewrite <- X in Rec.
        assert (Fq : Forall2 Qeq (map fst (record_of fl')) (map fst pts)).
        { clear - Rec. induction Rec as [|w p l m (H & _) Rec IH]; cbn [map]; constructor; [symmetry; exact H|exact IH]. }
        destruct (timed_waves fl' (map fst pts) Tn' Fq) as (W & EW & CW & FW).
        apply Exists_exists in Xs as (r & Ir & s & e & ff & Bs & Fe & Ne & _ & Sh). pose proof (run_span W _ runs r s e EW CW FW Ru Ir Bs Fe). lra. }
    destruct (find_breaks now (jgps out) (map fst (p0 :: D))) as [br|] eqn:Eb; [|contradiction].
    rewrite Ed in In_. destruct (interp spline (timed (jheader out) (p0 :: D))) as [trs|] eqn:Ei; [|contradiction].
    assert (Bw : exists s w, get_bitweight_info (val_digits (map (fun c => c - 48)%Z sn)) (adc_range f) (b "Pa") = Some (s, w)).
    { destruct (C28_one_generation (val_digits (map (fun c => c - 48)%Z sn)) N3) as (s & Es & _). unfold get_bitweight_info. rewrite Es.
      assert (If : In f d /\ readable sn nums f) by (apply P1; apply in_elt). destruct If as [If1 If2]. destruct (Ra f If1 If2) as [->| ->]; eexists; eexists; reflexivity. }
    destruct Bw as (s & w & Bw).
    unfold finish_block, assign_times. cbn [jgps jdata jheader jmeta]. rewrite Df, Ep, Ed, Eb, Ei, Bw. eexists. split; [reflexivity|exact Pb].
  Qed.

  Lemma recorded_times l pts : Forall2 is_recorded l pts -> Forall2 Qeq (map fst l) (map fst pts).
  Proof. intros Rec. induction Rec as [|w p l m (H & _) Rec IH]; cbn [map]; constructor; [symmetry; exact H|exact IH]. Qed.

  Lemma after_Qeq l m s : Forall2 Qeq l m -> after_pause m s -> exists s', after_pause l s' /\ s' == s.
  Proof.
    intros F (p & q & E & H). rewrite E in F. apply Forall2_app_inv_r in F as (l1 & l2 & F1 & F2 & ->). inversion F2 as [|x y l3 ? Hx F3]; subst.
    exists x. split; [|exact Hx]. exists l1, l3. split; [reflexivity|]. intros p' u ->. apply Forall2_app_inv_l in F1 as (p1 & p2 & _ & F4 & ->). inversion F4 as [|? u' ? ? Hu F5]; subst. inversion F5; subst.
    intros [A B]. apply (H p1 u' eq_refl). unfold follows. rewrite <- Hx, <- Hu. split; assumption.
  Qed.

  (** What explains a value: where a sample was recorded at a grid time, the value is the recorded one. *)
  Lemma explained_exact fl pts k y t x : turn fl -> Forall2 is_recorded (record_of fl) pts -> spline_contract spline ->
    (forall s, after_pause (map fst (record_of fl)) s -> forall m : Z, ~ s * 100 == inject_Z m + (1 # 2)) ->
    explained spline pts k y -> In (t, x) (record_of fl) -> t == inject_Z k * (1 # 100) -> y = x.
  Proof.
    intros Tn Rec Sp Hm (runs & r & s & e & f & g & Ru & Ir & Bs & Fe & Ef & K & Og & Ab & Nr & Hg) I Et.
    destruct (timed_waves fl (map fst pts) Tn (recorded_times _ _ Rec)) as (W & EW & CW & FW).
    pose proof (run_span W _ runs r s e EW CW FW Ru Ir Bs Fe) as Sn.
    assert (V : Forall (fun p => snd p <> None) pts).
    { clear - Rec. induction Rec as [|w p l m (_ & z & Hz & _) Rec IH]; constructor; [congruence|exact IH]. }
    assert (Ip : exists t' w, In (t', Some w) pts /\ t' == t /\ w == inject_Z x).
    { clear - Rec I. induction Rec as [|w p l m (A & z & B & D) Rec IH]; [contradiction|]. destruct I as [->|I].
      - destruct p as [t' o]. cbn [fst snd] in *. subst o. exists t', z. split; [left; reflexivity|]. split; assumption.
      - destruct (IH I) as (t' & z' & Q & R). exists t', z'. split; [right; exact Q|exact R]. }
    destruct Ip as (t' & w & Ip & Et' & Ew).
    assert (Hm' : forall m : Z, ~ s * 100 == inject_Z m + (1 # 2)).
    { destruct (run_breaks _ _ Ru) as [Nb Br]. destruct Ru as (Ec & _). destruct (in_split _ _ Ir) as (R1 & R2 & ER).
      assert (Ap : after_pause (map fst pts) s).
      { unfold begins in Bs. destruct r as [|s0 r]; [discriminate|]. injection Bs as ->. exists (concat R1), (r ++ concat R2). split; [rewrite <- Ec, ER, concat_app; reflexivity|].
        intros p' u Ep. rewrite ER in Br, Nb. clear - Ep Br Nb. revert p' Ep. destruct R1 as [|x R1 _] using rev_ind; intros p' Ep; [destruct p'; discriminate|].
        rewrite <- app_assoc in Br. apply chain_app_r in Br. cbn [app] in Br. destruct Br as [Br _].
        rewrite concat_app in Ep. cbn [concat] in Ep. rewrite app_nil_r in Ep. apply Forall_app in Nb as [Nb _]. apply Forall_app in Nb as [_ Nb]. apply Forall_inv in Nb.
        destruct (exists_last Nb) as (x' & u' & ->). rewrite app_assoc in Ep. apply app_inj_tail in Ep as [_ ->]. exact (Br x' u s r eq_refl eq_refl). }
      destruct (after_Qeq _ _ s (recorded_times _ _ Rec) Ap) as (s' & Ap' & Es). intros m X. apply (Hm s' Ap' m). rewrite Es. exact X. }
    specialize (Hg Hm').
    assert (Rs : forall q, In q r -> In q (map fst pts)) by (intros q Hq; destruct Ru as (Ec & _); exact (run_in _ _ _ _ Ec Ir Hq)).
    assert (Is : In s (map fst pts)) by (apply Rs; unfold begins in Bs; destruct r; [discriminate|injection Bs as ->; left; reflexivity]).
    assert (Ie : In e (map fst pts)) by (apply Rs; destruct Fe as (l & ->); apply in_elt).
    assert (In' : forall t v, In (t, v) pts -> s - (1 # 200) <= t -> t <= e -> In (t, v) (around s e pts)).
    { clear. intros t v I A B. apply filter_In. split; [exact I|]. cbn. apply andb_true_iff. split; apply Qle_bool_iff; lra. }
    destruct (Sp (around s e pts)) as (f' & Ef' & X).
    - apply in_map_iff in Is as ([q1 vs] & Es & Is). apply in_map_iff in Ie as ([q2 ve] & Ee & Ie). cbn [fst] in Es, Ee. subst q1 q2.
      apply In' in Is; [|lra|lra]. apply In' in Ie; [|lra|lra].
      destruct (around s e pts) as [|p [|q m]]; [contradiction| |cbn; lia].
      destruct Is as [->|[]], Ie as [[= E _]|[]]. rewrite E in Sn. lra.
    - apply chain_filter_lt. exact CW.
    - apply Forall_forall. intros p J. apply filter_In in J. rewrite Forall_forall in V. apply V. exact (proj1 J).
    - rewrite Ef in Ef'. injection Ef' as <-. unfold nearest in Nr. rewrite (X t' w g) in Nr; [|apply In'; [exact Ip|lra|lra]|lra]. rewrite Ew in Nr. symmetry. apply int_near. exact Nr.
  Qed.
  (** No value is explained in a pause of more than 25 ms. *)
  Lemma explained_pause fl pts k v x y : turn fl -> Forall2 is_recorded (record_of fl) pts -> explained spline pts k v ->
    (forall t a, In (t, a) (record_of fl) -> t <= x \/ y <= t) -> (25 # 1000) < y - x ->
    x - (1 # 200) < inject_Z k * (1 # 100) -> inject_Z k * (1 # 100) < y - (1 # 200) -> False.
  Proof.
    intros Tn Rec (runs & r & s & e & f & g & Ru & Ir & Bs & Fe & Ef & K & _) Gap L K1 K2.
    destruct (timed_waves fl (map fst pts) Tn (recorded_times _ _ Rec)) as (W & EW & CW & FW).
    assert (F' : Forall (fun w => (2 <= length w)%nat /\ chain follows w) W).
    { eapply Forall_impl; [|exact FW]. intros w Sw. split; [pose proof (stretch_long w Sw); lia|apply Sw]. }
    assert (Gap' : forall t, In t (map fst pts) -> t <= x \/ y <= t).
    { clear - Rec Gap. induction Rec as [|w p l m (A & _) Rec IH]; intros t It; [contradiction|]. destruct It as [<-|It].
      - destruct w as [t' a]. cbn [fst] in A. destruct (Gap t' a (or_introl eq_refl)); [left|right]; lra.
      - apply IH; [|exact It]. intros t' a I. apply (Gap t' a). right. exact I. }
    assert (Rs : forall q, In q r -> In q (map fst pts)) by (intros q Hq; destruct Ru as (Ec & _); exact (run_in _ _ _ _ Ec Ir Hq)).
    assert (Is : In s (map fst pts)) by (apply Rs; unfold begins in Bs; destruct r; [discriminate|injection Bs as ->; left; reflexivity]).
    assert (Ie : In e (map fst pts)) by (apply Rs; destruct Fe as (l & ->); apply in_elt).
    rewrite <- EW in Ru, CW, Gap', Is, Ie. apply (run_pause W runs r s e x y Ru CW F' Ir Bs Fe Gap' L).
    - destruct (Gap' s Is); [assumption|lra].
    - destruct (Gap' e Ie); [lra|assumption].
  Qed.

  (** The block is read, and where samples follow each other without a pause, the stream has a value at every grid time. *)
  Theorem turn_times d sn nums : sn <> b "TXT" -> (exists f, In f d /\ readable sn nums f /\ e_version f <> None) ->
    (3 <= val_digits (map (fun c => c - 48) sn))%Z -> (forall f, In f d -> readable sn nums f -> adc_range f = 0%Z \/ adc_range f = 1%Z) ->
    reads_decimal sc -> fits_cubics fit3 -> fits_lines fit1 -> spline_contract spline -> recordings content evs tau d sn nums ->
    (forall v fl, files_of d sn nums v fl -> turn fl) ->
    exists g v fl, read d sn nums = Gives (inl g) /\ g_problems g = [] /\ files_of d sn nums v fl /\
      (forall l piece l' s e k, map fst (record_of fl) = l ++ piece ++ l' -> chain follows piece -> begins piece s -> finishes piece e ->
        s + (1 # 200) <= inject_Z k * (1 # 100) <= e - (25 # 1000) ->
        exists x, sample (map to_grid (a_data (g_times g))) k x) /\
      exists pts, Forall2 is_recorded (record_of fl) pts /\ forall k v, sample (map to_grid (a_data (g_times g))) k v -> explained spline pts k v.
  Proof.
    intros N Ex N3 Ra Hs H3 H1 Sp Rc Ct. destruct (turn_read d sn nums N Ex N3 Ra Hs H3 H1 Rc Ct) as (g & E & P).
    destruct (C62_true_times sc buf0 ear fit3 fit1 spline content adc_range now evs tau d sn nums g E P N Hs H3 Rc) as (v & fl & pts & Fo & Rec & _ & Xp & Cov). exists g, v, fl.
    split; [exact E|]. split; [exact P|]. split; [exact Fo|]. pose proof (Ct v fl Fo) as Tn. split; [|exists pts; split; [exact Rec|exact Xp]].
    intros l piece l' s e k Ef Cp Bs Fe K.
    assert (Fq : Forall2 Qeq (map fst (record_of fl)) (map fst pts)) by exact (recorded_times _ _ Rec).
    destruct (timed_waves fl (map fst pts) Tn Fq) as (W & EW & CW & FW).
    (* the same piece of the timed samples *)
    assert (Pc : exists u m w, map fst pts = u ++ m ++ w /\ Forall2 Qeq piece m).
    { rewrite Ef in Fq. apply Forall2_app_inv_l in Fq as (u & w & _ & F2 & ->). apply Forall2_app_inv_l in F2 as (m & w' & Fm & _ & ->). exists u, m, w'. auto. }
    destruct Pc as (u & m & w & Em & Fm).
    assert (Q1 : exists s', begins m s' /\ s == s').
    { unfold begins in Bs. inversion Fm as [Y1 Y2|x y a c Hxy Fq' Y1 Y2]; rewrite <- Y1 in Bs; [discriminate|]. injection Bs as <-. exists y. split; [reflexivity|exact Hxy]. }
    assert (Q2 : exists e', finishes m e' /\ e == e').
    { destruct Fe as (a & El). rewrite El in Fm. apply Forall2_app_inv_l in Fm as (l1 & l2 & _ & F2 & Y). inversion F2 as [|x y ? ? Hxy F3]; subst. inversion F3; subst.
      exists y. split; [exists l1; reflexivity|exact Hxy]. }
    destruct Q1 as (s' & Bs' & Es). destruct Q2 as (e' & Fe' & Ee).
    assert (Nm : m <> []) by (intros X; rewrite X in Bs'; discriminate).
    assert (Np : map fst pts <> []) by (rewrite Em; intros X; apply app_eq_nil in X as [_ X]; apply app_eq_nil in X as [X _]; contradiction).
    pose proof (cut_runs (map fst pts) Np) as Ru. set (runs := cut (map fst pts)) in *.
    destruct (run_around _ runs u m w Ru Em Nm (chain_Qeq_follows _ _ Fm Cp)) as (run & a & c & Ir & Er).
    assert (Nr : run <> []) by (rewrite Er; destruct a; [destruct m; [contradiction|discriminate]|discriminate]).
    destruct (begins_exists _ Nr) as (s0 & B0). destruct (finishes_exists _ Nr) as (e0 & F0).
    pose proof (run_span W _ runs run s0 e0 EW CW FW Ru Ir B0 F0) as Sn.
    assert (Cr : chain Qlt run) by (destruct Ru as (Ec & _); exact (run_increases _ _ _ Ec Ir CW)).
    assert (Gt : forall l t, chain Qlt (t :: l) -> forall y, In y l -> t < y).
    { clear. induction l as [|z l IH]; intros x C y J; [contradiction|]. destruct C as [A C]. destruct J as [<-|J]; [exact A|]. specialize (IH z C y J). lra. }
    assert (L1 : s0 <= s').
    { unfold begins in *. destruct m as [|s'' m]; [contradiction|]. injection Bs' as ->. destruct a as [|a0 a]; rewrite Er in B0; cbn [app] in B0.
      - injection B0 as <-. apply Qle_refl.
      - injection B0 as ->. rewrite Er in Cr. cbn [app] in Cr. apply Qlt_le_weak. apply (Gt _ _ Cr). apply in_elt. }
    assert (L2 : e' <= e0).
    { destruct Fe' as (m' & Em'). destruct c as [|c0 c].
      - rewrite app_nil_r in Er. rewrite Em', app_assoc in Er. destruct F0 as (r' & Er'). rewrite Er' in Er. apply app_inj_tail in Er as [_ ->]. apply Qle_refl.
      - assert (F1 : finishes (c0 :: c) e0) by (rewrite Er, app_assoc in F0; apply finishes_app in F0; [exact F0|discriminate]).
        apply Qlt_le_weak. rewrite Er, Em' in Cr. apply chain_app_r in Cr. rewrite <- app_assoc in Cr. apply chain_app_r in Cr. cbn [app] in Cr. apply (Gt _ _ Cr). destruct F1 as (q & ->). apply in_elt. }
    apply (Cov Sp ltac:(exact (proj2 (proj2 Tn))) runs run s0 e0 k Ru Ir B0 F0); [intros X; lra|split; lra].
  Qed.
End Block.
