(** Property C62: what was recorded comes out at its true time. *)
From Coq Require Import String.
From Coq Require Import ZArith QArith Qabs Qround List Bool Lia Lqa.
From Verif Require Import Base Lib UnwrapSpec UnwrapProofs Scan Parser ParserSpec ParserProps Process ReadSeveral ReadSeveralSpec ReadSeveralProofs ReadSeveralProps Drift DriftSpec DriftProps
  Segments SegmentsSpec SegmentsProofs SegmentsProps Interp InterpSpec InterpProofs InterpProps Stream StreamSpec StreamProofs
  Convert ConvertSpec ConvertProps Select SelectSpec SelectProofs SelectProps Specs SpecsProps Fields Breaks BreaksSpec BreaksProofs BreaksProps Block BlockSpec BlockProofs BlockProps
  RecordingSpec RecordingProofs RecordingTotal.
Import ListNotations.
Open Scope Q_scope.

Section Props.
  Variable sc : scanner.
  Variable buf0 : bytes.
  Variable ear : bool.
  Variable fit3 : list point -> option cubic.
  Variable fit1 : list point -> option Drift.linear.
  Variable spline : list (Q * option Q) -> option (Q -> Q).
  Variable content : entry -> raw_file.
  Variable adc_range : entry -> Z.
  Variable now : Q.
  Notation read := (read_files sc buf0 ear fit3 fit1 spline content adc_range now true).
  Notation join := (join sc buf0 ear fit3 fit1 content true).

  (** What was recorded in the files of a block. *)
  Variable evs : entry -> list event.
  Variable tau : entry -> cubic.
  Definition record_of (fl : list entry) : list (Q * Z) := flat_map (fun f => waveform (tau f) 0 (evs f)) fl.

  (** The files of the block are recordings in one of the current formats, and no file begins at the reading where the
      last one ended. *)
  Definition recordings (d : list entry) (sn : bytes) (nums : list Z) : Prop :=
    (forall f, In f d -> readable sn nums f -> recorded_file (content f) (tau f) (evs f)) /\
    forall v fl, files_of d sn nums v fl -> In v [b "0.85C"; b "0.9"; b "0.91"; b "1.10"] /\ chain (fun f g => apart (evs f) (evs g)) fl.

  Lemma files_recorded d sn nums v fl : recordings d sn nums -> files_of d sn nums v fl -> Forall (is_recording entry content evs tau) fl.
  Proof.
    intros [R _] (before & f & rest & E & A & _). apply Forall_forall. intros g I. assert (J : In g (before ++ fl)) by (apply in_or_app; right; exact I).
    apply A in J as [J1 J2]. exact (R g J1 J2).
  Qed.

  Lemma modern_argument v arg : In v [b "0.85C"; b "0.9"; b "0.91"; b "1.10"] ->
    (In v [b "0.85C"; b "0.9"; b "0.91"; b "1.10"] /\ arg = None \/ In v [b "0.85"; b "0.8"] /\ arg = Some v) -> arg = None.
  Proof.
    intros V [[_ ->]|[K _]]; [reflexivity|]. exfalso.
    destruct K as [<-|[<-|[]]]; destruct V as [V|[V|[V|[V|[]]]]]; vm_compute in V; discriminate.
  Qed.

  Lemma joined_record d sn nums out : reads_decimal sc -> fits_cubics fit3 -> recordings d sn nums ->
    joined_of sc buf0 ear fit3 fit1 content true d sn nums out -> jproblems out = [] ->
    exists v fl, files_of d sn nums v fl /\ Forall2 is_recorded (record_of fl) (timed_points (timed (jheader out) (jdata out))).
  Proof.
    intros Hs Hf Rc Jo P. pose proof (joined_timed _ _ _ _ _ _ _ _ _ _ _ Jo) as Tb. destruct Jo as (v & arg & fl & Fo & V & J & Nd).
    pose proof (files_recorded _ _ _ _ _ Rc Fo) as Fr. destruct (proj2 Rc v fl Fo) as [Vm Ap]. rewrite (modern_argument _ _ Vm V) in J.
    exists v, fl. split; [exact Fo|]. unfold Block.join, read_several in J. cbn [as_version] in J.
    destruct (loop_laid entry bytes sc buf0 ear content e_sn fit3 fit1 evs tau Hs fl Fr 0 (mkj [] [] [] [] []) out J P) as (parts & La & E1 & E2 & _).
    cbn [jheader jdata lines map app] in E1, E2.
    pose proof (laid_times entry content fit3 fit1 evs tau 0 fl parts Hf La Fr Ap []) as Lt. cbn [app] in Lt. rewrite <- E2, <- E1 in Lt.
    unfold timed_by in Tb. unfold record_of. revert Tb. generalize (timed_points (timed (jheader out) (jdata out))). clear - Lt.
    induction Lt as [|w p l m ((h & Lc & Hh) & vv & Hv & Ev) Lt IH]; intros pts Tb; inversion Tb as [|? q ? pts' (Hq & h' & Lc' & Hq') Tb']; subst; constructor.
    - split.
      + rewrite Hq', (last_containing_unique _ _ _ _ Lc' Lc). exact Hh.
      + exists vv. rewrite Hq. auto.
    - apply IH. exact Tb'.
  Qed.

  (** C62.  If the files of a block are recordings whose GPS fixes are exact, and reading the block gives no problem, then
      the timed samples are exactly the recorded ones: true times, recorded values.  The resampled stream is explained by
      them, it is in order if they are, and no run of them is left out. *)
  Theorem C62_true_times d sn nums g : read d sn nums = Gives (inl g) -> g_problems g = [] -> sn <> b "TXT" ->
    reads_decimal sc -> fits_cubics fit3 -> recordings d sn nums ->
    exists v fl pts, files_of d sn nums v fl /\ Forall2 is_recorded (record_of fl) pts /\
      (chain Qlt (map fst (record_of fl)) -> in_order (map to_grid (a_data (g_times g)))) /\
      (forall k v, sample (map to_grid (a_data (g_times g))) k v -> explained spline pts k v) /\
      (spline_contract spline -> chain Qlt (map fst (record_of fl)) ->
       forall runs r s e k, runs_of (map fst pts) runs -> In r runs -> begins r s -> finishes r e -> ~ s == e ->
         s + (1 # 200) <= inject_Z k * (1 # 100) <= e - (25 # 1000) ->
         exists v, sample (map to_grid (a_data (g_times g))) k v).
  Proof.
    intros E P N Hs Hf Rc. destruct (read_joined _ _ _ _ _ _ _ _ _ _ _ _ _ _ E N) as (out & trs & ps & Jo & Ei & Ep & Eg & Pg). rewrite Pg in P.
    destruct (joined_record _ _ _ _ Hs Hf Rc Jo P) as (v & fl & Fo & Fr). exists v, fl, (timed_points (timed (jheader out) (jdata out))).
    split; [exact Fo|]. split; [exact Fr|].
    assert (Cq : chain Qlt (map fst (record_of fl)) -> chain Qlt (map fst (timed_points (timed (jheader out) (jdata out))))).
    { apply chain_Qeq. clear - Fr. induction Fr as [|w p l m (H & _) Fr IH]; cbn [map]; constructor; [symmetry; exact H|exact IH]. }
    pose proof (timed_points_points (timed (jheader out) (jdata out))) as Pp. rewrite Eg. cbn [a_data].
    split; [intros C; exact (grid_in_order _ _ _ _ Ei Pp (Cq C))|]. split; [intros k w; exact (grid_explained _ _ _ _ Ei Pp k w)|].
    intros Sp C runs r s e k Ru Ir Bs Fe Ne K.
    assert (V : Forall (fun p => snd p <> None) (timed_points (timed (jheader out) (jdata out)))).
    { clear - Fr. induction Fr as [|w p l m (_ & x & Hx & _) Fr IH]; constructor; [congruence|exact IH]. }
    destruct (C20_runs_covered _ _ _ _ _ _ _ _ Sp Ei Pp Ru (Cq C) V Ir Bs Fe Ne) as (tr & It & K1 & K2).
    destruct (trace_within _ _ _ _ Ei Pp tr It) as (G & Nd & _).
    rewrite (to_grid_time _ _ G) in K2. rewrite (to_grid_start _ G) in K1.
    assert (X1 : (gs (to_grid tr) <= k)%Z) by (rewrite Zle_Qle; lra).
    assert (X2 : (k < gs (to_grid tr) + Z.of_nat (length (tr_data tr)))%Z).
    { assert (Y : (k < gs (to_grid tr) + Z.of_nat (length (tr_data tr) - 1))%Z) by (rewrite Zlt_Qlt; lra). lia. }
    destruct (nth_error (tr_data tr) (Z.to_nat (k - gs (to_grid tr)))) as [w|] eqn:Ev.
    - exists w, (to_grid tr), (Z.to_nat (k - gs (to_grid tr))). split; [apply in_map; exact It|]. split; [exact Ev|lia].
    - apply nth_error_None in Ev. lia.
  Qed.

  (** A continuous record: the files can be used by themselves and continue one another, the fixes are in time order, the
      samples are at most 25 ms apart in true time, there are five or more and they span at least 10 ms; and the logger is known. *)
  Definition continuous (fl : list entry) : Prop :=
    Forall (fun f => steady (tau f) (evs f) /\ e_sn f <> None) fl /\
    chain (fun f g => continues (evs f) (evs g)) fl /\
    chain Z.lt (flat_map (fun f => map snd (fixes_of (evs f))) fl) /\
    (5 <= length (record_of fl))%nat /\
    chain (fun t t' => 0 < t' - t /\ t' - t <= 25 # 1000) (map fst (record_of fl)) /\
    forall s e, begins (map fst (record_of fl)) s -> finishes (map fst (record_of fl)) e -> 1 # 100 <= e - s.

  Lemma chain_Qeq_step l m : Forall2 Qeq l m -> chain (fun t t' => 0 < t' - t /\ t' - t <= 25 # 1000) l -> chain (fun t t' => 0 < t' - t /\ t' - t <= 25 # 1000) m.
  Proof.
    intros F. induction F as [|x y l m E F IH]; [auto|]. intros C. specialize (IH (chain_tail _ _ _ C)). destruct F as [|x' y' l m E' F]; [exact I|].
    destruct C as [A _]. split; [rewrite <- E, <- E'; exact A|exact IH].
  Qed.

  Lemma one_run ts : ts <> [] -> chain (fun t t' => 0 < t' - t /\ t' - t <= 25 # 1000) ts -> runs_of ts [ts].
  Proof.
    intros N C. split; [cbn; apply app_nil_r|]. exists (hd 0 ts), (last ts 0). split; [apply hd_begins; exact N|]. split; [apply last_finishes; exact N|].
    split; [|exact I]. constructor; [|constructor]. split; [exact N|]. eapply chain_weaken; [|exact C]. intros x y [A B] [[D|D] _]; lra.
  Qed.

  (** A block of recordings that is continuous is read, and without a problem. *)
  Theorem C62_continuous_read d sn nums : sn <> b "TXT" -> (exists f, In f d /\ readable sn nums f /\ e_version f <> None) ->
    (3 <= val_digits (map (fun c => c - 48) sn))%Z -> (forall f, In f d -> readable sn nums f -> adc_range f = 0%Z \/ adc_range f = 1%Z) ->
    reads_decimal sc -> fits_cubics fit3 -> fits_lines fit1 -> recordings d sn nums ->
    (forall v fl, files_of d sn nums v fl -> continuous fl) ->
    exists g, read d sn nums = Gives (inl g) /\ g_problems g = [].
  Proof.
    intros N Ex N3 Ra Hs H3 H1 Rc Ct.
    destruct (C27_files_read (joined_files * option entry) (gem + trouble)
                (fun v fl => match join v fl with Some j => Some (j, hd_error fl) | None => None end)
                (fun j => match jdata (fst j) with [] => false | _ => true end)
                (fun j => finish_block spline adc_range now sn (snd j) (fst j)) d sn nums N Ex)
      as (before & f & rest & v & P1 & P2 & P3 & P4 & P5 & P6). cbv zeta in P6. destruct P6 as (M1 & _).
    assert (Fo : files_of d sn nums v (f :: rest)) by (exists before, f, rest; split; [reflexivity|]; split; [exact P1|]; split; [exact P2|]; split; [exact P3|]; split; assumption).
    destruct (proj2 Rc v _ Fo) as [Vm Ap]. pose proof (files_recorded _ _ _ _ _ Rc Fo) as Fr. destruct (Ct v _ Fo) as (Sd & Cn & Tg & L5 & Ch & Sp).
    assert (Fi : Forall (fine entry bytes content e_sn evs tau) (f :: rest)).
    { rewrite Forall_forall in *. intros x Ix. destruct (Sd x Ix) as [Sx Nx]. split; [exact (Fr x Ix)|]. split; [exact (steady_weaken 25 1000 _ _ ltac:(discriminate) Sx)|exact Nx]. }
    assert (Fs : Forall (fun f => steady (tau f) (evs f)) (f :: rest)) by (eapply Forall_impl; [|exact Sd]; cbn beta; tauto).
    destruct (loop_total entry bytes sc buf0 ear content e_sn fit3 fit1 evs tau Hs H3 H1 (f :: rest) Fi 0 (mkj [] [] [] [] [])) as (out & J & Pb). cbn [jproblems] in Pb.
    assert (J' : join None (f :: rest) = Some out) by exact J.
    destruct (loop_laid entry bytes sc buf0 ear content e_sn fit3 fit1 evs tau Hs _ Fr 0 (mkj [] [] [] [] []) out J Pb) as (parts & La & E1 & E2 & E3).
    cbn [jheader jdata jgps lines map app] in E1, E2, E3.
    assert (Lw : length (jdata out) = length (record_of (f :: rest))).
    { rewrite E2. symmetry. eapply Forall2_length_eq. exact (laid_times entry content fit3 fit1 evs tau 0 _ parts H3 La Fr Ap []). }
    assert (Nd : jdata out <> []) by (intros X; rewrite <- Lw, X in L5; cbn in L5; lia).
    assert (Jo : BlockProps.joined_of sc buf0 ear fit3 fit1 content true d sn nums out).
    { exists v, None, (f :: rest). split; [exact Fo|]. split; [left; auto|]. auto. }
    unfold read_files. rewrite (M1 Vm). rewrite J'. cbn [fst snd hd_error].
    destruct (jdata out) as [|p0 D] eqn:Ed; [contradiction|].
    (* times of the fixes *)
    assert (Gt : map snd (jgps out) = flat_map (fun f => map snd (fixes_of (evs f))) (f :: rest)).
    { rewrite E3. revert La. generalize (f :: rest). clear. intros fl La. induction La as [|start f fl k L h parts Tr Dr N Ch St Se La IH]; [reflexivity|]. cbn [map concat flat_map fst]. rewrite map_app, IH. f_equal.
      destruct Tr as [_ B]. clear - B. induction B as [|x y l m (_ & H) B IH]; [reflexivity|]. cbn [map]. congruence. }
    assert (Ng : jgps out <> []).
    { rewrite E3. inversion La as [|? ? ? k L h parts' Tr Dr N' Ch' St Se La']; subst. destruct (drift_describes _ _ _ _ _ Dr) as (_ & _ & G). specialize (G eq_refl).
      cbn [map concat fst]. destruct (gps L); [contradiction|discriminate]. }
    assert (Ck : chain (fun x y => 0 <= y - x /\ y - x <= 25) (map fst (p0 :: D))).
    { rewrite E2. rewrite concat_map, map_map. eapply chain_weaken; [|exact (laid_clock entry bytes sc buf0 ear content e_sn fit3 fit1 evs tau 0 _ parts La Fi Fs Cn)]. intros x y [A B]. split; lra. }
    assert (Fb : find_breaks now (jgps out) (map fst (p0 :: D)) <> None).
    { destruct (usable_tags now (jgps out)) as [gs|] eqn:U.
      2:{ destruct (jgps out); [contradiction|discriminate]. }
      apply (usable_iff _ _ _ Ng) in U. eapply C49_steady_clock; [exact Ng|rewrite map_length, Lw; exact L5|exact Ck|exact U|].
      rewrite <- Gt in Tg. clear - U Tg. unfold usable in U. revert U. generalize (trusted now (jgps out)) 0%nat. intros R i U.
      assert (G : forall l x, chain Z.lt (map snd (x :: l : list tag)) -> forall y, In y l -> (snd x < snd y)%Z).
      { clear. induction l as [|z l IH]; intros x C y I; [contradiction|]. destruct C as [A C]. destruct I as [<-|I]; [exact A|]. specialize (IH z C y I). lia. }
      assert (Sb : forall i l l', picked R i l l' -> forall y, In y l' -> In y l).
      { clear. intros i l l' H. induction H as [|i x l l' Hx H IH|i x l l' Hx H IH]; intros y Iy; [auto| |right; auto]. destruct Iy as [->|Iy]; [left; reflexivity|right; auto]. }
      induction U as [|i x l l' Hx U IH|i x l l' Hx U IH]; [exact I| |apply IH; exact (chain_tail _ _ _ Tg)].
      specialize (IH (chain_tail _ _ _ Tg)). destruct l' as [|y l']; [exact I|]. split; [|exact IH]. apply (G l x Tg). eapply Sb; [exact U|left; reflexivity]. }
    assert (Df : filled (jgps out) = jgps out) by (destruct (jgps out); [contradiction|reflexivity]).
    assert (Dd : Forall dated (jgps out)).
    { unfold Block.join, read_several in J'. eapply loop_dated; [|exact J'|constructor]. intros fn v' start L. cbn beta. apply read_raw_dated. }
    destruct (C49_positions _ Dd) as (ps & Ep & _).
    destruct (joined_record _ _ _ _ Hs H3 Rc Jo Pb) as (v' & fl' & Fo' & Rec).
    destruct (Ct v' fl' Fo') as (_ & _ & _ & L5' & Ch' & Sp').
    assert (In_ : interp spline (timed (jheader out) (jdata out)) <> None).
    { intros X. apply C20_raises_iff in X as [X|(pts & runs & X & Ru & Xs)].
      - apply points_unique in X. rewrite <- X in Rec. inversion Rec as [Rc0|]. rewrite <- Rc0 in L5'. cbn in L5'. lia.
      - apply points_unique in X. rewrite <- X in Rec.
        assert (Fq : Forall2 Qeq (map fst (record_of fl')) (map fst pts)).
        { clear - Rec. induction Rec as [|w p l m (H & _) Rec IH]; cbn [map]; constructor; [symmetry; exact H|exact IH]. }
        assert (Np : map fst pts <> []) by (intros Y; rewrite Y in Fq; inversion Fq as [Y'|]; apply (f_equal (@length Q)) in Y'; rewrite map_length in Y'; cbn in Y'; lia).
        pose proof (one_run _ Np (chain_Qeq_step _ _ Fq Ch')) as Ru'. rewrite (runs_unique _ _ Np Ru), <- (runs_unique _ _ Np Ru') in Xs.
        inversion Xs as [? ? T|? ? T]; subst; [|inversion T]. destruct T as (s & e & ff & Bs & Fe & Ne & _ & Sh).
        assert (Q1 : exists s', begins (map fst (record_of fl')) s' /\ s' == s).
        { unfold begins in Bs. inversion Fq as [Y1 Y2|x y l m Hxy Fq' Y1 Y2]; rewrite <- Y2 in Bs; [discriminate|]. injection Bs as <-. exists x. split; [reflexivity|exact Hxy]. }
        assert (Q2 : exists e', finishes (map fst (record_of fl')) e' /\ e' == e).
        { destruct Fe as (l & El). rewrite El in Fq. apply Forall2_app_inv_r in Fq as (l1 & l2 & _ & F2 & Y). inversion F2 as [|x y ? ? Hxy F3]; subst. inversion F3; subst.
          exists x. split; [exists l1; exact Y|exact Hxy]. }
        destruct Q1 as (s' & Bs' & Es). destruct Q2 as (e' & Fe' & Ee). specialize (Sp' s' e' Bs' Fe'). rewrite Es, Ee in Sp'. lra. }
    destruct (find_breaks now (jgps out) (map fst (p0 :: D))) as [br|] eqn:Eb; [|contradiction].
    rewrite Ed in In_. destruct (interp spline (timed (jheader out) (p0 :: D))) as [trs|] eqn:Ei; [|contradiction].
    assert (Bw : exists s w, get_bitweight_info (val_digits (map (fun c => c - 48)%Z sn)) (adc_range f) (b "Pa") = Some (s, w)).
    { destruct (C28_one_generation (val_digits (map (fun c => c - 48)%Z sn)) N3) as (s & Es & _). unfold get_bitweight_info. rewrite Es.
      assert (If : In f d /\ readable sn nums f) by (apply P1; apply in_elt). destruct If as [If1 If2]. destruct (Ra f If1 If2) as [->| ->]; eexists; eexists; reflexivity. }
    destruct Bw as (s & w & Bw).
    unfold finish_block, assign_times. cbn [jgps jdata jheader jmeta]. rewrite Df, Ep, Ed, Eb, Ei, Bw. eexists. split; [reflexivity|exact Pb].
  Qed.

  (** Together: a continuous block of recordings is read, and the stream covers it: it has a value at every grid time from
      the first sample to 25 ms before the last; and where a sample was taken at a grid time, its value is the recorded one
      (unless the record begins exactly half-way between two grid times). *)
  Theorem C62_continuous d sn nums : sn <> b "TXT" -> (exists f, In f d /\ readable sn nums f /\ e_version f <> None) ->
    (3 <= val_digits (map (fun c => c - 48) sn))%Z -> (forall f, In f d -> readable sn nums f -> adc_range f = 0%Z \/ adc_range f = 1%Z) ->
    reads_decimal sc -> fits_cubics fit3 -> fits_lines fit1 -> spline_contract spline -> recordings d sn nums ->
    (forall v fl, files_of d sn nums v fl -> continuous fl) ->
    exists g v fl, read d sn nums = Gives (inl g) /\ g_problems g = [] /\ files_of d sn nums v fl /\
      forall s e, begins (map fst (record_of fl)) s -> finishes (map fst (record_of fl)) e ->
        forall k, s + (1 # 200) <= inject_Z k * (1 # 100) <= e - (25 # 1000) ->
          (exists x, sample (map to_grid (a_data (g_times g))) k x) /\
          forall t x, (forall m : Z, ~ s * 100 == inject_Z m + (1 # 2)) -> In (t, x) (record_of fl) -> t == inject_Z k * (1 # 100) ->
            forall y, sample (map to_grid (a_data (g_times g))) k y -> y = x.
  Proof.
    intros N Ex N3 Ra Hs H3 H1 Sp Rc Ct. destruct (C62_continuous_read d sn nums N Ex N3 Ra Hs H3 H1 Rc Ct) as (g & E & P).
    destruct (C62_true_times d sn nums g E P N Hs H3 Rc) as (v & fl & pts & Fo & Rec & _ & Xp & Cov). exists g, v, fl.
    split; [exact E|]. split; [exact P|]. split; [exact Fo|]. destruct (Ct v fl Fo) as (_ & _ & _ & L5 & Ch & Spn).
    intros s e Bs Fe k K.
    assert (Fq : Forall2 Qeq (map fst (record_of fl)) (map fst pts)).
    { clear - Rec. induction Rec as [|w p l m (H & _) Rec IH]; cbn [map]; constructor; [symmetry; exact H|exact IH]. }
    assert (Np : map fst pts <> []) by (intros Y; rewrite Y in Fq; inversion Fq as [Y'|]; apply (f_equal (@length Q)) in Y'; rewrite map_length in Y'; cbn in Y'; lia).
    pose proof (chain_Qeq_step _ _ Fq Ch) as Ch'. pose proof (one_run _ Np Ch') as Ru.
    assert (Cq : chain Qlt (map fst (record_of fl))) by (eapply chain_weaken; [|exact Ch]; intros x y [A _]; lra).
    assert (Cp : chain Qlt (map fst pts)) by (eapply chain_weaken; [|exact Ch']; intros x y [A _]; lra).
    assert (Q1 : exists s', begins (map fst pts) s' /\ s == s').
    { unfold begins in Bs. inversion Fq as [Y1 Y2|x y l m Hxy Fq' Y1 Y2]; rewrite <- Y1 in Bs; [discriminate|]. injection Bs as <-. exists y. split; [reflexivity|exact Hxy]. }
    assert (Q2 : exists e', finishes (map fst pts) e' /\ e == e').
    { destruct Fe as (l & El). rewrite El in Fq. apply Forall2_app_inv_l in Fq as (l1 & l2 & _ & F2 & Y). inversion F2 as [|x y ? ? Hxy F3]; subst. inversion F3; subst.
      exists y. split; [exists l1; exact Y|exact Hxy]. }
    destruct Q1 as (s' & Bs' & Es). destruct Q2 as (e' & Fe' & Ee). specialize (Spn s e Bs Fe). split.
    - apply (Cov Sp Cq [map fst pts] (map fst pts) s' e' k Ru (or_introl eq_refl) Bs' Fe'); [intros X; lra|split; lra].
    - intros t x Hm I Et y Sy. destruct (Xp k y Sy) as (runs & r & s2 & e2 & f & g2 & Ru2 & Ir & Bs2 & Fe2 & Ef & K2 & Og & Ab & Nr & Hg).
      rewrite (runs_unique _ _ Np Ru2), <- (runs_unique _ _ Np Ru) in Ir. destruct Ir as [<-|[]].
      assert (X1 : s2 = s') by (unfold begins in Bs2, Bs'; congruence).
      assert (X2 : e2 = e') by (destruct Fe2 as (l & El), Fe' as (l' & El'); rewrite El' in El; apply app_inj_tail in El; symmetry; apply El). subst s2 e2.
      assert (V : Forall (fun p => snd p <> None) pts).
      { clear - Rec. induction Rec as [|w p l m (_ & z & Hz & _) Rec IH]; constructor; [congruence|exact IH]. }
      assert (Is : In s' (map fst pts)) by (unfold begins in Bs'; destruct (map fst pts); [discriminate|injection Bs' as ->; left; reflexivity]).
      assert (Ie : In e' (map fst pts)) by (destruct Fe' as (l & ->); apply in_elt).
      destruct (spline_exists spline pts s' e' Sp Cp V Is Ie) as (f' & Ef' & Hf); [lra|]. rewrite Ef in Ef'. injection Ef' as <-.
      assert (Ip : exists t' w, In (t', Some w) pts /\ t' == t /\ w == inject_Z x).
      { clear - Rec I. induction Rec as [|w p l m (A & z & B & D) Rec IH]; [contradiction|]. destruct I as [->|I].
        - destruct p as [t' o]. cbn [fst snd] in *. subst o. exists t', z. split; [left; reflexivity|]. split; assumption.
        - destruct (IH I) as (t' & z' & Q & R). exists t', z'. split; [right; exact Q|exact R]. }
      destruct Ip as (t' & w & Ip & Et' & Ew).
      assert (Hm' : forall m : Z, ~ s' * 100 == inject_Z m + (1 # 2)) by (intros m X; apply (Hm m); rewrite Es; exact X).
      specialize (Hg Hm'). specialize (Hf t' w g2 Ip). unfold nearest in Nr. rewrite Hf, Ew in Nr by lra.
      symmetry. apply int_near. exact Nr.
  Qed.
End Props.
