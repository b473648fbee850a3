(** From recordings with pauses to the output files. *)
From Coq Require Import String.
From Coq Require Import ZArith QArith Qabs Qround List Bool Lia Lqa.
From Verif Require Import Base Lib UnwrapSpec UnwrapProofs Scan Parser ParserSpec Process ReadSeveral ReadSeveralSpec ReadSeveralProofs Drift DriftSpec
  Segments SegmentsSpec SegmentsProofs Interp InterpSpec InterpProofs InterpProps Stream StreamSpec StreamProofs StreamProps
  Convert ConvertSpec ConvertProofs ConvertProps Select SelectSpec SelectProofs Fields Breaks BreaksSpec Block BlockSpec BlockProofs BlockProps
  RecordingSpec RecordingProofs RecordingTotal RecordingProps RecordingWhole CardSpec CardProps PausesSpec PausesProofs PausesBlock.
Import ListNotations.
Open Scope Q_scope.

Section Whole.
  Variable sc : scanner.
  Variable buf0 : bytes.
  Variable ear : bool.
  Variable fit3 : list point -> option cubic.
  Variable fit1 : list point -> option Drift.linear.
  Variable spline : list (Q * option Q) -> option (Q -> Q).
  Variable content : entry -> raw_file.
  Variable adc_range : entry -> Z.
  Variable now : Q.
  Notation read := (read_files sc buf0 ear fit3 fit1 spline content adc_range now true).
  Variable evs : entry -> list RecordingSpec.event.
  Variable tau : entry -> cubic.
  Notation record_of := (record_of evs tau).
  Variable d : list entry.
  Variable sn : bytes.
  Notation outcome_of := (fun bl => block_outcome (read d sn bl)).
  Notation libraries := (libraries sc fit3 fit1 spline).
  Notation turn := (turn content now evs tau).

  (** As [recorded_block], but there may be pauses between the recordings. *)
  Definition paused_block (files : list Z -> list entry) (bl : list Z) : Prop :=
    (forall f, In f d -> readable sn bl f -> e_version f <> None /\ (adc_range f = 0%Z \/ adc_range f = 1%Z)) /\
    (forall f, In f (files bl) <-> In f d /\ readable sn bl f) /\
    (forall v fl, files_of d sn bl v fl -> fl = files bl) /\
    recordings content evs tau d sn bl /\
    (files bl <> [] -> turn (files bl)).

  Lemma paused_read files bl : sn <> b "TXT" -> (3 <= val_digits (map (fun c => c - 48) sn))%Z -> libraries -> paused_block files bl ->
    (files bl = [] /\ read d sn bl = NoFiles) \/
    (files bl <> [] /\ exists g, read d sn bl = Gives (inl g) /\ g_problems g = [] /\
       (forall l piece l' s e k, map fst (record_of (files bl)) = l ++ piece ++ l' -> chain follows piece -> begins piece s -> finishes piece e ->
          s + (1 # 200) <= inject_Z k * (1 # 100) <= e - (25 # 1000) ->
          exists x, sample (map to_grid (a_data (g_times g))) k x) /\
       exists pts, Forall2 is_recorded (record_of (files bl)) pts /\ forall k v, sample (map to_grid (a_data (g_times g))) k v -> explained spline pts k v).
  Proof.
    intros N N3 (Hs & H3 & H1 & Sp) (Hv & Hf & Hu & Rc & Ct). destruct (files bl) as [|f fl] eqn:E.
    - left. split; [reflexivity|]. apply no_files; [exact N|]. intros g Hg. apply Hf in Hg. destruct Hg.
    - right. split; [discriminate|]. destruct (proj1 (Hf f) (or_introl eq_refl)) as [F1 F2].
      destruct (turn_times sc buf0 ear fit3 fit1 spline content adc_range now evs tau d sn bl N) as (g & v & fl' & Er & Ep & Fo & K); auto.
      + exists f. split; [exact F1|]. split; [exact F2|]. apply (Hv f F1 F2).
      + intros g G1 G2. apply (Hv g G1 G2).
      + intros v fl' Fo. rewrite (Hu v fl' Fo). apply Ct. discriminate.
      + exists g. split; [exact Er|]. split; [exact Ep|]. rewrite (Hu v fl' Fo) in K. exact K.
  Qed.

  Lemma paused_times files bl : sn <> b "TXT" -> libraries -> paused_block files bl ->
    times_of sc buf0 ear fit3 fit1 content true d sn bl (map fst (record_of (files bl))) /\
    forall out pts, joined_of sc buf0 ear fit3 fit1 content true d sn bl out -> timed_by out pts -> Forall2 is_recorded (record_of (files bl)) pts.
  Proof.
    intros N (Hs & H3 & H1 & Sp) (Hv & Hf & Hu & Rc & Ct).
    assert (X : forall out pts, joined_of sc buf0 ear fit3 fit1 content true d sn bl out -> timed_by out pts -> Forall2 is_recorded (record_of (files bl)) pts).
    { intros out pts Jo Tb.
      assert (P : jproblems out = []).
      { destruct Jo as (v & arg & fl & Fo & V & J & Nd). destruct (proj2 Rc v fl Fo) as [Vm _]. rewrite (modern_argument _ _ Vm V) in J.
        pose proof (files_recorded _ _ _ _ _ _ _ _ Rc Fo) as Fr. pose proof (Hu v fl Fo) as Efl. subst fl.
        assert (Nf : files bl <> []) by (destruct Fo as (bf & f & rest & E & _); rewrite E; discriminate).
        destruct (Ct Nf) as (Sd & _).
        assert (Fi : Forall (fine entry bytes content e_sn evs tau) (files bl)).
        { rewrite Forall_forall in *. intros x Ix. pose proof (Sd x Ix) as Ax. split; [exact (Fr x Ix)|]. split; [exact (al_steady x Ax)|exact (al_known x Ax)]. }
        destruct (loop_total entry bytes sc buf0 ear content e_sn fit3 fit1 evs tau Hs H3 H1 (files bl) Fi 0 (mkj [] [] [] [] [])) as (out' & J' & Pb).
        unfold Block.join, read_several in J. cbn [as_version] in J. rewrite J' in J. injection J as <-. exact Pb. }
      destruct (joined_record sc buf0 ear fit3 fit1 content evs tau d sn bl out Hs H3 Rc Jo P) as (v & fl & Fo & Rec). rewrite (Hu v fl Fo) in Rec.
      pose proof (timed_by_unique _ _ _ (joined_timed _ _ _ _ _ _ _ _ _ _ _ Jo) Tb) as U. clear - U Rec. revert pts U.
      induction Rec as [|w p l m (A & x & B & C) Rec IH]; intros pts U; inversion U as [|? q ? pts' (Q1 & Q2) U']; subst; constructor; [|apply IH; exact U'].
      split; [rewrite <- Q1; exact A|]. exists x. split; [congruence|exact C]. }
    split; [|exact X]. intros out pts Jo Tb. pose proof (X out pts Jo Tb) as F. clear - F. induction F as [|w p l m (A & _) F IH]; constructor; assumption.
  Qed.
End Whole.

Lemma chain_min l : chain Qlt l -> forall s, begins l s -> forall t, In t l -> s <= t.
Proof.
  assert (G : forall l t, chain Qlt (t :: l) -> forall y, In y l -> t < y).
  { clear. induction l as [|k l IH]; intros x C y J; [contradiction|]. destruct C as [A C]. destruct J as [<-|J]; [exact A|]. specialize (IH k C y J). lra. }
  intros C s B t I. destruct l as [|x l]; [discriminate|]. injection B as <-. destruct I as [<-|I]; [lra|]. specialize (G l x C t I). lra.
Qed.
Lemma chain_max l : chain Qlt l -> forall e, finishes l e -> forall t, In t l -> t <= e.
Proof.
  intros C e (p & ->). induction p as [|x p IH]; intros t I; cbn [app] in *.
  - destruct I as [<-|[]]. lra.
  - specialize (IH (chain_tail _ _ _ C)). destruct I as [<-|I]; [|exact (IH t I)]. destruct p as [|y p]; cbn [app] in *.
    + destruct C as [C _]. lra.
    + destruct C as [C _]. specialize (IH y (or_introl eq_refl)). lra.
Qed.
Lemma begins_in l s : begins l s -> In s (l : list Q).
Proof. destruct l; intros B; [discriminate|]. injection B as ->. left. reflexivity. Qed.
Lemma finishes_in l e : finishes l e -> In e (l : list Q).
Proof. intros (p & ->). apply in_elt. Qed.

Lemma grid_at c : exists k, c <= inject_Z k /\ inject_Z k < c + 1.
Proof.
  exists (Qceiling c). pose proof (Qle_ceiling c) as A1. pose proof (Qceiling_lt c) as A2. unfold Z.sub in A2. rewrite inject_Z_plus in A2. change (inject_Z (-(1))) with (-1) in A2.
  split; [exact A1|lra].
Qed.
(** The first whole second. *)
Lemma whole_second k : exists q, qceil (inject_Z k / second) = q /\ (k <= 100 * q < k + 100)%Z.
Proof.
  exists (qceil (inject_Z k / second)). split; [reflexivity|]. set (q := qceil (inject_Z k / second)).
  assert (A : (q <= q)%Z) by lia. apply qceil_spec in A. fold q in A.
  assert (B : ~ (q <= q - 1)%Z) by lia. unfold q at 1 in B. rewrite qceil_spec in B. apply Qnot_le_lt in B.
  assert (E : inject_Z k == inject_Z k / second * 100) by (unfold second; field). set (x := inject_Z k / second) in *.
  unfold Z.sub in B. rewrite inject_Z_plus in B. change (inject_Z (-(1))) with (-1) in B.
  assert (E2 : inject_Z (100 * q) == 100 * inject_Z q) by (rewrite inject_Z_mult; reflexivity).
  split.
  - rewrite Zle_Qle. lra.
  - rewrite Zlt_Qlt, inject_Z_plus. change (inject_Z 100) with 100. lra.
Qed.

Section Conversion.
  Variable sc : scanner.
  Variable buf0 : bytes.
  Variable ear : bool.
  Variable fit3 : list point -> option cubic.
  Variable fit1 : list point -> option Drift.linear.
  Variable spline : list (Q * option Q) -> option (Q -> Q).
  Variable content : entry -> raw_file.
  Variable adc_range : entry -> Z.
  Variable now : Q.
  Notation read := (read_files sc buf0 ear fit3 fit1 spline content adc_range now true).
  Variable evs : entry -> list RecordingSpec.event.
  Variable tau : entry -> cubic.
  Notation record_of := (record_of evs tau).
  Variable d : list entry.
  Variable sn : bytes.
  Notation outcome_of := (fun bl => block_outcome (read d sn bl)).
  Notation libraries := (libraries sc fit3 fit1 spline).
  Notation turn := (turn content now evs tau).
  Notation paused_block := (paused_block content adc_range now evs tau d sn).
  Variable files : list Z -> list entry.
  Variables (nums : list Z) (blockdays : Q) (f : Z) (t2 : Q) (blocks : list (list Z)).
  Notation flat := (flat_map (fun bl => record_of (files bl)) blocks).
  Notation data := (all_of outcome_of data_of blocks).
  Hypothesis N : sn <> b "TXT".
  Hypothesis N3 : (3 <= val_digits (map (fun c => c - 48) sn))%Z.
  Hypothesis Li : libraries.
  Hypothesis Hb : 0 < blockdays.
  Hypothesis Hf : (0 < f)%Z.
  Hypothesis Hd : divided nums (12 * blockdays) blocks.
  Hypothesis Rd : forall bl, In bl blocks -> paused_block files bl.
  Hypothesis Ch : chain Qlt (map fst flat).
  Hypothesis Ht : forall t x, In (t, x) flat -> 1 # 200 <= t /\ t * 100 + day * blockdays + inject_Z f + 200 <= t2.

  Lemma paused_good : good_conversion sc buf0 ear fit3 fit1 spline content adc_range now true d sn (fun bl => map fst (record_of (files bl))) nums blockdays f t2 blocks.
  Proof.
    assert (Fm : forall bs, map fst (flat_map (fun bl => record_of (files bl)) bs) = flat_map (fun bl => map fst (record_of (files bl))) bs).
    { clear. induction bs as [|bl bs IH]; [reflexivity|]. cbn [flat_map]. rewrite map_app, IH. reflexivity. }
    assert (Hd' : forall bs, (forall bl, In bl bs -> paused_block files bl) ->
      flat_map (fun bl => map fst (record_of (files bl))) (filter (has_data sc buf0 ear fit3 fit1 spline content adc_range now true d sn) bs) = flat_map (fun bl => map fst (record_of (files bl))) bs).
    { induction bs as [|bl bs IH]; intros R; [reflexivity|]. cbn [filter flat_map].
      destruct (paused_read sc buf0 ear fit3 fit1 spline content adc_range now evs tau d sn files bl N N3 Li (R bl (or_introl eq_refl))) as [(Ef & Er)|(_ & g & Er & _)]; unfold has_data at 1; rewrite Er.
      - rewrite Ef. cbn [RecordingProps.record_of flat_map map app]. apply IH. intros x Ix. apply R. right. exact Ix.
      - cbn [flat_map]. f_equal. apply IH. intros x Ix. apply R. right. exact Ix. }
    split; [exact Hb|]. split; [exact Hf|]. split; [exact Hd|]. split; [|split; [|split]].
    - apply Forall_forall. intros bl Ib. destruct (paused_read sc buf0 ear fit3 fit1 spline content adc_range now evs tau d sn files bl N N3 Li (Rd bl Ib)) as [(_ & ->)|(_ & g & -> & _)]; discriminate.
    - apply Forall_forall. intros bl Ib. exact (proj1 (paused_times sc buf0 ear fit3 fit1 spline content adc_range now evs tau d sn files bl N Li (Rd bl Ib))).
    - rewrite (Hd' blocks Rd), <- Fm. exact Ch.
    - intros t It. rewrite (Hd' blocks Rd), <- Fm in It. apply in_map_iff in It as ([t' x] & Et & It). cbn [fst] in Et. subst t'. exact (Ht t x It).
  Qed.

  (** The stretch of a sample, and the grid times it covers. *)
  Lemma covering t : In t (map fst flat) -> exists a z, In a (map fst flat) /\ In z (map fst flat) /\ a <= t <= z /\ 1 # 10 <= z - a /\
    forall k, a + (1 # 200) <= inject_Z k * (1 # 100) <= z - (25 # 1000) -> exists v, sample data k v.
  Proof.
    intros It. apply in_map_iff in It as ([t' x] & Et & It). cbn [fst] in Et. subst t'. apply in_flat_map in It as (bl & Ib & It). apply (in_map fst) in It. cbn [fst] in It.
    destruct (paused_read sc buf0 ear fit3 fit1 spline content adc_range now evs tau d sn files bl N N3 Li (Rd bl Ib)) as [(Ef & _)|(Nf & gm & Er & _ & Cv & _)]; [rewrite Ef in It; destruct It|].
    destruct (Rd bl Ib) as (_ & _ & _ & _ & Ct). destruct (record_stretches content now evs tau _ (proj1 (Ct Nf))) as (ws & Ew & Fw).
    rewrite Ew in It. apply in_concat in It as (w & Jw & Iw). rewrite Forall_forall in Fw. destruct (Fw w Jw) as (Nw & Gl & Sp).
    destruct (begins_exists _ Nw) as (a & Ba). destruct (finishes_exists _ Nw) as (z & Fz).
    assert (Sub : forall u, In u w -> In u (map fst flat)).
    { intros u Iu. assert (Ir : In u (map fst (record_of (files bl)))) by (rewrite Ew; apply in_concat; eauto).
      apply in_map_iff in Ir as (p & <- & Ip). apply in_map. apply in_flat_map. exists bl. auto. }
    assert (Cw : chain Qlt w) by (eapply chain_weaken; [|exact Gl]; intros u u' [X _]; lra).
    exists a, z. split; [apply Sub, begins_in, Ba|]. split; [apply Sub, finishes_in, Fz|]. split; [split; [exact (chain_min _ Cw _ Ba _ Iw)|exact (chain_max _ Cw _ Fz _ Iw)]|].
    split; [exact (Sp a z Ba Fz)|]. intros k K. destruct (in_split _ _ Jw) as (l & l' & El).
    destruct (Cv (concat l) w (concat l') a z k) as (v & Sv); [rewrite Ew, El, concat_app; reflexivity|exact Gl|exact Ba|exact Fz|exact K|].
    exists v. apply (sample_all sc buf0 ear fit3 fit1 spline content adc_range now d sn blocks bl _ v Ib). cbn beta. rewrite Er. exact Sv.
  Qed.

  (** Every value lies after the beginning. *)
  Lemma after_start s1 : begins (map fst flat) s1 -> forall k v, sample data k v -> s1 - (1 # 200) <= inject_Z k * (1 # 100).
  Proof.
    intros B1 k v (tr & i & It & R). apply in_flat_map in It as (bl & Ib & It). cbn beta in It.
    destruct (paused_read sc buf0 ear fit3 fit1 spline content adc_range now evs tau d sn files bl N N3 Li (Rd bl Ib)) as [(_ & Eg)|(_ & g & Eg & _ & _ & pts & Rec & X)]; rewrite Eg in It; [destruct It|].
    destruct (X k v) as (runs & r & s & e & ff & gg & (Ec & _) & Ir & Bs & _ & _ & K & _); [exists tr, i; auto|].
    assert (Is : In s (map fst pts)) by (rewrite <- Ec; apply in_concat; exists r; split; [exact Ir|apply begins_in; exact Bs]).
    assert (Y : exists t, In t (map fst (record_of (files bl))) /\ t == s).
    { clear - Is Rec. induction Rec as [|w p l m (A & _) Rec IH]; [destruct Is|]. destruct Is as [<-|Is].
      - exists (fst w). split; [left; reflexivity|]. symmetry. exact A.
      - destruct (IH Is) as (t & I & E). exists t. split; [right; exact I|exact E]. }
    destruct Y as (t & I & E).
    assert (If : In t (map fst flat)).
    { apply in_map_iff in I as (p & <- & I). apply in_map. apply in_flat_map. eauto. }
    pose proof (chain_min _ Ch _ B1 _ If). lra.
  Qed.

  Theorem started_conversion s1 e1 t1 : begins (map fst flat) s1 -> finishes (map fst flat) e1 ->
    can_start s1 e1 t1 ->
    exists T n h, starts_at s1 t1 T /\
      (forall fuel, (n <= fuel)%nat -> convert _ _ _ position_time outcome_of nums blockdays (inject_Z f) t1 t2 fuel = (h, Returns [])) /\
      in_order (written h) /\ Forall (in_window (inject_Z f)) (written h) /\
      (forall k v, sample data k v -> T <= inject_Z k -> sample (written h) k v) /\
      (forall k v, sample (written h) k v -> T <= inject_Z k /\ (sample data k v \/ fills (sample data) k v)) /\
      metas h = all_of outcome_of meta_of blocks /\
      exists g gs, all_of outcome_of gps_of blocks = g :: gs /\
        exists g', gpss h = g' :: gs /\ g' = filter (fun x => Qltb (T - 100) (position_time x)) g.
  Proof.
    intros B1 F1 Hs. destruct (C50_conversion _ _ _ _ _ _ _ _ _ _ _ _ _ _ _ _ _ _ N paused_good) as [(_ & _ & _ & HR & HO & Hw) _].
    (* the first sample on the grid *)
    destruct (covering s1 (begins_in _ _ B1)) as (a & z & Ia & Iz & [Ba Bz] & L & Cv). pose proof (chain_min _ Ch _ B1 _ Ia) as Ma.
    destruct (grid_at (s1 * 100 + (1 # 2))) as (j & J1 & J2). destruct (Cv j ltac:(split; lra)) as (vj & Sj).
    destruct data as [|tr st] eqn:Ea; [destruct Sj as (tr & i & [] & _)|].
    assert (Fo : first_of (tr :: st) (gs tr)).
    { pose proof (order_head _ _ HO) as Ng. split.
      - destruct (gd tr) as [|v l] eqn:Eg; [contradiction|]. exists v, tr, 0%nat. split; [left; reflexivity|]. rewrite Eg. split; [reflexivity|lia].
      - intros l w Sl. eapply from_head; eassumption. }
    destruct Fo as [(v0 & S0) Min]. pose proof (after_start s1 B1 (gs tr) v0 ltac:(rewrite Ea; exact S0)) as Lo. pose proof (Min j vj Sj) as Up. rewrite Zle_Qle in Up.
    pose proof (convert_ok (option Q * list (option Q)) position (message entry) position_time outcome_of nums blockdays f t2 blocks Hb Hf Hd HR) as K. rewrite !upto_all in K. rewrite Ea in K.
    (* a sample after a time that is 35 ms before the end *)
    assert (Late : forall t, t * (1 # 100) <= e1 - (35 # 1000) -> exists k v, sample (tr :: st) k v /\ t <= inject_Z k).
    { intros t H1. destruct (covering e1 (finishes_in _ _ F1)) as (a' & z' & Ia' & Iz' & [Ba' Bz'] & L' & Cv').
      pose proof (chain_max _ Ch _ F1 _ Iz') as Mz. destruct (Qlt_le_dec t (a' * 100 + (1 # 2))) as [Y|Y].
      - destruct (grid_at (a' * 100 + (1 # 2))) as (k & K1 & K2). destruct (Cv' k ltac:(split; lra)) as (v & Sv). rewrite Ea in Sv. exists k, v. split; [exact Sv|lra].
      - destruct (grid_at t) as (k & K1 & K2). destruct (Cv' k ltac:(split; lra)) as (v & Sv). rewrite Ea in Sv. exists k, v. split; [exact Sv|lra]. }
    assert (X : exists T, starts_at s1 t1 T /\ (exists k v, sample (tr :: st) k v /\ T <= inject_Z k) /\
      match t1 with
      | Some t => t = T /\ (0 <= t)%Q /\ (t <= t2)%Q
      | None => forall k, first_of (tr :: st) k -> T = (inject_Z (qceil (inject_Z k / second)) * second)%Q
      end).
    { destruct t1 as [t|].
      - destruct Hs as [H0 H1]. exists t. split; [reflexivity|]. split; [exact (Late t H1)|].
        split; [reflexivity|]. split; [exact H0|]. pose proof (finishes_in _ _ F1) as If. apply in_map_iff in If as ([e' x] & Ee & If). cbn [fst] in Ee. subst e'. destruct (Ht e1 x If) as [_ E2].
          assert (0 < inject_Z f) by (change 0 with (inject_Z 0); rewrite <- Zlt_Qlt; exact Hf). assert (0 <= day * blockdays) by (apply Qmult_le_0_compat; [discriminate|lra]). lra.
      - destruct (whole_second (gs tr)) as (q & Eq & Q1 & Q2). exists (inject_Z q * second).
        assert (ET : inject_Z q * second == inject_Z (100 * q)) by (rewrite inject_Z_mult; unfold second; change (inject_Z 100) with 100; ring).
        rewrite Zle_Qle in Q1. assert (Q3 : (100 * q <= gs tr + 99)%Z) by lia. rewrite Zle_Qle, inject_Z_plus in Q3. change (inject_Z 99) with 99 in Q3.
        split; [split; [exists q; exact ET|split; lra]|]. split.
        + apply Late. cbn [can_start] in Hs. lra.
        + intros k [(v & Vk) Mk]. assert (k = gs tr) as -> by (pose proof (Mk _ _ S0); pose proof (Min _ _ Vk); lia). rewrite Eq. reflexivity. }
    destruct X as (T & St & Ex & Tm).
    destruct (K HO (fun k v H => proj1 (Hw k v H)) (fun k v H => proj2 (Hw k v H)) T Ex) with (t1_arg := t1) as (n & h & C & Run & _ & Me & (g & gs' & Eg & Gp) & Ow & Ww & HC & Sw); [discriminate|exact Tm|].
    exists T, n, h. split; [exact St|]. split.
    { intros fuel Lf. rewrite (Run fuel Lf). f_equal. f_equal. clear - Rd N N3 Li. induction blocks as [|bl bs IH]; [reflexivity|].
      change (all_of outcome_of problems_of (bl :: bs)) with (problems_of (outcome_of bl) ++ all_of outcome_of problems_of bs). rewrite IH by (intros x Ix; apply Rd; right; exact Ix).
      cbn beta. destruct (paused_read sc buf0 ear fit3 fit1 spline content adc_range now evs tau d sn files bl N N3 Li (Rd bl (or_introl eq_refl))) as [(_ & ->)|(_ & gm & -> & P & _)]; [reflexivity|]. cbn [block_outcome problems_of]. rewrite P. destruct (map to_grid _); reflexivity. }
    split; [exact Ow|]. split; [exact Ww|]. split; [|split; [|split]].
    - intros k v A B. apply Sw. split; [exact B|left; exact A].
    - intros k v A. apply Sw in A as [A [B|(i & j' & x & y & B)]]; (split; [exact A|]); auto. right. exists i, j', x, y. tauto.
    - exact Me.
    - exists g, gs'. split; [exact Eg|]. eexists. split; [exact Gp|reflexivity].
  Qed.
End Conversion.
