(** Property C67: merging the files of a card with [gem_cat] and converting the merged files. *)
From Coq Require Import String Ascii.
From Coq Require Import ZArith QArith Qround List Bool Lia Permutation.
From Verif Require Import Base Lib UnwrapSpec Scan Parser ParserSpec Process ProcessSpec Drift DriftSpec SegmentsSpec InterpSpec Stream
  Convert ConvertSpec ConvertProps Names NamesProofs Select SelectSpec SelectProofs GemCat GemCatSpec GemCatProofs GemCatProps Header HeaderSpec HeaderProofs HeaderProps
  Block BlockSpec RecordingSpec RecordingWhole ReadSeveralProofs Card CardSpec CardProofs CardProps Merge MergeSpec MergeProofs StreamSpec.
Import ListNotations.
Open Scope Z_scope.

Lemma lt_count l : forall a, chain Z.lt l -> Forall (fun n => a <= n < 10000) l -> a <= 10000 -> Z.of_nat (length l) <= 10000 - a.
Proof.
  induction l as [|x l IH]; intros a C F B; [change (Z.of_nat (length [])) with 0; lia|]. inversion F as [|? ? F1 F2]; subst. cbn [length].
  assert (Z.of_nat (length l) <= 10000 - (x + 1)); [|lia]. apply IH; [exact (ReadSeveralProofs.chain_tail _ _ _ C)| |lia].
  pose proof (chain_all Z.lt Z.lt_trans l x C) as A. rewrite Forall_forall in A, F2 |- *. intros y Hy. specialize (A y Hy). specialize (F2 y Hy). lia.
Qed.
Lemma nonempty_count {A} (gs : list (list A)) : Forall (fun g => g <> []) gs -> (length gs <= length (concat gs))%nat.
Proof. induction 1 as [|g gs N F IH]; [apply le_n|]. cbn [concat length]. rewrite app_length. destruct g; [contradiction|]. cbn [length]. lia. Qed.
Lemma filed_pairs recs : Forall in_lines recs ->
  exists ps, map fst ps = recs /\ Forall filed ps /\ Forall (fun f => line_count [f] <= 65519999) (map snd ps) /\
    Forall (fun p => ~ exists rest, content (snd p) = b "#GemCSV0.91" ++ rest) ps.
Proof.
  induction 1 as [|r recs (f & E & W & Wr & B & N) F (ps & <- & P1 & P2 & P3)]; [exists []; repeat constructor|].
  exists ((r, f) :: ps). split; [reflexivity|]. split; [constructor; [split; [exact E|split; assumption]|exact P1]|]. split; [constructor; assumption|].
  constructor; [|exact P3]. cbn [snd]. rewrite <- E. exact N.
Qed.

Section Merge.
  Variable sc : scanner.
  Variable buf0 : bytes.
  Variable ear : bool.
  Variable fit3 : list point -> option cubic.
  Variable fit1 : list point -> option linear.
  Variable spline : list (Q * option Q) -> option (Q -> Q).
  Variable now : Q.
  Variable oddS : list bytes -> option (option bytes).
  Variable oddV : list bytes -> option bytes.
  Variable oddC : list bytes -> option config.
  Variables reader9 reader8 pandas pandas08 : bytes -> bool -> res (list drow).
  Notation convert_card := (convert_card sc buf0 ear fit3 fit1 spline now oddS oddV oddC reader9 reader8).
  Notation merge_card := (merge_card sc buf0 ear oddS oddV pandas pandas08).

  Lemma merged_with ext sn recs groups c ps :
    reads_decimal sc -> serial_number sn -> (exists x, sn = ext ++ x) -> raw_folder ext sn recs c ->
    grouping heard recs groups -> groups <> [] -> Forall one_run groups ->
    map fst ps = recs -> Forall filed ps -> Forall (fun f => line_count [f] <= 65519999) (map snd ps) ->
    Forall (fun p => ~ exists rest, content (snd p) = b "#GemCSV0.91" ++ rest) ps ->
    exists outs gp, groups = map (map fst) gp /\ (forall g, In g gp -> Forall filed g /\ g <> [] /\ forall p, In p g -> In p ps) /\
      merge_card ext false c = (outs, true) /\ card_of sn (numbered_from 0 gp) outs /\
      map r_number (numbered_from 0 gp) = map Z.of_nat (seq 0 (length groups)) /\ Forall2 joins groups (numbered_from 0 gp) /\
      Forall2 like (map together groups) (numbered_from 0 gp).
  Proof.
    intros Hsc Hsn Hext Hf Gr Ng Or Ep Fp Bp Vp. pose proof Hf as (Nd & Ch & Fr & Pn & Po).
    assert (Hw : Forall well_formed (map snd ps)) by (apply Forall_map; eapply Forall_impl; [|exact Fp]; intros p (_ & X & _); exact X).
    assert (Hd : forall p, In p ps -> headed sn (r_bytes (fst p)) /\ gained (r_bytes (fst p))).
    { intros p Hp. rewrite Forall_forall in Fr. destruct (Fr (fst p)) as (X & Y & _); [rewrite <- Ep; apply in_map; exact Hp|auto]. }
    assert (Hg : Forall (good_format (cat_version oddV)) (map snd ps)).
    { apply Forall_map. apply Forall_forall. intros p Hp. rewrite Forall_forall in Vp, Fp. destruct (Hd p Hp) as [X _]. destruct (Fp p Hp) as (E & _). rewrite E in X.
      exact (headed_version oddV sn _ X (Vp p Hp)). }
    destruct (merged_exact sc buf0 ear pandas pandas08 (cat_version oddV) sn (map snd ps) Hsc Hw Hg Bp) as (outs & graw & Eo & Gw & Lo & No).
    rewrite <- Ep in Gr. apply grouping_map in Gr as (gp & Gp & Eg). apply grouping_map in Gw as (gp' & Gp' & Egw).
    assert (Same : gp' = gp).
    { apply (grouping_unique (fun p => heard (fst p)) ps); [|exact Gp]. apply (grouping_ext (fun p => has_gps (snd p))); [|exact Gp'].
      intros p Hp. symmetry. apply filed_heard. rewrite Forall_forall in Fp. auto. }
    subst gp' graw groups.
    pose proof Gp as (sk & Eps & _ & Gn & _).
    assert (Fg : forall g, In g gp -> Forall filed g /\ g <> [] /\ (forall p, In p g -> In p ps)).
    { intros g Hi. assert (Hin : forall p, In p g -> In p ps) by (intros p Hp; rewrite Eps; apply in_or_app; right; apply in_concat; eauto).
      split; [apply Forall_forall; intros p Hp; rewrite Forall_forall in Fp; auto|]. split; [|exact Hin].
      rewrite Forall_forall in Gn. destruct (Gn g Hi) as (y & l & -> & _). discriminate. }
    set (merged := numbered_from 0 gp).
    assert (Ln : Z.of_nat (length gp) <= 10000).
    { assert (A : (length gp <= length recs)%nat).
      { rewrite <- Ep, map_length, Eps, app_length. enough (length gp <= length (concat gp))%nat by lia. apply nonempty_count. apply Forall_forall. intros g Hi. apply Fg. exact Hi. }
      pose proof (lt_count (map r_number recs) 0 Ch) as B. rewrite map_length in B. enough (Z.of_nat (length recs) <= 10000 - 0) by lia. apply B; [|lia].
      apply Forall_map. apply Forall_forall. intros r Hr. destruct (Pn r Hr) as (name & (X & _) & _). lia. }
    assert (Hm : forall m, In m merged -> exists i g, nth_error gp i = Some g /\ m = merged_of i g /\ nth_error merged i = Some m).
    { intros m Hi. apply In_nth_error in Hi as (i & Hi). unfold merged in Hi. pose proof Hi as Hi'. rewrite numbered_from_nth in Hi. destruct (nth_error gp i) as [g|] eqn:E; [|discriminate].
      injection Hi as <-. exists i, g. auto. }
    assert (Eouts : outs = map (fun m => (name_for sn m, r_bytes m)) merged).
    { apply nth_error_eq.
      - rewrite map_length. unfold merged. rewrite numbered_from_length, Lo, map_length. reflexivity.
      - intros i x Hx. rewrite nth_error_map in Hx. unfold merged in Hx. rewrite numbered_from_nth in Hx. destruct (nth_error gp i) as [g|] eqn:E; [|discriminate]. cbn [option_map] in Hx. injection Hx as <-.
        destruct (No i (map snd g)) as (f & r & E1 & E2). { rewrite nth_error_map, E. reflexivity. }
        rewrite E2. f_equal. destruct g as [|[r0 f0] g]; [discriminate|]. cbn [map snd] in E1. injection E1 as <- <-. reflexivity. }
    assert (Mn : forall m, In m merged -> SelectSpec.named (name_for sn m) (r_number m) sn).
    { intros m Hi. destruct (Hm m Hi) as (i & g & E & -> & _). rewrite merged_number. split; [|split].
      - assert (i < length gp)%nat by (apply nth_error_Some; rewrite E; discriminate). lia.
      - unfold name_for. rewrite merged_number. reflexivity.
      - apply (serial_value sn Hsn). }
    rewrite Forall_map, Forall_forall in Or.
    exists outs, gp. fold merged. split; [reflexivity|]. split; [exact Fg|]. split; [|split; [|split; [|split]]].
    - assert (Ec : cat_sn oddS ext c = Some sn).
      { unfold cat_sn. rewrite (listing ext sn recs c Hext Hf). destruct recs as [|r recs'].
        - exfalso. destruct ps; [|discriminate]. destruct gp as [|g gp]; [apply Ng; reflexivity|]. destruct (Fg g (or_introl eq_refl)) as (_ & N & Hin). destruct g as [|p g]; [contradiction|]. exact (Hin p (or_introl eq_refl)).
        - cbn [map]. inversion Fr as [|? ? (X & _) _]; subst. rewrite (headed_serial oddS sn _ Hsn X). reflexivity. }
      unfold Merge.merge_card. rewrite Ec, (listing ext sn recs c Hext Hf), map_map. cbn [snd].
      assert (Eb : map (fun r => r_bytes r) recs = map content (map snd ps)).
      { rewrite <- Ep, !map_map. apply map_ext_in. intros p Hp. rewrite Forall_forall in Fp. destruct (Fp p Hp) as (E & _). exact E. }
      rewrite Eb. exact Eo.
    - split; [|split; [|split; [|split]]].
      + rewrite Eouts, map_map. cbn [fst].
        assert (A : forall l, (forall m, In m l -> SelectSpec.named (name_for sn m) (r_number m) sn) -> NoDup (map r_number l) -> NoDup (map (name_for sn) l)).
        { clear. induction l as [|m l IH]; intros H N; [constructor|]. cbn [map] in *. inversion N as [|? ? N1 N2]; subst. constructor; [|apply IH; [intros x Hx; apply H; right; exact Hx|exact N2]].
          intros Hi. apply in_map_iff in Hi as (x & E & Hx). apply N1. pose proof (H x (or_intror Hx)) as Hxn. rewrite E in Hxn.
          destruct (named_unique _ _ _ _ _ (H m (or_introl eq_refl)) Hxn) as [-> _]. apply in_map. exact Hx. }
        apply A; [exact Mn|]. apply chain_nodup. apply (proj1 (chain_map r_number Z.lt merged)). apply numbered_from_chain.
      + apply numbered_from_chain.
      + apply Forall_forall. intros m Hi. destruct (Hm m Hi) as (i & g & E & -> & _). apply nth_error_In in E. destruct (Fg g E) as (F1 & F2 & F3). pose proof (Or g E) as O1.
        split; [|split; [|split]].
        * destruct g as [|[r f] g]; [contradiction|]. cbn [merged_of r_bytes]. apply headed_app. destruct (Hd (r, f) (F3 _ (or_introl eq_refl))) as [X _]. inversion F1 as [|? ? (Y & _) _]; subst. cbn [fst snd] in *. rewrite <- Y. exact X.
        * destruct g as [|[r f] g]; [contradiction|]. cbn [merged_of r_bytes]. apply gained_app. destruct (Hd (r, f) (F3 _ (or_introl eq_refl))) as [_ X]. inversion F1 as [|? ? (Y & _) _]; subst. cbn [fst snd] in *. rewrite <- Y. exact X.
        * apply merged_raw; assumption.
        * rewrite merged_clock. apply (alike_true _ _ _ (merged_alike i g)). apply O1.
      + intros m Hi. exists (name_for sn m). split; [exact (Mn m Hi)|]. rewrite Eouts. apply in_map_iff. exists m. auto.
      + intros name bs n x Hi Hn _. rewrite Eouts in Hi. apply in_map_iff in Hi as (m & E & Hi). injection E as <- <-. destruct (named_unique _ _ _ _ _ Hn (Mn m Hi)) as [-> ->].
        split; [reflexivity|]. exists m. auto.
    - unfold merged. rewrite map_length. clear. generalize 0%nat as k. induction gp as [|g gp IH]; intros k; [reflexivity|]. cbn [numbered_from map length seq]. rewrite merged_number. f_equal. apply IH.
    - unfold merged. clear - Fg Or. revert Fg Or. generalize 0%nat as k. induction gp as [|g gp IH]; intros k Fg Or; [constructor|]. cbn [map numbered_from]. constructor.
      + apply merged_joins; [apply Fg; left; reflexivity|apply Or; left; reflexivity].
      + apply IH; intros x Hx; [apply Fg|apply Or]; right; exact Hx.
    - unfold merged. clear. generalize 0%nat as k. induction gp as [|g gp IH]; intros k; [constructor|]. cbn [map numbered_from]. constructor; [|apply IH].
      split; [symmetry; apply merged_clock|apply merged_alike].
  Qed.

  (** C67.  The merged files are the card of one recording per group: the recording of the group as a whole. *)
  Theorem C67_merged ext sn recs groups c :
    reads_decimal sc -> serial_number sn -> (exists x, sn = ext ++ x) -> raw_folder ext sn recs c ->
    grouping heard recs groups -> groups <> [] -> Forall one_run groups ->
    exists outs merged, merge_card ext false c = (outs, true) /\ card_of sn merged outs /\
      map r_number merged = map Z.of_nat (seq 0 (length groups)) /\ Forall2 joins groups merged /\
      (unbroken (map together groups) -> unbroken merged).
  Proof.
    intros Hsc Hsn Hext Hf Gr Ng Or.
    assert (Il : Forall in_lines recs) by (destruct Hf as (_ & _ & Fr & _); eapply Forall_impl; [|exact Fr]; intros r (_ & _ & X); exact X).
    destruct (filed_pairs recs Il) as (ps & Ep & Fp & Bp & Vp).
    destruct (merged_with ext sn recs groups c ps Hsc Hsn Hext Hf Gr Ng Or Ep Fp Bp Vp) as (outs & gp & _ & _ & M & C & N & J & L).
    exists outs, (numbered_from 0 gp). split; [exact M|]. split; [exact C|]. split; [exact N|]. split; [exact J|]. apply like_unbroken. exact L.
  Qed.

  Open Scope Q_scope.
  (** C67.  If the groups are one record then converting the merged files gives the archive of all samples from the first
      recording with GPS data on: also of the recordings without GPS data, which cannot be converted by themselves. *)
  Theorem C67_archive ext sn recs groups c blockdays f t2 s1 :
    libraries sc fit3 fit1 spline -> serial_number sn -> (exists x, sn = ext ++ x) -> raw_folder ext sn recs c ->
    grouping heard recs groups -> groups <> [] -> Forall one_run groups -> unbroken (map together groups) ->
    0 < blockdays -> (0 < f)%Z ->
    (forall t x, In (t, x) (record (concat groups)) -> 1 # 200 <= t /\ t * 100 + day * blockdays + inject_Z f + 200 <= t2) ->
    begins (map fst (record (concat groups))) s1 ->
    exists outs merged parts n h, merge_card ext false c = (outs, true) /\
      map r_number merged = map Z.of_nat (seq 0 (length groups)) /\ Forall2 joins groups merged /\ in_blocks (12 * blockdays) merged parts /\
      (forall fuel, (n <= fuel)%nat -> convert_card outs sn None blockdays (inject_Z f) None t2 fuel = inr (h, Returns [])) /\
      in_order (written h) /\ Forall (in_window (inject_Z f)) (written h) /\
      (forall part s e k, In part parts -> begins (map fst (record part)) s -> finishes (map fst (record part)) e ->
         s + (1 # 200) <= inject_Z k * (1 # 100) <= e - (25 # 1000) -> s1 + (101 # 100) <= inject_Z k * (1 # 100) ->
         (exists x, sample (written h) k x) /\
         forall t x, (forall m : Z, ~ s * 100 == inject_Z m + (1 # 2)) -> In (t, x) (record part) -> t == inject_Z k * (1 # 100) ->
           sample (written h) k x /\ forall y, sample (written h) k y -> y = x) /\
      exists P : Z -> Z -> Prop, (forall k v, P k v -> recorded_value spline parts k v) /\
        forall k v, sample (written h) k v -> recorded_value spline parts k v \/ fills P k v.
  Proof.
    intros Li Hsn Hext Hf Gr Ng Or Hu Hb Hfl Hw Bs. pose proof Li as (Hsc & _).
    destruct (C67_merged ext sn recs groups c Hsc Hsn Hext Hf Gr Ng Or) as (outs & merged & Em & Hc & Nm & J & U).
    assert (Er : record merged = record (concat groups)).
    { clear - J. unfold record. induction J as [|g m groups merged (_ & W & _) J IH]; [reflexivity|]. cbn [concat flat_map]. rewrite flat_map_app, W, IH. reflexivity. }
    destruct (C66_archive sc buf0 ear fit3 fit1 spline now oddS oddV oddC reader9 reader8 sn merged merged outs None blockdays f t2 s1 Li Hsn Hc) as (parts & n & h & H).
    - intros r. cbn [asked_for]. tauto.
    - apply Hc.
    - inversion J; subst; [contradiction|discriminate].
    - exact (U Hu).
    - exact Hb.
    - exact Hfl.
    - rewrite Er. exact Hw.
    - rewrite Er. exact Bs.
    - exists outs, merged, parts, n, h. destruct H as (H1 & H2). auto.
  Qed.
End Merge.

Print Assumptions C67_merged.
Print Assumptions C67_archive.
