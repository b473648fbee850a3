(** Property C67 for cards with pauses: merging with [gem_cat], then converting. *)
From Coq Require Import String Ascii.
From Coq Require Import ZArith QArith Qround List Bool Lia Lqa.
From Verif Require Import Base Lib UnwrapSpec Scan Parser ParserSpec Process ProcessSpec Drift DriftSpec SegmentsSpec InterpSpec Stream
  Convert ConvertSpec ConvertProps Select SelectSpec SelectProofs GemCat GemCatSpec GemCatProofs Header HeaderSpec
  Block BlockSpec RecordingSpec RecordingWhole Card CardSpec CardProofs CardProps Merge MergeSpec MergeProofs MergeProps StreamSpec PausesSpec PausesProps MergePausesSpec.
Import ListNotations.
Open Scope Q_scope.

(** * Soundness of the lines of a merged file *)
Lemma sound_cr e r : sound_line r -> sound_line (add_cr e r).
Proof. intros H. destruct r as [ms a x|[|f fs] x|[|f fs] x|dev diff x|diff x|l]; exact H || exact I. Qed.
Lemma sound_records f : Forall sound_line (lines_of f) -> Forall sound_line (records_of f).
Proof. intros H. unfold records_of. apply Forall_map. eapply Forall_impl; [|exact H]. intros r. apply sound_cr. Qed.
Lemma sound_joined fs : forall p, Forall (fun f => Forall sound_line (lines_of f)) fs -> Forall sound_line (joined p fs).
Proof.
  induction fs as [|f fs IH]; intros p F; [constructor|]. inversion F as [|? ? H F']; subst. cbn [joined]. apply Forall_app. split; [|apply IH; exact F'].
  unfold converted. constructor; [exact I|]. unfold lines_of in H. apply Forall_app in H as [_ H]. inversion H; subst. assumption.
Qed.
Lemma merged_sound i g : g <> [] -> Forall filed g -> one_run (map fst g) -> Forall (fun p => Forall sound_line (lines_of (snd p))) g ->
  sound_text (r_events (merged_of i g)) (r_bytes (merged_of i g)).
Proof.
  intros N F (_ & _ & B) So. destruct g as [|[r f] g]; [contradiction|]. inversion F as [|? ? H F']; subst. pose proof H as (_ & W & Wr). cbn [fst snd] in *.
  inversion So as [|? ? S1 S2]; subst. cbn [snd] in S1.
  assert (Wg : Forall well_formed (map snd g)) by (apply Forall_map; eapply Forall_impl; [|exact F']; intros p (_ & X & _); exact X).
  cbn [merged_of r_events r_bytes]. exists (records_of f ++ joined f (map snd g)), (Other []).
  assert (Ft : Forall fits ((records_of f ++ joined f (map snd g)) ++ [Other []])).
  { apply Forall_app. split; [apply Forall_app; split; [apply records_fit; exact W|apply joined_fits; assumption]|]. constructor; [|constructor].
    split; [reflexivity|]. split; [intros []|cbn; lia]. }
  split; [|split; [|split; [|split; [|split]]]].
  - rewrite content_records, <- text_app by exact W. apply text_file.
  - eapply Forall_impl; [|exact Ft]. intros x (X & _). exact X.
  - eapply Forall_impl; [|exact Ft]. intros x (_ & X). exact X.
  - rewrite <- (app_nil_r (_ ++ rest_events _ _)). apply writes_app; [|intros q; apply w_other; constructor]. apply writes_app.
    + apply writes_cr. exact Wr.
    + apply (rest_writes g (r, f) H F').
  - pose proof (merged_alike i ((r, f) :: g)) as A. apply alike_length in A. cbn [merged_of r_events] in A. rewrite <- A. exact B.
  - apply Forall_app. split; [|repeat constructor]. apply Forall_app. split; [apply sound_records; exact S1|]. apply sound_joined. apply Forall_map. exact S2.
Qed.

(** * Times of a merged recording *)
Lemma like_within g r m : like r m -> steady_within g (r_clock r) (r_events r) -> steady_within g (r_clock m) (r_events m).
Proof.
  intros [C A] [S1 S2 S3 S4 S5]. rewrite <- C. unfold span_half in *. split; unfold span_half; [exact S1| | | |].
  - rewrite <- (alike_fixes _ _ A). exact S2.
  - rewrite <- (alike_samples _ _ A). exact S3.
  - rewrite <- (alike_fixes _ _ A), <- (alike_samples _ _ A). exact S4.
  - rewrite <- (alike_fixes _ _ A), <- (alike_samples _ _ A). exact S5.
Qed.
Lemma like_usable now r m : like r m -> timely now r -> sound_text (r_events m) (r_bytes m) -> usable_alone now m.
Proof.
  intros L [T1 T2 T3 T4 T5 T6] S. pose proof L as [C A]. constructor.
  - exact (like_within 1000 _ _ L T1).
  - rewrite <- (like_times _ _ L). exact T2.
  - rewrite <- C. exact T3.
  - exact S.
  - rewrite <- (alike_fixes _ _ A). exact T4.
  - rewrite <- (alike_fixes _ _ A). exact T5.
  - rewrite <- (alike_fixes _ _ A), <- C. exact T6.
Qed.
Lemma like_in_turn now l m : Forall2 like l m -> Forall (fun r => sound_text (r_events r) (r_bytes r)) m ->
  Forall (timely now) l -> chain (fun r r' => apart (r_events r) (r_events r')) l ->
  chain Z.lt (flat_map (fun r => map snd (fixes_of (r_events r))) l) -> chain Qlt (map fst (record l)) -> in_turn now m.
Proof.
  intros F S A B C D. split; [|split; [|split]].
  - clear - F S A. induction F as [|x y l m L F IH]; [constructor|]. inversion A; inversion S; subst. constructor; [|auto]. apply (like_usable now x y); assumption.
  - clear - F B. induction F as [|x y l m L F IH]; [exact I|]. destruct F as [|x' y' l m L' F]; [exact I|]. destruct B as [B B']. split; [|apply IH; exact B'].
    destruct L as [_ L], L' as [_ L']. unfold apart in *. rewrite <- (alike_samples _ _ L), <- (alike_samples _ _ L'). exact B.
  - assert (E : flat_map (fun r => map snd (fixes_of (r_events r))) m = flat_map (fun r => map snd (fixes_of (r_events r))) l).
    { clear - F. induction F as [|x y l m [_ L] F IH]; [reflexivity|]. cbn [flat_map]. rewrite IH, (alike_fixes _ _ L). reflexivity. }
    rewrite E. exact C.
  - assert (E : map fst (record m) = map fst (record l)).
    { clear - F. unfold record. induction F as [|x y l m L F IH]; [reflexivity|]. cbn [flat_map]. rewrite !map_app, IH, (like_times _ _ L). reflexivity. }
    rewrite E. exact D.
Qed.
Lemma sound_pairs recs : Forall sound_lines recs ->
  exists ps, map fst ps = recs /\ Forall filed ps /\ Forall (fun f => line_count [f] <= 65519999)%Z (map snd ps) /\
    Forall (fun p => ~ exists rest, content (snd p) = b "#GemCSV0.91" ++ rest) ps /\ Forall (fun p => Forall sound_line (lines_of (snd p))) ps.
Proof.
  induction 1 as [|r recs (f & E & W & Wr & B & N & S) F (ps & <- & P1 & P2 & P3 & P4)]; [exists []; repeat constructor|].
  exists ((r, f) :: ps). split; [reflexivity|]. split; [constructor; [split; [exact E|split; assumption]|exact P1]|]. split; [constructor; assumption|].
  split; [|constructor; assumption]. constructor; [|exact P3]. cbn [snd]. rewrite <- E. exact N.
Qed.

Section Merge.
  Variable sc : scanner.
  Variable buf0 : bytes.
  Variable ear : bool.
  Variable fit3 : list point -> option cubic.
  Variable fit1 : list point -> option linear.
  Variable spline : list (Q * option Q) -> option (Q -> Q).
  Variable now : Q.
  Variable oddS : list bytes -> option (option bytes).
  Variable oddV : list bytes -> option bytes.
  Variable oddC : list bytes -> option config.
  Variables reader9 reader8 pandas pandas08 : bytes -> bool -> res (list drow).
  Notation convert_card := (convert_card sc buf0 ear fit3 fit1 spline now oddS oddV oddC reader9 reader8).
  Notation merge_card := (merge_card sc buf0 ear oddS oddV pandas pandas08).

  (** C67.  As C67_archive when the groups need not be one record: there may be pauses between them, in which the counter
      starts anew, and gaps in them.  The conversion may begin at a given time.  In each stretch of the record, from the
      start time on, the archive holds the samples; in a pause it holds nothing. *)
  Theorem C67_pauses ext sn recs groups c blockdays f t1 t2 s1 e1 :
    libraries sc fit3 fit1 spline -> serial_number sn -> (exists x, sn = ext ++ x) -> raw_folder ext sn recs c -> Forall sound_lines recs ->
    grouping heard recs groups -> groups <> [] -> Forall one_run groups -> groups_in_turn now groups ->
    0 < blockdays -> (0 < f)%Z ->
    (forall t x, In (t, x) (record (concat groups)) -> 1 # 200 <= t /\ t * 100 + day * blockdays + inject_Z f + 200 <= t2) ->
    begins (map fst (record (concat groups))) s1 -> finishes (map fst (record (concat groups))) e1 -> can_start s1 e1 t1 ->
    exists outs merged parts T n h, merge_card ext false c = (outs, true) /\
      map r_number merged = map Z.of_nat (seq 0 (length groups)) /\ Forall2 joins groups merged /\
      in_blocks (12 * blockdays) merged parts /\ starts_at s1 t1 T /\
      (forall fuel, (n <= fuel)%nat -> convert_card outs sn None blockdays (inject_Z f) t1 t2 fuel = inr (h, Returns [])) /\
      in_order (written h) /\ Forall (in_window (inject_Z f)) (written h) /\
      (forall k v, sample (written h) k v -> T <= inject_Z k) /\
      (forall part l piece l' s e k, In part parts -> record part = l ++ piece ++ l' -> chain follows (map fst piece) ->
         begins (map fst piece) s -> finishes (map fst piece) e ->
         s + (1 # 200) <= inject_Z k * (1 # 100) <= e - (25 # 1000) -> T <= inject_Z k ->
         (exists x, sample (written h) k x) /\
         forall t x, begins_plainly part -> In (t, x) (record part) -> t == inject_Z k * (1 # 100) ->
           sample (written h) k x /\ forall y, sample (written h) k y -> y = x) /\
      (forall x y k v, (forall t a, In (t, a) (record (concat groups)) -> t <= x \/ y <= t) -> (3 # 100) < y - x ->
         x - (1 # 200) < inject_Z k * (1 # 100) -> inject_Z k * (1 # 100) < y - (1 # 200) -> ~ sample (written h) k v) /\
      exists P : Z -> Z -> Prop, (forall k v, P k v -> recorded_value spline parts k v) /\
        forall k v, sample (written h) k v -> recorded_value spline parts k v \/ fills P k v.
  Proof.
    intros Li Hsn Hext Hf So Gr Ng Or (G1 & G2 & G3 & G4) Hb Hfl Hw Bs Fe Cs. pose proof Li as (Hsc & _).
    destruct (sound_pairs recs So) as (ps & Ep & Fp & Bp & Vp & Sp).
    destruct (merged_with sc buf0 ear oddS oddV reader9 reader8 pandas pandas08 ext sn recs groups c ps Hsc Hsn Hext Hf Gr Ng Or Ep Fp Bp Vp) as (outs & gp & Eg & Fg & Em & Hc & Nm & J & L).
    set (merged := numbered_from 0 gp) in *.
    assert (Er : record merged = record (concat groups)).
    { clear - J. unfold record. induction J as [|g m groups merged (_ & W & _) J IH]; [reflexivity|]. cbn [concat flat_map]. rewrite flat_map_app, W, IH. reflexivity. }
    assert (Sm : Forall (fun r => sound_text (r_events r) (r_bytes r)) merged).
    { apply Forall_forall. intros m Hm. apply In_nth_error in Hm as (i & Hi). unfold merged in Hi. rewrite numbered_from_nth in Hi. destruct (nth_error gp i) as [g|] eqn:E; [|discriminate].
      injection Hi as <-. apply nth_error_In in E. destruct (Fg g E) as (F1 & F2 & F3). cbn [Nat.add]. apply merged_sound; [exact F2|exact F1| |].
      - rewrite Eg, Forall_map, Forall_forall in Or. exact (Or g E).
      - apply Forall_forall. intros p Hp. rewrite Forall_forall in Sp. auto. }
    destruct (C70_archive_from_a_time sc buf0 ear fit3 fit1 spline now oddS oddV oddC reader9 reader8 sn merged merged outs None blockdays f t1 t2 s1 e1 Li Hsn Hc) as (parts & T & n & h & H).
    - intros r. cbn [asked_for]. tauto.
    - apply Hc.
    - intros X. apply Ng. rewrite X in J. inversion J. reflexivity.
    - exact (like_in_turn now _ _ L Sm G1 G2 G3 G4).
    - exact Hb.
    - exact Hfl.
    - rewrite Er. exact Hw.
    - rewrite Er. exact Bs.
    - rewrite Er. exact Fe.
    - exact Cs.
    - rewrite Er in H. exists outs, merged, parts, T, n, h. split; [exact Em|]. split; [exact Nm|]. split; [exact J|]. exact H.
  Qed.
End Merge.

Print Assumptions C67_pauses.
