(** Proofs about merging the files of a card. *)
From Coq Require Import String Ascii.
From Coq Require Import ZArith QArith Qround List Bool Lia Permutation.
From Verif Require Import Base Lib UnwrapSpec Scan Parser ParserSpec Process ProcessSpec Drift DriftSpec SegmentsSpec InterpSpec Names NamesProofs
  Select SelectSpec SelectProofs GemCat GemCatSpec GemCatProofs GemCatProps Header HeaderSpec HeaderProofs HeaderProps RecordingSpec ReadSeveralProofs
  Card CardSpec CardProofs CardProps Merge MergeSpec.
Import ListNotations.
Open Scope Z_scope.

(** * Events and lines *)

(** The same events, but for the values of the samples. *)
Definition alike (e e' : event) : Prop :=
  match e, e' with
  | Sample c _, Sample c' _ => c = c'
  | Fix c t, Fix c' t' => c = c' /\ t = t'
  | No_fix c, No_fix c' => c = c'
  | Health c, Health c' => c = c'
  | _, _ => False
  end.
Lemma alike_refl l : Forall2 alike l l.
Proof. induction l as [|e l IH]; constructor; [destruct e; cbn; auto|exact IH]. Qed.
Lemma alike_length l m : Forall2 alike l m -> length l = length m.
Proof. induction 1; [reflexivity|]. cbn [length]. congruence. Qed.
Lemma alike_samples l m : Forall2 alike l m -> samples l = samples m.
Proof. induction 1 as [|x y l m A F IH]; [reflexivity|]. destruct x, y; cbn in A; try contradiction; cbn [samples]; congruence. Qed.
Lemma alike_fixes l m : Forall2 alike l m -> fixes_of l = fixes_of m.
Proof. induction 1 as [|x y l m A F IH]; [reflexivity|]. destruct x, y; cbn in A; try contradiction; cbn [fixes_of]; try destruct A; congruence. Qed.
Lemma alike_reading l m : Forall2 alike l m -> map reading l = map reading m.
Proof. induction 1 as [|x y l m A F IH]; [reflexivity|]. destruct x, y; cbn in A; try contradiction; cbn [map reading]; try destruct A; congruence. Qed.
Lemma alike_times tau l m : Forall2 alike l m -> forall p q, map fst (waveform tau p l) = map fst (waveform tau q m).
Proof.
  induction 1 as [|x y l m A F IH]; intros p q; [reflexivity|]. destruct x, y; cbn in A; try contradiction; cbn [waveform map fst]; auto.
  subst. f_equal. apply IH.
Qed.
Lemma alike_true tau l m : Forall2 alike l m -> true_clock tau l -> true_clock tau m.
Proof.
  intros F [T1 (pre & c & d & rest & E & N & C) (h & Hh) T4 T5]. split.
  - rewrite <- (alike_reading _ _ F). exact T1.
  - subst l. apply Forall2_app_inv_l in F as (pre' & m' & F1 & F2 & ->). inversion F2 as [|? y ? rest' A F3]; subst.
    destruct y; cbn in A; try contradiction. subst. exists pre', c0, diff, rest'. split; [reflexivity|].
    rewrite <- (alike_samples _ _ F1), <- (alike_reading _ _ F1). auto.
  - exists h. clear - F Hh. induction F as [|x y l m A F IH]; [destruct Hh|]. destruct Hh as [->|Hh]; [|right; auto].
    destruct y; cbn in A; try contradiction. subst. left. reflexivity.
  - rewrite <- (alike_fixes _ _ F). exact T4.
  - rewrite <- (alike_fixes _ _ F). exact T5.
Qed.

(** The value after these events. *)
Fixpoint level (l : Z) (evs : list event) : Z :=
  match evs with [] => l | Sample _ d :: r => level (l + d) r | _ :: r => level l r end.
Definition rebase (l : Z) (evs : list event) : list event :=
  match evs with Sample c d :: r => Sample c (d - l) :: r | _ => evs end.

Lemma waveform_app tau e1 e2 : forall l, waveform tau l (e1 ++ e2) = waveform tau l e1 ++ waveform tau (level l e1) e2.
Proof. induction e1 as [|e e1 IH]; intros l; [reflexivity|]. destruct e; cbn [app waveform level]; rewrite IH; reflexivity. Qed.
Lemma level_app e1 e2 : forall l, level l (e1 ++ e2) = level (level l e1) e2.
Proof. induction e1 as [|e e1 IH]; intros l; [reflexivity|]. destruct e; cbn [app level]; apply IH. Qed.
Lemma level_last tau evs : forall l, level l evs = last (map snd (waveform tau l evs)) l.
Proof.
  induction evs as [|e evs IH]; intros l; [reflexivity|]. destruct e; cbn [level waveform map snd]; try apply IH.
  rewrite IH. destruct (map snd (waveform tau (l + diff) evs)) eqn:E; [reflexivity|]. change (last (z :: l0) (l + diff) = last (z :: l0) l). apply last_default. discriminate.
Qed.
Lemma rebase_alike l evs : Forall2 alike evs (rebase l evs).
Proof. destruct evs as [|[c d|c t|c|c] evs]; try apply alike_refl. constructor; [reflexivity|apply alike_refl]. Qed.

Lemma writes_readings tau q evs rs : writes q evs rs -> forall p, readings p rs = map snd (waveform tau p evs).
Proof. induction 1; intros q; cbn [readings counts waveform map snd]; rewrite ?IHwrites; reflexivity. Qed.
Lemma writes_heard q evs rs : writes q evs rs ->
  existsb (fun e => match e with Fix _ _ | No_fix _ => true | Sample _ _ | Health _ => false end) evs = existsb is_G rs.
Proof. induction 1; cbn [existsb is_G orb]; auto. Qed.
Lemma writes_cr e q evs rs : writes q evs rs -> writes q evs (map (add_cr e) rs).
Proof. induction 1; cbn [map add_cr]; try (constructor; assumption). Qed.
Lemma writes_app q e1 r1 e2 r2 : writes q e1 r1 -> (forall q, writes q e2 r2) -> writes q (e1 ++ e2) (r1 ++ r2).
Proof. intros W H. induction W; cbn [app]; [apply H|..]; econstructor; eauto. Qed.
Lemma writes_headers q h evs rs : Forall header h -> writes q evs (h ++ rs) -> writes q evs rs.
Proof. induction 1 as [|r h (l & -> & _) F IH]; intros W; [exact W|]. apply IH. inversion W; subst. assumption. Qed.

(** What a file of a recording begins with. *)
Lemma first_event f evs : well_formed f -> writes None evs (lines_of f) ->
  exists c r, evs = Sample c (int_value (first_counts f)) :: r /\ reduced c (dec_value (first_ms f)) /\ writes (Some c) r (body f).
Proof.
  intros (_ & H & _) W. apply writes_headers in W; [|exact H]. inversion W; subst. eauto.
Qed.

(** The events of a merged file after those of the first one. *)
Fixpoint rest_events (p : list event) (g : list recording) : list event :=
  match g with [] => [] | r :: g' => rebase (level 0 p) (r_events r) ++ rest_events (r_events r) g' end.

(** A recording and its file. *)
Definition filed (p : recording * raw) : Prop :=
  r_bytes (fst p) = content (snd p) /\ well_formed (snd p) /\ writes None (r_events (fst p)) (lines_of (snd p)).

Lemma filed_level p : filed p -> last_reading (snd p) = level 0 (r_events (fst p)).
Proof.
  intros (_ & _ & W). unfold last_reading. rewrite (writes_readings (mkcubic 0 0 0 0) _ _ _ W). symmetry. apply level_last.
Qed.
Lemma filed_heard p : filed p -> heard (fst p) = has_gps (snd p).
Proof. intros (_ & _ & W). exact (writes_heard _ _ _ W). Qed.

Lemma rest_writes g : forall p, filed p -> Forall filed g -> forall q,
  writes q (rest_events (r_events (fst p)) (map fst g)) (joined (snd p) (map snd g)).
Proof.
  induction g as [|p' g IH]; intros p Hp F q; [constructor|]. inversion F as [|? ? H' F']; subst. cbn [map rest_events joined].
  apply writes_app; [|apply IH; assumption].
  pose proof Hp as (_ & W & _). pose proof H' as (_ & W' & Wr). destruct (first_event _ _ W' Wr) as (c & r & -> & Rd & Wb). cbn [rebase].
  destruct (lit_spec _ (difference_fits _ _ W W')) as (_ & V & _). rewrite <- (filed_level p Hp), <- V. unfold converted. apply w_full; assumption.
Qed.
Lemma rest_alike g : forall p, Forall2 alike (flat_map r_events g) (rest_events p g).
Proof. induction g as [|r g IH]; intros p; [constructor|]. cbn [flat_map rest_events]. apply Forall2_app; [apply rebase_alike|apply IH]. Qed.
Lemma rest_wave tau g : Forall (fun r => r_clock r = tau) (map fst g) -> Forall filed g -> forall e,
  waveform tau (level 0 e) (rest_events e (map fst g)) = flat_map wave (map fst g).
Proof.
  induction g as [|p' g IH]; intros C F e; [reflexivity|]. inversion F as [|? ? H' F']; subst. cbn [map] in C. inversion C as [|? ? E C']; subst. cbn [map rest_events flat_map].
  destruct H' as (_ & W' & Wr). destruct (first_event _ _ W' Wr) as (c & r & Er & _ & _). rewrite waveform_app. unfold wave at 1. rewrite Er. cbn [rebase waveform level].
  replace (level 0 e + (int_value (first_counts (snd p')) - level 0 e)) with (0 + int_value (first_counts (snd p'))) by lia.
  cbn [app]. f_equal. f_equal. rewrite <- IH with (e := Sample c (int_value (first_counts (snd p'))) :: r) by assumption. reflexivity.
Qed.

(** The merged recording. *)
Definition merged_of (i : nat) (g : list (recording * raw)) : recording :=
  match g with
  | [] => mkrecording (Z.of_nat i) (mkcubic 0 0 0 0) [] []
  | (r, f) :: g' => mkrecording (Z.of_nat i) (r_clock r) (r_events r ++ rest_events (r_events r) (map fst g')) (content f ++ text [10] (joined f (map snd g')))
  end.
Lemma merged_alike i g : Forall2 alike (flat_map r_events (map fst g)) (r_events (merged_of i g)).
Proof. destruct g as [|[r f] g]; [constructor|]. cbn [map fst flat_map merged_of r_events]. apply Forall2_app; [apply alike_refl|apply rest_alike]. Qed.
Lemma merged_clock i g : r_clock (merged_of i g) = clock_of (map fst g).
Proof. destruct g as [|[r f] g]; reflexivity. Qed.
Lemma merged_joins i g : Forall filed g -> one_run (map fst g) -> joins (map fst g) (merged_of i g).
Proof.
  intros F (C & _). split; [apply merged_clock|]. split; [|symmetry; apply alike_fixes, merged_alike].
  destruct g as [|[r f] g]; [reflexivity|]. cbn [map fst clock_of] in C. inversion C as [|? ? _ C']; subst. inversion F; subst.
  unfold wave at 1. cbn [merged_of r_clock r_events]. rewrite waveform_app. cbn [map fst flat_map]. f_equal. apply rest_wave; assumption.
Qed.
Lemma merged_raw i g : g <> [] -> Forall filed g -> one_run (map fst g) -> raw_text (r_events (merged_of i g)) (r_bytes (merged_of i g)).
Proof.
  intros N F (_ & _ & B). destruct g as [|[r f] g]; [contradiction|]. inversion F as [|? ? H F']; subst. pose proof H as (_ & W & Wr). cbn [fst snd] in *.
  assert (Wg : Forall well_formed (map snd g)) by (apply Forall_map; eapply Forall_impl; [|exact F']; intros p (_ & X & _); exact X).
  cbn [merged_of r_events r_bytes]. exists (records_of f ++ joined f (map snd g)), (Other []).
  assert (Ft : Forall fits ((records_of f ++ joined f (map snd g)) ++ [Other []])).
  { apply Forall_app. split; [apply Forall_app; split; [apply records_fit; exact W|apply joined_fits; assumption]|]. constructor; [|constructor].
    split; [reflexivity|]. split; [intros []|cbn; lia]. }
  split; [|split; [|split; [|split]]].
  - rewrite content_records, <- text_app by exact W. apply text_file.
  - eapply Forall_impl; [|exact Ft]. intros x (X & _). exact X.
  - eapply Forall_impl; [|exact Ft]. intros x (_ & X). exact X.
  - rewrite <- (app_nil_r (_ ++ rest_events _ _)). apply writes_app; [|intros q; apply w_other; constructor]. apply writes_app.
    + apply writes_cr. exact Wr.
    + apply (rest_writes g (r, f) H F').
  - pose proof (merged_alike i ((r, f) :: g)) as A. apply alike_length in A. cbn [merged_of r_events] in A. rewrite <- A. exact B.
Qed.

(** * Groups *)
Lemma map_split {A B} (f : A -> B) l1 : forall l2 l, map f l = l1 ++ l2 -> exists m1 m2, l = m1 ++ m2 /\ map f m1 = l1 /\ map f m2 = l2.
Proof.
  induction l1 as [|x l1 IH]; intros l2 l E; [exists [], l; auto|]. destruct l as [|y l]; [discriminate|]. injection E as <- E.
  destruct (IH _ _ E) as (m1 & m2 & -> & <- & <-). exists (y :: m1), m2. auto.
Qed.
Lemma map_concat_split {A B} (f : A -> B) gs : forall l, map f l = concat gs -> exists groups, l = concat groups /\ gs = map (map f) groups.
Proof.
  induction gs as [|g gs IH]; intros l E.
  - destruct l; [|discriminate]. exists []. auto.
  - cbn [concat] in E. apply map_split in E as (l1 & l2 & -> & <- & E). apply IH in E as (groups & -> & ->). exists (l1 :: groups). auto.
Qed.
Lemma alternating_map {A B} (f : A -> B) g l : alternating g (map f l) <-> alternating (fun x => g (f x)) l.
Proof. induction l as [|x l IH]; [reflexivity|]. destruct l as [|y l]; [reflexivity|]. cbn [map alternating] in *. rewrite IH. reflexivity. Qed.
Lemma separated_map {A B} (f : A -> B) g gs : separated g (map (map f) gs) -> separated (fun x => g (f x)) gs.
Proof.
  induction gs as [|x gs IH]; [auto|]. destruct gs as [|y gs]; [auto|]. cbn [map separated] in *. intros [(l & z & E & Z) S]. split; [|apply IH; exact S].
  apply map_split in E as (m1 & m2 & -> & <- & E). destruct m2 as [|w [|? ?]]; try discriminate. injection E as <-. exists m1, w. auto.
Qed.
Lemma grouping_map {A B} (f : A -> B) g l gs : grouping g (map f l) gs -> exists groups, grouping (fun x => g (f x)) l groups /\ gs = map (map f) groups.
Proof.
  intros (sk & E & F & H & Al & Se). apply map_split in E as (l1 & l2 & -> & <- & E). apply map_concat_split in E as (groups & -> & ->).
  exists groups. split; [|reflexivity]. exists l1. split; [reflexivity|]. split; [apply (proj1 (Forall_map _ _ _) F)|]. split; [|split].
  - apply (proj1 (Forall_map _ _ _)) in H. eapply Forall_impl; [|exact H]. cbn beta. intros x (y & m & Ex & Ey). destruct x as [|z x]; [discriminate|]. injection Ex as <- _. exists z, x. auto.
  - apply (proj1 (Forall_map _ _ _)) in Al. eapply Forall_impl; [|exact Al]. cbn beta. intros x. apply alternating_map.
  - apply separated_map. exact Se.
Qed.
Lemma alternating_ext {A} (g h : A -> bool) l : (forall x, In x l -> g x = h x) -> alternating g l -> alternating h l.
Proof.
  induction l as [|x l IH]; intros E; [auto|]. destruct l as [|y l]; [auto|]. cbn [alternating]. intros [N S]. split; [|apply IH; [intros z Hz; apply E; right; exact Hz|exact S]].
  rewrite <- !E by (cbn; auto). exact N.
Qed.
Lemma grouping_ext {A} (g h : A -> bool) l gs : (forall x, In x l -> g x = h x) -> grouping g l gs -> grouping h l gs.
Proof.
  intros E (sk & -> & F & H & Al & Se). exists sk. split; [reflexivity|].
  assert (Es : forall x, In x sk -> g x = h x) by (intros x Hx; apply E; apply in_or_app; left; exact Hx).
  assert (Eg : forall x y, In x gs -> In y x -> g y = h y) by (intros x y Hx Hy; apply E; apply in_or_app; right; apply in_concat; eauto).
  split; [|split; [|split]].
  - apply Forall_forall. intros x Hx. rewrite <- Es by exact Hx. rewrite Forall_forall in F. auto.
  - apply Forall_forall. intros x Hx. rewrite Forall_forall in H. destruct (H x Hx) as (y & m & -> & Y). exists y, m. split; [reflexivity|]. rewrite <- (Eg _ y Hx); [exact Y|left; reflexivity].
  - apply Forall_forall. intros x Hx. rewrite Forall_forall in Al. apply (alternating_ext g); [intros y; apply Eg; exact Hx|auto].
  - clear - Se Eg. induction gs as [|x gs IH]; [exact I|]. destruct gs as [|y gs]; [exact I|]. destruct Se as [(l & z & -> & Z) Se]. split.
    + exists l, z. split; [reflexivity|]. rewrite <- (Eg (l ++ [z]) z); [exact Z|left; reflexivity|apply in_or_app; right; left; reflexivity].
    + apply IH; [exact Se|]. intros x y' Hx. apply Eg. right. exact Hx.
Qed.

(** * The outputs exactly *)
Lemma merged_exact sc buf0 ear pandas pandas08 fmt sn files :
  reads_decimal sc -> Forall well_formed files -> Forall (good_format fmt) files -> Forall (fun f => line_count [f] <= 65519999) files ->
  exists outs groups,
    gem_cat fmt (last_adc sc buf0 ear pandas pandas08) (Some sn) false (map content files) = (outs, true) /\
    grouping has_gps files groups /\ length outs = length groups /\
    forall i g, nth_error groups i = Some g ->
      exists f r, g = f :: r /\ nth_error outs i = Some (out_name (Z.of_nat i) sn, content f ++ text [10] (joined f r)).
Proof.
  intros Hsc W G B. set (adc := last_adc sc buf0 ear pandas pandas08).
  assert (Ok := merge_ok_start sc buf0 ear pandas pandas08 fmt Hsc files W G B). fold adc in Ok.
  destruct (merge fmt adc None 0 [] false (map content files)) as [os ok] eqn:M. cbn [snd] in Ok. subst ok.
  exists (map (fun p => (out_name (fst p) sn, snd p)) os).
  pose proof M as M'. apply merge_none in M' as (gs & Gr & N). apply grouping_raw in Gr as (groups & Gr & ->); [|exact W].
  exists groups. unfold gem_cat. rewrite M. split; [reflexivity|]. split; [exact Gr|].
  apply numbered_nth in N as [L N]. rewrite map_length in *. split; [exact L|].
  intros i g Hi. destruct (group_facts fmt files groups i g Gr Hi W G B) as (f & r & -> & Wf & Wr & Fr & Bg).
  specialize (N i (map content (f :: r))). rewrite nth_error_map, Hi in N. destruct (N eq_refl) as (f' & r' & c & E & X & O).
  cbn [map] in E. injection E as <- <-. unfold adc in X. rewrite (extend_good sc buf0 ear pandas pandas08 fmt Hsc r f _ Wf Wr Fr Bg) in X. injection X as <-.
  exists f, r. split; [reflexivity|]. rewrite nth_error_map, O. reflexivity.
Qed.

(** * The listing *)
Lemma starts_iff p s : starts_with p s = true <-> exists r, s = p ++ r.
Proof.
  revert s. induction p as [|a p IH]; intros s; cbn [starts_with]; [split; [exists s; reflexivity|reflexivity]|]. destruct s as [|c s]; [split; [discriminate|intros (r & E); discriminate]|].
  rewrite andb_true_iff, Z.eqb_eq, IH. split.
  - intros (-> & r & ->). exists r. reflexivity.
  - intros (r & E). injection E as -> ->. eauto.
Qed.
Lemma cat_match_iff ext name : cat_match ext name = true <-> matches ext name.
Proof.
  unfold cat_match, matches. rewrite !andb_true_iff, !starts_iff, Nat.eqb_eq. split.
  - intros (((( r & E) & L) & D) & rest & E'). exists (firstn 4 (skipn 4 name)), rest. split; [|split; [exact L|]].
    + rewrite <- (firstn_skipn 4 name) at 1. f_equal; [rewrite E; reflexivity|]. rewrite <- (firstn_skipn 4 (skipn 4 name)) at 1. f_equal.
      rewrite <- app_assoc in E'. rewrite <- E'. clear. destruct name as [|? [|? [|? [|? name]]]]; reflexivity.
    + apply Forall_forall. intros x Hx. rewrite forallb_forall in D. apply is_digit_spec. auto.
  - intros (ds & rest & E & L & F). destruct ds as [|d1 [|d2 [|d3 [|d4 [|]]]]]; try discriminate. subst name.
    change (skipn 4 (b "FILE" ++ [d1; d2; d3; d4] ++ b "." ++ ext ++ rest)) with ([d1; d2; d3; d4] ++ b "." ++ ext ++ rest).
    change (skipn 8 (b "FILE" ++ [d1; d2; d3; d4] ++ b "." ++ ext ++ rest)) with (b "." ++ ext ++ rest).
    change (firstn 4 ([d1; d2; d3; d4] ++ b "." ++ ext ++ rest)) with [d1; d2; d3; d4].
    split; [split; [split; [eexists; reflexivity|reflexivity]|]|exists rest; rewrite <- app_assoc; reflexivity].
    apply forallb_forall. intros x Hx. apply is_digit_spec. rewrite Forall_forall in F. auto.
Qed.

Lemma named_unique name n x n' x' : SelectSpec.named name n x -> SelectSpec.named name n' x' -> n = n' /\ x = x'.
Proof. intros A B. apply raw_name_spec in A, B. rewrite A in B. injection B as -> ->. auto. Qed.

Definition name_for (sn : bytes) (r : recording) : bytes := b "FILE" ++ pad 4 (r_number r) ++ b "." ++ sn.
Definition before_p (p q : bytes * bytes) : Prop := le_bytes (fst p) (fst q) = true /\ fst p <> fst q.
Lemma strict_bytes l : NoDup (map fst l) -> chain (fun p q : bytes * bytes => le_bytes (fst p) (fst q) = true) l -> chain before_p l.
Proof.
  induction l as [|x l IH]; [auto|]. destruct l as [|y l]; [intros _ _; exact I|]. intros N [L C]. cbn [map] in N. inversion N as [|? ? N1 N2]; subst. split; [|apply IH; assumption].
  split; [exact L|]. intros E. apply N1. rewrite E. left. reflexivity.
Qed.
Lemma NoDup_map_filter {A B} (f : A -> B) p l : NoDup (map f l) -> NoDup (map f (filter p l)).
Proof.
  induction l as [|x l IH]; intros N; [constructor|]. cbn [map] in N. inversion N as [|? ? N1 N2]; subst. cbn [filter]. destruct (p x); [|auto]. cbn [map]. constructor; [|auto].
  intros H. apply N1. apply in_map_iff in H as (y & E & Hy). apply filter_In in Hy as [Hy _]. rewrite <- E. apply in_map. exact Hy.
Qed.

Lemma listing ext sn recs c : (exists x, sn = ext ++ x) -> raw_folder ext sn recs c ->
  gem_files ext c = map (fun r => (name_for sn r, r_bytes r)) recs.
Proof.
  intros (x & Ex) (N & C & _ & P & Q).
  assert (Nm : forall r, In r recs -> SelectSpec.named (name_for sn r) (r_number r) sn /\ In (name_for sn r, r_bytes r) c).
  { intros r Hr. destruct (P r Hr) as (name & H & Hi). pose proof H as (_ & E & _). fold (name_for sn r) in E. subst name. auto. }
  apply (strict_unique before_p).
  - intros p q r (A & A') (B & B'). split; [exact (le_bytes_trans _ _ _ A B)|]. intros E. rewrite <- E in B. apply A'. exact (le_bytes_antisym _ _ A B).
  - intros p (_ & A). apply A. reflexivity.
  - apply strict_bytes.
    + apply (Permutation_NoDup (l := map fst (filter (fun p => cat_match ext (fst p)) c))); [apply Permutation_map; symmetry; apply sort_perm|apply NoDup_map_filter; exact N].
    + apply sort_chain; [auto|]. intros p q E. apply le_bytes_total. exact E.
  - assert (Cr : chain (fun r r' => before_p (name_for sn r, r_bytes r) (name_for sn r', r_bytes r')) recs).
    { apply (proj1 (chain_map r_number Z.lt recs)) in C. clear - C Nm. induction recs as [|r l IH]; [exact I|]. destruct l as [|r' l]; [exact I|]. destruct C as [C C'].
      split; [|apply IH; [exact C'|intros z Hz; apply Nm; right; exact Hz]].
      destruct (Nm r (or_introl eq_refl)) as [A _]. destruct (Nm r' (or_intror (or_introl eq_refl))) as [B _]. split; cbn [fst].
      - destruct (le_bytes (name_for sn r) (name_for sn r')) eqn:E; [reflexivity|]. apply le_bytes_total in E. pose proof (named_order _ _ _ _ _ _ B A E). lia.
      - intros E. rewrite E in A. destruct (named_unique _ _ _ _ _ A B). lia. }
    apply (proj2 (chain_map (fun r => (name_for sn r, r_bytes r)) before_p recs)). exact Cr.
  - intros [name bs]. split.
    + intros H. apply (Permutation_in _ (sort_perm _ _)) in H. apply filter_In in H as [Hi M]. apply cat_match_iff in M. cbn [fst] in M.
      destruct (Q name bs Hi M) as (r & Hr & Hn & ->). apply in_map_iff. exists r. split; [|exact Hr]. f_equal. destruct Hn as (_ & -> & _). reflexivity.
    + intros H. apply in_map_iff in H as (r & E & Hr). destruct (Nm r Hr) as [Hn Hi]. rewrite E in Hi. apply (Permutation_in _ (Permutation_sym (sort_perm _ _))).
      apply filter_In. split; [exact Hi|]. apply cat_match_iff. cbn [fst]. injection E as <- _. destruct Hn as (B & _ & _). exists (pad 4 (r_number r)), x. unfold name_for. rewrite Ex. split; [reflexivity|].
      split; [apply pad_length; [lia|cbn; lia]|]. apply (Forall_impl digit (P := dig)); [|apply pad_digits; lia]. intros d. unfold dig, digit. lia.
Qed.

(** * One record *)
Definition like (r m : recording) : Prop := r_clock r = r_clock m /\ Forall2 alike (r_events r) (r_events m).
Lemma like_times r m : like r m -> map fst (wave r) = map fst (wave m).
Proof. intros [C A]. unfold wave. rewrite C. apply alike_times. exact A. Qed.
Lemma like_steady r m : like r m -> steady (r_clock r) (r_events r) -> steady (r_clock m) (r_events m).
Proof.
  intros [C A] [S1 S2 S3 S4 S5]. rewrite <- C. unfold span_half in *. split; unfold span_half; [exact S1| | | |].
  - rewrite <- (alike_fixes _ _ A). exact S2.
  - rewrite <- (alike_samples _ _ A). exact S3.
  - rewrite <- (alike_fixes _ _ A), <- (alike_samples _ _ A). exact S4.
  - rewrite <- (alike_fixes _ _ A), <- (alike_samples _ _ A). exact S5.
Qed.
Lemma like_unbroken l m : Forall2 like l m -> unbroken l -> unbroken m.
Proof.
  intros F (A & B & C & D). split; [|split; [|split]].
  - clear - F A. induction F as [|x y l m L F IH]; [constructor|]. inversion A as [|? ? [A1 A2] A']; subst. constructor; [|auto].
    split; [exact (like_steady _ _ L A1)|]. rewrite <- (like_times _ _ L). exact A2.
  - clear - F B. induction F as [|x y l m L F IH]; [exact I|]. destruct F as [|x' y' l m L' F]; [exact I|]. destruct B as [B B']. split; [|apply IH; exact B'].
    destruct L as [_ L], L' as [_ L']. unfold continues in *. rewrite <- (alike_samples _ _ L), <- (alike_samples _ _ L'), <- (alike_reading _ _ L'). exact B.
  - assert (E : flat_map (fun r => map snd (fixes_of (r_events r))) m = flat_map (fun r => map snd (fixes_of (r_events r))) l).
    { clear - F. induction F as [|x y l m [_ L] F IH]; [reflexivity|]. cbn [flat_map]. rewrite IH, (alike_fixes _ _ L). reflexivity. }
    rewrite E. exact C.
  - assert (E : map fst (record m) = map fst (record l)).
    { clear - F. unfold record. induction F as [|x y l m L F IH]; [reflexivity|]. cbn [flat_map]. rewrite !map_app, IH, (like_times _ _ L). reflexivity. }
    rewrite E. exact D.
Qed.

(** The merged recordings, numbered. *)
Fixpoint numbered_from (i : nat) (gs : list (list (recording * raw))) : list recording :=
  match gs with [] => [] | g :: r => merged_of i g :: numbered_from (Datatypes.S i) r end.
Lemma numbered_from_nth gs : forall k i, nth_error (numbered_from k gs) i = option_map (merged_of (k + i)) (nth_error gs i).
Proof.
  induction gs as [|g gs IH]; intros k i; [destruct i; reflexivity|]. destruct i as [|i]; cbn [numbered_from nth_error option_map]; [rewrite Nat.add_0_r; reflexivity|].
  rewrite IH. f_equal. f_equal. lia.
Qed.
Lemma merged_number i g : r_number (merged_of i g) = Z.of_nat i.
Proof. destruct g as [|[r f] g]; reflexivity. Qed.
Lemma numbered_from_length gs : forall k, length (numbered_from k gs) = length gs.
Proof. induction gs as [|g gs IH]; intros k; [reflexivity|]. cbn [numbered_from length]. rewrite IH. reflexivity. Qed.
Lemma numbered_from_chain gs : forall k, chain Z.lt (map r_number (numbered_from k gs)).
Proof.
  induction gs as [|g gs IH]; intros k; [exact I|]. cbn [numbered_from map]. specialize (IH (Datatypes.S k)). destruct gs as [|g' gs]; [exact I|]. cbn [numbered_from map] in *.
  split; [rewrite !merged_number; lia|exact IH].
Qed.
Lemma nth_error_eq {A} (l : list A) : forall m, length l = length m -> (forall i x, nth_error m i = Some x -> nth_error l i = Some x) -> l = m.
Proof.
  induction l as [|x l IH]; intros [|y m] L H; try discriminate; [reflexivity|]. pose proof (H 0%nat y eq_refl) as E. injection E as ->. f_equal.
  apply IH; [cbn in L; lia|]. intros i z. exact (H (Datatypes.S i) z).
Qed.

(** * Heads *)
Lemma headed_app sn bs t : headed sn bs -> headed sn (bs ++ t).
Proof. intros (v & e1 & l2 & l3 & notes & l0 & rest & -> & H). exists v, e1, l2, l3, notes, l0, (rest ++ t). rewrite app_assoc. auto. Qed.
Lemma gained_app bs t : gained bs -> gained (bs ++ t).
Proof.
  intros [(l1 & pre & l & c & rest & -> & H)|(l1 & pre & l & rest & -> & H)].
  - left. exists l1, pre, l, c, (rest ++ t). rewrite app_assoc. auto.
  - right. exists l1, pre, l, (rest ++ t). rewrite app_assoc. auto.
Qed.
Lemma headed_serial oddS sn bs : serial_number sn -> headed sn bs -> read_SN na_words oddS bs = Some (Some sn).
Proof.
  intros Hs (v & e1 & l2 & l3 & notes & l0 & rest & -> & L & _ & No & Se). destruct (serial_value sn Hs) as (_ & _ & _ & _ & Na).
  exact (C52_serial na_words oddS _ _ _ _ _ sn rest L No Se eq_refl Na).
Qed.
Lemma headed_version oddV sn bs : headed sn bs -> (~ exists rest, bs = b "#GemCSV0.91" ++ rest) ->
  exists v, cat_version oddV bs = Some v /\ difference_coded v.
Proof.
  intros (v & e1 & l2 & l3 & notes & l0 & rest & E & L & V & _) N.
  assert (X : read_version na_words oddV bs = Some v).
  { assert (X : read_version na_words oddV (lines_text ([] ++ [(b "#GemCSV" ++ v, e1)]) ++ (lines_text (l2 :: l3 :: notes ++ [l0]) ++ rest)) = Some v).
    2: { rewrite app_assoc in X. unfold lines_text in X. rewrite <- concat_app, <- map_app in X. rewrite E. exact X. }
    apply (C52_version na_words oddV [] v e1).
    - inversion L; subst. constructor; [assumption|constructor].
    - constructor.
    - destruct V as [<-|[<-|[<-|[<-|[]]]]]; cbn; intuition discriminate.
    - destruct V as [<-|[<-|[<-|[<-|[]]]]]; reflexivity. }
  exists (text_of v). unfold cat_version. rewrite X. split; [reflexivity|]. unfold difference_coded.
  destruct V as [<-|[<-|[<-|[<-|[]]]]].
  - right. right. left. reflexivity.
  - right. left. reflexivity.
  - exfalso. apply N. exists (e1 ++ lines_text (l2 :: l3 :: notes ++ [l0]) ++ rest). rewrite E. unfold lines_text. cbn [map concat fst snd]. rewrite <- !app_assoc. reflexivity.
  - left. reflexivity.
Qed.
