(** Properties C31, C32: merging raw files so that every file bears GPS data. *)
From Coq Require Import String.
From Coq Require Import ZArith QArith List Bool Lia Lqa.
From Verif Require Import Lib Base Scan Parser ParserSpec UnwrapSpec Convert110 Process ProcessSpec NamesSpec GemCat GemCatSpec
  ParserProofs ScanProofs ParserProps ProcessProofs ProcessProps NamesProofs GemCatProofs.
Import ListNotations.
Open Scope Z_scope.

(** * C31: which files go where *)
Definition g_line (p : bytes * bool) : bool := starts 71 (fst p).

Lemma G_first bs : g_line (hd ([], false) (text_lines bs)) = true <-> exists r, bs = 71 :: r.
Proof.
  destruct bs as [|c bs]; [split; [discriminate|intros (r & [=])]|]. cbn [text_lines].
  destruct (Z.eqb_spec c 10) as [->|]; [split; [discriminate|intros (r & [=])]|].
  destruct (Z.eqb_spec c 13) as [->|]; [split; [discriminate|intros (r & [=])]|].
  destruct (text_lines bs) as [|[l t] ls]; cbn [hd g_line starts fst]; unfold g_line; cbn [fst starts]; rewrite Z.eqb_eq;
    (split; [intros ->; eauto|intros (q & [= -> _]); reflexivity]).
Qed.

Lemma existsb_hd_tl ls : existsb g_line ls = true <-> g_line (hd ([], false) ls) = true \/ existsb g_line (tl ls) = true.
Proof. destruct ls as [|p ls]; cbn [hd tl existsb]; [split; [discriminate|intros [?|?]; discriminate]|apply orb_true_iff]. Qed.

Definition later_G (bs : bytes) : Prop := exists l x r, bs = l ++ x :: 71 :: r /\ (x = 10 \/ x = 13).

Lemma later_cons c bs : later_G (c :: bs) <-> ((c = 10 \/ c = 13) /\ exists r, bs = 71 :: r) \/ later_G bs.
Proof.
  unfold later_G. split.
  - intros (l & x & r & E & X). destruct l as [|y l]; injection E as -> ->; [left; eauto|right; exists l, x, r; auto].
  - intros [(C & r & ->)|(l & x & r & -> & X)]; [exists [], c, r; auto|exists (c :: l), x, r; auto].
Qed.

Lemma G_later n : forall bs, (length bs <= n)%nat -> existsb g_line (tl (text_lines bs)) = true <-> later_G bs.
Proof.
  induction n as [|n IH]; intros bs L.
  - destruct bs; [|cbn in L; lia]. split; [discriminate|]. intros ([|? ?] & x & r & [=] & _).
  - destruct bs as [|c bs]; [apply IH; cbn; lia|]. cbn [length] in L. cbn [text_lines]. rewrite later_cons.
    destruct (Z.eqb_spec c 10) as [->|N10].
    { cbn [tl]. rewrite existsb_hd_tl, G_first, IH by lia. tauto. }
    destruct (Z.eqb_spec c 13) as [->|N13].
    { cbn [tl]. destruct bs as [|d r].
      - cbn. split; [discriminate|]. intros [(_ & r & [=])|([|? ?] & x & r & [=] & _)].
      - cbn [length] in L. destruct (Z.eqb_spec d 10) as [->|Nd].
        + rewrite existsb_hd_tl, G_first, IH by lia. rewrite later_cons. split; [tauto|]. intros [(_ & q & [=])|H]; tauto.
        + rewrite existsb_hd_tl, G_first, IH by (cbn [length]; lia). tauto. }
    rewrite <- IH by lia. split; [|intros [([?|?] & _)|H]; [congruence|congruence|]].
    + intros H. right. destruct (text_lines bs) as [|[l t] ls]; exact H.
    + destruct (text_lines bs) as [|[l t] ls]; exact H.
Qed.

Lemma G_line_bytes bs : existsb g_line (text_lines bs) = true <-> has_G_line bs.
Proof. rewrite existsb_hd_tl, G_first, (G_later (length bs)) by reflexivity. reflexivity. Qed.

Lemma gps_iff c : gps c = true <-> has_G_line c.
Proof.
  rewrite <- G_line_bytes. unfold gps, gps_lines.
  assert (E : existsb g_line (filter (fun p => negb (blank (fst p))) (text_lines c)) = existsb g_line (text_lines c)).
  { induction (text_lines c) as [|[l t] ls IH]; [reflexivity|]. cbn [filter fst]. destruct (blank l) eqn:B; cbn [negb existsb].
    - rewrite IH. unfold g_line at 2. cbn [fst]. now rewrite (blank_line_kind l B).
    - now rewrite IH. }
  rewrite <- E. destruct (filter _ _); [split; discriminate|reflexivity].
Qed.

Lemma append_extends fmt last p f o o' : append fmt last p f o = Some o' -> exists t, o' = o ++ t.
Proof.
  unfold append, append_file. destruct (fmt f) as [v|]; [|discriminate]. destruct (existsb _ _).
  - destruct (last p v) as [z|]; [|discriminate]. destruct (find_D _) as [[j l]|]; [|discriminate].
    destruct (split_comma l) as [|c1 [|c2 [|? ?]]]; try discriminate. destruct (py_int c2); [|discriminate].
    intros [= <-]. eauto.
  - destruct (find_D _) as [[j l]|]; [|discriminate]. intros [= <-]. eauto.
Qed.

Lemma extend_assembled fmt last fs : forall g p o c, assembled (append fmt last) (g ++ [p]) o ->
  extend fmt last o p fs = Some c -> assembled (append fmt last) (g ++ p :: fs) c.
Proof.
  induction fs as [|f fs IH]; intros g p o c A E; cbn [extend] in E; [congruence|].
  destruct (append fmt last p f o) as [o'|] eqn:Ap; [|discriminate].
  replace (g ++ p :: f :: fs) with ((g ++ [p]) ++ f :: fs) by (now rewrite <- app_assoc).
  apply (IH (g ++ [p]) f o' c); [|exact E]. rewrite <- app_assoc. now apply (asm_append _ g p f o).
Qed.

Lemma extend_prefix fmt last fs : forall p o c, extend fmt last o p fs = Some c -> exists t, c = o ++ t.
Proof.
  induction fs as [|f fs IH]; intros p o c E; cbn [extend] in E; [exists []; rewrite app_nil_r; congruence|].
  destruct (append fmt last p f o) as [o'|] eqn:Ap; [|discriminate].
  apply append_extends in Ap as (t & ->). apply IH in E as (t' & ->). exists (t ++ t'). now rewrite app_assoc.
Qed.

Lemma numbered_nth fmt last groups : forall k outs, numbered fmt last k groups outs ->
  length outs = length groups /\
  forall i g, nth_error groups i = Some g -> exists f r c, g = f :: r /\ extend fmt last f f r = Some c /\ nth_error outs i = Some (k + Z.of_nat i, c).
Proof.
  induction groups as [|g groups IH]; intros k outs N.
  - destruct outs; [|destruct N]. split; [reflexivity|]. intros [|i] g; discriminate.
  - destruct g as [|f r]; [destruct N|]. destruct outs as [|[n o] outs]; [destruct N|]. destruct N as (-> & E & N).
    apply IH in N as [L H]. split; [cbn; now rewrite L|]. intros [|i] g Hg.
    + injection Hg as <-. exists f, r, o. split; [reflexivity|]. split; [exact E|]. cbn. do 3 f_equal. lia.
    + destruct (H i g Hg) as (f' & r' & c & E1 & E2 & E3). exists f', r', c. split; [exact E1|]. split; [exact E2|]. cbn [nth_error]. rewrite E3. do 2 f_equal. lia.
Qed.

Lemma named_out sn i : named sn i (out_name (Z.of_nat i) sn).
Proof. exists (pad 4 (Z.of_nat i)). split; [apply pad_decimal; lia|reflexivity]. Qed.

(** C31.  Whatever the files, their format and what the reader says about them: when [gem_cat] returns,
    the input files, without the leading ones that have no line beginning with 'G', are divided into
    consecutive groups; a new group begins exactly where a file with such lines follows another one
    ([grouping]); there is one output per group, numbered from 0 in order, and each is assembled from
    the files of its group in order. *)
Theorem C31_partition fmt last sn files outs (g : bytes -> bool) :
  (forall c, g c = true <-> has_G_line c) ->
  gem_cat fmt last (Some sn) false files = (outs, true) ->
  exists groups, grouping g files groups /\ length outs = length groups /\
  forall i grp, nth_error groups i = Some grp ->
    exists name c, nth_error outs i = Some (name, c) /\ named sn i name /\ assembled (append fmt last) grp c.
Proof.
  intros Hg H. unfold gem_cat in H. destruct (merge fmt last None 0 [] false files) as [os ok] eqn:M. injection H as <- ->.
  apply merge_none in M as (groups & G & N). exists groups. split.
  - assert (E : forall c, gps c = g c) by (intros c; apply eq_true_iff_eq; now rewrite gps_iff, Hg).
    destruct G as (sk & E0 & F & H & A & S). exists sk. split; [exact E0|].
    split; [eapply Forall_impl; [|exact F]; cbn beta; intros c; now rewrite E|].
    split; [eapply Forall_impl; [|exact H]; intros c (y & l & -> & Y); exists y, l; now rewrite <- E|].
    split.
    + eapply Forall_impl; [|exact A]. intros l. clear -E. induction l as [|x l IH]; [auto|]. destruct l as [|y l]; [auto|].
      intros [N A']. split; [rewrite <- !E; exact N|exact (IH A')].
    + clear -E S. induction groups as [|x l IH]; [exact I|]. destruct l as [|y l]; [exact I|]. destruct S as [(l' & w & -> & W) S].
      split; [exists l', w; now rewrite <- E|exact (IH S)].
  - apply numbered_nth in N as [L N]. split; [now rewrite map_length|]. intros i grp Hi. destruct (N i grp Hi) as (f & r & c & -> & E & O).
    exists (out_name (Z.of_nat i) sn), c. split; [rewrite nth_error_map, O; reflexivity|]. split; [apply named_out|].
    apply (extend_assembled fmt last r [] f f c); [|exact E]. apply asm_copy.
Qed.

(** The division into groups is determined by which files have GPS lines. *)
Theorem C31_grouping_unique {A} (g : A -> bool) files gs1 gs2 : grouping g files gs1 -> grouping g files gs2 -> gs1 = gs2.
Proof. apply grouping_unique. Qed.

(** Every file that has been written has a GPS line, even if [gem_cat] ended with an exception. *)
Theorem C31_every_output_has_gps fmt last sn files outs ok name c :
  gem_cat fmt last sn false files = (outs, ok) -> In (name, c) outs -> has_G_line c.
Proof.
  unfold gem_cat. destruct sn as [s|]; [|intros [= <- <-] []].
  destruct (merge fmt last None 0 [] false files) as [os ok'] eqn:M. intros [= <- <-] Hin.
  apply in_map_iff in Hin as ([n c'] & [= _ <-] & Hin). cbn [snd] in *.
  assert (X : forall files cur k p pg os ok, merge fmt last cur k p pg files = (os, ok) ->
     match cur with Some (_, o) => gps o = true | None => True end -> Forall (fun x => gps (snd x) = true) os).
  { clear. induction files as [|f files IH]; intros cur k p pg os ok M C; cbn [merge] in M.
    - injection M as <- <-. destruct cur as [[n o]|]; repeat constructor. exact C.
    - destruct (gps_lines f) as [g|] eqn:G.
      2:{ injection M as <- <-. destruct cur as [[n o]|]; repeat constructor. exact C. }
      destruct cur as [[n o]|].
      + destruct (g && pg) eqn:B.
        * destruct (merge fmt last (Some (k, f)) (k + 1) f true files) as [os' ok'] eqn:M'. injection M as <- <-. constructor; [exact C|].
          eapply IH; [exact M'|]. unfold gps. rewrite G. now apply andb_true_iff in B as [-> _].
        * destruct (append fmt last p f o) as [o'|] eqn:Ap.
          -- eapply IH; [exact M|]. cbn. apply append_extends in Ap as (t & ->). apply gps_iff in C. apply gps_iff.
             destruct C as [(r & ->)|(l & x & r & -> & Hx)]; [left; exists (r ++ t); reflexivity|right; exists l, x, (r ++ t)]. rewrite <- app_assoc. auto.
          -- injection M as <- <-. repeat constructor. exact C.
      + destruct g; (eapply IH; [exact M|]); [|exact I]. unfold gps. now rewrite G. }
  specialize (X _ _ _ _ _ _ _ M I). rewrite Forall_forall in X. apply gps_iff. exact (X _ Hin).
Qed.

(** With [cat_all], one output is assembled from all files. *)
(** A file without anything but blanks and line ends ends the command with an exception; what was written up to there is
    what the files before it give. *)
Theorem C31_empty_file fmt last sn files f more outs : (forall c, In c f -> c = 10 \/ c = 13 \/ c = 32) ->
  gem_cat fmt last (Some sn) false files = (outs, true) -> gem_cat fmt last (Some sn) false (files ++ f :: more) = (outs, false).
Proof.
  intros B H. unfold gem_cat in *. destruct (merge fmt last None 0 [] false files) as [os ok] eqn:M. injection H as <- ->.
  assert (G : gps_lines f = None).
  { unfold gps_lines. assert (X : filter (fun p => negb (blank (fst p))) (text_lines f) = []).
    { assert (Y : Forall (fun p => blank (fst p) = true) (text_lines f)).
      { clear - B. remember (length f) as n eqn:En. assert (Ln : (length f <= n)%nat) by lia. clear En. revert f B Ln. induction n as [|n IH]; intros f B Ln; [destruct f; [constructor|cbn in Ln; lia]|].
        destruct f as [|c f]; [constructor|]. cbn [length] in Ln. cbn [text_lines].
        assert (Bf : forall x, In x f -> x = 10 \/ x = 13 \/ x = 32) by (intros x Ix; apply B; now right).
        destruct (Z.eqb_spec c 10) as [->|]; [constructor; [reflexivity|apply IH; [exact Bf|lia]]|].
        destruct (Z.eqb_spec c 13) as [->|].
        - constructor; [reflexivity|]. destruct f as [|x f]; [constructor|]. cbn [length] in Ln. destruct (x =? 10).
          + apply IH; [intros y Iy; apply Bf; now right|lia].
          + change (Forall (fun p => blank (fst p) = true) (text_lines (x :: f))). apply IH; [exact Bf|cbn [length]; lia].
        - assert (Ec : c = 32) by (destruct (B c (or_introl eq_refl)) as [|[|Ec]]; [congruence|congruence|exact Ec]). specialize (IH f Bf ltac:(lia)). destruct (text_lines f) as [|[l t] ls]; [subst c; repeat constructor|].
          inversion IH as [|? ? Bl Bls]; subst. constructor; [|exact Bls]. exact Bl. }
      induction Y as [|p l Bp _ IH]; [reflexivity|]. cbn [filter]. rewrite Bp. exact IH. }
    rewrite X. reflexivity. }
  assert (K : forall files cur k p pg os, merge fmt last cur k p pg files = (os, true) -> merge fmt last cur k p pg (files ++ f :: more) = (os, false)).
  { clear - G. induction files as [|x files IH]; intros cur k p pg os M.
    - cbn [app merge] in *. rewrite G. injection M as <-. reflexivity.
    - cbn [app merge] in *. destruct (gps_lines x) as [g|]; [|discriminate]. destruct cur as [[n o]|].
      + destruct (g && pg).
        * destruct (merge fmt last (Some (k, x)) (k + 1) x true files) as [os' ok'] eqn:E. injection M as <- ->. rewrite (IH _ _ _ _ _ E). reflexivity.
        * destruct (append fmt last p x o); [|discriminate]. exact (IH _ _ _ _ _ M).
      + destruct g; exact (IH _ _ _ _ _ M). }
  rewrite (K _ _ _ _ _ _ M). reflexivity.
Qed.
Example C31_empty_case : gem_cat (fun _ => None) (fun _ _ => None) (Some (b "128")) false [b "G,1" ++ [10]; b "G,2" ++ [10]; [32; 13; 10; 10]; b "G,3" ++ [10]] =
  ([(b "FILE0000.128", b "G,1" ++ [10]); (b "FILE0001.128", b "G,2" ++ [10])], false).
Proof. vm_compute. reflexivity. Qed.

Theorem C31_cat_all fmt last sn files outs : files <> [] ->
  gem_cat fmt last (Some sn) true files = (outs, true) ->
  exists c, outs = [(b "FILE9999." ++ sn, c)] /\ assembled (append fmt last) files c.
Proof.
  intros N H. destruct files as [|f files]; [congruence|]. unfold gem_cat in H. cbn [merge_all] in H.
  pose proof (merge_all_from fmt last files f f) as E. destruct (extend fmt last f f files) as [c|] eqn:X.
  - rewrite E in H. injection H as <-. exists c. split; [reflexivity|].
    apply (extend_assembled fmt last files [] f f c); [apply asm_copy|exact X].
  - destruct (merge_all fmt last (Some f) f files) as [o ok]. cbn in E. congruence.
Qed.

(** * C32: the content of merged files *)

Lemma group_facts fmt files groups i g : grouping has_gps files groups -> nth_error groups i = Some g ->
  Forall well_formed files -> Forall (good_format fmt) files -> Forall (fun f => line_count [f] <= 65519999) files ->
  exists f r, g = f :: r /\ well_formed f /\ Forall well_formed r /\ Forall (good_format fmt) r /\ Forall (fun f => line_count [f] <= 65519999) (f :: r).
Proof.
  intros (sk & -> & _ & H & _) E W G B. apply nth_error_In in E as I. rewrite Forall_forall in H. destruct (H g I) as (f & r & -> & _).
  apply nth_error_split in E as (l1 & l2 & -> & _). rewrite concat_app in *. cbn [concat] in *.
  rewrite !Forall_app in W, G, B. destruct W as (_ & _ & Wg & _). destruct G as (_ & _ & Gg & _). destruct B as (_ & _ & Bg & _). inversion Wg; inversion Gg; subst.
  exists f, r. repeat (split; [first [reflexivity|assumption]|]). exact Bg.
Qed.

(** C32.  Files as the logger writes them (header, then a complete D line, then any documented lines
    with at least one M line, every line complete, LF or CR LF): [gem_cat] returns, the outputs
    correspond to the groups, and each output is the first file of its group unchanged, followed by the
    other files from their first D line on, where that line says by how much its reading differs from
    the last reading of the file before ([continued]); all other lines are unchanged. *)
Theorem C32_merged_content sc buf0 ear pandas pandas08 fmt sn files :
  reads_decimal sc -> Forall well_formed files ->
  Forall (fun f => exists v, fmt (content f) = Some v /\ difference_coded v) files -> Forall (fun f => line_count [f] <= 65519999) files ->
  exists outs groups,
    gem_cat fmt (last_adc sc buf0 ear pandas pandas08) (Some sn) false (map content files) = (outs, true) /\
    grouping has_gps files groups /\ length outs = length groups /\
    forall i g, nth_error groups i = Some g ->
      exists name f r t, nth_error outs i = Some (name, content f ++ t) /\ named sn i name /\ g = f :: r /\ continued (last_reading f) r t.
Proof.
  intros Hsc W G B. set (adc := last_adc sc buf0 ear pandas pandas08).
  assert (Ok := merge_ok_start sc buf0 ear pandas pandas08 fmt Hsc files W G B). fold adc in Ok.
  destruct (merge fmt adc None 0 [] false (map content files)) as [os ok] eqn:M. cbn [snd] in Ok. subst ok.
  exists (map (fun p => (out_name (fst p) sn, snd p)) os).
  pose proof M as M'. apply merge_none in M' as (gs & Gr & N). apply grouping_raw in Gr as (groups & Gr & ->); [|exact W].
  exists groups. unfold gem_cat. rewrite M. split; [reflexivity|]. split; [exact Gr|].
  apply numbered_nth in N as [L N]. rewrite map_length in *. split; [exact L|].
  intros i g Hi. destruct (group_facts fmt files groups i g Gr Hi W G B) as (f & r & -> & Wf & Wr & Fr & Bg).
  specialize (N i (map content (f :: r))). rewrite nth_error_map, Hi in N. destruct (N eq_refl) as (f' & r' & c & E & X & O).
  cbn [map] in E. injection E as <- <-. unfold adc in X. rewrite (extend_good sc buf0 ear pandas pandas08 fmt Hsc r f _ Wf Wr Fr Bg) in X. injection X as <-.
  exists (out_name (Z.of_nat i) sn), f, r, (text [10] (joined f r)).
  split; [rewrite nth_error_map, O; reflexivity|]. split; [apply named_out|]. split; [reflexivity|]. now apply joined_continued.
Qed.

(** Two samples with the same reading. *)
Definition same_reading (x y : option Q) : Prop := exists p q, x = Some p /\ y = Some q /\ (p == q)%Q.

(** ... and what is read from an output is, sample by sample, what is read from the files of its group
    one after the other. *)
Theorem C32_merged_samples sc buf0 ear pandas pandas08 fmt sn files outs groups i grp name c :
  reads_decimal sc -> Forall well_formed files ->
  Forall (fun f => exists v, fmt (content f) = Some v /\ difference_coded v) files -> Forall (fun f => line_count [f] <= 65519999) files ->
  gem_cat fmt (last_adc sc buf0 ear pandas pandas08) (Some sn) false (map content files) = (outs, true) ->
  grouping has_gps files groups -> nth_error groups i = Some grp -> nth_error outs i = Some (name, c) -> line_count grp <= 65519999 ->
  forall version, difference_coded version ->
  let read bs req := read_single sc buf0 ear (pandas bs) (pandas08 bs) (Some bs) version 0 req in
  (exists tab, read c false = inl tab) /\
  forall req req' tab tabs, read c req = inl tab -> Forall2 (fun f t => read (content f) req' = inl t) grp tabs ->
    Forall2 same_reading (map snd (data tab)) (concat (map (fun t => map snd (data t)) tabs)).
Proof.
  intros Hsc W G B M Gr Hi Ho Bg version V read.
  destruct (C32_merged_content sc buf0 ear pandas pandas08 fmt sn files Hsc W G B) as (outs' & groups' & M' & Gr' & L & N).
  rewrite M in M'. injection M' as <-. rewrite (grouping_unique _ _ _ _ Gr' Gr) in *.
  destruct (N i grp Hi) as (name' & f & r & t & Ho' & _ & Eg & Ct). rewrite Ho in Ho'. injection Ho' as _ ->.
  destruct (group_facts fmt files groups i grp Gr Hi W G B) as (f2 & r2 & E2 & Wf & Wr & Fr & Bs). subst grp. injection E2 as <- <-.
  assert (Et : t = text [10] (joined f r)).
  { pose proof (merge_ok_start sc buf0 ear pandas pandas08 fmt Hsc files W G B) as Ok.
    unfold gem_cat in M. destruct (merge fmt _ None 0 [] false (map content files)) as [os ok] eqn:Mg. injection M as <- ->.
    apply merge_none in Mg as (gs & Gb & Nb). apply grouping_raw in Gb as (groups2 & Gb & ->); [|exact W].
    rewrite (grouping_unique _ _ _ _ Gb Gr) in *. apply numbered_nth in Nb as [_ Nb].
    specialize (Nb i (map content (f :: r))). rewrite nth_error_map, Hi in Nb. destruct (Nb eq_refl) as (f' & r' & c & E & X & O).
    cbn [map] in E. injection E as <- <-. rewrite (extend_good sc buf0 ear pandas pandas08 fmt Hsc r f _ Wf Wr Fr Bs) in X. injection X as <-.
    rewrite nth_error_map, O in Ho. injection Ho as _ Ho. now apply app_inv_head in Ho. }
  subst t. split.
  - apply (read_group sc buf0 ear pandas pandas08 fmt Hsc f r version 0 false); auto.
  - intros req req' tab tabs R Rs.
    destruct (read_group sc buf0 ear pandas pandas08 fmt Hsc f r version 0 req (pandas (content f ++ text [10] (joined f r))) (pandas08 (content f ++ text [10] (joined f r))) Wf Wr Bg V) as [R1 _].
    specialize (R1 tab R). unfold samples_are in R1.
    assert (Z : Forall2 (fun o z => exists q, o = Some q /\ (q == inject_Z z)%Q) (concat (map (fun t => map snd (data t)) tabs)) (concat (map (fun f => readings 0 (lines_of f)) (f :: r)))).
    { assert (Wg : Forall well_formed (f :: r)) by (now constructor).
      assert (Bx : forall x, In x (f :: r) -> line_count [x] <= 65519999) by (apply Forall_forall; exact Bs).
      clear R R1 Hi Ho N Ct M Bg Bs. revert Bx. induction Rs as [|x tx l ts Rx Rs IH]; intros Bx; [constructor|].
      inversion Wg as [|? ? Wx Wl]; subst. cbn [map concat]. apply Forall2_app.
      - destruct (read_group sc buf0 ear pandas pandas08 fmt Hsc x [] version 0 req' (pandas (content x)) (pandas08 (content x)) Wx (Forall_nil _) (Bx x (or_introl eq_refl)) V) as [X1 _].
        cbn [joined map concat] in X1. change (text [10] []) with (@nil Z) in X1. rewrite !app_nil_r in X1.
        apply (Forall2_map_l snd (fun o z => exists q, o = Some q /\ (q == inject_Z z)%Q)). now apply X1.
      - apply IH; [exact Wl|]. intros y Iy. apply Bx. now right. }
    apply (Forall2_map_l snd (fun o z => exists q, o = Some q /\ (q == inject_Z z)%Q)) in R1.
    clear -R1 Z. revert Z. generalize (concat (map (fun t => map snd (data t)) tabs)). induction R1 as [|o z l m (q & -> & Eq) R1 IH]; intros k Z; inversion Z as [|? ? ? ? (q' & -> & Eq') Z']; subst; constructor; auto.
    exists q, q'. split; [reflexivity|]. split; [reflexivity|]. now rewrite Eq, Eq'.
Qed.

(** * An example *)
Definition ex_M : record :=
  Full_M [FDec (ex_dec false [1;0;0] None); FDec (ex_dec false [4] (Some [0;0])); FDec (ex_dec false [2] None);
          FDec (ex_dec false [1] None); FDec (ex_dec false [1] None); FInt (ex_int false [5;2]); FInt (ex_int false [7;0]);
          FInt (ex_int false [5]); FInt (ex_int false [0]); FInt (ex_int false [1]); FInt (ex_int false [9]); FInt (ex_int false [9])] [].
Definition ex_G : record :=
  Full_G [FDec (ex_dec false [7] None); FDec (ex_dec false [0] None); FInt (ex_int false [2;0;2;1]);
           FInt (ex_int false [3]); FInt (ex_int false [4]); FInt (ex_int false [5]); FInt (ex_int false [6]);
           FDec (ex_dec false [7] None); FDec (ex_dec false [4;3] (Some [6])); FDec (ex_dec true [1;1;6] (Some []))] [].
Definition ex_file (gpsp : bool) (ms : list Z) (a : intlit) (e : bytes) : raw :=
  mkraw [Other (b "#GemCSV1.10"); Other (b "S,128")] (ex_dec false ms None) a
        ([Compact1 3 []; ex_M] ++ (if gpsp then [ex_G] else []) ++ [Compact2 1 (-5) []; Full_D (ex_dec false [9;9] (Some [5])) (ex_int false [2]) []]) e.
Definition ex_files : list raw :=
  [ex_file false [5] (ex_int false [1]) [10]; ex_file true [1;0] (ex_int false [4;0]) [13;10];
   ex_file false [2;0] (ex_int true [3]) [10]; ex_file true [3;0] (ex_int false [8]) [10]; ex_file true [4;0] (ex_int false [9]) [10]].
Definition ex_fmt (_ : bytes) : option string := Some "1.10"%string.
Definition no_reader (_ : bytes) (_ : bool) : res (list drow) := inr OtherExn.

Ltac solve_logged :=
  repeat match goal with
  | |- _ /\ _ => split
  | |- stops [] => left; reflexivity
  | |- Forall2 _ _ _ => constructor
  | |- field_ok _ _ => simpl
  | |- dec_ok _ => unfold dec_ok; simpl
  | |- int_ok _ => unfold int_ok, int_value; simpl
  | |- all_digits _ => repeat constructor
  | |- _ <> [] => discriminate
  | |- letter _ => unfold letter
  | |- ~ In _ _ => let H := fresh in intros H; vm_compute in H; repeat (destruct H as [H|H]; [discriminate H|]); exact H
  | |- (_ <= _)%nat => vm_compute; lia
  | _ => first [lia|reflexivity|exact I]
  end.

Lemma ex_wf g ms a e : (e = [10] \/ e = [13; 10]) -> In ms [[5]; [1;0]; [2;0]; [3;0]; [4;0]] -> In a [ex_int false [1]; ex_int false [4;0]; ex_int true [3]; ex_int false [8]; ex_int false [9]] ->
  well_formed (ex_file g ms a e).
Proof.
  intros E Hm Ha. split; [exact E|]. split.
  { apply Forall_cons; [exists (b "#GemCSV1.10"); split; [reflexivity|]; exists 35; split; [now left|lia]|].
    apply Forall_cons; [exists (b "S,128"); split; [reflexivity|]; exists 83; split; [now left|lia]|]. constructor. }
  assert (Hm' : dec_ok (ex_dec false ms None) /\ (length ms <= 2)%nat).
  { cbn in Hm. repeat destruct Hm as [<-|Hm]; try destruct Hm; (split; [split; [discriminate|split; unfold all_digits; apply Forall_forall; intros x X; cbn in X; lia]|cbn; lia]). }
  assert (Ha' : int_ok a /\ -100 <= int_value a <= 100 /\ (length (idig a) <= 2)%nat).
  { cbn in Ha. repeat destruct Ha as [<-|Ha]; try destruct Ha;
      (split; [split; [discriminate|split; [unfold all_digits; apply Forall_forall; intros x X; cbn in X; lia|vm_compute; split; [discriminate|reflexivity]]]|
               split; [vm_compute; split; discriminate|cbn; lia]]). }
  split; [|split].
  - unfold lines_of, ex_file. cbn [hdr first_ms first_counts body]. destruct g; cbn [app]; repeat apply Forall_cons; try apply Forall_nil;
    try (unfold logged, ex_M, ex_G; cbn [record_ok]; solve_logged; fail).
    all: destruct Hm' as (D & Lm), Ha' as (Io & _ & La); split; [split; [exact D|split; [exact Io|now left]]|]; cbn [record_text]; rewrite line_D_shape.
    all: assert (R : forall x, In x ((68 :: dec_text (ex_dec false ms None)) ++ 44 :: int_text a) -> 44 <= x <= 68)
           by (intros x X; apply in_app_or in X as [[X|X]|[X|X]]; try lia; [apply (field_nonzero Clf (FDec _) D) in X; lia|apply (field_nonzero Cd (FInt a) Io) in X; lia]).
    all: split; [intros X; apply R in X; lia|]; split; [intros X; apply R in X; lia|].
    all: rewrite app_length; cbn [length]; unfold dec_text, int_text, digit_text, sign_text; cbn [dneg dint dfrac ex_dec]; rewrite !app_length, !map_length; destruct (ineg a); cbn [length]; lia.
  - destruct g; reflexivity.
  - destruct Ha' as (_ & B & _). unfold lines_of, ex_file. cbn [hdr first_ms first_counts body].
    destruct g; cbn [app readings counts ex_M ex_G]; change (int_value (ex_int false [2])) with 2; repeat constructor; unfold in_range; lia.
Qed.

Example C32_case :
  Forall well_formed ex_files /\ Forall (fun f => exists v, ex_fmt (content f) = Some v /\ difference_coded v) ex_files /\
  Forall (fun f => line_count [f] <= 65519999) ex_files /\ line_count ex_files <= 65519999 /\
  map has_gps ex_files = [false; true; false; true; true] /\
  exists c1 c2, gem_cat ex_fmt (last_adc dec_scanner [] false no_reader no_reader) (Some (b "128")) false (map content ex_files) =
    ([(b "FILE0000.128", c1); (b "FILE0001.128", c2)], true) /\
  (exists pre post, c1 = pre ++ b "D20,-43" ++ [10; 112; 10] ++ post) /\
  exists tab, read_single dec_scanner [] false (no_reader c1) (no_reader c1) (Some c1) "1.10" 0 true = inl tab /\
    map (fun s => option_map Qred (snd s)) (data tab) =
      map (fun z => Some (inject_Z z)) [40; 43; 38; 40; -3; 0; -5; -3; 8; 11; 6; 8].
Proof.
  split; [repeat apply Forall_cons; try apply Forall_nil; apply ex_wf; cbn; tauto|].
  split; [repeat apply Forall_cons; try apply Forall_nil; exists "1.10"%string; cbn; auto|].
  split; [repeat apply Forall_cons; try apply Forall_nil; vm_compute; discriminate|]. split; [vm_compute; discriminate|]. split; [reflexivity|].
  eexists _, _. split; [vm_compute; reflexivity|]. split.
  - match goal with |- exists pre post, ?c = _ => exists (firstn 111 c), (skipn 121 c) end. vm_compute. reflexivity.
  - eexists. split; vm_compute; reflexivity.
Qed.

(** Files of the earlier formats hold readings, not differences: their lines from the first D line on are appended as
    they are, an unfinished last line [z] included. *)
Theorem C32_earlier_formats fmt last p h d r e z o v :
  let f := concat (map (fun l : bytes => l ++ e) (h ++ (68 :: d) :: r)) ++ z in
  ~ In 10 z -> ~ In 13 z -> fmt f = Some v -> ~ In v ["0.85C"; "0.9"; "0.91"; "1.10"]%string ->
  e = [10] \/ e = [13; 10] -> Forall (fun l => ~ In 10 l /\ ~ In 13 l) (h ++ (68 :: d) :: r) ->
  Forall (fun l => exists c, In c l /\ c <> 32) h -> Forall (fun l => forall l', l <> 68 :: l') h ->
  append fmt last p f o = Some (o ++ concat (map (fun l => l ++ [10]) ((68 :: d) :: r)) ++ z).
Proof.
  intros f Z1 Z2 Ff V E N B D. unfold append, append_file. rewrite Ff.
  replace (existsb (String.eqb v) new_formats) with false.
  2:{ symmetry. apply not_true_iff_false. intros X. apply existsb_exists in X as (w & I & X). apply String.eqb_eq in X as ->. exact (V I). }
  set (zl := match z with [] => [] | _ => [(z, false)] end).
  assert (Tz : text_lines z = zl).
  { unfold zl. clear - Z1 Z2. induction z as [|c z IH]; [reflexivity|]. cbn [text_lines].
    destruct (Z.eqb_spec c 10) as [->|]; [exfalso; apply Z1; now left|]. destruct (Z.eqb_spec c 13) as [->|]; [exfalso; apply Z2; now left|].
    rewrite IH; [destruct z; reflexivity|intros X; apply Z1; now right|intros X; apply Z2; now right]. }
  assert (Wz : concat (map write_line zl) = z).
  { unfold zl. destruct z; [reflexivity|]. cbn [map concat]. unfold write_line. cbn [fst snd]. now rewrite !app_nil_r. }
  assert (T : text_lines f = map (fun l => (l, true)) (h ++ (68 :: d) :: r) ++ zl).
  { unfold f. clear - E N Tz. induction N as [|l ls [N1 N2] N IH]; [exact Tz|]. cbn [map concat]. rewrite <- !app_assoc, text_lines_line by assumption. now rewrite IH. }
  clearbody zl.
  assert (Fd : find_D (text_lines f) = Some (length h, 68 :: d)).
  { rewrite T. clear - B D. induction h as [|l h IH]; [reflexivity|]. inversion B as [|? ? (c & I & C) B']; inversion D as [|? ? Dl D']; subst.
    cbn [map app find_D first_nonblank].
    assert (blank l = false) as ->.
    { apply not_true_iff_false. intros X. unfold blank in X. rewrite forallb_forall in X. specialize (X c I). apply Z.eqb_eq in X. congruence. }
    assert (starts 68 l = false) as ->.
    { destruct l as [|x l]; [reflexivity|]. cbn. apply Z.eqb_neq. intros ->. exact (Dl l eq_refl). }
    rewrite IH by assumption. reflexivity. }
  rewrite Fd. f_equal. f_equal. rewrite T, map_app, <- app_assoc, skipn_app, skipn_all2 by (rewrite map_length; lia).
  rewrite map_length, Nat.sub_diag. cbn [app skipn].
  transitivity (concat (map write_line (map (fun l => (l, true)) ((68 :: d) :: r) ++ zl)) : bytes); [reflexivity|]. rewrite (map_app write_line), concat_app, Wz. f_equal. rewrite map_map. reflexivity.
Qed.
Example C32_earlier_case :
  append (fun _ => Some "0.8"%string) (fun _ _ => None) [] (b "#GemCSV0.8" ++ [13; 10] ++ b "M,1" ++ [13; 10] ++ b "D1,5" ++ [13; 10] ++ b "G,2" ++ [13; 10] ++ b "D2") (b "D0,7" ++ [10]) =
  Some (b "D0,7" ++ [10] ++ b "D1,5" ++ [10] ++ b "G,2" ++ [10] ++ b "D2").
Proof. vm_compute. reflexivity. Qed.

(** * What does not hold *)
Notation ex_adc := (last_adc dec_scanner [] false no_reader no_reader).
Definition ex_read (c : bytes) : option (list (option Q)) :=
  match read_single dec_scanner [] false (no_reader c) (no_reader c) (Some c) "1.10" 0 false with
  | inl tab => Some (map (fun s => option_map Qred (snd s)) (data tab))
  | inr _ => None
  end.
Definition ex_Mline : bytes := b "M,1,4,2,1,1,52,70,5,0,1,9,9" ++ [10].
Definition nl : bytes := [10].

(** Format '0.91' is one of the formats [AppendFile] distinguishes, but appending such a file always fails. *)
Theorem C32_version_091_refuted sc buf0 ear pandas pandas08 fmt p f o : fmt f = Some "0.91"%string ->
  append fmt (last_adc sc buf0 ear pandas pandas08) p f o = None.
Proof.
  intros F. unfold append, append_file. rewrite F. cbn [existsb new_formats String.eqb Ascii.eqb Bool.eqb orb].
  assert (X : last_adc sc buf0 ear pandas pandas08 p "0.91" = None).
  { unfold last_adc. destruct (read_single _ _ _ _ _ _ _ _ _) as [tab|] eqn:R; [|reflexivity]. now apply C13_version_091_refuted in R. }
  vm_compute existsb. cbv iota. now rewrite X.
Qed.

(** A file whose last line is incomplete (power loss): the first appended line is glued to it. *)
Theorem C32_incomplete_last_line_refuted : exists p f c, append ex_fmt ex_adc p f p = Some c /\
  ex_read p = Some [Some 40%Q; Some 43%Q] /\ ex_read f = Some [Some 45%Q; Some 46%Q] /\
  ex_read c = Some [Some 40%Q; Some 43%Q; Some 44%Q].
Proof.
  exists (b "#GemCSV1.10" ++ nl ++ ex_Mline ++ b "D10,40" ++ nl ++ b "D20,3"), (b "#GemCSV1.10" ++ nl ++ ex_Mline ++ b "D30,45" ++ nl ++ b "n" ++ nl).
  eexists. split; [vm_compute; reflexivity|]. repeat split; vm_compute; reflexivity.
Qed.

(** A blank line just before the first D line: the first sample is written twice. *)
Theorem C32_blank_line_refuted : exists p f c, append ex_fmt ex_adc p f p = Some c /\
  ex_read p = Some [Some 40%Q] /\ ex_read f = Some [Some 45%Q] /\ ex_read c = Some [Some 40%Q; Some 45%Q; Some 90%Q].
Proof.
  exists (b "#GemCSV1.10" ++ nl ++ ex_Mline ++ b "D10,40" ++ nl), (b "#GemCSV1.10" ++ nl ++ ex_Mline ++ nl ++ b "D30,45" ++ nl).
  eexists. split; [vm_compute; reflexivity|]. repeat split; vm_compute; reflexivity.
Qed.

(** Lines before the first D line are lost, GPS fixes included. *)
Theorem C32_lines_before_D_refuted : exists p f c, append ex_fmt ex_adc p f p = Some c /\ has_G_line f /\ ~ has_G_line c.
Proof.
  exists (b "#GemCSV1.10" ++ nl ++ ex_Mline ++ b "D10,40" ++ nl), (b "#GemCSV1.10" ++ nl ++ b "G,7,0,2021,3,4,5,6,7,43,-116" ++ nl ++ b "D30,45" ++ nl).
  eexists. split; [vm_compute; reflexivity|]. rewrite <- !G_line_bytes. split; [vm_compute; reflexivity|vm_compute; discriminate].
Qed.

(** A previous file without metadata cannot be continued. *)
Theorem C32_no_metadata_refuted : exists p f, append ex_fmt ex_adc p f p = None.
Proof.
  exists (b "#GemCSV1.10" ++ nl ++ b "D10,40" ++ nl), (b "#GemCSV1.10" ++ nl ++ b "D30,45" ++ nl). vm_compute. reflexivity.
Qed.

Example C31_case :
  exists outs, gem_cat ex_fmt ex_adc (Some (b "128")) false (map content ex_files) = (outs, true) /\ length outs = 2%nat /\
  exists outs', gem_cat ex_fmt ex_adc (Some (b "128")) true (map content ex_files) = (outs', true) /\ map fst outs' = [b "FILE9999.128"].
Proof. eexists. split; [vm_compute; reflexivity|]. split; [reflexivity|]. eexists. split; vm_compute; reflexivity. Qed.

Print Assumptions C31_partition.
Print Assumptions C31_grouping_unique.
Print Assumptions C31_every_output_has_gps.
Print Assumptions C31_empty_file.
Print Assumptions C31_cat_all.
Print Assumptions C32_earlier_formats.
Print Assumptions C32_merged_content.
Print Assumptions C32_merged_samples.
Print Assumptions C32_version_091_refuted.
Print Assumptions C32_incomplete_last_line_refuted.
Print Assumptions C32_blank_line_refuted.
Print Assumptions C32_lines_before_D_refuted.
Print Assumptions C32_no_metadata_refuted.
