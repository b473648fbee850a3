(** Proofs about [gem_cat]. *)
From Coq Require Import String.
From Coq Require Import ZArith QArith List Bool Lia Lqa.
From Verif Require Import Lib Base Scan Parser ParserSpec UnwrapSpec Convert110 Process ProcessSpec NamesSpec GemCat GemCatSpec
  ParserProofs ScanProofs ParserProps Convert110Proofs ProcessProofs ProcessProps NamesProofs.
Import ListNotations.
Open Scope Z_scope.

(** * Lines *)
Lemma text_lines_line l e r : ~ In 10 l -> ~ In 13 l -> e = [10] \/ e = [13; 10] ->
  text_lines (l ++ e ++ r) = (l, true) :: text_lines r.
Proof.
  intros N C E. induction l as [|c l IH].
  - destruct E as [->| ->]; reflexivity.
  - cbn [app text_lines]. destruct (Z.eqb_spec c 10) as [->|]; [exfalso; apply N; now left|].
    destruct (Z.eqb_spec c 13) as [->|]; [exfalso; apply C; now left|].
    rewrite IH; [reflexivity| |]; intros H; [apply N|apply C]; now right.
Qed.

Lemma text_lines_text e rs : (e = [10] \/ e = [13; 10]) ->
  Forall logged rs -> text_lines (text e rs) = map (fun r => (record_text r, true)) rs.
Proof.
  intros E. induction 1 as [|r rs (_ & N & C & _) H IH]; [reflexivity|].
  unfold text. cbn [map concat]. rewrite <- app_assoc, text_lines_line by assumption. fold (text e rs). now rewrite IH.
Qed.

Lemma text_app e r1 r2 : text e (r1 ++ r2) = text e r1 ++ text e r2.
Proof. unfold text. now rewrite map_app, concat_app. Qed.

Lemma write_lines rs : concat (map write_line (map (fun r => (record_text r, true)) rs)) = text [10] rs.
Proof. unfold text. rewrite map_map. reflexivity. Qed.

(** * Finding the first D line *)
Lemma header_not_D r : header r -> logged r -> blank (record_text r) = false /\ starts 68 (record_text r) = false.
Proof.
  intros (l & -> & c & I & N) (K & _). cbn [record_text record_ok] in *. split.
  - destruct (blank l) eqn:B; [|reflexivity]. unfold blank in B. rewrite forallb_forall in B. specialize (B c I).
    apply Z.eqb_eq in B. congruence.
  - destruct l as [|x l]; [destruct I|]. cbn [starts]. destruct (Z.eqb_spec x 68) as [->|]; [discriminate|reflexivity].
Qed.

Lemma line_D_shape ms a : line_D ms a [] = (68 :: dec_text ms) ++ 44 :: int_text a.
Proof. unfold line_D. rewrite join_cons. cbn [field_text join]. now rewrite app_nil_r. Qed.

Lemma find_first_D h ms a r : Forall header h -> Forall logged h ->
  find_D (map (fun r => (record_text r, true)) (h ++ Full_D ms a [] :: r)) = Some (length h, record_text (Full_D ms a [])).
Proof.
  induction 1 as [|x h Hx H IH]; intros L.
  - reflexivity.
  - inversion L as [|? ? Lx L']; subst. destruct (header_not_D x Hx Lx) as [B S].
    cbn [map app find_D first_nonblank]. rewrite B, S, (IH L'). reflexivity.
Qed.

Lemma dec_no_comma ms : dec_ok ms -> ~ In 44 (dec_text ms).
Proof.
  intros H I. apply (field_nonzero Clf (FDec ms) H 44) in I. lia.
Qed.

Lemma split_D ms a : dec_ok ms -> int_ok a -> split_comma (line_D ms a []) = [68 :: dec_text ms; int_text a].
Proof.
  intros M A. rewrite line_D_shape. rewrite split_comma_app.
  - rewrite split_comma_none by now apply int_no_comma. reflexivity.
  - intros [H|H]; [lia|]. now apply dec_no_comma in H.
Qed.

Lemma py_int_lit a : int_ok a -> py_int (int_text a) = Some (int_value a).
Proof.
  intros (N & D & _). unfold int_text. rewrite <- (app_nil_r (digit_text _)). rewrite py_int_text by auto. cbn [skip_space].
  unfold int_value. f_equal. destruct (ineg a); lia.
Qed.

(** * Numbers written in decimal *)
Definition lit (n : Z) : intlit := {| ineg := n <? 0; idig := digits (Z.abs n) |}.

Lemma value_pos ds : value_of (map (Z.add 48) ds) = pos_value ds.
Proof. induction ds as [|d ds IH]; [reflexivity|]. cbn [map value_of pos_value]. rewrite IH, map_length. lia. Qed.

Lemma lit_spec n : - 2 ^ 31 <= n < 2 ^ 31 -> int_ok (lit n) /\ int_value (lit n) = n /\ int_text (lit n) = str_Z n.
Proof.
  intros B. destruct (digits_spec (Z.abs n) ltac:(lia)) as (c & s & E & F & V & _). rewrite <- E in F, V.
  rewrite value_pos in V.
  assert (V' : int_value (lit n) = n). { unfold int_value, lit. cbn [ineg idig]. rewrite V. destruct (Z.ltb_spec n 0); lia. }
  split; [|split; [exact V'|]].
  - split; [|split; [|rewrite V'; exact B]].
    + cbn [lit idig]. intros X. rewrite X in E. discriminate.
    + cbn [lit idig]. unfold all_digits. rewrite Forall_map in F. eapply Forall_impl; [|exact F]. unfold dig. intros d; cbn beta; lia.
  - unfold int_text, lit, str_Z. cbn [ineg idig]. destruct (Z.ltb_spec n 0).
    + replace (Z.abs n) with (- n) by lia. reflexivity.
    + replace (Z.abs n) with n by lia. reflexivity.
Qed.

Lemma digits_len n : 0 <= n < 2 ^ 31 -> (length (digits n) <= 32)%nat.
Proof.
  intros B. unfold digits. assert (G : forall f m acc, (length (digits_aux f m acc) <= f + length acc)%nat).
  { induction f as [|f IH]; intros m acc; cbn [digits_aux]; [lia|]. destruct (m / 10 =? 0); [cbn [length]; lia|].
    specialize (IH (m / 10) (m mod 10 :: acc)). cbn [length] in IH. lia. }
  specialize (G (S (Z.to_nat (Z.log2 n))) n []). cbn [length] in G.
  assert (Z.log2 n < 31). { destruct (Z.eq_dec n 0) as [->|]; [reflexivity|]. apply Z.log2_lt_pow2; lia. }
  pose proof (Z.log2_nonneg n). lia.
Qed.

(** * Appending one file *)
Definition converted (p : Z) (f : raw) : list record := Full_D (first_ms f) (lit (int_value (first_counts f) - p)) [] :: body f.

Lemma wf_first f : well_formed f -> dec_ok (first_ms f) /\ int_ok (first_counts f) /\ Forall logged (hdr f) /\ Forall logged (body f) /\
  (length (dec_text (first_ms f)) <= 200)%nat.
Proof.
  intros (_ & _ & L & _). unfold lines_of in L. apply Forall_app in L as [Lh L]. inversion L as [|? ? Lf Lb]; subst.
  destruct Lf as ((D & I & _) & _ & _ & Len). cbn [record_text] in Len. rewrite line_D_shape, app_length in Len.
  cbn [length] in Len. split; [exact D|]. split; [exact I|]. split; [exact Lh|]. split; [exact Lb|]. lia.
Qed.

Lemma append_one v p_start p f out : well_formed f -> In v new_formats -> p_start v = Some p ->
  - 2 ^ 31 <= int_value (first_counts f) - p < 2 ^ 31 ->
  append_file (Some v) p_start (content f) out = Some (out ++ text [10] (converted p f)).
Proof.
  intros W V Ps B. destruct (wf_first f W) as (D & I & Lh & Lb & _). destruct W as (E & H & L & _ & _).
  unfold append_file. replace (existsb (String.eqb v) new_formats) with true
    by (symmetry; apply existsb_exists; exists v; split; [exact V|apply String.eqb_refl]).
  unfold content. rewrite text_lines_text by assumption. unfold lines_of at 1. rewrite Ps, find_first_D by assumption.
  cbn [record_text]. rewrite split_D, py_int_lit by assumption.
  destruct (lit_spec _ B) as (_ & _ & T).
  f_equal. f_equal. unfold converted, text. cbn [map concat record_text]. rewrite line_D_shape, T. rewrite <- !app_assoc. cbn [app]. f_equal. f_equal. f_equal.
  unfold lines_of. rewrite map_app, skipn_app, skipn_all2 by (rewrite map_length; lia).
  rewrite map_length. replace (S (length (hdr f)) - length (hdr f))%nat with 1%nat by lia. cbn [map skipn app].
  now rewrite write_lines.
Qed.

(** * Readings *)
Fixpoint sums (p : Z) (ds : list Z) : list Z := match ds with [] => [] | d :: r => p + d :: sums (p + d) r end.
Fixpoint some_counts (rs : list record) : list Z :=
  match rs with [] => [] | r :: l => match counts r with Some d => d :: some_counts l | None => some_counts l end end.
Definition final (p : Z) (rs : list record) : Z := last (readings p rs) p.

Lemma readings_sums rs : forall p, readings p rs = sums p (some_counts rs).
Proof. induction rs as [|r rs IH]; intros p; [reflexivity|]. cbn [readings some_counts]. destruct (counts r); cbn [sums]; now rewrite IH. Qed.

Lemma last_default {A} (l : list A) x y : l <> [] -> last l x = last l y.
Proof. induction l as [|a l IH]; [congruence|]. intros _. destruct l; [reflexivity|]. cbn [last] in *. apply IH. discriminate. Qed.

Lemma readings_app r1 r2 : forall p, readings p (r1 ++ r2) = readings p r1 ++ readings (final p r1) r2.
Proof.
  unfold final. induction r1 as [|r r1 IH]; intros p; [reflexivity|]. cbn [app readings]. destruct (counts r) as [d|]; [|apply IH].
  rewrite IH. cbn [app]. f_equal. f_equal. f_equal. destruct (readings (p + d) r1) eqn:E; [reflexivity|]. cbn [last]. destruct l; [reflexivity|]. apply last_default. discriminate.
Qed.

Lemma header_counts h p : Forall header h -> readings p h = [].
Proof. induction 1 as [|r h (l & -> & _) H IH]; [reflexivity|]. exact IH. Qed.

Lemma readings_lines f : well_formed f -> readings 0 (lines_of f) = int_value (first_counts f) :: readings (int_value (first_counts f)) (body f).
Proof.
  intros (_ & H & _). unfold lines_of. rewrite readings_app. unfold final. rewrite header_counts by assumption. reflexivity.
Qed.

Lemma readings_converted p f : well_formed f -> - 2 ^ 31 <= int_value (first_counts f) - p < 2 ^ 31 ->
  readings p (converted p f) = readings 0 (lines_of f).
Proof.
  intros W B. rewrite readings_lines by assumption. unfold converted. cbn [readings counts].
  destruct (lit_spec _ B) as (_ & -> & _). replace (p + (int_value (first_counts f) - p)) with (int_value (first_counts f)) by lia. reflexivity.
Qed.

Lemma last_in_range f : well_formed f -> in_range (last_reading f).
Proof.
  intros W. pose proof W as (_ & _ & _ & _ & R). unfold last_reading. rewrite readings_lines in R |- * by assumption.
  rewrite Forall_forall in R. apply R. destruct (exists_last (l := int_value (first_counts f) :: readings (int_value (first_counts f)) (body f)) ltac:(discriminate)) as (l & x & E).
  rewrite E, last_last. apply in_or_app. right. now left.
Qed.

Lemma first_in_range f : well_formed f -> in_range (int_value (first_counts f)).
Proof. intros W. pose proof W as (_ & _ & _ & _ & R). rewrite readings_lines in R by assumption. now inversion R. Qed.

Lemma difference_fits f g : well_formed f -> well_formed g -> - 2 ^ 31 <= int_value (first_counts g) - last_reading f < 2 ^ 31.
Proof. intros F G. pose proof (last_in_range f F). pose proof (first_in_range g G). unfold in_range in *. lia. Qed.

(** * Line ends *)
Definition add_cr (e : bytes) (r : record) : record :=
  let c := match e with 13 :: _ => [13] | _ => [] end in
  match r with
  | Full_D ms a t => Full_D ms a (t ++ c)
  | Full_G fs t => Full_G fs (t ++ c)
  | Full_M fs t => Full_M fs (t ++ c)
  | Compact2 x y t => Compact2 x y (t ++ c)
  | Compact1 x t => Compact1 x (t ++ c)
  | Other l => Other (l ++ c)
  end.

Lemma add_cr_text e r : record_text (add_cr e r) = record_text r ++ match e with 13 :: _ => [13] | _ => [] end.
Proof.
  destruct r; cbn [add_cr record_text]; unfold line_D, line_G, line_M; rewrite ?app_comm_cons, ?app_assoc; reflexivity.
Qed.

Lemma text_add_cr e rs : (e = [10] \/ e = [13; 10]) -> text e rs = text [10] (map (add_cr e) rs).
Proof.
  intros E. unfold text. rewrite map_map. f_equal. apply map_ext. intros r. rewrite add_cr_text, <- app_assoc.
  destruct E as [->| ->]; reflexivity.
Qed.

Lemma stops_cr t c : stops t -> c = [] \/ c = [13] -> stops (t ++ c).
Proof.
  intros [->|(x & r & -> & I)] [->| ->]; try (left; reflexivity).
  - right. exists 13, []. split; [reflexivity|simpl; auto].
  - right. exists x, (r ++ []). auto.
  - right. exists x, (r ++ [13]). auto.
Qed.

Lemma add_cr_ok e r : record_ok r -> record_ok (add_cr e r).
Proof.
  assert (C : match e with 13 :: _ => [13] | _ => [] end = [] \/ match e with 13 :: _ => [13] | _ => [] end = [13]).
  { destruct e as [|x e]; [auto|]. destruct (Z.eq_dec x 13) as [->|N]; [auto|]. destruct x; auto. do 4 (destruct p; auto). all: exfalso; apply N; reflexivity. }
  unfold add_cr. set (c := match e with 13 :: _ => [13] | _ => [] end) in *. clearbody c.
  destruct r as [ms a t|fs t|fs t|x y t|x t|l]; cbn [record_ok]; intros H.
  - destruct H as (H1 & H2 & H3). split; [exact H1|]. split; [exact H2|]. now apply stops_cr.
  - destruct H as (H1 & H2). split; [exact H1|]. now apply stops_cr.
  - destruct H as (H1 & H2). split; [exact H1|]. now apply stops_cr.
  - exact H.
  - destruct H as (H1 & H2). split; [exact H1|]. destruct t as [|z t]; [|exact H2]. destruct C as [->| ->]; [exact I|]. cbn [app]. lia.
  - destruct l as [|z l]; [|exact H]. destruct C as [->| ->]; reflexivity.
Qed.

Lemma add_cr_counts e r : counts (add_cr e r) = counts r.
Proof. destruct r; reflexivity. Qed.
Lemma add_cr_readings e rs : forall p, readings p (map (add_cr e) rs) = readings p rs.
Proof. induction rs as [|r rs IH]; intros p; [reflexivity|]. cbn [map readings]. rewrite add_cr_counts. destruct (counts r); now rewrite IH. Qed.
Lemma add_cr_M e rs : existsb is_M (map (add_cr e) rs) = existsb is_M rs.
Proof. induction rs as [|r rs IH]; [reflexivity|]. cbn [map existsb]. rewrite IH. destruct r; reflexivity. Qed.

(** * Reading documented files *)
Lemma text_file rs : text [10] rs = file (map record_text rs) [].
Proof. unfold text, file, unlines. rewrite app_nil_r, map_map. reflexivity. Qed.

Definition fits (r : record) : Prop := record_ok r /\ ok_line (record_text r).

Lemma kind_of_record r : record_ok r ->
  line_kind (record_text r) = match r with Full_D _ _ _ | Compact2 _ _ _ | Compact1 _ _ => Some KD | Full_G _ _ => Some KG | Full_M _ _ => Some KM | Other _ => None end.
Proof.
  destruct r; intros H; cbn [record_text] in *; try reflexivity; try exact H.
  - destruct H as [Hl _]. cbn [line_kind]. unfold letter in Hl. replace ((97 <=? 109 + dev) && (109 + dev <=? 122)) with true; [reflexivity|].
    symmetry. apply andb_true_iff. split; apply Z.leb_le; lia.
  - destruct H as [Hl _]. cbn [line_kind]. unfold letter in Hl. replace ((97 <=? 109 + diff) && (109 + diff <=? 122)) with true; [reflexivity|].
    symmetry. apply andb_true_iff. split; apply Z.leb_le; lia.
Qed.

Lemma kinds_length ls : (length (kinds ls) <= length ls)%nat.
Proof. induction ls as [|l ls IH]; [reflexivity|]. cbn [kinds]. destruct (line_kind l); cbn [length]; lia. Qed.

Lemma kinds_has rs r k : In r rs -> line_kind (record_text r) = Some k -> In k (kinds (map record_text rs)).
Proof.
  intros I K. induction rs as [|x rs IH]; [destruct I|]. cbn [map kinds]. destruct I as [->|I].
  - rewrite K. now left.
  - destruct (line_kind (record_text x)); [right|]; now apply IH.
Qed.

(** Values of the sample rows. *)
Lemma means_counts c rs rows : means c rs rows ->
  Forall2 (fun r d => exists v, rvals r = [v] /\ (v == inject_Z d)%Q) (filter (fun r => kind_eqb (rkind r) KD) rows) (some_counts rs).
Proof.
  induction 1 as [c|c ms a t rs r rows (K & _ & V) _ IH|c f fs t rs r rows (K & _) _ IH|c f fs t rs r rows (K & _) _ IH
                 |c dev diff t rs r rows m _ (K & _ & V) _ IH|c diff t rs r rows m _ (K & _ & V) _ IH|c l rs rows _ IH];
    cbn [filter some_counts counts]; rewrite ?K; cbn [kind_eqb]; try assumption; constructor; auto.
  all: inversion V as [|x y ? ? E N]; subst; inversion N; subst; exists x; split; [reflexivity|exact E].
Qed.

Lemma sums_length ds : forall p, length (sums p ds) = length ds.
Proof. induction ds as [|d ds IH]; intros p; [reflexivity|]. cbn [sums length]. now rewrite IH. Qed.

Lemma sums_correct vs ds : Forall2 (fun v d => exists q, v = Some q /\ (q == inject_Z d)%Q) vs ds ->
  forall out acc p, (acc == inject_Z p)%Q -> length out = length vs ->
  (forall i v, nth_error vs i = Some v ->
     match v with Some _ => exists s, nth_error out i = Some (Some s) /\ (s == acc + total (firstn (S i) vs))%Q | None => nth_error out i = Some None end) ->
  Forall2 (fun o z => exists q, o = Some q /\ (q == inject_Z z)%Q) out (sums p ds).
Proof.
  induction 1 as [|v d vs ds (q & -> & E) F IH]; intros out acc p A L H.
  - destruct out; [constructor|discriminate].
  - destruct out as [|o out]; [discriminate|]. cbn [sums]. constructor.
    + destruct (H O _ eq_refl) as (s & O & V). injection O as ->. exists s. split; [reflexivity|]. rewrite V. cbn [firstn total]. rewrite inject_Z_plus, A, E. ring.
    + apply (IH out (acc + q)%Q (p + d)).
      * rewrite inject_Z_plus, A, E. reflexivity.
      * now injection L.
      * intros i v Hv. specialize (H (S i) v Hv). destruct v; [|exact H]. destruct H as (s & O & V). exists s. split; [exact O|].
        rewrite V. change (firstn (S (S i)) (Some q :: vs)) with (Some q :: firstn (S i) vs). cbn [total]. ring.
Qed.

Lemma rows_from_parse sc buf0 n bs rows : parse_gemfile sc buf0 n bs = Some rows -> rows = rows_of sc buf0 bs.
Proof. intros H. now apply parse_rows_of in H as [-> _]. Qed.

Lemma means_snoc_nil c rs rows : means c (rs ++ [Other []]) rows -> means c rs rows.
Proof.
  revert c rows. induction rs as [|r rs IH]; intros c rows M.
  - inversion M; subst. assumption.
  - cbn [app] in M. inversion M; subst; econstructor; eauto.
Qed.

Lemma read_records sc buf0 ear pandas pandas08 v offset req rs :
  reads_decimal sc -> difference_coded v -> Forall fits rs ->
  some_counts rs <> [] -> existsb is_M rs = true -> Z.of_nat (length rs) <= 65519999 ->
  (forall tab, read_single sc buf0 ear pandas pandas08 (Some (text [10] rs)) v offset req = inl tab -> samples_are tab (readings 0 rs)) /\
  (req = false -> exists tab, read_single sc buf0 ear pandas pandas08 (Some (text [10] rs)) v offset req = inl tab).
Proof.
  intros Hsc V F ND NM B.
  assert (O : Forall ok_line (map record_text rs)) by (apply Forall_map; eapply Forall_impl; [|exact F]; intros r [_ ?]; assumption).
  assert (BK : Z.of_nat (length (kinds (map record_text rs ++ [[]]))) <= 65520000).
  { pose proof (kinds_length (map record_text rs ++ [[]])) as Hk. rewrite app_length, map_length in Hk. cbn [length] in Hk. lia. }
  destruct (retry_lines sc buf0 _ [] O ok_nil BK) as (rows & P & K & Sh). rewrite text_file.
  assert (KDin : In KD (map rkind rows)).
  { rewrite K, kinds_app. cbn. rewrite app_nil_r. clear -F ND. induction F as [|r rs [Hr _] F IH]; [exfalso; now apply ND|].
    cbn [map kinds some_counts] in *. rewrite (kind_of_record r Hr). destruct r; cbn [counts] in ND; try (now left); try (right; now apply IH); now apply IH. }
  assert (KMin : In KM (map rkind rows)).
  { rewrite K, kinds_app. cbn. rewrite app_nil_r. apply existsb_exists in NM as (r & I & M). rewrite Forall_forall in F. destruct (F r I) as [Hr _].
    apply (kinds_has _ r); [exact I|]. rewrite (kind_of_record r Hr). destruct r; try discriminate. reflexivity. }
  assert (Me : means 0 rs rows).
  { apply means_snoc_nil. assert (R : rows = rows_of sc buf0 (file (map record_text rs) [])).
    { unfold parse_retry in P. destruct (parse_gemfile sc buf0 1560000 _) eqn:E; [injection P as <-|]; eapply rows_from_parse; eassumption. }
    rewrite R. apply (file_means sc buf0 rs (Other [])); auto using ok_nil; try reflexivity.
    - eapply Forall_impl; [|exact F]. now intros r [? _].
    - eapply Forall_impl; [|exact F]. now intros r [_ ?]. }
  pose proof (C13_classification sc buf0 ear pandas pandas08 (map record_text rs) [] v offset req O ok_nil BK V) as (_ & _ & C3 & _).
  split.
  - intros tab R. rewrite (cython_decides _ _ _ _ _ _ _ _ _ _ V P KDin KMin) in R.
    unfold read_with_cython in R. rewrite P in R. destruct rows as [|r0 rs0]; [destruct KDin|]. set (rows := r0 :: rs0) in *.
    destruct (negb _ && req); [discriminate|].
    destruct (process ear v offset req (map drow_of rows)) as [out|e] eqn:E; [|discriminate].
    destruct (difference_coded_settings _ V) as [_ St].
    assert (G : gps out = [] -> req = false). { intros G. rewrite G in R. destruct req; [discriminate|reflexivity]. }
    destruct (process_ok _ _ _ _ _ _ _ (correction_known _ _ _ St) E G) as [Co _].
    assert (T : tab = mktab (map (fun p => (fst p + (893 # 100), snd p))%Q (data out)) (metadata out) (gps out)).
    { destruct (gps out), req; congruence. }
    rewrite <- T in Co. destruct Co as (r & clock & _ & Cg & _ & _ & Co). cbv zeta in Co.
    destruct Co as (_ & (vs & Vs & Ru & _) & _). specialize (Ru V). unfold samples_are.
    rewrite <- (Forall2_map_l snd (fun s z => exists q, s = Some q /\ (q == inject_Z z)%Q)).
    rewrite readings_sums. destruct Ru as [Rl Rn].
    apply (sums_correct vs) with (acc := 0%Q).
    + assert (L : length clock = length (map drow_of rows)).
      { apply Forall2_length_eq in Cg. rewrite map_length in Cg. exact Cg. }
      pose proof (of_kind_snd KD clock (map drow_of rows) L) as S. rewrite filter_map in S. cbn [dkind drow_of] in S.
      pose proof (means_counts _ _ _ Me) as Mc.
      set (D := filter (fun r => kind_eqb (rkind r) KD) rows) in *.
      assert (X : Forall2 (fun d v => exists c cs, dcells d = c :: cs /\ holds c v) (map drow_of D) vs).
      { rewrite <- S. apply Forall2_map_l. exact Vs. }
      apply Forall2_map_l in X. clear -X Mc. revert vs X. induction Mc as [|d z D zs (v & E & Q) M IH]; intros vs X; inversion X as [|? w ? ws (c & cs & E1 & H1) X']; subst; constructor; auto.
      cbn [drow_of dcells] in E1. rewrite E in E1. cbn [map] in E1. injection E1 as <- <-. inversion H1; subst. exists v. auto.
    + reflexivity.
    + exact Rl.
    + intros i v0 Hv. specialize (Rn i v0 Hv). destruct v0; [|exact Rn]. destruct Rn as (s & O1 & V1). exists s. split; [exact O1|]. rewrite V1. ring.
  - intros ->. apply C3; [rewrite <- K; exact KDin|rewrite <- K; exact KMin|reflexivity].
Qed.

(** * The loop, for arbitrary files *)
Section Loop.
  Variable fmt_of : bytes -> option string.
  Variable last_of : bytes -> string -> option Z.
  Definition gps (c : bytes) : bool := match gps_lines c with Some g => g | None => false end.

  Fixpoint extend (o p : bytes) (fs : list bytes) : option bytes :=
    match fs with
    | [] => Some o
    | f :: r => match append fmt_of last_of p f o with Some o' => extend o' f r | None => None end
    end.

  Fixpoint numbered (k : Z) (groups : list (list bytes)) (outs : list (Z * bytes)) : Prop :=
    match groups, outs with
    | [], [] => True
    | (f :: r) :: gs, (n, o) :: os => n = k /\ extend f f r = Some o /\ numbered (k + 1) gs os
    | _, _ => False
    end.

  Lemma merge_from files : forall n o p outs,
    merge fmt_of last_of (Some (n, o)) (n + 1) p (gps p) files = (outs, true) ->
    exists tail groups o1 os, files = tail ++ concat groups /\ outs = (n, o1) :: os /\
      extend o p tail = Some o1 /\ numbered (n + 1) groups os /\
      alternating gps (p :: tail) /\ Forall (fun x => exists y l, x = y :: l /\ gps y = true) groups /\
      Forall (alternating gps) groups /\ separated gps ((p :: tail) :: groups).
  Proof.
    induction files as [|f files IH]; intros n o p outs H; cbn [merge] in H.
    - injection H as <-. exists [], [], o, []. simpl. repeat split; constructor.
    - destruct (gps_lines f) as [g|] eqn:G; [|discriminate].
      assert (Gf : gps f = g) by (unfold gps; now rewrite G).
      destruct (g && gps p) eqn:B.
      + apply andb_true_iff in B as [-> Bp].
        destruct (merge fmt_of last_of (Some (n + 1, f)) (n + 1 + 1) f true files) as [outs' ok] eqn:M. injection H as <- ->.
        pose proof (IH (n + 1) f f outs') as M'. rewrite Gf in M'. apply M' in M as (tail & groups & o1 & os & E1 & E2 & E3 & E4 & E5 & E6 & E7 & E8).
        exists [], ((f :: tail) :: groups), o, outs'. split; [cbn; now rewrite E1|]. split; [reflexivity|]. split; [reflexivity|].
        split; [subst outs'; cbn; auto|]. split; [exact I|]. split; [constructor; [exists f, tail; auto|exact E6]|]. split; [constructor; [exact E5|exact E7]|].
        split; [exists [], p; auto|exact E8].
      + destruct (append fmt_of last_of p f o) as [o'|] eqn:A; [|discriminate].
        pose proof (IH n o' f outs) as M'. rewrite Gf in M'. apply M' in H as (tail & groups & o1 & os & E1 & E2 & E3 & E4 & E5 & E6 & E7 & E8).
        exists (f :: tail), groups, o1, os. split; [cbn; now rewrite E1|]. split; [exact E2|]. split; [cbn [extend]; now rewrite A|].
        split; [exact E4|]. split; [split; [|exact E5]|].
        * intros [X Y]. rewrite X, Gf in *. rewrite Y in B. discriminate.
        * split; [exact E6|]. split; [exact E7|]. destruct groups as [|g0 gs]; [exact I|]. destruct E8 as [(l & y & L & Hy) E8]. split; [|exact E8].
          exists (p :: l), y. cbn [app]. rewrite <- L. auto.
  Qed.

  Lemma merge_none files : forall n p pg outs,
    merge fmt_of last_of None n p pg files = (outs, true) ->
    exists groups, grouping gps files groups /\ numbered n groups outs.
  Proof.
    induction files as [|f files IH]; intros n p pg outs H; cbn [merge] in H.
    - injection H as <-. exists []. split; [exists []; simpl; repeat split; constructor|exact I].
    - destruct (gps_lines f) as [g|] eqn:G; [|discriminate].
      assert (Gf : gps f = g) by (unfold gps; now rewrite G). destruct g.
      + pose proof (merge_from files n f f outs) as M'. rewrite Gf in M'. apply M' in H as (tail & groups & o1 & os & E1 & E2 & E3 & E4 & E5 & E6 & E7 & E8).
        exists ((f :: tail) :: groups). split.
        * exists []. split; [cbn; now rewrite E1|]. split; [constructor|]. split; [constructor; [exists f, tail; auto|exact E6]|]. split; [constructor; assumption|exact E8].
        * subst outs. cbn. auto.
      + apply IH in H as (groups & (sk & E1 & E2 & E3) & N). exists groups. split; [|exact N].
        exists (f :: sk). split; [cbn; now rewrite E1|]. split; [constructor; assumption|exact E3].
  Qed.

  Lemma merge_all_from files : forall o p,
    match extend o p files with
    | Some c => merge_all fmt_of last_of (Some o) p files = (Some c, true)
    | None => snd (merge_all fmt_of last_of (Some o) p files) = false
    end.
  Proof.
    induction files as [|f files IH]; intros o p; cbn [merge_all extend]; [reflexivity|].
    destruct (append fmt_of last_of p f o) as [o'|]; [apply IH|reflexivity].
  Qed.
End Loop.

(** The grouping is determined by which files have GPS lines. *)
Lemma separated_cons {A} (g : A -> bool) x gs : separated g (x :: gs) ->
  (gs = [] \/ exists l y, x = l ++ [y] /\ g y = true) /\ separated g gs.
Proof. destruct gs as [|y gs]; cbn; [auto|]. intros [H1 H2]. auto. Qed.

Lemma separated_tail {A} (g : A -> bool) x y r gs : separated g ((x :: y :: r) :: gs) -> separated g ((y :: r) :: gs).
Proof.
  destruct gs as [|z gs]; [auto|]. intros [(l & w & E & W) H]. split; [|exact H].
  destruct l as [|x' l]; [destruct r; discriminate|]. injection E as -> E. exists l, w. auto.
Qed.

Lemma grouping_tail {A} (g : A -> bool) r1 : forall (x : A) gs1 r2 gs2,
  r1 ++ concat gs1 = r2 ++ concat gs2 ->
  Forall (fun x => exists y l, x = y :: l /\ g y = true) gs1 -> Forall (fun x => exists y l, x = y :: l /\ g y = true) gs2 ->
  Forall (alternating g) gs1 -> Forall (alternating g) gs2 ->
  alternating g (x :: r1) -> alternating g (x :: r2) ->
  separated g ((x :: r1) :: gs1) -> separated g ((x :: r2) :: gs2) -> r1 = r2 /\ gs1 = gs2.
Proof.
  assert (Gen : forall n (r1 : list A) (x : A) gs1 r2 gs2, (length (r1 ++ concat gs1) <= n)%nat ->
    r1 ++ concat gs1 = r2 ++ concat gs2 ->
    Forall (fun x => exists y l, x = y :: l /\ g y = true) gs1 -> Forall (fun x => exists y l, x = y :: l /\ g y = true) gs2 ->
    Forall (alternating g) gs1 -> Forall (alternating g) gs2 ->
    alternating g (x :: r1) -> alternating g (x :: r2) ->
    separated g ((x :: r1) :: gs1) -> separated g ((x :: r2) :: gs2) -> r1 = r2 /\ gs1 = gs2).
  { induction n as [|n IH]; intros q1 x gs1 q2 gs2 L E H1 H2 A1 A2 B1 B2 S1 S2.
    - destruct q1 as [|? ?]; [|cbn in L; lia]. destruct gs1 as [|g1 gs1]; [|inversion H1 as [|? ? (y & l & -> & _)]; subst; cbn in L; lia].
      cbn in E. destruct q2; [|discriminate]. destruct gs2 as [|g2 gs2]; [auto|]. inversion H2 as [|? ? (y & l & -> & _)]; subst. discriminate.
    - destruct q1 as [|y1 q1], q2 as [|y2 q2].
      + destruct gs1 as [|g1 gs1], gs2 as [|g2 gs2]; [auto| | |].
        * inversion H2 as [|? ? (y & l & -> & _)]; subst. discriminate.
        * inversion H1 as [|? ? (y & l & -> & _)]; subst. discriminate.
        * inversion H1 as [|? ? (z1 & l1 & -> & Z1) H1']; subst. inversion H2 as [|? ? (z2 & l2 & -> & Z2) H2']; subst.
          cbn [app concat] in E. injection E as <- E. apply separated_cons in S1 as [_ S1], S2 as [_ S2].
          inversion A1; inversion A2; subst.
          destruct (IH l1 z1 gs1 l2 gs2) as [-> ->]; auto. cbn in L. lia.
      + exfalso. destruct gs1 as [|g1 gs1]; [discriminate|]. inversion H1 as [|? ? (z1 & l1 & -> & Z1) H1']; subst.
        cbn [app concat] in E. injection E as <- E. apply separated_cons in S1 as [[X|(l & w & X & W)] _]; [discriminate|].
        destruct l as [|? l]; [injection X as <-|destruct l; discriminate]. cbn [alternating] in B2. destruct B2 as [B2 _]. apply B2. auto.
      + exfalso. destruct gs2 as [|g2 gs2]; [discriminate|]. inversion H2 as [|? ? (z1 & l1 & -> & Z1) H1']; subst.
        cbn [app concat] in E. injection E as -> E. apply separated_cons in S2 as [[X|(l & w & X & W)] _]; [discriminate|].
        destruct l as [|? l]; [injection X as <-|destruct l; discriminate]. cbn [alternating] in B1. destruct B1 as [B1 _]. apply B1. auto.
      + cbn [app] in E. injection E as <- E. destruct (IH q1 y1 gs1 q2 gs2) as [-> ->]; auto.
        * cbn in L. lia.
        * apply B1.
        * apply B2.
        * eapply separated_tail; exact S1.
        * eapply separated_tail; exact S2. }
  intros. eapply Gen; eauto.
Qed.

Lemma grouping_unique {A} (g : A -> bool) files gs1 gs2 : grouping g files gs1 -> grouping g files gs2 -> gs1 = gs2.
Proof.
  intros (s1 & -> & F1 & H1 & A1 & S1) (s2 & E & F2 & H2 & A2 & S2).
  revert s2 F2 E. induction s1 as [|x s1 IH]; intros s2 F2 E.
  - destruct s2 as [|y s2].
    + cbn in E. destruct gs1 as [|g1 gs1], gs2 as [|g2 gs2]; [auto| | |].
      * inversion H2 as [|? ? (y & l & -> & _)]; subst. discriminate.
      * inversion H1 as [|? ? (y & l & -> & _)]; subst. discriminate.
      * inversion H1 as [|? ? (z1 & l1 & -> & Z1) H1']; subst. inversion H2 as [|? ? (z2 & l2 & -> & Z2) H2']; subst.
        cbn [app concat] in E. injection E as <- E. inversion A1; inversion A2; subst.
        destruct (grouping_tail g l1 z1 gs1 l2 gs2) as [-> ->]; auto.
    + exfalso. destruct gs1 as [|g1 gs1]; [discriminate|]. inversion H1 as [|? ? (z1 & l1 & -> & Z1) H1']; subst.
      cbn in E. injection E as -> E. inversion F2; subst. congruence.
  - inversion F1; subst. destruct s2 as [|y s2].
    + exfalso. destruct gs2 as [|g2 gs2]; [discriminate|]. inversion H2 as [|? ? (z1 & l1 & -> & Z1) H1']; subst.
      cbn in E. injection E as -> E. congruence.
    + cbn in E. injection E as -> E. inversion F2; subst. eauto.
Qed.

(** * Files as the logger writes them *)
Lemma py_trunc_int q z : (q == inject_Z z)%Q -> py_trunc q = z.
Proof.
  intros E. unfold py_trunc. destruct (Qle_bool 0 q) eqn:B.
  - rewrite (Qround.Qfloor_comp _ _ E). apply Qround.Qfloor_Z.
  - assert (E' : (- q == inject_Z (- z))%Q) by (rewrite inject_Z_opp, E; reflexivity).
    rewrite (Qround.Qfloor_comp _ _ E'), Qround.Qfloor_Z. lia.
Qed.

Definition records_of (f : raw) : list record := map (add_cr (eol f)) (lines_of f).

Lemma content_records f : well_formed f -> content f = text [10] (records_of f).
Proof. intros (E & _). unfold content, records_of. now apply text_add_cr. Qed.

Lemma logged_fits e r : logged r -> fits (add_cr e r).
Proof.
  intros (O & N & _ & L). split; [now apply add_cr_ok|]. rewrite add_cr_text. split.
  - intros I. apply in_app_or in I as [I|I]; [auto|]. destruct e as [|x e]; [destruct I|].
    assert (X : match x :: e with 13 :: _ => [13] | _ => [] end = [] \/ match x :: e with 13 :: _ => [13] | _ => [] end = [13]).
    { destruct x; auto. do 4 (destruct p; auto). }
    destruct X as [X|X]; rewrite X in I; [destruct I|destruct I as [I|[]]; lia].
  - rewrite app_length. assert (Nat.le (length (match e with 13 :: _ => [13] | _ => [] end)) 1).
    { destruct e as [|x e]; [cbn; lia|]. destruct x; cbn; try lia. do 4 (destruct p; cbn; try lia). }
    lia.
Qed.

Lemma logged_fits' r : logged r -> fits r.
Proof. intros (O & N & _ & L). split; [exact O|]. split; [exact N|lia]. Qed.

Lemma records_fit f : well_formed f -> Forall fits (records_of f).
Proof. intros (_ & _ & L & _). apply Forall_map. eapply Forall_impl; [|exact L]. intros r. apply logged_fits. Qed.

Lemma counts_readings rs p : readings p rs <> [] -> some_counts rs <> [].
Proof. rewrite readings_sums. intros H E. rewrite E in H. now apply H. Qed.

Lemma records_readings f p : readings p (records_of f) = readings p (lines_of f).
Proof. apply add_cr_readings. Qed.

Lemma records_M f : well_formed f -> existsb is_M (records_of f) = true.
Proof.
  intros (_ & _ & _ & M & _). unfold records_of. rewrite add_cr_M. unfold lines_of. rewrite existsb_app. cbn [existsb is_M].
  rewrite M. cbn. apply orb_true_r.
Qed.

Lemma map_last {A B} (f : A -> B) l d : last (map f l) (f d) = f (last l d).
Proof. induction l as [|x l IH]; [reflexivity|]. cbn [map last]. destruct l; [reflexivity|]. exact IH. Qed.

Lemma Forall2_last {A B} (R : A -> B -> Prop) l m a c : l <> [] -> Forall2 R l m -> R (last l a) (last m c).
Proof.
  intros N F. induction F as [|x y l m H F IH]; [congruence|].
  destruct l as [|x' l]; inversion F; subst; [exact H|]. cbn [last] in *. apply IH. discriminate.
Qed.

Fixpoint joined (p : raw) (fs : list raw) : list record :=
  match fs with [] => [] | f :: r => converted (last_reading p) f ++ joined f r end.

Lemma line_count_one f fs : In f fs -> line_count [f] <= line_count fs.
Proof.
  intros I. unfold line_count. cbn [map concat]. rewrite app_nil_r. induction fs as [|x fs IH]; [destruct I|].
  cbn [map concat]. rewrite app_length. destruct I as [->|I]; [lia|]. specialize (IH I). lia.
Qed.

Lemma blank_line_kind l : blank l = true -> starts 71 l = false.
Proof. destruct l as [|c l]; [reflexivity|]. cbn [blank forallb starts]. rewrite andb_true_iff. intros [H _]. apply Z.eqb_eq in H. subst. reflexivity. Qed.

Lemma starts_G r : record_ok r -> starts 71 (record_text r) = is_G r.
Proof.
  intros H. pose proof (kind_of_record r H) as K. destruct r; cbn [is_G]; try reflexivity; cbn [record_text] in *.
  - destruct H as [Hl _]. unfold letter in Hl. cbn [starts]. apply Z.eqb_neq. lia.
  - destruct H as [Hl _]. unfold letter in Hl. cbn [starts]. apply Z.eqb_neq. lia.
  - destruct l as [|c l]; [reflexivity|]. cbn [starts]. destruct (Z.eqb_spec c 71) as [->|]; [discriminate|reflexivity].
Qed.

Lemma gps_good f : well_formed f -> gps_lines (content f) = Some (has_gps f).
Proof.
  intros W. destruct (wf_first f W) as (D & I & Lh & Lb & _). destruct W as (E & H & L & _).
  unfold gps_lines, content. rewrite text_lines_text by assumption. rewrite filter_map. cbn [fst].
  set (keep := filter (fun x => negb (blank (record_text x))) (lines_of f)).
  assert (NE : In (Full_D (first_ms f) (first_counts f) []) keep).
  { apply filter_In. split; [apply in_or_app; right; now left|]. reflexivity. }
  assert (X : existsb (fun p => starts 71 (fst p)) (map (fun r => (record_text r, true)) keep) = has_gps f).
  { unfold keep, has_gps. clear NE keep D I Lh Lb H. induction L as [|r rs (O & _) L IH]; [reflexivity|].
    cbn [filter existsb]. destruct (blank (record_text r)) eqn:B; cbn [negb].
    - rewrite IH, <- (starts_G r O), (blank_line_kind _ B). reflexivity.
    - cbn [map existsb fst]. rewrite IH, (starts_G r O). reflexivity. }
  destruct keep as [|k ks]; [destruct NE|]. rewrite <- X. reflexivity.
Qed.

Lemma gps_content f : well_formed f -> gps (content f) = has_gps f.
Proof. intros W. unfold gps. now rewrite gps_good. Qed.

Lemma grouping_raw fs gs : Forall well_formed fs -> grouping gps (map content fs) gs ->
  exists groups, grouping has_gps fs groups /\ gs = map (map content) groups.
Proof.
  assert (Split : forall l1 l2 (fs : list raw), map content fs = l1 ++ l2 -> exists f1 f2, fs = f1 ++ f2 /\ map content f1 = l1 /\ map content f2 = l2).
  { intros l1. induction l1 as [|x l1 IH]; intros l2 q E.
    - exists [], q. auto.
    - destruct q as [|f q]; [discriminate|]. injection E as <- E. destruct (IH _ _ E) as (f1 & f2 & -> & <- & <-). exists (f :: f1), f2. auto. }
  assert (Conc : forall gs (fs : list raw), map content fs = concat gs -> exists groups, fs = concat groups /\ gs = map (map content) groups).
  { induction gs0 as [|g gs0 IH]; intros q E.
    - destruct q; [|discriminate]. exists []. auto.
    - cbn in E. apply Split in E as (f1 & f2 & -> & <- & E). apply IH in E as (groups & -> & ->). exists (f1 :: groups). auto. }
  intros W (sk & E & F & H & A & Se). apply Split in E as (f1 & f2 & -> & <- & E). apply Conc in E as (groups & -> & ->).
  apply Forall_app in W as [W1 W2]. exists groups. split; [|reflexivity]. exists f1. split; [reflexivity|].
  assert (WG : Forall (Forall well_formed) groups) by (now apply Forall_concat).
  split; [|split; [|split]].
  - rewrite Forall_map in F. clear -F W1. induction F; inversion W1; subst; constructor; auto. now rewrite <- gps_content.
  - rewrite Forall_map in H. clear -H WG. induction H as [|g gs (y & l & E & Y) H IH]; inversion WG as [|? ? Wg WG']; subst; constructor; auto.
    destruct g as [|f g]; [discriminate|]. injection E as <- <-. inversion Wg; subst. exists f, g. split; [reflexivity|]. now rewrite <- gps_content.
  - rewrite Forall_map in A. clear -A WG. induction A as [|g gs Ag A IH]; inversion WG as [|? ? Wg WG']; subst; constructor; auto.
    clear -Ag Wg. induction g as [|x g IH]; [exact I|]. destruct g as [|y g]; [exact I|]. cbn [map alternating] in *. inversion Wg as [|? ? Wx Wg']; subst.
    destruct Ag as [N Ag]. split; [|now apply IH]. inversion Wg'; subst. now rewrite !gps_content in N.
  - clear -Se WG Split. induction groups as [|g gs IH]; [exact I|]. inversion WG as [|? ? Wg WG']; subst. destruct gs as [|g' gs]; [exact I|].
    cbn [map separated] in *. destruct Se as [(l & y & E & Y) Se]. split; [|now apply IH].
    apply Split in E as (f1 & f2 & -> & <- & E2). destruct f2 as [|f [|? ?]]; try discriminate. injection E2 as <-. exists f1, f. split; [reflexivity|].
    apply Forall_app in Wg as [_ Wg]. inversion Wg; subst. now rewrite <- gps_content.
Qed.

Lemma converted_fits p f : well_formed p -> well_formed f -> Forall fits (converted (last_reading p) f).
Proof.
  intros Wp Wf. destruct (wf_first f Wf) as (D & I & Lh & Lb & Len). unfold converted. constructor.
  - pose proof (difference_fits p f Wp Wf) as Df. destruct (lit_spec _ Df) as (Io & Iv & It). split.
    + cbn [record_ok]. split; [exact D|]. split; [exact Io|]. now left.
    + cbn [record_text]. rewrite line_D_shape. split.
      * intros X. apply in_app_or in X as [[X|X]|[X|X]]; try lia.
        -- apply (field_nonzero Clf (FDec (first_ms f)) D) in X. lia.
        -- apply (field_nonzero Cd (FInt (lit (int_value (first_counts f) - last_reading p))) Io) in X. lia.
      * rewrite app_length. cbn [length]. unfold int_text, lit, digit_text, sign_text. cbn [ineg idig]. rewrite app_length, map_length.
        set (z := int_value (first_counts f) - last_reading p) in *.
        assert (length (digits (Z.abs z)) <= 32)%nat.
        { destruct (Z.eq_dec (Z.abs z) (2 ^ 31)) as [->|]; [vm_compute; lia|]. apply digits_len. lia. }
        destruct (z <? 0); cbn [length]; lia.
  - eapply Forall_impl; [|exact Lb]. apply logged_fits'.
Qed.

Lemma joined_fits fs : forall p, well_formed p -> Forall well_formed fs -> Forall fits (joined p fs).
Proof.
  induction fs as [|f fs IH]; intros p Wp W; [constructor|]. inversion W; subst. cbn [joined]. apply Forall_app. split; [now apply converted_fits|auto].
Qed.

Lemma joined_readings fs : forall p, well_formed p -> Forall well_formed fs ->
  readings (last_reading p) (joined p fs) = concat (map (fun f => readings 0 (lines_of f)) fs).
Proof.
  induction fs as [|f fs IH]; intros p Wp W; [reflexivity|]. inversion W; subst. cbn [joined map concat]. rewrite readings_app.
  rewrite readings_converted by auto using difference_fits. f_equal.
  unfold final. rewrite readings_converted by auto using difference_fits.
  rewrite (last_default _ _ 0) by (rewrite readings_lines by assumption; discriminate). now apply IH.
Qed.

Lemma group_readings f fs : well_formed f -> Forall well_formed fs ->
  readings 0 (records_of f ++ joined f fs) = concat (map (fun f => readings 0 (lines_of f)) (f :: fs)).
Proof.
  intros Wf W. rewrite readings_app. cbn [map concat]. rewrite records_readings. f_equal.
  unfold final. rewrite records_readings. now apply joined_readings.
Qed.

Lemma joined_length fs : forall p, (length (joined p fs) <= length (concat (map lines_of fs)))%nat.
Proof.
  induction fs as [|f fs IH]; intros p; [reflexivity|]. cbn [joined map concat]. rewrite !app_length. specialize (IH f).
  unfold converted, lines_of at 1. rewrite app_length. cbn [length]. lia.
Qed.

Lemma joined_continued fs : forall p, well_formed p -> Forall well_formed fs -> continued (last_reading p) fs (text [10] (joined p fs)).
Proof.
  induction fs as [|f fs IH]; intros p Wp W; [constructor|]. inversion W; subst. cbn [joined]. rewrite text_app.
  destruct (lit_spec _ (difference_fits p f Wp ltac:(assumption))) as (Io & Iv & _). unfold converted. constructor; auto.
Qed.

Section Good.
  Variables (sc : scanner) (buf0 : bytes) (ear : bool) (pandas pandas08 : bytes -> bool -> res (list drow)).
  Variable fmt_of : bytes -> option string.
  Hypothesis Hsc : reads_decimal sc.
  Notation adc := (last_adc sc buf0 ear pandas pandas08).

  Lemma last_adc_good f v : well_formed f -> difference_coded v -> line_count [f] <= 65519999 ->
    adc (content f) v = Some (last_reading f).
  Proof using All.
    intros W V B. unfold last_adc. rewrite content_records by assumption.
    assert (NE : readings 0 (records_of f) <> []) by (rewrite records_readings, readings_lines by assumption; discriminate).
    unfold line_count in B. cbn [map concat] in B. rewrite app_nil_r in B.
    destruct (read_records sc buf0 ear (pandas (text [10] (records_of f))) (pandas08 (text [10] (records_of f))) v 0 false (records_of f) Hsc V (records_fit f W) (counts_readings _ 0 NE) (records_M f W)) as [R1 R2].
    { unfold records_of. now rewrite map_length. }
    destruct (R2 eq_refl) as (tab & E). rewrite E. specialize (R1 tab E). unfold samples_are in R1.
    rewrite records_readings in R1. assert (ND : data tab <> []).
    { intros X. rewrite X in R1. inversion R1 as [Y|]. rewrite records_readings in NE. congruence. }
    destruct (Forall2_last _ _ _ (0%Q, None) 0 ND R1) as (q & E1 & E2).
    rewrite (map_last snd (data tab) (0%Q, None) : last (map snd (data tab)) None = _), E1.
    cbn [int_of]. f_equal. now apply py_trunc_int.
  Qed.

  Lemma append_good p f v acc : well_formed p -> well_formed f -> line_count [p] <= 65519999 ->
    fmt_of (content f) = Some v -> difference_coded v ->
    append fmt_of adc (content p) (content f) acc = Some (acc ++ text [10] (converted (last_reading p) f)).
  Proof using All.
    intros Wp Wf B F V. unfold append. rewrite F. apply append_one; auto using difference_fits.
    - destruct V as [<-|[<-|[<-|[]]]]; cbn; auto.
    - now apply last_adc_good.
  Qed.

  Definition good_format (f : raw) : Prop := exists v, fmt_of (content f) = Some v /\ difference_coded v.



  Lemma extend_good fs : forall p o, well_formed p -> Forall well_formed fs -> Forall good_format fs -> Forall (fun f => line_count [f] <= 65519999) (p :: fs) ->
    extend fmt_of adc o (content p) (map content fs) = Some (o ++ text [10] (joined p fs)).
  Proof using All.
    induction fs as [|f fs IH]; intros p o Wp W G B; cbn [map extend joined].
    - now rewrite app_nil_r.
    - inversion W; inversion G as [|? ? (v & Ev & V)]; inversion B as [|? ? Bp Bf]; subst.
      rewrite (append_good p f v) by auto. rewrite IH by auto. now rewrite text_app, app_assoc.
  Qed.

  (** GPS lines. *)
  Lemma merge_ok fs : forall cur k p, well_formed p -> Forall well_formed fs -> Forall good_format fs -> Forall (fun f => line_count [f] <= 65519999) (p :: fs) ->
    forall pg, snd (merge fmt_of adc cur k (content p) pg (map content fs)) = true.
  Proof using All.
    induction fs as [|f fs IH]; intros cur k p Wp W G B pg; cbn [map merge]; [reflexivity|].
    inversion W as [|? ? Wf W']; inversion G as [|? ? (v & Ev & V) G']; inversion B as [|? ? Bp Bf]; subst. rewrite gps_good by assumption.
    destruct cur as [[n o]|].
    - destruct (has_gps f && pg).
      + destruct (merge fmt_of adc (Some (k, content f)) (k + 1) (content f) true (map content fs)) as [os ok] eqn:M. cbn [snd].
        pose proof (IH (Some (k, content f)) (k + 1) f Wf W' G' Bf true) as X. rewrite M in X. exact X.
      + rewrite (append_good p f v); auto.
    - destruct (has_gps f); auto.
  Qed.

  Lemma merge_ok_start fs : Forall well_formed fs -> Forall good_format fs -> Forall (fun f => line_count [f] <= 65519999) fs ->
    snd (merge fmt_of adc None 0 [] false (map content fs)) = true.
  Proof using All.
    intros W G B. destruct fs as [|f fs]; [reflexivity|]. cbn [map merge]. inversion W as [|? ? Wf W']; inversion G; subst.
    rewrite gps_good by assumption. destruct (has_gps f); apply merge_ok; auto.
  Qed.

  (** What is read from a merged file. *)





  Lemma read_group f fs v offset req rdp rdp8 : well_formed f -> Forall well_formed fs -> line_count (f :: fs) <= 65519999 -> difference_coded v ->
    let c := content f ++ text [10] (joined f fs) in
    (forall tab, read_single sc buf0 ear rdp rdp8 (Some c) v offset req = inl tab ->
       samples_are tab (concat (map (fun f => readings 0 (lines_of f)) (f :: fs)))) /\
    (req = false -> exists tab, read_single sc buf0 ear rdp rdp8 (Some c) v offset req = inl tab).
  Proof using All.
    intros Wf W B V. cbv zeta. rewrite content_records, <- text_app by assumption. rewrite <- group_readings by assumption.
    apply read_records; auto.
    - apply Forall_app. split; [now apply records_fit|now apply joined_fits].
    - apply (counts_readings _ 0). rewrite readings_app, records_readings, readings_lines by assumption. discriminate.
    - rewrite existsb_app, records_M by assumption. reflexivity.
    - unfold line_count in B. cbn [map concat] in B. rewrite app_length in *. unfold records_of. rewrite map_length.
      pose proof (joined_length fs f). lia.
  Qed.

End Good.
