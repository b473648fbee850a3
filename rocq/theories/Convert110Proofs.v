From Coq Require Import String.
From Coq Require Import ZArith QArith List Bool Lia Lqa.
From Verif Require Import Lib Base Scan Parser ParserSpec ParserProofs ScanProofs Convert110 Convert110Spec.
Import ListNotations.
Open Scope Z_scope.
Ltac Zify.zify_post_hook ::= Z.div_mod_to_equations.

(** * Lines *)

Lemma py_lines_from_nl l : forall cur r, ~ In 10 l ->
  py_lines_from cur (l ++ 10 :: r) = (rev cur ++ l ++ [10]) :: py_lines r.
Proof.
  induction l as [|x l IH]; intros cur r H; simpl.
  - reflexivity.
  - destruct (x =? 10) eqn:E; [apply Z.eqb_eq in E; exfalso; apply H; left; lia|].
    rewrite IH by (intros G; apply H; now right). simpl. now rewrite <- app_assoc.
Qed.

Lemma py_lines_from_end l : forall cur, ~ In 10 l ->
  py_lines_from cur l = last_chunk (rev cur ++ l).
Proof.
  induction l as [|x l IH]; intros cur H; simpl.
  - rewrite app_nil_r. destruct cur as [|c cur]; [reflexivity|].
    destruct (rev (c :: cur)) eqn:E; [|reflexivity].
    apply (f_equal (@length Z)) in E. rewrite rev_length in E. discriminate.
  - destruct (x =? 10) eqn:E; [apply Z.eqb_eq in E; exfalso; apply H; left; lia|].
    rewrite IH by (intros G; apply H; now right). simpl. now rewrite <- app_assoc.
Qed.

Lemma py_lines_file ls last : Forall ok_line ls -> ok_line last ->
  py_lines (file ls last) = map (fun l => l ++ [10]) ls ++ last_chunk last.
Proof.
  intros H [Hl _]. induction H as [|l ls [Hn _] _ IH]; unfold file, unlines; simpl.
  - apply (py_lines_from_end last []). exact Hl.
  - unfold py_lines. rewrite <- !app_assoc. simpl app.
    rewrite py_lines_from_nl by assumption. simpl. f_equal. exact IH.
Qed.

(** * Splitting and integers *)

Lemma split_comma_none s : ~ In 44 s -> split_comma s = [s].
Proof.
  induction s as [|c s IH]; intros H; [reflexivity|]. simpl.
  destruct (c =? 44) eqn:E; [apply Z.eqb_eq in E; exfalso; apply H; left; lia|].
  rewrite IH by (intros G; apply H; now right). reflexivity.
Qed.

Lemma split_comma_app s r : ~ In 44 s -> split_comma (s ++ 44 :: r) = s :: split_comma r.
Proof.
  induction s as [|c s IH]; intros H; [reflexivity|]. simpl.
  destruct (c =? 44) eqn:E; [apply Z.eqb_eq in E; exfalso; apply H; left; lia|].
  rewrite IH by (intros G; apply H; now right). reflexivity.
Qed.

(** The first word. *)
Lemma split_comma_hd s : exists w ws, split_comma s = w :: ws /\
   (s = w \/ exists q, s = w ++ 44 :: q) .
Proof.
  induction s as [|c s (w & ws & E & H)]; simpl.
  - exists [], []. auto.
  - destruct (c =? 44) eqn:Ec.
    + apply Z.eqb_eq in Ec. subst. exists [], (split_comma s). split; [reflexivity|]. right. exists s. reflexivity.
    + rewrite E. exists (c :: w), ws. split; [reflexivity|].
      destruct H as [->|(q & ->)]; [now left|right; exists q; reflexivity].
Qed.

Lemma digits_no_comma ds : all_digits ds -> ~ In 44 (digit_text ds).
Proof. intros H Hc. apply digit_text_range in Hc; auto. lia. Qed.

Lemma int_no_comma a : int_ok a -> ~ In 44 (int_text a).
Proof.
  intros (H1 & H2 & _) Hc. unfold int_text in Hc. apply in_app_or in Hc as [Hc|Hc].
  - destruct (ineg a); simpl in Hc; [destruct Hc; [lia|tauto]|tauto].
  - apply digit_text_range in Hc; auto. lia.
Qed.

Lemma py_int_text neg ds t : ds <> [] -> all_digits ds ->
  match t with c :: _ => is_digit c = false | [] => True end ->
  py_int (sign_text neg ++ digit_text ds ++ t) =
  match skip_space t with [] => Some (if neg then - pos_value ds else pos_value ds) | _ => None end.
Proof.
  intros Hne Hd Ht. unfold py_int. rewrite sign_scan by assumption.
  rewrite take_digits_text by assumption. destruct ds; [congruence|]. now rewrite val_digits_pos.
Qed.

Definition ms_lit (ds : list Z) : declit := {| dneg := false; dint := ds; dfrac := None |}.

Lemma line_D_text ds a t : line_D (ms_lit ds) a t = (68 :: digit_text ds) ++ 44 :: int_text a ++ t.
Proof.
  unfold line_D. rewrite join_cons. cbn [field_text join]. unfold dec_text, ms_lit.
  cbn [dneg dint dfrac sign_text app]. now rewrite app_nil_r, <- app_assoc.
Qed.

(** What the converter sees in a sample line. *)
Lemma split_line_D ds a t e : ds <> [] -> all_digits ds -> int_ok a -> stops t -> e = [] \/ e = [10] ->
  exists w ws, split_comma (line_D (ms_lit ds) a t ++ e) = (68 :: digit_text ds) :: (int_text a ++ w) :: ws /\
    (w = [] \/ exists c r, w = c :: r /\ is_digit c = false) /\
    (t = [] -> w = e).
Proof.
  intros Hne Hd Ha Ht He. rewrite line_D_text.
  assert (H1 : ~ In 44 (68 :: digit_text ds)).
  { intros [H|H]; [lia|]. now apply digits_no_comma in H. }
  rewrite <- app_assoc. rewrite <- (app_comm_cons (int_text a ++ t) e), <- (app_assoc (int_text a)).
  rewrite split_comma_app by exact H1. set (te := t ++ e).
  destruct (split_comma_hd te) as (w & ws & E & Hw).
  assert (Hsp : forall s, ~ In 44 s -> split_comma (s ++ te) = (s ++ w) :: ws).
  { induction s as [|c s IH]; intros Hs; [exact E|]. simpl.
    destruct (c =? 44) eqn:Ec; [apply Z.eqb_eq in Ec; exfalso; apply Hs; left; lia|].
    rewrite IH by (intros G; apply Hs; now right). reflexivity. }
  exists w, ws. split; [f_equal; apply Hsp; now apply int_no_comma|]. split.
  - destruct w as [|c r]; [now left|right]. exists c, r. split; [reflexivity|].
    assert (Hc : exists q, te = c :: q) by (destruct Hw as [->|(q & ->)]; [exists r|exists (r ++ 44 :: q)]; reflexivity).
    destruct Hc as (q & Hq). unfold te in Hq.
    destruct Ht as [->|(c' & r' & -> & Hin)].
    + destruct He as [->| ->]; [discriminate|]. injection Hq as <- _. reflexivity.
    + injection Hq as -> _. simpl in Hin. destruct Hin as [<-|[<-|[<-|[<-|[]]]]]; reflexivity.
  - intros ->. simpl in te. assert (~ In 44 e) by (destruct He as [->| ->]; simpl; lia).
    unfold te in E. rewrite split_comma_none in E by assumption. congruence.
Qed.

(** * Simulation *)

(** Reader states after reading the original / the converted lines. *)
Definition sim (cur : Z) (s s' : pstate) : Prop :=
  (prev s == inject_Z cur)%Q /\ (prev s' == inject_Z cur)%Q /\ gvars s = gvars s' /\ mvars s = mvars s'.

Lemma sim_init b1 b2 : sim 0 (init b1) (init b2).
Proof. repeat split; reflexivity. Qed.

Definition nonempty (c : bytes) := c <> [].

(** A line that is not a sample: both readers do the same. *)
Lemma sim_other sc cur s s' c : selfcontained c -> line_kind c <> Some KD -> sim cur s s' ->
  sim cur (next sc s c) (next sc s' c) /\ out sc s c = out sc s' c.
Proof.
  intros (Hne & HG & HM) Hk (E1 & E2 & E3 & E4). unfold sim, next, out, step.
  set (r1 := skipn (S (length c)) (buf s)). set (r2 := skipn (S (length c)) (buf s')).
  cbn [prev dms adc gvars mvars buf]. rewrite <- E3, <- E4.
  rewrite (nth0_app c r1 r2).
  destruct c as [|x c]; [congruence|]. cbn [app nth]. unfold line_kind in Hk.
  change ((97 <=? x) && (x <=? 122)) with (is_lower x) in Hk.
  destruct (is_lower x). { simpl in Hk. congruence. }
  destruct (x =? 68). { simpl in Hk. congruence. }
  simpl orb in Hk. cbn match in Hk.
  destruct (x =? 71) eqn:EG.
  { assert (Hs : cstr (skipn 2 ((x :: c) ++ 0 :: r1)) = cstr (skipn 2 ((x :: c) ++ 0 :: r2))).
    { destruct c as [|y c]; [|simpl; apply cstr_stop].
      apply Z.eqb_eq in EG. subst. congruence. }
    cbn [app] in Hs. rewrite Hs. repeat split; assumption. }
  destruct (x =? 77) eqn:EM.
  { assert (Hs : cstr (skipn 2 ((x :: c) ++ 0 :: r1)) = cstr (skipn 2 ((x :: c) ++ 0 :: r2))).
    { destruct c as [|y c]; [|simpl; apply cstr_stop].
      apply Z.eqb_eq in EM. subst. congruence. }
    cbn [app] in Hs. rewrite Hs. repeat split; assumption. }
  repeat split; assumption.
Qed.

Lemma sample_vars sc s c : line_kind c = Some KD ->
  gvars (next sc s c) = gvars s /\ mvars (next sc s c) = mvars s.
Proof.
  intros Hk. unfold next, step. destruct c as [|x c]; [discriminate|]. cbn [app nth].
  unfold line_kind in Hk. change ((97 <=? x) && (x <=? 122)) with (is_lower x) in Hk.
  destruct (is_lower x). { destruct (negb _); split; reflexivity. }
  destruct (x =? 68). { destruct (sscanf sc fmt_D _) as [|v [|a q]]; split; reflexivity. }
  simpl in Hk. destruct (x =? 71); [discriminate|]. destruct (x =? 77); discriminate.
Qed.

Lemma dec_value_ms ds : (dec_value (ms_lit ds) == inject_Z (pos_value ds))%Q.
Proof.
  unfold dec_value, ms_lit, frac_digits. cbn [dneg dint dfrac length pos_value].
  change (inject_Z (10 ^ Z.of_nat 0)) with 1%Q. change (inject_Z 1) with 1%Q. change (inject_Z 0) with 0%Q. field.
Qed.

(** A sample line in original form, read in any state. *)
Lemma sim_line_D sc s ds a t e : reads_decimal sc ->
  ds <> [] -> all_digits ds -> int_ok a -> stops t -> e = [] \/ e = [10] ->
  exists r, out sc s (line_D (ms_lit ds) a t ++ e) = [r] /\
    denotes r KD (inject_Z (pos_value ds)) [inject_Z (int_value a)] /\
    (prev (next sc s (line_D (ms_lit ds) a t ++ e)) == inject_Z (pos_value ds))%Q.
Proof.
  intros Hsc Hne Hd Ha Ht He.
  destruct (out_line_D sc s (ms_lit ds) a t e Hsc) as (v & w & E & Hv & Hw); auto.
  { repeat split; simpl; auto. constructor. }
  rewrite dec_value_ms in Hv.
  eexists. split; [exact E|]. split.
  - repeat split; [exact Hv|]. constructor; [exact Hw|constructor].
  - rewrite step_prev, E. simpl. exact Hv.
Qed.

(** The compact line that replaces it. *)
Lemma sim_compact sc s cur ms p : (prev s == inject_Z cur)%Q -> 0 <= ms < 8192 ->
  let diff := (ms - cur) mod 2 ^ 13 in
  Z.abs p <= 12 -> Z.abs (diff - 10) <= 12 ->
  exists r, out sc s [diff - 10 + 109; p + 109; 10] = [r] /\
    denotes r KD (inject_Z ms) [inject_Z p] /\
    (prev (next sc s ([diff - 10 + 109; p + 109; 10])%Z) == inject_Z ms)%Q.
Proof.
  intros Hp Hms diff H1 H2.
  destruct (out_Compact2 sc s (diff - 10) p [] [10]) as (m & r & E & R & D); try (unfold letter; lia).
  cbn [record_text app] in E.
  replace (109 + (diff - 10)) with (diff - 10 + 109) in E by lia.
  replace (109 + p) with (p + 109) in E by lia.
  assert (Hm : (m == inject_Z ms)%Q).
  { destruct R as (R0 & R1 & k & Ek). rewrite Hp in Ek.
    assert (Ek' : (m == inject_Z (cur + diff - 8192 * k))%Q).
    { setoid_replace m with (m + inject_Z (8192 * k) - inject_Z (8192 * k))%Q by ring.
      rewrite <- Ek. unfold Z.sub. rewrite !inject_Z_plus, !inject_Z_opp.
      change (inject_Z 10) with (10 # 1)%Q. ring. }
    rewrite Ek' in R0, R1 |- *.
    change 0%Q with (inject_Z 0) in R0. change 8192%Q with (inject_Z 8192) in R1.
    rewrite <- Zle_Qle in R0. rewrite <- Zlt_Qlt in R1.
    assert (diff = (ms - cur) mod 8192) by reflexivity.
    assert (cur + diff - 8192 * k = ms) by lia. rewrite H0. reflexivity. }
  exists r. split; [exact E|]. destruct D as (D1 & D2 & D3). rewrite Hm in D2.
  split; [repeat split; assumption|].
  rewrite step_prev, E. simpl. unfold kind_D. rewrite D1. exact D2.
Qed.

Lemma same_row_refl r : same_row r r.
Proof. repeat split; try reflexivity. induction (rvals r); constructor; auto; reflexivity. Qed.

Lemma Forall2_refl_row l : Forall2 same_row l l.
Proof. induction l; constructor; auto using same_row_refl. Qed.

Lemma denotes_same k c v r r' : denotes r k c v -> denotes r' k c v -> same_row r r'.
Proof.
  intros (H1 & H2 & H3) (G1 & G2 & G3). split; [congruence|]. split; [rewrite H2, G2; reflexivity|].
  clear -H3 G3. revert G3. generalize (rvals r'). induction H3 as [|x y xs ys Hx H3 IH]; intros l G3; inversion G3; subst; constructor.
  - rewrite Hx. now symmetry.
  - now apply IH.
Qed.

(** One converted line, after the first. *)
Lemma conv_line_sim sc s s' cur l e cur' o : reads_decimal sc -> sim cur s s' ->
  ok_line l -> line_091 l -> selfcontained (l ++ e) -> e = [] \/ e = [10] ->
  conv_line false cur (l ++ e) = Some (cur', o) ->
  exists l' e', o = l' ++ e' /\ (e' = [10] \/ e' = e) /\ l' ++ e' <> [] /\ ok_line l' /\ selfcontained (l' ++ e') /\
    sim cur' (next sc s (l ++ e)) (next sc s' (l' ++ e')) /\
    Forall2 same_row (out sc s (l ++ e)) (out sc s' (l' ++ e')).
Proof.
  intros Hsc Hsim Hok H091 Hself He Hc.
  assert (Hkind : line_kind (l ++ e) = line_kind l).
  { destruct l as [|x l]; [|reflexivity]. destruct He as [->| ->]; reflexivity. }
  destruct (line_kind l) as [[]|] eqn:K.
  1: { destruct (H091 K) as (ds & a & t & -> & Hne & Hd & Ha & Ht & Hms).
    fold (ms_lit ds) in *.
    destruct (split_line_D ds a t e Hne Hd Ha Ht He) as (w & ws & Esp & Hw & _).
    unfold conv_line in Hc. rewrite Esp in Hc.
    change (nth 0 (line_D (ms_lit ds) a t ++ e) 0) with 68 in Hc. change (68 =? 68) with true in Hc. cbn match in Hc.
    assert (Hpd : py_int (skipn 1 (68 :: digit_text ds)) = Some (pos_value ds)).
    { change (skipn 1 (68 :: digit_text ds)) with (digit_text ds).
      pose proof (py_int_text false ds [] Hne Hd I) as P. simpl app in P. rewrite app_nil_r in P. exact P. }
    rewrite Hpd in Hc.
    destruct Ha as (Ha1 & Ha2 & Ha3). assert (Ha : int_ok a) by (repeat split; tauto).
    assert (Hpa : py_int (int_text a ++ w) = match skip_space w with [] => Some (int_value a) | _ => None end).
    { unfold int_text. rewrite <- app_assoc. rewrite py_int_text; auto.
      - unfold int_value. destruct (skip_space w); [|reflexivity]. destruct (ineg a); f_equal; ring.
      - destruct Hw as [->|(c & r & -> & Hc')]; [exact I|exact Hc']. }
    rewrite Hpa in Hc. destruct (skip_space w) as [|? ?]; [|discriminate].
    assert (Hpos : 0 <= pos_value ds).
    { clear -Hd. induction Hd as [|d ds Hd0 Hd IH]; simpl; [lia|]. nia. }
    destruct (sim_line_D sc s ds a t e Hsc Hne Hd Ha Ht He) as (r & Eo & Hr & Hp).
    destruct Hsim as (S1 & S2 & S3 & S4).
    destruct (sample_vars sc s (line_D (ms_lit ds) a t ++ e) Hkind) as (V1 & V2).
    destruct (_ && _) eqn:Hcond in Hc.
    - injection Hc as <- <-.
      apply andb_true_iff in Hcond as [Hcond _]. apply andb_true_iff in Hcond as [C1 C2].
      apply Z.leb_le in C1, C2.
      set (diff := (pos_value ds - cur) mod 2 ^ 13) in *.
      destruct (sim_compact sc s' cur (pos_value ds) (int_value a) S2 (conj Hpos Hms) C1 C2) as (r' & Eo' & Hr' & Hp').
      exists [diff - 10 + 109; int_value a + 109], [10]. cbn [app].
      split; [reflexivity|]. split; [now left|]. split; [discriminate|].
      split; [split; simpl; [lia|lia]|]. split; [repeat split; discriminate|].
      assert (Hk' : line_kind [diff - 10 + 109; int_value a + 109; 10] = Some KD).
      { unfold line_kind. replace ((97 <=? diff - 10 + 109) && (diff - 10 + 109 <=? 122)) with true; [reflexivity|].
        symmetry. apply andb_true_iff. split; apply Z.leb_le; lia. }
      destruct (sample_vars sc s' _ Hk') as (V1' & V2').
      split; [repeat split; auto; congruence|].
      fold diff in Eo'. rewrite Eo, Eo'. constructor; [|constructor]. eapply denotes_same; eauto.
    - injection Hc as <- <-.
      destruct (sim_line_D sc s' ds a t e Hsc Hne Hd Ha Ht He) as (r' & Eo' & Hr' & Hp').
      destruct (sample_vars sc s' (line_D (ms_lit ds) a t ++ e) Hkind) as (V1' & V2').
      exists (line_D (ms_lit ds) a t), e. split; [reflexivity|]. split; [now right|].
      split; [discriminate|]. split; [exact Hok|]. split; [exact Hself|].
      split; [repeat split; auto; congruence|].
      rewrite Eo, Eo'. constructor; [|constructor]. eapply denotes_same; eauto. }
  all: assert (H68 : nth 0 (l ++ e) 0 =? 68 = false) by
    (destruct l as [|x l]; [destruct He as [->| ->]; reflexivity|]; unfold line_kind in K; cbn [app nth];
     destruct (x =? 68); [rewrite orb_true_r in K; discriminate|reflexivity]);
    unfold conv_line in Hc; rewrite H68 in Hc; injection Hc as <- <-;
    exists l, e; split; [reflexivity|]; split; [now right|]; split; [apply Hself|]; split; [exact Hok|];
    split; [exact Hself|];
    assert (HK : line_kind (l ++ e) <> Some KD) by (rewrite Hkind; congruence);
    pose proof (sim_other sc cur s s' (l ++ e) Hself HK Hsim) as A;
    destruct A as [A B]; split; [exact A|]; rewrite B; apply Forall2_refl_row.
Qed.

(** The lines after the first one: the output consists of lines, and reads the same. *)
Lemma conv_lines_sim sc : reads_decimal sc -> forall ls last s s' cur o,
  sim cur s s' -> Forall ok_line ls -> ok_last last -> Forall line_091 ls -> line_091 last ->
  conv_lines false cur (map (fun l => l ++ [10]) ls ++ last_chunk last) = Some o ->
  exists ls' last', o = file ls' last' /\ Forall ok_line ls' /\ ok_last last' /\
    Forall2 same_row (run sc s (map (fun l => l ++ [10]) ls ++ last_chunk last))
                     (run sc s' (map (fun l => l ++ [10]) ls' ++ last_chunk last')).
Proof.
  intros Hsc. induction ls as [|l ls IH]; intros last s s' cur o Hsim Hls Hlast H1 H2 Hc.
  - cbn [map app] in *. destruct last as [|x r] eqn:El.
    + simpl in Hc. injection Hc as <-. exists [], []. split; [reflexivity|].
      split; [constructor|]. split; [exact Hlast|]. constructor.
    + rewrite <- El in *. assert (Hne : last <> []) by (subst; discriminate).
      assert (Elc : last_chunk last = [last]) by (subst; reflexivity). rewrite Elc in *.
      simpl in Hc. destruct (conv_line false cur last) as [[cur' o']|] eqn:E; [|discriminate].
      injection Hc as <-.
      assert (Hsl : selfcontained (last ++ [])).
      { rewrite app_nil_r. pose proof (last_selfcontained last Hlast) as F. rewrite Elc in F. now inversion F. }
      rewrite <- (app_nil_r last) in E.
      destruct (conv_line_sim sc s s' cur last [] cur' o' Hsc Hsim (proj1 Hlast) H2 Hsl (or_introl eq_refl) E)
        as (l' & e' & -> & He' & Hne' & Hok' & Hself' & Hsim' & Hrow).
      rewrite app_nil_r in Hrow |- *.
      destruct He' as [->| ->].
      * exists [l'], []. unfold file, unlines. simpl. rewrite !app_nil_r.
        split; [reflexivity|]. split; [constructor; [exact Hok'|constructor]|].
        split; [repeat split; simpl; try lia; discriminate|].
        change (Forall2 same_row (run sc s [last]) (run sc s' [l' ++ [10]])).
        rewrite !run_cons. simpl run. rewrite !app_nil_r. exact Hrow.
      * rewrite app_nil_r in *. exists [], l'. split; [reflexivity|]. split; [constructor|].
        split; [split; [exact Hok'|]; destruct Hself' as (? & ? & ?); split; assumption|].
        assert (El' : last_chunk l' = [l']) by (destruct l'; [congruence|reflexivity]). rewrite El'.
        cbn [map app]. rewrite !run_cons. simpl run. rewrite !app_nil_r. exact Hrow.
  - cbn [map app] in *. inversion Hls; subst. inversion H1; subst.
    cbn [conv_lines] in Hc.
    destruct (conv_line false cur (l ++ [10])) as [[cur' o1]|] eqn:E; [|discriminate].
    destruct (conv_lines false cur' (map (fun l => l ++ [10]) ls ++ last_chunk last)) as [o2|] eqn:E2; [|discriminate].
    injection Hc as <-.
    destruct (conv_line_sim sc s s' cur l [10] cur' o1 Hsc Hsim) as (l' & e' & -> & He' & Hne' & Hok' & Hself' & Hsim' & Hrow); auto.
    { apply nl_selfcontained. }
    assert (e' = [10]) by (destruct He'; assumption). subst e'.
    destruct (IH last _ _ _ o2 Hsim') as (ls' & last' & -> & Hls' & Hlast' & Hrows); auto.
    exists (l' :: ls'), last'. split; [unfold file, unlines; simpl; now rewrite <- !app_assoc|].
    split; [now constructor|]. split; [exact Hlast'|].
    cbn [map app]. rewrite !run_cons. apply Forall2_app; assumption.
Qed.

Lemma ok_hdr1 : ok_line (b "#GemCSV1.1").
Proof. split; simpl; [intros H; repeat (destruct H as [H|H]; [discriminate|]); exact H|lia]. Qed.
Lemma ok_hdr2 : ok_line (b "#adcMSSAMP").
Proof. split; simpl; [intros H; repeat (destruct H as [H|H]; [discriminate|]); exact H|lia]. Qed.

Lemma inert_next sc s c : c <> [] -> line_kind c = None -> sim 0 s s -> sim 0 (next sc s c) (next sc s c).
Proof. intros H1 H2 (E1 & E2 & E3 & E4). destruct (step_inert sc s c H1 H2) as [C _]. unfold core in C. injection C as C1 C2 C3 C4 C5. repeat split; try congruence; rewrite C1; assumption. Qed.

Lemma core_sim s s' : core s = core s' -> (prev s == 0)%Q -> sim 0 s s'.
Proof. unfold core. intros C H. injection C as C1 C2 C3 C4 C5. repeat split; try assumption; rewrite <- C1; assumption. Qed.

Lemma convert_rows sc fmt b1 b2 l0 ls last o : reads_decimal sc ->
  ok_line l0 -> Forall ok_line ls -> ok_last last -> line_kind l0 = None ->
  Forall line_091 ls -> line_091 last ->
  convert_110 fmt (file (l0 :: ls) last) = Some o ->
  Forall2 same_row (rows_of sc b1 (file (l0 :: ls) last)) (rows_of sc b2 o).
Proof.
  intros Hsc H0 Hls Hlast K0 H1 H2 Hc. unfold convert_110 in Hc.
  destruct (existsb _ _); [|discriminate].
  rewrite py_lines_file in Hc by (first [apply Hlast|now constructor]).
  cbn [map app conv_lines] in Hc.
  assert (H68 : nth 0 (l0 ++ [10]) 0 =? 68 = false).
  { destruct l0 as [|x l0]; [reflexivity|]. unfold line_kind in K0. cbn [app nth].
    destruct (x =? 68); [rewrite orb_true_r in K0; discriminate|reflexivity]. }
  unfold conv_line in Hc at 1. rewrite H68 in Hc.
  destruct (eqb_bytes _ _); [|discriminate].
  destruct (conv_lines false 0 _) as [o2|] eqn:E; [|discriminate].
  injection Hc as <-.
  rewrite file_rows by (first [apply Hlast|now constructor]).
  cbn [map app]. rewrite run_cons.
  assert (Hk0 : line_kind (l0 ++ [10]) = None) by (rewrite line_kind_nl; exact K0).
  destruct (step_inert sc (init b1) (l0 ++ [10])) as [C0 O0]; [destruct l0; discriminate|exact Hk0|].
  rewrite O0. cbn [app].
  set (s1 := next sc (init b1) (l0 ++ [10])) in *.
  set (s2 := next sc (next sc (init b2) (b "#GemCSV1.1" ++ [10])) (b "#adcMSSAMP" ++ [10])).
  destruct (step_inert sc (init b2) (b "#GemCSV1.1" ++ [10])) as [C1 O1]; [discriminate|reflexivity|].
  destruct (step_inert sc (next sc (init b2) (b "#GemCSV1.1" ++ [10])) (b "#adcMSSAMP" ++ [10])) as [C2 O2]; [discriminate|reflexivity|].
  assert (Hsim : sim 0 s1 s2).
  { apply core_sim; [unfold s2; rewrite C0, C2, C1; reflexivity|]. unfold core in C0. injection C0 as C0 _. rewrite C0. reflexivity. }
  destruct (conv_lines_sim sc Hsc ls last s1 s2 0 o2 Hsim Hls Hlast H1 H2 E) as (ls' & last' & -> & Hls' & Hlast' & Hrows).
  assert (Ef : (b "#GemCSV1.1" ++ [10] ++ b "#adcMSSAMP" ++ [10]) ++ file ls' last' =
               file (b "#GemCSV1.1" :: b "#adcMSSAMP" :: ls') last').
  { unfold file, unlines. cbn [map concat]. rewrite <- !app_assoc. reflexivity. }
  change (35 :: _) with ((b "#GemCSV1.1" ++ [10] ++ b "#adcMSSAMP" ++ [10]) ++ file ls' last').
  rewrite Ef, file_rows; [|constructor; [apply ok_hdr1|constructor; [apply ok_hdr2|exact Hls']]|apply Hlast'].
  cbn [map]. rewrite <- !app_comm_cons. rewrite run_cons, run_cons. fold s2.
  rewrite O1, O2. cbn [app]. exact Hrows.
Qed.

(** Conversion of plain files succeeds. *)
Lemma conv_line_plain cur l e : line_091_plain l ->
  e = [] \/ e = [10] -> exists r, conv_line false cur (l ++ e) = Some r.
Proof.
  intros Hl He. unfold conv_line.
  destruct (nth 0 (l ++ e) 0 =? 68) eqn:E; [|eauto].
  assert (K : line_kind l = Some KD).
  { destruct l as [|x l]; [destruct He as [->| ->]; discriminate|]. cbn [app nth] in E. unfold line_kind.
    rewrite E, orb_true_r. reflexivity. }
  destruct (Hl K) as (ds & a & -> & Hne & Hd & Ha & Hms). fold (ms_lit ds).
  destruct (split_line_D ds a [] e Hne Hd Ha (or_introl eq_refl) He) as (w & ws & Esp & _ & Hw).
  rewrite Esp. specialize (Hw eq_refl). subst w.
  pose proof (py_int_text false ds [] Hne Hd I) as P. simpl app in P. rewrite app_nil_r in P.
  change (skipn 1 (68 :: digit_text ds)) with (digit_text ds). rewrite P.
  destruct Ha as (Ha1 & Ha2 & Ha3).
  unfold int_text. rewrite <- app_assoc, py_int_text; auto.
  - destruct He as [->| ->]; simpl skip_space; cbn match; match goal with |- exists r, (if ?c then _ else _) = _ => destruct c end; eauto.
  - destruct He as [->| ->]; [exact I|reflexivity].
Qed.

Lemma conv_lines_plain ls last : Forall line_091_plain ls -> line_091_plain last ->
  forall cur, exists o, conv_lines false cur (map (fun l => l ++ [10]) ls ++ last_chunk last) = Some o.
Proof.
  intros H Hl. induction H as [|l ls Hl0 H IH]; intros cur.
  - cbn [map app]. destruct last as [|x r] eqn:El; [simpl; eauto|]. rewrite <- El in *.
    assert (Elc : last_chunk last = [last]) by (subst; reflexivity). rewrite Elc. cbn [conv_lines].
    destruct (conv_line_plain cur last [] Hl (or_introl eq_refl)) as [[cur' o] E].
    rewrite app_nil_r in E. rewrite E. eauto.
  - cbn [map app conv_lines].
    destruct (conv_line_plain cur l [10] Hl0 (or_intror eq_refl)) as [[cur' o] E].
    rewrite E. destruct (IH cur') as [o2 E2]. rewrite E2. eauto.
Qed.

Lemma convert_succeeds fmt l0 ls last :
  In fmt [b "0.85C"; b "0.9"; b "0.91"] ->
  ok_line l0 -> Forall ok_line ls -> ok_line last -> (exists v, l0 = b "#GemCSV" ++ v) ->
  Forall line_091_plain ls -> line_091_plain last ->
  exists o, convert_110 fmt (file (l0 :: ls) last) = Some o.
Proof.
  intros Hf H0 Hls Hlast (v & ->) H1 H2. unfold convert_110.
  assert (Ef : existsb (eqb_bytes fmt) [b "0.85C"; b "0.9"; b "0.91"] = true).
  { apply existsb_exists. exists fmt. split; [exact Hf|]. unfold eqb_bytes. now destruct (list_eq_dec Z.eq_dec fmt fmt). }
  rewrite Ef. rewrite py_lines_file by (first [assumption|now constructor]).
  cbn [map app conv_lines]. unfold conv_line at 1.
  change (nth 0 _ 0 =? 68) with false. cbn match.
  replace (eqb_bytes (firstn 7 ((b "#GemCSV" ++ v) ++ [10])) (b "#GemCSV")) with true.
  - destruct (conv_lines_plain ls last H1 H2 0) as [o E]. rewrite E. eauto.
  - symmetry. reflexivity.
Qed.
