From Coq Require Import String.
From Coq Require Import ZArith QArith List Bool Lia Lqa.
From Verif Require Import Lib Base Scan Parser ParserSpec ParserProofs ScanProofs Convert110 Convert110Spec Convert110Proofs Convert095 Convert095Spec.
Import ListNotations.
Open Scope Z_scope.

(** * Hexadecimal numerals *)
Lemma hex_digit_value d : 0 <= d < 16 -> hex_char_value (hex_digit d) d.
Proof. intros H. unfold hex_char_value, hex_digit. destruct (d <? 10) eqn:E; [apply Z.ltb_lt in E; left|apply Z.ltb_ge in E; right]; lia. Qed.

Lemma hex_upper_value n : 0 <= n < 4096 -> hex_value (hex_upper n) n.
Proof.
  intros H. unfold hex_upper. destruct (n <? 16) eqn:E1; [|destruct (n <? 256) eqn:E2].
  - apply Z.ltb_lt in E1. replace n with (16 * 0 + n) at 2 by ring. apply (hex_snoc []); [constructor|]. apply hex_digit_value. lia.
  - apply Z.ltb_lt in E2. pose proof (Z.div_mod n 16 ltac:(lia)). pose proof (Z.mod_pos_bound n 16 ltac:(lia)).
    assert (n / 16 < 16) by (apply Z.div_lt_upper_bound; lia). assert (0 <= n / 16) by (apply Z.div_pos; lia).
    replace n with (16 * (16 * 0 + n / 16) + n mod 16) at 3 by lia.
    apply (hex_snoc [hex_digit (n / 16)]); [|apply hex_digit_value; lia]. apply (hex_snoc []); [constructor|]. apply hex_digit_value. lia.
  - pose proof (Z.div_mod n 16 ltac:(lia)). pose proof (Z.mod_pos_bound n 16 ltac:(lia)).
    pose proof (Z.div_mod (n / 16) 16 ltac:(lia)). pose proof (Z.mod_pos_bound (n / 16) 16 ltac:(lia)).
    assert (D : n / 256 = n / 16 / 16) by (rewrite Z.div_div by lia; reflexivity).
    assert (n / 16 < 256) by (apply Z.div_lt_upper_bound; lia). assert (0 <= n / 16) by (apply Z.div_pos; lia).
    assert (n / 16 / 16 < 16) by (apply Z.div_lt_upper_bound; lia). assert (0 <= n / 16 / 16) by (apply Z.div_pos; lia).
    rewrite D. replace n with (16 * (16 * (16 * 0 + n / 16 / 16) + (n / 16) mod 16) + n mod 16) at 4 by lia.
    apply (hex_snoc [hex_digit (n / 16 / 16); hex_digit ((n / 16) mod 16)]); [|apply hex_digit_value; lia].
    apply (hex_snoc [hex_digit (n / 16 / 16)]); [|apply hex_digit_value; lia]. apply (hex_snoc []); [constructor|]. apply hex_digit_value. lia.
Qed.

Lemma hex_upper_chars n : 0 <= n < 4096 ->
  exists c t, hex_upper n = c :: t /\ ~ (97 <= c <= 122) /\ ~ In 10 (hex_upper n) /\ (length (hex_upper n) <= 3)%nat.
Proof.
  intros H.
  assert (A : forall d, 0 <= d < 16 -> 48 <= hex_digit d <= 70).
  { intros d Hd. unfold hex_digit. destruct (d <? 10) eqn:E; [apply Z.ltb_lt in E|apply Z.ltb_ge in E]; lia. }
  pose proof (Z.mod_pos_bound n 16 ltac:(lia)). pose proof (Z.mod_pos_bound (n / 16) 16 ltac:(lia)).
  unfold hex_upper. destruct (n <? 16) eqn:E1; [|destruct (n <? 256) eqn:E2].
  - apply Z.ltb_lt in E1. pose proof (A n ltac:(lia)). eexists _, _. split; [reflexivity|]. cbn [In length]. lia.
  - apply Z.ltb_lt in E2. assert (n / 16 < 16) by (apply Z.div_lt_upper_bound; lia). assert (0 <= n / 16) by (apply Z.div_pos; lia).
    pose proof (A (n / 16) ltac:(lia)). pose proof (A (n mod 16) ltac:(lia)).
    eexists _, _. split; [reflexivity|]. cbn [In length]. lia.
  - assert (n / 256 < 16) by (apply Z.div_lt_upper_bound; lia). assert (0 <= n / 256) by (apply Z.div_pos; lia).
    pose proof (A (n / 256) ltac:(lia)). pose proof (A ((n / 16) mod 16) ltac:(lia)). pose proof (A (n mod 16) ltac:(lia)).
    eexists _, _. split; [reflexivity|]. cbn [In length]. lia.
Qed.

(** * What is written for a sample line *)
Lemma conv095_sample first ds a t e o : ds <> [] -> all_digits ds -> int_ok a -> stops t -> e = [] \/ e = [10] ->
  conv095_line first (line_D (ms_lit ds) a t ++ e) = Some o ->
  (Z.abs (int_value a) <= 12 /\ o = 109 + int_value a :: hex_upper (pos_value ds mod 4096) ++ [10]) \/
  (12 < Z.abs (int_value a) /\ o = line_D (ms_lit ds) a t ++ e).
Proof.
  intros Hne Hd Ha Ht He Hc.
  destruct (split_line_D ds a t e Hne Hd Ha Ht He) as (w & ws & Esp & Hw & _).
  unfold conv095_line in Hc. rewrite Esp in Hc.
  change (nth 0 (line_D (ms_lit ds) a t ++ e) 0) with 68 in Hc. change (68 =? 68) with true in Hc. cbn match in Hc.
  assert (Hpd : py_int (skipn 1 (68 :: digit_text ds)) = Some (pos_value ds)).
  { change (skipn 1 (68 :: digit_text ds)) with (digit_text ds).
    pose proof (py_int_text false ds [] Hne Hd I) as P. simpl app in P. rewrite app_nil_r in P. exact P. }
  rewrite Hpd in Hc.
  destruct Ha as (Ha1 & Ha2 & Ha3).
  assert (Hpa : py_int (int_text a ++ w) = match skip_space w with [] => Some (int_value a) | _ => None end).
  { unfold int_text. rewrite <- app_assoc. rewrite py_int_text; auto.
    - unfold int_value. destruct (skip_space w); [|reflexivity]. destruct (ineg a); f_equal; ring.
    - destruct Hw as [->|(c & r & -> & Hc')]; [exact I|exact Hc']. }
  rewrite Hpa in Hc. destruct (skip_space w) as [|? ?]; [|discriminate].
  destruct (Z.abs (int_value a) <=? 12) eqn:E; injection Hc as <-; [left|right].
  - apply Z.leb_le in E. split; [exact E|]. rewrite (Z.add_comm 109). reflexivity.
  - apply Z.leb_gt in E. split; [lia|reflexivity].
Qed.

(** * Simulation *)
Definition vars_eq (s s' : pstate) : Prop := gvars s = gvars s' /\ mvars s = mvars s'.

Lemma vars_other sc s s' c : selfcontained c -> line_kind c <> Some KD -> vars_eq s s' ->
  vars_eq (next sc s c) (next sc s' c) /\ out sc s c = out sc s' c /\
  Forall (fun r => rkind r <> KD) (out sc s' c) /\ prev (next sc s' c) = prev s'.
Proof.
  intros (Hne & HG & HM) Hk (E3 & E4). unfold vars_eq, next, out, step.
  set (r1 := skipn (S (length c)) (buf s)). set (r2 := skipn (S (length c)) (buf s')).
  cbn [prev dms adc gvars mvars buf]. rewrite <- E3, <- E4.
  rewrite (nth0_app c r1 r2).
  destruct c as [|x c]; [congruence|]. cbn [app nth]. unfold line_kind in Hk.
  change ((97 <=? x) && (x <=? 122)) with (is_lower x) in Hk.
  destruct (is_lower x). { simpl in Hk. congruence. }
  destruct (x =? 68). { simpl in Hk. congruence. }
  simpl orb in Hk. cbn match in Hk.
  destruct (x =? 71) eqn:EG.
  { assert (Hs : cstr (skipn 2 ((x :: c) ++ 0 :: r1)) = cstr (skipn 2 ((x :: c) ++ 0 :: r2))).
    { destruct c as [|y c]; [|simpl; apply cstr_stop].
      apply Z.eqb_eq in EG. subst. congruence. }
    cbn [app] in Hs. rewrite Hs. repeat split; try assumption. constructor; [discriminate|constructor]. }
  destruct (x =? 77) eqn:EM.
  { assert (Hs : cstr (skipn 2 ((x :: c) ++ 0 :: r1)) = cstr (skipn 2 ((x :: c) ++ 0 :: r2))).
    { destruct c as [|y c]; [|simpl; apply cstr_stop].
      apply Z.eqb_eq in EM. subst. congruence. }
    cbn [app] in Hs. rewrite Hs. repeat split; try assumption. constructor; [discriminate|constructor]. }
  repeat split; try assumption. constructor.
Qed.

Lemma denotes_values k c c' v r r' : denotes r k c v -> denotes r' k c' v -> same_values r r'.
Proof.
  intros (H1 & H2 & H3) (G1 & G2 & G3). split; [congruence|].
  clear -H3 G3. revert G3. generalize (rvals r'). induction H3 as [|x y xs ys Hx H3 IH]; intros l G3; inversion G3; subst; constructor.
  - rewrite Hx. now symmetry.
  - now apply IH.
Qed.

Lemma denotes_small r c p : denotes r KD c [inject_Z p] -> (small r <-> Z.abs p <= 12).
Proof.
  intros (_ & _ & H). inversion H as [|x y xs ys Hx H2 E1 E2]; subst. inversion H2; subst.
  unfold small. rewrite <- E1. split.
  - intros (v & E & Hv). injection E as <-. rewrite Hx in Hv.
    change (-12)%Q with (inject_Z (-12)) in Hv. change 12%Q with (inject_Z 12) in Hv. rewrite <- !Zle_Qle in Hv. lia.
  - intros A. exists x. split; [reflexivity|]. rewrite Hx.
    change (-12)%Q with (inject_Z (-12)). change 12%Q with (inject_Z 12). rewrite <- !Zle_Qle. lia.
Qed.

(** A chunk of rows in front of a reread. *)
Lemma reread_other c rs l l' : Forall (fun r => rkind r <> KD) rs -> reread c l l' -> reread c (rs ++ l) (rs ++ l').
Proof. induction 1; intros R; [exact R|]. cbn [app]. apply rr_other; auto. apply same_row_refl. Qed.

Lemma conv095_line_sim sc s s' l e o : reads_decimal sc -> vars_eq s s' ->
  ok_line l -> line_091 l -> selfcontained (l ++ e) -> e = [] \/ e = [10] ->
  conv095_line false (l ++ e) = Some o ->
  exists l' e', o = l' ++ e' /\ (e' = [10] \/ e' = e) /\ l' ++ e' <> [] /\ ok_line l' /\ selfcontained (l' ++ e') /\
    vars_eq (next sc s (l ++ e)) (next sc s' (l' ++ e')) /\
    forall rs rs', reread (prev (next sc s' (l' ++ e'))) rs rs' ->
      reread (prev s') (out sc s (l ++ e) ++ rs) (out sc s' (l' ++ e') ++ rs').
Proof.
  intros Hsc Hsim Hok H091 Hself He Hc.
  assert (Hkind : line_kind (l ++ e) = line_kind l).
  { destruct l as [|x l]; [|reflexivity]. destruct He as [->| ->]; reflexivity. }
  destruct (line_kind l) as [[]|] eqn:K.
  1: { destruct (H091 K) as (ds & a & t & -> & Hne & Hd & Ha & Ht & Hms).
    fold (ms_lit ds) in *.
    destruct (sim_line_D sc s ds a t e Hsc Hne Hd Ha Ht He) as (r & Eo & Hr & Hp).
    destruct Hsim as (S3 & S4).
    destruct (sample_vars sc s (line_D (ms_lit ds) a t ++ e) Hkind) as (V1 & V2).
    destruct (conv095_sample false ds a t e o Hne Hd Ha Ht He Hc) as [(Hsm & ->)|(Hlg & ->)].
    - set (n := pos_value ds mod 4096).
      assert (Hn : 0 <= n < 4096) by (apply Z.mod_pos_bound; lia).
      destruct (hex_upper_chars n Hn) as (c & h & Eh & Hc1 & Hc2 & Hc3).
      assert (Hlet : letter (int_value a)) by (unfold letter; lia).
      destruct (out_Compact1 sc s' (int_value a) (hex_upper n) [10] Hlet) as (m & r' & Eo' & Hm & Hr').
      { rewrite Eh. exact Hc1. } { now right. }
      change (record_text (Compact1 (int_value a) (hex_upper n))) with (109 + int_value a :: hex_upper n) in Eo'.
      exists (109 + int_value a :: hex_upper n), [10].
      assert (Hk' : line_kind ((109 + int_value a :: hex_upper n) ++ [10]) = Some KD).
      { unfold line_kind. cbn [app]. replace ((97 <=? 109 + int_value a) && (109 + int_value a <=? 122)) with true; [reflexivity|].
        symmetry. apply andb_true_iff. split; apply Z.leb_le; lia. }
      destruct (sample_vars sc s' _ Hk') as (V1' & V2').
      split; [reflexivity|]. split; [now left|]. split; [discriminate|].
      split. { split; [|cbn [length] in *; lia]. intros [X|X]; [lia|exact (Hc2 X)]. }
      split. { split; [discriminate|]. cbn [app]. rewrite Eh. split; discriminate. }
      split; [split; congruence|].
      intros rs rs' R. rewrite Eo, Eo'. cbn [app].
      apply rr_small.
      + now destruct Hr.
      + now apply (denotes_small r _ _ Hr).
      + eapply denotes_values; eauto.
      + destruct Hr' as (_ & Hr2 & _). destruct Hm as (M1 & M2 & k & M3). split; [rewrite Hr2; exact M1|]. split; [rewrite Hr2; exact M2|]. exists k. rewrite Hr2. exact M3.
      + rewrite step_prev, Eo' in R. cbn in R. unfold kind_D in R. destruct Hr' as (Hr1 & _). rewrite Hr1 in R. exact R.
    - destruct (sim_line_D sc s' ds a t e Hsc Hne Hd Ha Ht He) as (r' & Eo' & Hr' & Hp').
      destruct (sample_vars sc s' (line_D (ms_lit ds) a t ++ e) Hkind) as (V1' & V2').
      exists (line_D (ms_lit ds) a t), e. split; [reflexivity|]. split; [now right|].
      split; [discriminate|]. split; [exact Hok|]. split; [exact Hself|].
      split; [split; congruence|].
      intros rs rs' R. rewrite Eo, Eo'. cbn [app]. apply rr_large.
      + now destruct Hr.
      + rewrite (denotes_small r _ _ Hr). lia.
      + eapply denotes_same; eauto.
      + rewrite step_prev, Eo' in R. cbn in R. unfold kind_D in R. destruct Hr' as (Hr1 & _). rewrite Hr1 in R. exact R. }
  all: assert (H68 : nth 0 (l ++ e) 0 =? 68 = false) by
    (destruct l as [|x l]; [destruct He as [->| ->]; reflexivity|]; unfold line_kind in K; cbn [app nth];
     destruct (x =? 68); [rewrite orb_true_r in K; discriminate|reflexivity]);
    unfold conv095_line in Hc; rewrite H68 in Hc; injection Hc as <-;
    exists l, e; split; [reflexivity|]; split; [now right|]; split; [apply Hself|]; split; [exact Hok|];
    split; [exact Hself|];
    assert (HK : line_kind (l ++ e) <> Some KD) by (rewrite Hkind; congruence);
    destruct (vars_other sc s s' (l ++ e) Hself HK Hsim) as (A & B & F & P);
    split; [exact A|]; intros rs rs' R; rewrite B; rewrite P in R; apply reread_other; assumption.
Qed.

Lemma conv095_lines_sim sc : reads_decimal sc -> forall ls last s s' o,
  vars_eq s s' -> Forall ok_line ls -> ok_last last -> Forall line_091 ls -> line_091 last ->
  conv095_lines false (map (fun l => l ++ [10]) ls ++ last_chunk last) = Some o ->
  exists ls' last', o = file ls' last' /\ Forall ok_line ls' /\ ok_last last' /\
    reread (prev s') (run sc s (map (fun l => l ++ [10]) ls ++ last_chunk last))
                     (run sc s' (map (fun l => l ++ [10]) ls' ++ last_chunk last')).
Proof.
  intros Hsc. induction ls as [|l ls IH]; intros last s s' o Hsim Hls Hlast H1 H2 Hc.
  - cbn [map app] in *. destruct last as [|x r] eqn:El.
    + simpl in Hc. injection Hc as <-. exists [], []. split; [reflexivity|].
      split; [constructor|]. split; [exact Hlast|]. constructor.
    + rewrite <- El in *. assert (Hne : last <> []) by (subst; discriminate).
      assert (Elc : last_chunk last = [last]) by (subst; reflexivity). rewrite Elc in *.
      simpl in Hc. destruct (conv095_line false last) as [o'|] eqn:E; [|discriminate].
      injection Hc as <-.
      assert (Hsl : selfcontained (last ++ [])).
      { rewrite app_nil_r. pose proof (last_selfcontained last Hlast) as F. rewrite Elc in F. now inversion F. }
      rewrite <- (app_nil_r last) in E.
      destruct (conv095_line_sim sc s s' last [] o' Hsc Hsim (proj1 Hlast) H2 Hsl (or_introl eq_refl) E)
        as (l' & e' & -> & He' & Hne' & Hok' & Hself' & Hsim' & Hrow).
      specialize (Hrow [] [] (rr_nil _)). rewrite !app_nil_r in Hrow. rewrite app_nil_r.
      destruct He' as [->| ->].
      * exists [l'], []. unfold file, unlines. simpl. rewrite !app_nil_r.
        split; [reflexivity|]. split; [constructor; [exact Hok'|constructor]|].
        split; [repeat split; simpl; try lia; discriminate|].
        change (reread (prev s') (run sc s [last]) (run sc s' [l' ++ [10]])).
        rewrite !run_cons. simpl run. rewrite !app_nil_r. exact Hrow.
      * rewrite app_nil_r in *. exists [], l'. split; [reflexivity|]. split; [constructor|].
        split; [split; [exact Hok'|]; destruct Hself' as (? & ? & ?); split; assumption|].
        assert (El' : last_chunk l' = [l']) by (destruct l'; [congruence|reflexivity]). rewrite El'.
        cbn [map app]. rewrite !run_cons. simpl run. rewrite !app_nil_r. exact Hrow.
  - cbn [map app] in *. inversion Hls; subst. inversion H1; subst.
    cbn [conv095_lines] in Hc.
    destruct (conv095_line false (l ++ [10])) as [o1|] eqn:E; [|discriminate].
    destruct (conv095_lines false (map (fun l => l ++ [10]) ls ++ last_chunk last)) as [o2|] eqn:E2; [|discriminate].
    injection Hc as <-.
    destruct (conv095_line_sim sc s s' l [10] o1 Hsc Hsim) as (l' & e' & -> & He' & Hne' & Hok' & Hself' & Hsim' & Hrow); auto.
    { apply nl_selfcontained. }
    assert (e' = [10]) by (destruct He'; assumption). subst e'.
    destruct (IH last _ _ o2 Hsim') as (ls' & last' & -> & Hls' & Hlast' & Hrows); auto.
    exists (l' :: ls'), last'. split; [unfold file, unlines; simpl; now rewrite <- !app_assoc|].
    split; [now constructor|]. split; [exact Hlast'|].
    cbn [map app]. rewrite !run_cons. apply Hrow. exact Hrows.
Qed.

Lemma ok_hdr095 : ok_line (b "#GemCSV0.95").
Proof. split; simpl; [intros H; repeat (destruct H as [H|H]; [discriminate|]); exact H|lia]. Qed.

Lemma convert095_rows sc fmt b1 b2 l0 ls last o : reads_decimal sc ->
  ok_line l0 -> Forall ok_line ls -> ok_last last -> line_kind l0 = None ->
  Forall line_091 ls -> line_091 last ->
  convert_095 fmt (file (l0 :: ls) last) = Some o ->
  reread 0 (rows_of sc b1 (file (l0 :: ls) last)) (rows_of sc b2 o).
Proof.
  intros Hsc H0 Hls Hlast K0 H1 H2 Hc. unfold convert_095 in Hc.
  destruct (existsb _ _); [|discriminate].
  rewrite py_lines_file in Hc by (first [apply Hlast|now constructor]).
  cbn [map app conv095_lines] in Hc.
  assert (H68 : nth 0 (l0 ++ [10]) 0 =? 68 = false).
  { destruct l0 as [|x l0]; [reflexivity|]. unfold line_kind in K0. cbn [app nth].
    destruct (x =? 68); [rewrite orb_true_r in K0; discriminate|reflexivity]. }
  unfold conv095_line in Hc at 1. rewrite H68 in Hc.
  destruct (eqb_bytes _ _); [|discriminate].
  destruct (conv095_lines false _) as [o2|] eqn:E; [|discriminate].
  injection Hc as <-.
  rewrite file_rows by (first [apply Hlast|now constructor]).
  cbn [map app]. rewrite run_cons.
  assert (Hk0 : line_kind (l0 ++ [10]) = None) by (rewrite line_kind_nl; exact K0).
  destruct (step_inert sc (init b1) (l0 ++ [10])) as [C0 O0]; [destruct l0; discriminate|exact Hk0|].
  rewrite O0. cbn [app].
  set (s1 := next sc (init b1) (l0 ++ [10])) in *.
  set (s2 := next sc (next sc (init b2) (b "#GemCSV0.95" ++ [10])) (b "#adcMSSAMP" ++ [10])).
  destruct (step_inert sc (init b2) (b "#GemCSV0.95" ++ [10])) as [C1 O1]; [discriminate|reflexivity|].
  destruct (step_inert sc (next sc (init b2) (b "#GemCSV0.95" ++ [10])) (b "#adcMSSAMP" ++ [10])) as [C2 O2]; [discriminate|reflexivity|].
  assert (Ec : core s1 = core s2) by (unfold s2; rewrite C0, C2, C1; reflexivity).
  assert (P2 : prev s2 = 0%Q). { unfold s2. rewrite C1 in C2. exact (f_equal (fun x => fst (fst (fst (fst x)))) C2). }
  assert (Hsim : vars_eq s1 s2) by (split; [exact (f_equal (fun x => snd (fst x)) Ec)|exact (f_equal snd Ec)]).
  destruct (conv095_lines_sim sc Hsc ls last s1 s2 o2 Hsim Hls Hlast H1 H2 E) as (ls' & last' & -> & Hls' & Hlast' & Hrows).
  assert (Ef : (b "#GemCSV0.95" ++ [10] ++ b "#adcMSSAMP" ++ [10]) ++ file ls' last' =
               file (b "#GemCSV0.95" :: b "#adcMSSAMP" :: ls') last').
  { unfold file, unlines. cbn [map concat]. rewrite <- !app_assoc. reflexivity. }
  change (35 :: _) with ((b "#GemCSV0.95" ++ [10] ++ b "#adcMSSAMP" ++ [10]) ++ file ls' last').
  rewrite Ef, file_rows; [|constructor; [apply ok_hdr095|constructor; [apply ok_hdr2|exact Hls']]|apply Hlast'].
  cbn [map]. rewrite <- !app_comm_cons. rewrite run_cons, run_cons. fold s2.
  rewrite O1, O2. cbn [app]. rewrite P2 in Hrows. exact Hrows.
Qed.
