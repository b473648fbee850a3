(** Property C64: conversion of raw files to format 0.95. *)
From Coq Require Import String.
From Coq Require Import ZArith QArith List Bool Lia Lqa.
From Verif Require Import Lib Base Scan Parser ParserSpec ParserProofs ScanProofs Convert110 Convert110Spec Convert110Proofs Convert110Props
  NamesProofs GemCat GemCatProofs Select Cli CliSpec CliProofs Header HeaderSpec HeaderProofs HeaderProps Convert095 Convert095Spec Convert095Proofs.
Import ListNotations.
Open Scope Z_scope.

Lemma reread_values c rows rows' : reread c rows rows' -> Forall2 same_values rows rows'.
Proof.
  assert (X : forall r r', same_row r r' -> same_values r r') by (intros r r' (A & _ & B); now split).
  induction 1; constructor; auto.
Qed.
Lemma reread_others c rows rows' : reread c rows rows' ->
  Forall2 same_row (filter (fun r => negb (kind_D r)) rows) (filter (fun r => negb (kind_D r)) rows').
Proof.
  induction 1 as [c|c r r' rs rs' K _ (K' & _) _ _ IH|c r r' rs rs' K _ (K' & _) _ IH|c r r' rs rs' K S _ IH].
  - constructor.
  - cbn [filter]. assert (A : kind_D r = true) by (unfold kind_D; now rewrite K). assert (A' : kind_D r' = true) by (unfold kind_D; now rewrite <- K', K).
    rewrite A, A'. exact IH.
  - cbn [filter]. assert (A : kind_D r = true) by (unfold kind_D; now rewrite K). assert (A' : kind_D r' = true) by (unfold kind_D; now rewrite <- K', K).
    rewrite A, A'. exact IH.
  - cbn [filter]. assert (A : kind_D r = false) by (unfold kind_D; destruct (rkind r); congruence).
    assert (A' : kind_D r' = false) by (unfold kind_D; rewrite <- (proj1 S); destruct (rkind r); congruence).
    rewrite A, A'. cbn [negb]. now constructor.
Qed.

(** C64.  The reader makes of the converted file what [reread] says: all records, in order, with their kinds and
    values; the clock of samples of small counts is replaced by "10 ms after the sample before". *)
Theorem C64_rows : forall sc, reads_decimal sc ->
  forall fmt b1 b2 n l0 ls last out rows,
  ok_line l0 -> Forall ok_line ls -> ok_last last ->
  line_kind l0 = None -> Forall line_091 ls -> line_091 last ->
  convert_095 fmt (file (l0 :: ls) last) = Some out ->
  parse_gemfile sc b1 n (file (l0 :: ls) last) = Some rows ->
  exists rows', parse_gemfile sc b2 n out = Some rows' /\ reread 0 rows rows'.
Proof.
  intros sc Hsc fmt b1 b2 n l0 ls last out rows H0 Hls Hl K H1 H2 Hc P.
  pose proof (convert095_rows sc fmt b1 b2 l0 ls last out Hsc H0 Hls Hl K H1 H2 Hc) as R.
  unfold parse_gemfile in *. fold (rows_of sc b2 out). fold (rows_of sc b1 (file (l0 :: ls) last)) in P.
  pose proof (Forall2_length_eq _ _ _ (reread_values _ _ _ R)) as L.
  destruct (Z.leb_spec (Z.of_nat (length (rows_of sc b1 (file (l0 :: ls) last)))) n); [|discriminate].
  injection P as <-. rewrite <- L.
  destruct (Z.leb_spec (Z.of_nat (length (rows_of sc b1 (file (l0 :: ls) last)))) n); [|lia].
  eauto.
Qed.

(** So no sample is lost, added, reordered or changed in value, and GPS and metadata records are unchanged. *)
Theorem C64_values : forall sc, reads_decimal sc ->
  forall fmt b1 b2 n l0 ls last out rows,
  ok_line l0 -> Forall ok_line ls -> ok_last last ->
  line_kind l0 = None -> Forall line_091 ls -> line_091 last ->
  convert_095 fmt (file (l0 :: ls) last) = Some out ->
  parse_gemfile sc b1 n (file (l0 :: ls) last) = Some rows ->
  exists rows', parse_gemfile sc b2 n out = Some rows' /\
    Forall2 (fun r r' => rkind r = rkind r' /\ Forall2 Qeq (rvals r) (rvals r')) rows rows' /\
    Forall2 same_row (filter (fun r => negb (kind_D r)) rows) (filter (fun r => negb (kind_D r)) rows').
Proof.
  intros sc Hsc fmt b1 b2 n l0 ls last out rows H0 Hls Hl K H1 H2 Hc P.
  destruct (C64_rows sc Hsc fmt b1 b2 n l0 ls last out rows) as (rows' & E & R); auto.
  exists rows'. split; [exact E|]. split; [exact (reread_values _ _ _ R)|exact (reread_others _ _ _ R)].
Qed.

Lemma reduced_unique x y z : reduced x y -> reduced x z -> (y == z)%Q.
Proof.
  intros (A1 & A2 & k & A3) (B1 & B2 & j & B3).
  assert (E : (y - z == inject_Z (8192 * (j - k)))%Q).
  { replace (8192 * (j - k)) with (8192 * j + - (8192 * k)) by ring. rewrite inject_Z_plus, inject_Z_opp. lra. }
  assert (U : (inject_Z (8192 * (j - k)) < inject_Z 8192)%Q) by (rewrite <- E; change (inject_Z 8192) with 8192%Q; lra).
  assert (V : (inject_Z (-8192) < inject_Z (8192 * (j - k)))%Q) by (rewrite <- E; change (inject_Z (-8192)) with (-8192)%Q; lra).
  rewrite <- Zlt_Qlt in U, V. assert (j - k = 0) by lia. rewrite H in E. change (inject_Z (8192 * 0)) with 0%Q in E. lra.
Qed.
Lemma reduced_comp x x' y : (x == x')%Q -> reduced x y -> reduced x' y.
Proof. intros E (A1 & A2 & k & A3). split; [exact A1|]. split; [exact A2|]. exists k. now rewrite <- E. Qed.

(** The clock survives exactly for steady recordings: every sample of small counts 10 ms after the sample before it. *)
Theorem C64_steady : forall sc, reads_decimal sc ->
  forall fmt b1 b2 n l0 ls last out rows,
  ok_line l0 -> Forall ok_line ls -> ok_last last ->
  line_kind l0 = None -> Forall line_091 ls -> line_091 last ->
  convert_095 fmt (file (l0 :: ls) last) = Some out ->
  parse_gemfile sc b1 n (file (l0 :: ls) last) = Some rows ->
  exists rows', parse_gemfile sc b2 n out = Some rows' /\ (Forall2 same_row rows rows' <-> steady 0 rows).
Proof.
  intros sc Hsc fmt b1 b2 n l0 ls last out rows H0 Hls Hl K H1 H2 Hc P.
  destruct (C64_rows sc Hsc fmt b1 b2 n l0 ls last out rows) as (rows' & E & R); auto.
  exists rows'. split; [exact E|]. clear -R. enough (G : forall c c', (c == c')%Q -> reread c' rows rows' -> (Forall2 same_row rows rows' <-> steady c rows)) by (now apply (G 0%Q 0%Q)).
  clear R. intros c c' Hc R. revert c Hc. induction R as [c'|c' r r' rs rs' K S V D R IH|c' r r' rs rs' K S V R IH|c' r r' rs rs' K S R IH]; intros c Hc.
  - split; constructor.
  - split.
    + intros F. inversion F as [|? ? ? ? F1 F2]; subst. destruct F1 as (_ & F1 & _). apply st_sample; [exact K| |].
      * intros _. destruct D as (D1 & D2 & k & D3). split; [rewrite F1; exact D1|]. split; [rewrite F1; exact D2|]. exists k. rewrite F1, Hc. exact D3.
      * apply (IH (rmillis r)); [exact F1|exact F2].
    + intros F. inversion F as [|? ? ? F1 F2 F3|? ? ? F1 F2]; subst; [|congruence].
      assert (M : (rmillis r == rmillis r')%Q).
      { apply (reduced_unique (c + 10)); [now apply F2|]. apply (reduced_comp (c' + 10)); [rewrite Hc; reflexivity|exact D]. }
      constructor; [split; [apply V|split; [exact M|apply V]]|]. apply (IH (rmillis r)); [exact M|exact F3].
  - split.
    + intros F. inversion F as [|? ? ? ? F1 F2]; subst. apply st_sample; [exact K|contradiction|]. apply (IH (rmillis r)); [apply V|exact F2].
    + intros F. inversion F as [|? ? ? F1 F2 F3|? ? ? F1 F2]; subst; [|congruence].
      constructor; [exact V|]. apply (IH (rmillis r)); [apply V|exact F3].
  - split.
    + intros F. inversion F as [|? ? ? ? F1 F2]; subst. apply st_other; [exact K|]. now apply IH.
    + intros F. inversion F as [|? ? ? F1 F2 F3|? ? ? F1 F2]; subst; [congruence|].
      constructor; [exact S|]. now apply (IH c).
Qed.

Lemma conv095_app l1 l2 f : l1 <> [] -> conv095_lines f (l1 ++ l2) =
  match conv095_lines f l1, conv095_lines false l2 with Some a, Some c => Some (a ++ c) | _, _ => None end.
Proof.
  revert f. induction l1 as [|x l1 IH]; intros f Hne; [congruence|]. cbn [app conv095_lines].
  destruct (conv095_line f x) as [o|]; [|reflexivity].
  destruct l1 as [|y l1].
  - cbn [app conv095_lines]. destruct (conv095_lines false l2); [|reflexivity]. now rewrite app_nil_r.
  - rewrite IH by discriminate. destruct (conv095_lines false (y :: l1)); [|reflexivity].
    destruct (conv095_lines false l2); [|reflexivity]. now rewrite app_assoc.
Qed.

(** What is written for a sample: one letter for counts of at most 12, then its clock modulo 4096 in hexadecimal;
    other samples are copied.  What comes before in the output is the conversion of what comes before in the input. *)
Theorem C64_text : forall fmt l0 pre ds a t post last out,
  ok_line l0 -> Forall ok_line pre -> Forall ok_line post -> ok_line last -> ok_line (line_D (ms_lit ds) a t) ->
  ds <> [] -> all_digits ds -> int_ok a -> stops t ->
  convert_095 fmt (file (l0 :: pre ++ line_D (ms_lit ds) a t :: post) last) = Some out ->
  exists A l B, out = A ++ l ++ [10] ++ B /\ convert_095 fmt (file (l0 :: pre) []) = Some A /\
    (-12 <= int_value a <= 12 -> exists h, l = 109 + int_value a :: h /\ hex_value h (pos_value ds mod 4096) /\ (length h <= 3)%nat) /\
    (~ (-12 <= int_value a <= 12) -> l = line_D (ms_lit ds) a t).
Proof.
  intros fmt l0 pre ds a t post last out H0 Hpre Hpost Hlast HD Hne Hd Ha Ht Hc. unfold convert_095 in *.
  destruct (existsb _ _); [|discriminate].
  rewrite py_lines_file in Hc; [|constructor; [exact H0|]; apply Forall_app; split; [exact Hpre|]; now constructor|exact Hlast].
  assert (On : ok_line []) by (split; simpl; [tauto|lia]).
  rewrite py_lines_file by (first [exact On|now constructor]).
  set (L := line_D (ms_lit ds) a t) in *.
  replace (map (fun l => l ++ [10]) (l0 :: pre ++ L :: post) ++ last_chunk last)
    with ((map (fun l => l ++ [10]) (l0 :: pre) ++ last_chunk []) ++ [L ++ [10]] ++ (map (fun l => l ++ [10]) post ++ last_chunk last)) in Hc.
  2: { cbn [map last_chunk]. rewrite app_nil_r, map_app. cbn [map app]. now rewrite <- app_assoc. }
  rewrite conv095_app in Hc by discriminate. destruct (conv095_lines true _) as [A|]; [|discriminate].
  rewrite conv095_app in Hc by discriminate. cbn [conv095_lines] in Hc.
  destruct (conv095_line false (L ++ [10])) as [o|] eqn:Eo; [|discriminate].
  destruct (conv095_lines false _) as [B|]; [|discriminate]. injection Hc as <-. rewrite app_nil_r.
  destruct (conv095_sample false ds a t [10] o Hne Hd Ha Ht (or_intror eq_refl) Eo) as [(Hs & ->)|(Hs & ->)].
  - exists A, (109 + int_value a :: hex_upper (pos_value ds mod 4096)), B.
    split; [cbn [app]; now rewrite <- app_assoc|]. split; [reflexivity|].
    assert (Hn : 0 <= pos_value ds mod 4096 < 4096) by (apply Z.mod_pos_bound; lia).
    split; [|lia]. intros _. eexists. split; [reflexivity|]. split; [now apply hex_upper_value|].
    destruct (hex_upper_chars _ Hn) as (c & h & _ & _ & _ & X). exact X.
  - exists A, L, B. split; [fold L; now rewrite <- app_assoc|]. split; [reflexivity|]. split; [lia|reflexivity].
Qed.

(** The conversion succeeds on files with the documented header and plain sample lines. *)
Lemma conv095_line_plain l e : line_091_plain l -> e = [] \/ e = [10] -> exists r, conv095_line false (l ++ e) = Some r.
Proof.
  intros Hl He. destruct (conv_line_plain 0 l e Hl He) as ((x & o) & E). unfold conv_line in E. unfold conv095_line.
  destruct (nth 0 (l ++ e) 0 =? 68); [|eauto].
  destruct (split_comma (l ++ e)) as [|w0 [|w1 ws]]; try discriminate.
  destruct (py_int w1); [|discriminate]. destruct (py_int (skipn 1 w0)); [|discriminate]. destruct (_ <=? _); eauto.
Qed.
Lemma conv095_lines_plain ls last : Forall line_091_plain ls -> line_091_plain last ->
  exists o, conv095_lines false (map (fun l => l ++ [10]) ls ++ last_chunk last) = Some o.
Proof.
  intros H Hl. induction H as [|l ls Hl0 H (o2 & IH)].
  - cbn [map app]. destruct last as [|x r] eqn:El; [simpl; eauto|]. rewrite <- El in *.
    assert (Elc : last_chunk last = [last]) by (subst; reflexivity). rewrite Elc. cbn [conv095_lines].
    destruct (conv095_line_plain last [] Hl (or_introl eq_refl)) as [o E].
    rewrite app_nil_r in E. rewrite E. eauto.
  - cbn [map app conv095_lines].
    destruct (conv095_line_plain l [10] Hl0 (or_intror eq_refl)) as [o E]. rewrite E, IH. eauto.
Qed.
Theorem C64_succeeds : forall fmt l0 ls last,
  In fmt [b "0.85C"; b "0.9"; b "0.91"] ->
  ok_line l0 -> Forall ok_line ls -> ok_line last -> (exists v, l0 = b "#GemCSV" ++ v) ->
  Forall line_091_plain ls -> line_091_plain last ->
  exists out, convert_095 fmt (file (l0 :: ls) last) = Some out.
Proof.
  intros fmt l0 ls last Hf H0 Hls Hlast (v & ->) H1 H2. unfold convert_095.
  assert (Ef : existsb (eqb_bytes fmt) [b "0.85C"; b "0.9"; b "0.91"] = true).
  { apply existsb_exists. exists fmt. split; [exact Hf|]. unfold eqb_bytes. now destruct (list_eq_dec Z.eq_dec fmt fmt). }
  rewrite Ef. rewrite py_lines_file by (first [assumption|now constructor]).
  cbn [map app conv095_lines]. unfold conv095_line at 1.
  change (nth 0 _ 0 =? 68) with false. cbn match.
  replace (eqb_bytes (firstn 7 ((b "#GemCSV" ++ v) ++ [10])) (b "#GemCSV")) with true by reflexivity.
  destruct (conv095_lines_plain ls last H1 H2) as [o E]. rewrite E. eauto.
Qed.

(** The output is never longer than the input, but for the header. *)
Lemma hex_upper_length ds : ds <> [] -> all_digits ds -> (length (hex_upper (pos_value ds mod 4096)) <= length ds)%nat.
Proof.
  intros Hne Hd. assert (Hn : 0 <= pos_value ds mod 4096 < 4096) by (apply Z.mod_pos_bound; lia).
  destruct (hex_upper_chars _ Hn) as (_ & _ & _ & _ & _ & L3).
  destruct ds as [|d1 [|d2 [|d3 ds]]]; [congruence| | |cbn [length] in *; lia].
  - inversion Hd; subst. cbn [pos_value length]. change (10 ^ Z.of_nat 0) with 1. rewrite Z.mod_small by lia.
    unfold hex_upper. destruct (d1 * 1 + 0 <? 16) eqn:E; [reflexivity|]. apply Z.ltb_ge in E. lia.
  - inversion Hd as [|? ? A1 A2]; subst. inversion A2; subst. cbn [pos_value length]. change (10 ^ Z.of_nat 0) with 1. change (10 ^ Z.of_nat 1) with 10.
    rewrite Z.mod_small by lia.
    unfold hex_upper. destruct (_ <? 16); [cbn; lia|]. destruct (_ <? 256) eqn:E; [cbn; lia|]. apply Z.ltb_ge in E. lia.
Qed.
Lemma conv095_line_length l e o : line_091 l -> e = [] \/ e = [10] -> conv095_line false (l ++ e) = Some o -> (length o <= length (l ++ e))%nat.
Proof.
  intros H He E. destruct (line_kind l) as [[]|] eqn:K.
  { destruct (H K) as (ds & a & t & -> & Hne & Hd & Ha & Ht & _). fold (ms_lit ds) in *.
    destruct (conv095_sample false ds a t e o Hne Hd Ha Ht He E) as [(_ & ->)|(_ & ->)]; [|reflexivity].
    pose proof (hex_upper_length ds Hne Hd) as X. rewrite line_D_text.
    destruct Ha as (A1 & A2 & A3). unfold int_text, digit_text. cbn [length]. rewrite !app_length. cbn [length]. rewrite !app_length, !map_length.
    destruct (idig a); [congruence|]. cbn [length]. lia. }
  all: unfold conv095_line in E; assert (H68 : nth 0 (l ++ e) 0 =? 68 = false) by
    (destruct l as [|x l]; [destruct He as [->| ->]; reflexivity|]; unfold line_kind in K; cbn [app nth];
     destruct (x =? 68); [rewrite orb_true_r in K; discriminate|reflexivity]); rewrite H68 in E; injection E as <-; reflexivity.
Qed.
Theorem C64_length : forall fmt l0 ls last out,
  ok_line l0 -> Forall ok_line ls -> ok_line last ->
  line_kind l0 = None -> Forall line_091 ls -> line_091 last ->
  convert_095 fmt (file (l0 :: ls) last) = Some out ->
  (length out <= length (file (l0 :: ls) last) + 15)%nat.
Proof.
  intros fmt l0 ls last out H0 Hls Hl K H1 H2 Hc. unfold convert_095 in Hc.
  destruct (existsb _ _); [|discriminate].
  rewrite py_lines_file in Hc by (first [assumption|now constructor]).
  assert (G : forall ls o, Forall line_091 ls -> conv095_lines false (map (fun l => l ++ [10]) ls ++ last_chunk last) = Some o ->
    (length o <= length (file ls last))%nat).
  { clear -H2. intros ls o H. revert o. induction H as [|l ls Hl H IH]; intros o E.
    - cbn [map app] in E. unfold file. cbn. destruct last as [|x r] eqn:El; [injection E as <-; cbn; lia|]. rewrite <- El in *.
      assert (Elc : last_chunk last = [last]) by (subst; reflexivity). rewrite Elc in E. cbn [conv095_lines] in E.
      destruct (conv095_line false last) as [o1|] eqn:E1; [|discriminate]. injection E as <-. rewrite app_nil_r.
      rewrite <- (app_nil_r last) in E1. apply conv095_line_length in E1; [|exact H2|now left]. now rewrite app_nil_r in E1.
    - cbn [map app conv095_lines] in E. destruct (conv095_line false (l ++ [10])) as [o1|] eqn:E1; [|discriminate].
      destruct (conv095_lines false _) as [o2|] eqn:E2; [|discriminate]. injection E as <-.
      apply conv095_line_length in E1; [|exact Hl|now right]. specialize (IH _ eq_refl).
      unfold file, unlines in *. cbn [map concat]. rewrite !app_length in *. lia. }
  cbn [map app conv095_lines] in Hc.
  assert (H68 : nth 0 (l0 ++ [10]) 0 =? 68 = false).
  { destruct l0 as [|x l0]; [reflexivity|]. unfold line_kind in K. cbn [app nth].
    destruct (x =? 68); [rewrite orb_true_r in K; discriminate|reflexivity]. }
  unfold conv095_line in Hc at 1. rewrite H68 in Hc.
  destruct (eqb_bytes _ _) eqn:Eh; [|discriminate].
  destruct (conv095_lines false _) as [o2|] eqn:E; [|discriminate]. injection Hc as <-.
  apply G in E; [|exact H1].
  assert (L0 : (7 <= length l0)%nat).
  { apply eqb_bytes_iff in Eh. destruct l0 as [|x1 [|x2 [|x3 [|x4 [|x5 [|x6 [|x7 l0]]]]]]]; try discriminate Eh. cbn [length]. lia. }
  unfold file, unlines in *. cbn [map concat length]. rewrite !app_length in *. cbn [length]. lia.
Qed.

(** Files of another format are rejected. *)
Theorem C64_other_formats_rejected :
  forall fmt bs out, convert_095 fmt bs = Some out -> fmt = b "0.85C" \/ fmt = b "0.9" \/ fmt = b "0.91".
Proof.
  intros fmt bs out. unfold convert_095. destruct (existsb (eqb_bytes fmt) [b "0.85C"; b "0.9"; b "0.91"]) eqn:E; [intros _|discriminate].
  apply existsb_exists in E as (x & I & E). unfold eqb_bytes in E. destruct (list_eq_dec Z.eq_dec fmt x) as [->|]; [|discriminate]. clear E. cbn in I. intuition.
Qed.

(** A concrete file: it meets the hypotheses (C06_case shows so), and this is what comes out. *)
Example C64_case :
  convert_095 (b "0.91") (file (b "#GemCSV0.91" :: ex_091) (b "D71,0")) =
  Some (file [b "#GemCSV0.95"; b "#adcMSSAMP"; b "#adcMSSAMP"; b "S,014"; b "D8185,100"; b "a3";
              b "M,5,3.9,22.5,1,2,3,4,5,6,7,8,9"; b "yE"; b "j24"; b "o3C"; b "G,123.5,5,2020,5,6,1,2,3,43.6,-116.2";
              b "m47"] []).
Proof. vm_compute. reflexivity. Qed.

Example C64_case_steady : exists rows,
  parse_gemfile dec_scanner [] 9 (file [b "#GemCSV0.91"; b "D10,1"; b "G,123.5,5,2020,5,6,1,2,3,43.6,-116.2"; b "D20,-3"; b "D8187,40"; b "D5,2"] []) = Some rows /\
  steady 0 rows /\ length rows = 5%nat.
Proof.
  eexists. split; [vm_compute; reflexivity|]. split; [|reflexivity].
  apply st_sample; [reflexivity|intros _; split; [vm_compute; discriminate|]; split; [reflexivity|]; exists 0; reflexivity|].
  apply st_other; [discriminate|].
  apply st_sample; [reflexivity|intros _; split; [vm_compute; discriminate|]; split; [reflexivity|]; exists 0; reflexivity|].
  apply st_sample; [reflexivity| |].
  { intros (v & E & Hv). injection E as <-. vm_compute in Hv. destruct Hv as [_ Hv]. exfalso. now apply Hv. }
  apply st_sample; [reflexivity|intros _; split; [vm_compute; discriminate|]; split; [reflexivity|]; exists 1; reflexivity|].
  constructor.
Qed.

(** In general the times are lost: the reader ignores the hexadecimal clock. *)
Theorem C64_times_refuted :
  exists bs out r r', convert_095 (b "0.91") bs = Some out /\
    parse_gemfile dec_scanner [] 9 bs = Some [r] /\ parse_gemfile dec_scanner [] 9 out = Some [r'] /\
    ~ (rmillis r == rmillis r')%Q.
Proof.
  exists (file [b "#GemCSV0.91"; b "D2560,1"] []). eexists _, _, _.
  repeat split; try (vm_compute; reflexivity). vm_compute. discriminate.
Qed.

(** Not even another reader could recover them all: the clock rolls over at 8192 and only its remainder by 4096 is
    kept, so that two different files have the same conversion. *)
Theorem C64_recovery_refuted :
  exists bs1 bs2 out r1 r2, convert_095 (b "0.91") bs1 = Some out /\ convert_095 (b "0.91") bs2 = Some out /\
    parse_gemfile dec_scanner [] 9 bs1 = Some [r1] /\ parse_gemfile dec_scanner [] 9 bs2 = Some [r2] /\
    (0 <= rmillis r1 < 8192)%Q /\ (0 <= rmillis r2 < 8192)%Q /\ ~ (rmillis r1 == rmillis r2)%Q.
Proof.
  exists (file [b "#GemCSV0.91"; b "D2560,1"] []), (file [b "#GemCSV0.91"; b "D6656,1"] []). eexists _, _, _.
  repeat split; try (vm_compute; reflexivity); vm_compute; discriminate.
Qed.

(** And the converted file cannot be read by the library at all: its version "0.95" is not accepted. *)
Theorem C64_readable_refuted : forall na oddS oddV J R rs has fin fmt c bs out name sn nums,
  na (b "#GemCSV0.95") = false -> c <> 68 -> convert_095 fmt (c :: bs) = Some out ->
  read_version na oddV out = Some (b "0.95") /\
  (read_gem J R rs has fin [entry_of na oddS oddV name out] sn nums = NoFiles \/
   read_gem J R rs has fin [entry_of na oddS oddV name out] sn nums = BadFormat).
Proof.
  intros na oddS oddV J R rs has fin fmt c bs out name sn nums A C E.
  assert (V : read_version na oddV out = Some (b "0.95")).
  { unfold convert_095 in E. destruct (existsb _ _); [|discriminate].
    assert (X : exists t r, py_lines (c :: bs) = (c :: t) :: r).
    { assert (G : forall bs cur, exists t r, py_lines_from (cur ++ [c]) bs = (c :: t) :: r).
      { clear. induction bs as [|x bs IH]; intros cur; cbn [py_lines_from].
        - exists (rev cur), []. rewrite rev_app_distr. cbn [rev app]. destruct (cur ++ [c]) eqn:K; [destruct cur; discriminate|reflexivity].
        - destruct (x =? 10); [|apply (IH (x :: cur))]. exists (rev cur ++ [x]), (py_lines_from [] bs).
          cbn [rev]. rewrite rev_app_distr. reflexivity. }
      unfold py_lines. cbn [py_lines_from]. destruct (c =? 10); [|apply (G bs [])]. exists [], (py_lines_from [] bs). reflexivity. }
    destruct X as (t & r & X). rewrite X in E. cbn [conv095_lines] in E. unfold conv095_line in E. cbn [nth] in E.
    destruct (Z.eqb_spec c 68); [contradiction|]. destruct (eqb_bytes (firstn 7 (c :: t)) (b "#GemCSV")); [|discriminate].
    destruct (conv095_lines false r) as [os|]; [|discriminate]. injection E as <-.
    refine (C52_version na oddV [] (b "0.95") [10] (b "#adcMSSAMP" ++ [10] ++ os) _ _ _ A); [|constructor|simpl; intuition discriminate].
    constructor; [|constructor]. split; [|split; [|split; [repeat constructor; lia|now left]]]; simpl; intuition discriminate. }
  split; [exact V|]. unfold read_gem.
  destruct (find_nonmissing [entry_of na oddS oddV name out] sn nums) as [|f l] eqn:F; [now left|right].
  assert (Hf : f = entry_of na oddS oddV name out).
  { assert (K : In f (f :: l)) by now left. rewrite <- F in K. unfold find_nonmissing in K.
    apply filter_In in K. destruct K as (K & _). apply filter_In in K. destruct K as (K & _).
    cbn [filter] in K. destruct (is_raw _); [destruct K as [K|[]]; now symmetry|destruct K]. }
  subst f. cbn [drop_unreadable entry_of e_version]. rewrite V. reflexivity.
Qed.

Print Assumptions C64_rows.
Print Assumptions C64_values.
Print Assumptions C64_steady.
Print Assumptions C64_text.
Print Assumptions C64_succeeds.
Print Assumptions C64_length.
Print Assumptions C64_other_formats_rejected.
Print Assumptions C64_times_refuted.
Print Assumptions C64_recovery_refuted.
Print Assumptions C64_readable_refuted.
