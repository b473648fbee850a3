(** Property C52: the head of a raw file. *)
From Coq Require Import String.
From Coq Require Import ZArith List Bool Lia.
From Verif Require Import Lib Base Scan Convert110 Convert110Proofs NamesProofs GemCat GemCatProofs Select Cli CliSpec CliProofs Header HeaderSpec HeaderProofs.
Import ListNotations.
Open Scope Z_scope.

(** C52.  The format version is the text after the first seven characters of the first line that is not empty. *)
Theorem C52_version : forall na odd empties v e rest,
  Forall line_ok (empties ++ [(b "#GemCSV" ++ v, e)]) -> Forall (fun p => empty_line (fst p)) empties ->
  ~ In 44 v -> na (b "#GemCSV" ++ v) = false ->
  read_version na odd (lines_text (empties ++ [(b "#GemCSV" ++ v, e)]) ++ rest) = Some v.
Proof.
  intros na odd empties v e rest L E N A. unfold read_version. rewrite head_lines_text by assumption.
  rewrite map_app, <- app_assoc, filter_none.
  - cbn [map fst app filter]. assert (R : no_row (b "#GemCSV" ++ v) = false) by reflexivity. rewrite R. cbn [negb].
    rewrite split_comma_none by (simpl; intuition discriminate). now rewrite A.
  - intros x Hx. apply in_map_iff in Hx. destruct Hx as (p & <- & Hp). rewrite Forall_forall in E.
    specialize (E _ Hp). cbn beta in E. apply no_row_iff in E. now rewrite E.
Qed.

(** C52.  If the first line after the third that is neither empty nor a remark gives a serial number, that is the serial
    number of the file, whatever the rest of the file is. *)
Theorem C52_serial : forall na odd l1 l2 l3 notes l0 sn rest,
  Forall line_ok (l1 :: l2 :: l3 :: notes ++ [l0]) -> Forall (fun p => note (fst p)) notes ->
  serial_line (fst l0) sn -> na (b "S") = false -> na sn = false ->
  read_SN na odd (lines_text (l1 :: l2 :: l3 :: notes ++ [l0]) ++ rest) = Some (Some sn).
Proof.
  intros na odd l1 l2 l3 notes l0 sn rest L N S A B.
  assert (I0 : ~ note (fst l0)).
  { destruct S as (t & E & _). rewrite E. intros [K|(u & K)]; [|discriminate]. inversion K as [|? ? H]; lia. }
  rewrite (read_SN_rows na odd l1 l2 l3 notes l0 [] rest L N I0), (serial_line_cells _ _ S).
  assert (T : eqb_bytes (b "S") (b "S") = true) by reflexivity. now rewrite T, A, B.
Qed.

(** C52.  No serial number comes from anywhere else: if one is read then there are more than three lines, and the first
    line after the third that is neither empty nor a remark gives it (or has more than two cells). *)
Theorem C52_serial_only : forall na odd ls sn,
  Forall line_ok ls -> read_SN na odd (lines_text ls) = Some (Some sn) ->
  exists l1 l2 l3 notes l0 more, ls = l1 :: l2 :: l3 :: notes ++ l0 :: more /\ Forall (fun p => note (fst p)) notes /\
    ~ note (fst l0) /\ (serial_line (fst l0) sn \/ crowded (fst l0)).
Proof.
  intros na odd ls sn L R.
  destruct ls as [|l1 [|l2 [|l3 ls]]]; try (unfold read_SN in R; rewrite <- (app_nil_r (lines_text _)), head_lines_text in R by assumption; discriminate).
  assert (X : (exists notes l0 more, ls = notes ++ l0 :: more /\ Forall (fun p => note (fst p)) notes /\ ~ note (fst l0)) \/ Forall (fun p => note (fst p)) ls).
  { clear. induction ls as [|p ls IH]; [right; constructor|].
    destruct (negb (no_row (fst p)) && negb (starts 35 (fst p))) eqn:E.
    - left. exists [], p, ls. split; [reflexivity|]. split; [constructor|]. rewrite <- note_iff, E. discriminate.
    - apply note_iff in E. destruct IH as [(notes & l0 & more & -> & F & I0)|F].
      + left. exists (p :: notes), l0, more. split; [reflexivity|]. split; [now constructor|assumption].
      + right. now constructor. }
  destruct X as [(notes & l0 & more & -> & F & I0)|F].
  - exists l1, l2, l3, notes, l0, more. split; [reflexivity|]. split; [exact F|]. split; [exact I0|].
    rewrite <- (app_nil_r (lines_text _)), (read_SN_rows na odd l1 l2 l3 notes l0 more [] L F I0) in R.
    destruct (split_comma (before_hash (fst l0))) as [|t [|s [|z r]]] eqn:E.
    + destruct (split_join (before_hash (fst l0))) as (_ & NE & _). contradiction.
    + destruct (eqb_bytes t (b "S") && negb (na t)); discriminate.
    + left. apply cells_serial_line. destruct (eqb_bytes t (b "S")) eqn:T; [|discriminate]. apply eqb_bytes_iff in T. subst t.
      cbn [andb] in R. destruct (negb (na (b "S"))); [|discriminate]. destruct (na s); [discriminate|]. rewrite E. congruence.
    + right. apply cells_crowded. rewrite E. simpl. lia.
  - exfalso. unfold read_SN in R. rewrite <- (app_nil_r (lines_text _)), head_lines_text in R by assumption.
    cbn [map app skipn] in R. rewrite filter_none in R; [discriminate|].
    intros x Hx. apply note_iff. apply in_map_iff in Hx. destruct Hx as (p & <- & Hp). rewrite Forall_forall in F. now apply F.
Qed.

(** C52.  A line with six numbers after a cell "C" among lines 2 to 11, before which (from line 2 on) no cell is "C", gives
    the configuration, whatever the rest of the file is. *)
Theorem C52_config : forall na odd l1 pre l c rest,
  plain_na na -> Forall line_ok (l1 :: pre ++ [l]) -> (length pre <= 9)%nat ->
  Forall (fun p => ~ mentions_C (fst p)) pre -> config_line (fst l) c ->
  read_config na odd (lines_text (l1 :: pre ++ [l]) ++ rest) = c.
Proof.
  intros na odd l1 pre l c rest P L H F C. unfold read_config. rewrite head_lines_text by assumption.
  cbn [map app tl]. rewrite map_app, <- app_assoc. cbn [map app].
  apply config_from_line; [assumption|assumption|rewrite map_length; lia|].
  apply Forall_forall. intros x Hx. apply in_map_iff in Hx. destruct Hx as (p & <- & Hp). rewrite Forall_forall in F. now apply F.
Qed.

(** C52.  Without a cell "C" in lines 2 to 11 the default configuration is used (line 11 not being empty). *)
Theorem C52_no_config : forall na odd l1 pre last rest,
  Forall line_ok (l1 :: pre ++ [last]) -> length pre = 9%nat ->
  Forall (fun p => ~ mentions_C (fst p)) (pre ++ [last]) -> ~ empty_line (fst last) ->
  read_config na odd (lines_text (l1 :: pre ++ [last]) ++ rest) = mkconf 1 15 20 0 0 0.
Proof.
  intros na odd l1 pre last rest L H F E. unfold read_config. rewrite head_lines_text by assumption.
  cbn [map app tl]. apply config_from_default.
  - apply Forall_forall. intros x Hx. apply in_map_iff in Hx. destruct Hx as (p & <- & Hp). rewrite Forall_forall in F. now apply F.
  - rewrite map_length, app_length, H. simpl. lia.
  - right. exists (fst last). split; [|assumption]. rewrite map_app, nth_error_app2 by (rewrite map_length, H; simpl; lia).
    rewrite map_length, H. reflexivity.
Qed.

(** pandas' missing values are neither numbers nor the letters C and S. *)
Theorem C52_missing_words : plain_na na_words.
Proof. exact plain_na_words. Qed.

(** A head as the loggers write it. *)
Definition ex52 : list (bytes * bytes) :=
  map (fun l => (l, [13; 10]))
   [b "#GemCSV0.91"; b "#DmsSamp,ADC"; b "#G,msPPS,msLag,yr,mo,day,hr,min,sec,lat,lon";
    b "#M,ms,batt(V),temp(C),A2,A3,maxLag,minFree,maxUsed,maxOver,gpsFlag,freeStack1,freeStackIdle"; b "#R,stuff"; b "#E:error";
    b "S,058"; b "C,1,15,20,1,0,0"; b "D7780,-1"].
Example C52_case :
  Forall line_ok ex52 /\ Forall (fun p => note (fst p)) (firstn 3 (skipn 3 ex52)) /\ serial_line (fst (nth 6 ex52 ([], []))) (b "058") /\
  config_line (fst (nth 7 ex52 ([], []))) (mkconf 1 15 20 1 0 0) /\
  read_version na_words (fun _ => None) (lines_text ex52) = Some (b "0.91") /\
  read_SN na_words (fun _ => None) (lines_text ex52) = Some (Some (b "058")) /\
  read_config na_words (fun _ => None) (lines_text ex52) = mkconf 1 15 20 1 0 0.
Proof.
  split; [|split; [|split; [|split; [|repeat split; vm_compute; reflexivity]]]].
  - unfold ex52. cbn [map].
    repeat (apply Forall_cons; [split; [|split; [|split; [repeat constructor; lia|now right]]];
      intros K; simpl in K; repeat (destruct K as [K|K]; [discriminate|]); exact K|]). constructor.
  - repeat (apply Forall_cons; [right; eexists; reflexivity|]). constructor.
  - exists []. split; [reflexivity|]. simpl. repeat split; auto; intuition discriminate.
  - exists (b "1"), (b "15"), (b "20"), (b "1"), (b "0"), (b "0"). split; [reflexivity|]. split.
    { simpl. intros s H. repeat (destruct H as [H|H]; [subst s; simpl; intuition discriminate|]). destruct H. }
    repeat split; apply int_of_iff; reflexivity.
Qed.
(** Lines 2 to 7 of this head have no cell "C"; "temp(C)" is not one. *)
Example C52_case_pre : Forall (fun p => ~ mentions_C (fst p)) (firstn 6 (skipn 1 ex52)).
Proof.
  assert (X : forall l, existsb (eqb_bytes (b "C")) (split_comma l) = false -> ~ mentions_C l).
  { intros l H K. apply mentions_C_iff in K. rewrite <- Bool.not_true_iff_false in H. apply H. apply existsb_exists. exists (b "C"). now split. }
  repeat (apply Forall_cons; [apply X; vm_compute; reflexivity|]). constructor.
Qed.

(** A file converted to the compact format cannot be read again: the converter writes the version "1.1", and only
    "1.10" is accepted. *)
Theorem C52_converted_refuted : forall na oddS oddV J R rs has fin fmt c bs out name sn nums,
  na (b "#GemCSV1.1") = false -> c <> 68 -> convert_110 fmt (c :: bs) = Some out ->
  read_version na oddV out = Some (b "1.1") /\
  (read_gem J R rs has fin [entry_of na oddS oddV name out] sn nums = NoFiles \/
   read_gem J R rs has fin [entry_of na oddS oddV name out] sn nums = BadFormat).
Proof.
  intros na oddS oddV J R rs has fin fmt c bs out name sn nums A C E.
  assert (V : read_version na oddV out = Some (b "1.1")).
  { unfold convert_110 in E. destruct (existsb _ _); [|discriminate].
    assert (X : exists t r, py_lines (c :: bs) = (c :: t) :: r).
    { assert (G : forall bs cur, exists t r, py_lines_from (cur ++ [c]) bs = (c :: t) :: r).
      { clear. induction bs as [|x bs IH]; intros cur; cbn [py_lines_from].
        - exists (rev cur), []. rewrite rev_app_distr. cbn [rev app]. destruct (cur ++ [c]) eqn:K; [destruct cur; discriminate|reflexivity].
        - destruct (x =? 10); [|apply (IH (x :: cur))]. exists (rev cur ++ [x]), (py_lines_from [] bs).
          cbn [rev]. rewrite rev_app_distr. reflexivity. }
      unfold py_lines. cbn [py_lines_from]. destruct (c =? 10); [|apply (G bs [])]. exists [], (py_lines_from [] bs). reflexivity. }
    destruct X as (t & r & X). rewrite X in E. cbn [conv_lines] in E. unfold conv_line in E. cbn [nth] in E.
    destruct (Z.eqb_spec c 68); [contradiction|]. destruct (eqb_bytes (firstn 7 (c :: t)) (b "#GemCSV")); [|discriminate].
    destruct (conv_lines false 0 r) as [os|]; [|discriminate]. injection E as <-.
    refine (C52_version na oddV [] (b "1.1") [10] (b "#adcMSSAMP" ++ [10] ++ os) _ _ _ A); [|constructor|simpl; intuition discriminate].
    constructor; [|constructor]. split; [|split; [|split; [repeat constructor; lia|now left]]]; simpl; intuition discriminate. }
  split; [exact V|]. unfold read_gem.
  destruct (find_nonmissing [entry_of na oddS oddV name out] sn nums) as [|f l] eqn:F; [now left|right].
  assert (Hf : f = entry_of na oddS oddV name out).
  { assert (K : In f (f :: l)) by now left. rewrite <- F in K. unfold find_nonmissing in K.
    apply filter_In in K. destruct K as (K & _). apply filter_In in K. destruct K as (K & _).
    cbn [filter] in K. destruct (is_raw _); [destruct K as [K|[]]; now symmetry|destruct K]. }
  subst f. cbn [drop_unreadable entry_of e_version]. rewrite V. reflexivity.
Qed.

(** A configuration line after line 11 is not seen, and one with a number missing is ignored. *)
Theorem C52_late_config_refuted : exists ls, Forall line_ok ls /\ nth 11 (map fst ls) [] = b "C,2,30,60,1,0,0" /\
  read_config na_words (fun _ => None) (lines_text ls) = default_config.
Proof.
  exists (map (fun l => (l, [10])) (repeat (b "#") 11 ++ [b "C,2,30,60,1,0,0"])). split; [|split; vm_compute; reflexivity].
  cbn [map repeat app]. repeat (apply Forall_cons; [split; [|split; [|split; [repeat constructor; lia|now left]]];
    intros K; simpl in K; repeat (destruct K as [K|K]; [discriminate|]); exact K|]). constructor.
Qed.
Theorem C52_short_config_refuted : exists ls, Forall line_ok ls /\ nth 1 (map fst ls) [] = b "C,2,30,60,1,0" /\
  read_config na_words (fun _ => None) (lines_text ls) = default_config.
Proof.
  exists (map (fun l => (l, [10])) [b "#GemCSV0.91"; b "C,2,30,60,1,0"]). split; [|split; vm_compute; reflexivity].
  cbn [map]. repeat (apply Forall_cons; [split; [|split; [|split; [repeat constructor; lia|now left]]];
    intros K; simpl in K; repeat (destruct K as [K|K]; [discriminate|]); exact K|]). constructor.
Qed.
(** A serial number in the first three lines, or after other data, is not found. *)
Theorem C52_early_serial_refuted : exists ls, Forall line_ok ls /\ nth 2 (map fst ls) [] = b "S,058" /\
  read_SN na_words (fun _ => None) (lines_text ls) = None.
Proof.
  exists (map (fun l => (l, [10])) [b "#GemCSV0.91"; b "#x"; b "S,058"; b "D7780,-1"]). split; [|split; vm_compute; reflexivity].
  cbn [map]. repeat (apply Forall_cons; [split; [|split; [|split; [repeat constructor; lia|now left]]];
    intros K; simpl in K; repeat (destruct K as [K|K]; [discriminate|]); exact K|]). constructor.
Qed.

Print Assumptions C52_version.
Print Assumptions C52_serial.
Print Assumptions C52_serial_only.
Print Assumptions C52_config.
Print Assumptions C52_no_config.
Print Assumptions C52_missing_words.
Print Assumptions C52_converted_refuted.
Print Assumptions C52_late_config_refuted.
Print Assumptions C52_short_config_refuted.
Print Assumptions C52_early_serial_refuted.
