(** Property C06: converting a raw file of format 0.85C/0.9/0.91 to the compact format keeps all records. *)
From Coq Require Import String.
From Coq Require Import ZArith QArith List Bool Lia.
From Verif Require Import Lib Base Scan Parser ParserSpec ParserProofs ScanProofs Convert110 Convert110Spec Convert110Proofs.
Import ListNotations.
Open Scope Z_scope.

Lemma same_rows_length l1 l2 : Forall2 same_row l1 l2 -> length l1 = length l2.
Proof. induction 1; simpl; congruence. Qed.

(** If the conversion of a file that starts with a comment line succeeds, the converted file reads
    as the same records: same kinds, same time stamps, same values, in the same order. *)
Theorem C06_conversion_preserves_records :
  forall sc, reads_decimal sc ->
  forall fmt b1 b2 n l0 ls last out rows,
  ok_line l0 -> Forall ok_line ls -> ok_last last ->
  line_kind l0 = None -> Forall line_091 ls -> line_091 last ->
  convert_110 fmt (file (l0 :: ls) last) = Some out ->
  parse_gemfile sc b1 n (file (l0 :: ls) last) = Some rows ->
  exists rows', parse_gemfile sc b2 n out = Some rows' /\ Forall2 same_row rows rows'.
Proof.
  intros sc Hsc fmt b1 b2 n l0 ls last out rows H0 Hls Hl K H1 H2 Hc P.
  pose proof (convert_rows sc fmt b1 b2 l0 ls last out Hsc H0 Hls Hl K H1 H2 Hc) as R.
  unfold parse_gemfile in *. fold (rows_of sc b2 out). fold (rows_of sc b1 (file (l0 :: ls) last)) in P.
  pose proof (same_rows_length _ _ R) as L.
  destruct (Z.leb_spec (Z.of_nat (length (rows_of sc b1 (file (l0 :: ls) last)))) n); [|discriminate].
  injection P as <-. rewrite <- L.
  destruct (Z.leb_spec (Z.of_nat (length (rows_of sc b1 (file (l0 :: ls) last)))) n); [|lia].
  eauto.
Qed.

(** ... and the conversion does succeed on files with the documented header and plain sample lines. *)
Theorem C06_conversion_succeeds :
  forall fmt l0 ls last,
  In fmt [b "0.85C"; b "0.9"; b "0.91"] ->
  ok_line l0 -> Forall ok_line ls -> ok_line last -> (exists v, l0 = b "#GemCSV" ++ v) ->
  Forall line_091_plain ls -> line_091_plain last ->
  exists out, convert_110 fmt (file (l0 :: ls) last) = Some out.
Proof. exact convert_succeeds. Qed.

(** Files of another format are rejected. *)
Theorem C06_other_formats_rejected :
  forall fmt bs out, convert_110 fmt bs = Some out -> fmt = b "0.85C" \/ fmt = b "0.9" \/ fmt = b "0.91".
Proof.
  intros fmt bs out. unfold convert_110. destruct (existsb (eqb_bytes fmt) [b "0.85C"; b "0.9"; b "0.91"]) eqn:E; [intros _|discriminate].
  apply existsb_exists in E as (x & I & E). unfold eqb_bytes in E. destruct (list_eq_dec Z.eq_dec fmt x) as [->|]; [|discriminate]. clear E. cbn in I. intuition.
Qed.

Definition ex_091 : list bytes :=
  [b "#adcMSSAMP"; b "S,014"; b "D8185,100"; b "D3,-12"; b "M,5,3.9,22.5,1,2,3,4,5,6,7,8,9";
   b "D14,12"; b "D36,-3"; b "D60,2"; b "G,123.5,5,2020,5,6,1,2,3,43.6,-116.2"].

Example C06_case :
  Forall ok_line ex_091 /\ Forall line_091_plain ex_091 /\ Forall line_091 ex_091 /\ ok_last (b "D71,0") /\
  convert_110 (b "0.91") (file (b "#GemCSV0.91" :: ex_091) (b "D71,0")) =
  Some (file [b "#GemCSV1.1"; b "#adcMSSAMP"; b "#adcMSSAMP"; b "S,014"; b "D8185,100"; b "ma";
              b "M,5,3.9,22.5,1,2,3,4,5,6,7,8,9"; b "ny"; b "yj"; b "D60,2"; b "G,123.5,5,2020,5,6,1,2,3,43.6,-116.2";
              b "nm"] []).
Proof.
  assert (A : forall l, In l ex_091 \/ l = b "D71,0" -> line_kind l = Some KD -> exists ds a,
     l = line_D {| dneg := false; dint := ds; dfrac := None |} a [] /\
     ds <> [] /\ all_digits ds /\ int_ok a /\ pos_value ds < 8192).
  { unfold ex_091. simpl In. intros l H K.
    assert (X : forall ds neg da, l = line_D {| dneg := false; dint := ds; dfrac := None |} {| ineg := neg; idig := da |} [] ->
       ds <> [] -> da <> [] -> all_digits ds -> all_digits da -> pos_value ds < 8192 -> pos_value da < 1000 -> 0 <= pos_value da ->
       exists ds a, l = line_D {| dneg := false; dint := ds; dfrac := None |} a [] /\
         ds <> [] /\ all_digits ds /\ int_ok a /\ pos_value ds < 8192).
    { intros ds neg da E N1 N2 D1 D2 P1 P2 P3. exists ds, {| ineg := neg; idig := da |}.
      repeat split; auto; unfold int_value; cbn [ineg idig]; destruct neg; lia. }
    destruct H as [H|H]; [repeat (destruct H as [H|H]; [|])|]; try (subst l; vm_compute in K; discriminate K); try contradiction.
    - apply (X [8;1;8;5] false [1;0;0]); try (now subst l); try discriminate; try (repeat constructor; lia); simpl; lia.
    - apply (X [3] true [1;2]); try (now subst l); try discriminate; try (repeat constructor; lia); simpl; lia.
    - apply (X [1;4] false [1;2]); try (now subst l); try discriminate; try (repeat constructor; lia); simpl; lia.
    - apply (X [3;6] true [3]); try (now subst l); try discriminate; try (repeat constructor; lia); simpl; lia.
    - apply (X [6;0] false [2]); try (now subst l); try discriminate; try (repeat constructor; lia); simpl; lia.
    - apply (X [7;1] false [0]); try (now subst l); try discriminate; try (repeat constructor; lia); simpl; lia. }
  split; [|split; [|split; [|split]]].
  - repeat constructor; simpl; try lia; intros H; repeat (destruct H as [H|H]; [discriminate|]); exact H.
  - apply Forall_forall. intros l Hl K. apply A; auto.
  - apply Forall_forall. intros l Hl K. destruct (A l (or_introl Hl) K) as (ds & a & E & N & D & I & P).
    exists ds, a, []. do 4 (split; [assumption|]). split; [left; reflexivity|exact P].
  - repeat split; simpl; try lia; try discriminate.
  - vm_compute. reflexivity.
Qed.

(** The range condition on the clock is needed: a clock value outside [0, 8192) is not preserved. *)
Theorem C06_clock_out_of_range_refuted :
  exists bs out r r', convert_110 (b "0.91") bs = Some out /\
    parse_gemfile dec_scanner [] 9 bs = Some [r] /\ parse_gemfile dec_scanner [] 9 out = Some [r'] /\
    ~ (rmillis r == rmillis r')%Q.
Proof.
  exists (file [b "#GemCSV0.91"; b "D8202,1"] []). eexists _, _, _.
  repeat split; try (vm_compute; reflexivity). vm_compute. discriminate.
Qed.

(** So is the condition that the input holds no compact lines: the converter does not follow their clock. *)
Theorem C06_compact_input_refuted :
  exists bs out r1 r2 r1' r2', convert_110 (b "0.91") bs = Some out /\
    parse_gemfile dec_scanner [] 9 bs = Some [r1; r2] /\ parse_gemfile dec_scanner [] 9 out = Some [r1'; r2'] /\
    ~ (rmillis r2 == rmillis r2')%Q.
Proof.
  exists (file [b "#GemCSV0.91"; b "mm"; b "D12,1"] []). eexists _, _, _, _, _.
  repeat split; try (vm_compute; reflexivity). vm_compute. discriminate.
Qed.

Print Assumptions C06_conversion_preserves_records.
Print Assumptions C06_conversion_succeeds.
Print Assumptions C06_other_formats_rejected.
Print Assumptions C06_clock_out_of_range_refuted.
Print Assumptions C06_compact_input_refuted.
