(** Properties C01-C05 and C45 of the raw-file reader. *)
From Coq Require Import String.
From Coq Require Import ZArith QArith List Bool Lia.
From Verif Require Import Lib Base Scan Parser ParserSpec ParserProofs ScanProofs.
Import ListNotations.
Open Scope Z_scope.

(** C01.  Reading a file whose lines fit the line buffer succeeds as long as the requested number of
    rows suffices, and yields exactly one row per data line, in order, of the announced kind. *)
Theorem C01_one_row_per_data_line :
  forall sc buf0 n ls last, Forall ok_line ls -> ok_line last ->
  Z.of_nat (length (kinds (ls ++ [last]))) <= n ->
  exists rows, parse_gemfile sc buf0 n (file ls last) = Some rows /\
               map rkind rows = kinds (ls ++ [last]).
Proof.
  intros sc buf0 n ls last H Hl Hn. unfold parse_gemfile.
  pose proof (rows_kinds_file sc buf0 ls last H Hl) as K.
  pose proof (f_equal (@length kind) K) as L. rewrite map_length in L.
  eexists. split; [|exact K]. rewrite L.
  destruct (Z.leb_spec (Z.of_nat (length (kinds (ls ++ [last])))) n); [reflexivity|lia].
Qed.

(** C01 for arbitrary byte sequences (over-long lines included): one row per [fgets] piece that
    starts with a data marker; and the pieces always exist. *)
Theorem C01_any_bytes :
  forall bs, exists cs, fgets_pieces bs cs /\
  forall sc buf0 n, Z.of_nat (length (kinds cs)) <= n ->
  exists rows, parse_gemfile sc buf0 n bs = Some rows /\ map rkind rows = kinds cs.
Proof.
  intros bs. exists (chunks bs). split; [apply pieces_chunks|].
  intros sc buf0 n Hn. unfold parse_gemfile.
  pose proof (rows_kinds_any sc buf0 bs) as K.
  pose proof (f_equal (@length kind) K) as L. rewrite map_length in L.
  eexists. split; [|exact K]. rewrite L.
  destruct (Z.leb_spec (Z.of_nat (length (kinds (chunks bs)))) n); [reflexivity|lia].
Qed.

(** ... and the cutting is unique, so the previous theorem determines the rows. *)
Theorem C01_pieces_unique :
  forall bs cs cs', fgets_pieces bs cs -> fgets_pieces bs cs' -> cs = cs'.
Proof. intros bs cs cs' H H'. apply chunks_pieces in H, H'. congruence. Qed.

(** C01, the other side: with too few rows requested, the reader fails instead of dropping rows. *)
Theorem C01_too_many_rows_is_an_error :
  forall sc buf0 n ls last, Forall ok_line ls -> ok_line last ->
  n < Z.of_nat (length (kinds (ls ++ [last]))) ->
  parse_gemfile sc buf0 n (file ls last) = None.
Proof.
  intros sc buf0 n ls last H Hl Hn. unfold parse_gemfile.
  pose proof (f_equal (@length kind) (rows_kinds_file sc buf0 ls last H Hl)) as L. rewrite map_length in L.
  rewrite L. destruct (Z.leb_spec (Z.of_nat (length (kinds (ls ++ [last])))) n); [lia|reflexivity].
Qed.

Definition ex_lines : list bytes :=
  [b "#GemCSV1.1"; b "D123.5,-42"; b "nm"; b "G,123,5,2020,5,6,1,2,3.5,43.6,-116.2"; b ""; b "x";
   b "M,200,3.9,22.5,1,2,3,4,5,6,7,8,9"; b "C,40"; b "Dxyz"].

Lemma ex_lines_ok : Forall ok_line ex_lines.
Proof.
  repeat constructor; simpl; try lia; intros H; repeat (destruct H as [H|H]; [discriminate|]); exact H.
Qed.

Example C01_case :
  Forall ok_line ex_lines /\ ok_line (b "ab") /\
  kinds (ex_lines ++ [b "ab"]) = [KD; KD; KG; KD; KM; KD; KD] /\
  map rmillis match parse_gemfile dec_scanner [] 10 (file ex_lines (b "ab")) with Some r => r | None => [] end
    = [1235 # 10; (1235 # 10) + 10 + 1 - 8192 * 0; 123 # 1;
       (1235 # 10) + 10 + 1 - 8192 * 0 + 10 - 8192 * 0; 200 # 1; (1235 # 10); (1235 # 10) + 10 + (-12 # 1) - 8192 * 0]%Q.
Proof.
  split; [apply ex_lines_ok|]. split.
  - split; [|simpl; lia]. simpl. intros H; repeat (destruct H as [H|H]; [discriminate|]); exact H.
  - split; vm_compute; reflexivity.
Qed.

(** C02.  Deleting every inert line (and an inert unterminated last line) changes nothing. *)
Theorem C02_inert_lines_deleted :
  forall sc b1 b2 n ls last, Forall ok_line ls -> ok_last last ->
  parse_gemfile sc b1 n (file ls last) =
  parse_gemfile sc b2 n (file (filter is_data ls) (if is_data last then last else [])).
Proof. exact parse_inert. Qed.

(** C02.  Two files that differ only in inert lines (any number of insertions and deletions, at any
    positions) read the same, also through the retry of [read_gem]. *)
Theorem C02_inert_lines :
  forall sc b1 b2 ls1 ls2 last, Forall ok_line ls1 -> Forall ok_line ls2 -> ok_last last ->
  filter is_data ls1 = filter is_data ls2 ->
  (forall n, parse_gemfile sc b1 n (file ls1 last) = parse_gemfile sc b2 n (file ls2 last)) /\
  parse_retry sc b1 (file ls1 last) = parse_retry sc b2 (file ls2 last).
Proof.
  intros sc b1 b2 ls1 ls2 last H1 H2 Hl E.
  assert (A : forall n, parse_gemfile sc b1 n (file ls1 last) = parse_gemfile sc b2 n (file ls2 last)).
  { intros n. rewrite (parse_inert sc b1 b1 n ls1), (parse_inert sc b2 b1 n ls2) by assumption. now rewrite E. }
  split; [exact A|]. unfold parse_retry. now rewrite !A.
Qed.

Example C02_case :
  filter is_data ex_lines = filter is_data (b "S,123" :: b "# note" :: ex_lines) /\
  filter is_data ex_lines <> ex_lines /\ ok_last (b "ab").
Proof.
  split; [reflexivity|]. split; [vm_compute; discriminate|].
  split; [|split; vm_compute; discriminate].
  split; [|simpl; lia]. simpl. intros H; repeat (destruct H as [H|H]; [discriminate|]); exact H.
Qed.

(** The side condition on the unterminated last line is needed: after a lone 'G' at the end of the
    file the reader scans the bytes left over from the previous line, so an inert line shows through. *)
Theorem lone_marker_at_eof_refuted :
  exists ls last, Forall ok_line ls /\ ok_line last /\ last = [71] /\
  parse_gemfile dec_scanner [] 10 (file ls last) <>
  parse_gemfile dec_scanner [] 10 (file (filter is_data ls) last).
Proof.
  exists [b "# 5,6,2020,1,2,3,4,5,43,116"], (b "G").
  repeat split.
  - repeat constructor; simpl; try lia; intros H; repeat (destruct H as [H|H]; [discriminate|]); exact H.
  - simpl. intros H; repeat (destruct H as [H|H]; [discriminate|]); exact H.
  - simpl; lia.
  - vm_compute. discriminate.
Qed.

(** Lines longer than the buffer are cut in pieces, and a continuation may be taken for data:
    one comment line, with no data line in the file, produces a sample. *)
Theorem long_line_refuted :
  exists l, ~ In 10 l /\ line_kind l = None /\
  exists r, parse_gemfile dec_scanner [] 10 (file [l] []) = Some [r].
Proof.
  exists (35 :: repeat 35 254 ++ b "D5,7"). split; [|split].
  - vm_compute. intros H; repeat (destruct H as [H|H]; [discriminate|]); exact H.
  - reflexivity.
  - eexists. vm_compute. reflexivity.
Qed.

(** C03.  The sample rows of a file are the rows of the file without its other lines. *)
Theorem C03_samples_independent :
  forall sc b1 b2 n1 n2 ls last rows, Forall ok_line ls -> ok_line last ->
  parse_gemfile sc b1 n1 (file ls last) = Some rows -> n1 <= n2 ->
  parse_gemfile sc b2 n2 (file (filter is_sample ls) (if is_sample last then last else [])) =
    Some (filter kind_D rows).
Proof.
  intros sc b1 b2 n1 n2 ls last rows H Hl E Hn. unfold parse_gemfile in *.
  destruct (Z.leb_spec (Z.of_nat (length (run sc (init b1) (chunks (file ls last))))) n1); [|discriminate].
  injection E as <-.
  pose proof (rows_samples sc b1 b2 ls last H Hl) as R. unfold keep_last in R. rewrite <- R.
  pose proof (filter_length_le kind_D (run sc (init b1) (chunks (file ls last)))).
  destruct (Z.leb_spec (Z.of_nat (length (filter kind_D (run sc (init b1) (chunks (file ls last)))))) n2); [reflexivity|lia].
Qed.

(** C03, relational form: files with the same sample lines have the same sample rows. *)
Theorem C03_same_samples :
  forall sc b1 b2 n1 n2 ls1 ls2 last1 last2 rows1 rows2,
  Forall ok_line ls1 -> Forall ok_line ls2 -> ok_line last1 -> ok_line last2 ->
  filter is_sample ls1 = filter is_sample ls2 ->
  (if is_sample last1 then last1 else []) = (if is_sample last2 then last2 else []) ->
  parse_gemfile sc b1 n1 (file ls1 last1) = Some rows1 ->
  parse_gemfile sc b2 n2 (file ls2 last2) = Some rows2 ->
  filter kind_D rows1 = filter kind_D rows2.
Proof.
  intros sc b1 b2 n1 n2 ls1 ls2 last1 last2 rows1 rows2 H1 H2 L1 L2 E EL P1 P2.
  apply (C03_samples_independent sc b1 b1 n1 (Z.max n1 n2)) in P1; try assumption; try lia.
  apply (C03_samples_independent sc b2 b1 n2 (Z.max n1 n2)) in P2; try assumption; try lia.
  rewrite E, EL in P1. congruence.
Qed.

Example C03_case :
  filter is_sample ex_lines = [b "D123.5,-42"; b "nm"; b "x"; b "Dxyz"] /\ filter is_sample ex_lines <> filter is_data ex_lines.
Proof. split; [reflexivity|vm_compute; discriminate]. Qed.

Lemma parse_rows_of sc buf0 n bs rows :
  parse_gemfile sc buf0 n bs = Some rows -> rows = rows_of sc buf0 bs /\ Z.of_nat (length rows) <= n.
Proof.
  unfold parse_gemfile, rows_of. destruct (Z.leb_spec (Z.of_nat (length (run sc (init buf0) (chunks bs)))) n); [|discriminate].
  intros H'. injection H' as <-. auto.
Qed.

(** C04.  A complete D, G or M line at any place of any file (whatever malformed lines surround it)
    yields exactly the values written in it, for any C library that scans decimal numbers. *)
Theorem C04_complete_D :
  forall sc, reads_decimal sc ->
  forall buf0 n l1 ms a t l2 last rows,
  dec_ok ms -> int_ok a -> stops t ->
  Forall ok_line l1 -> ok_line (line_D ms a t) -> Forall ok_line l2 -> ok_line last ->
  parse_gemfile sc buf0 n (file (l1 ++ line_D ms a t :: l2) last) = Some rows ->
  exists r1 r r2, rows = r1 ++ r :: r2 /\ map rkind r1 = kinds l1 /\
    denotes r KD (dec_value ms) [inject_Z (int_value a)].
Proof.
  intros sc Hsc buf0 n l1 ms a t l2 last rows Hms Ha Ht H1 Hx H2 Hl P.
  apply parse_rows_of in P as [-> _].
  destruct (record_at sc buf0 l1 (Full_D ms a t) l2 last) as (r1 & r & r2 & E & _ & K & M); simpl; auto.
  inversion M as [|? ? ? ? ? r' rows' D M'| | | | |]; subst. inversion M'; subst.
  exists r1, r', r2. repeat split; first [exact E|exact K|apply D].
Qed.

Theorem C04_complete_G :
  forall sc, reads_decimal sc ->
  forall buf0 n l1 f fs t l2 last rows,
  Forall2 field_ok [Clf; Clf; Cd; Cd; Cd; Cd; Cd; Clf; Clf; Clf] (f :: fs) -> stops t ->
  Forall ok_line l1 -> ok_line (line_G (f :: fs) t) -> Forall ok_line l2 -> ok_line last ->
  parse_gemfile sc buf0 n (file (l1 ++ line_G (f :: fs) t :: l2) last) = Some rows ->
  exists r1 r r2, rows = r1 ++ r :: r2 /\ map rkind r1 = kinds l1 /\
    denotes r KG (field_value f) (map field_value fs).
Proof.
  intros sc Hsc buf0 n l1 f fs t l2 last rows Hf Ht H1 Hx H2 Hl P.
  apply parse_rows_of in P as [-> _].
  destruct (record_at sc buf0 l1 (Full_G (f :: fs) t) l2 last) as (r1 & r & r2 & E & _ & K & M); simpl; auto.
  inversion M as [| |? ? ? ? ? r' rows' D M'| | | |]; subst. inversion M'; subst.
  exists r1, r', r2. repeat split; first [exact E|exact K|apply D].
Qed.

Theorem C04_complete_M :
  forall sc, reads_decimal sc ->
  forall buf0 n l1 f fs t l2 last rows,
  Forall2 field_ok [Clf; Clf; Clf; Clf; Clf; Cd; Cd; Cd; Cd; Cd; Cd; Cd] (f :: fs) -> stops t ->
  Forall ok_line l1 -> ok_line (line_M (f :: fs) t) -> Forall ok_line l2 -> ok_line last ->
  parse_gemfile sc buf0 n (file (l1 ++ line_M (f :: fs) t :: l2) last) = Some rows ->
  exists r1 r r2, rows = r1 ++ r :: r2 /\ map rkind r1 = kinds l1 /\
    denotes r KM (field_value f) (map field_value fs).
Proof.
  intros sc Hsc buf0 n l1 f fs t l2 last rows Hf Ht H1 Hx H2 Hl P.
  apply parse_rows_of in P as [-> _].
  destruct (record_at sc buf0 l1 (Full_M (f :: fs) t) l2 last) as (r1 & r & r2 & E & _ & K & M); simpl; auto.
  inversion M as [| | |? ? ? ? ? r' rows' D M'| | |]; subst. inversion M'; subst.
  exists r1, r', r2. repeat split; first [exact E|exact K|apply D].
Qed.

(** The decimal scanner of the model meets the contract. *)
Theorem C04_decimal_scanner : reads_decimal dec_scanner.
Proof. exact dec_scanner_reads. Qed.

(** C04/C05 for whole files: a file made of documented lines reads as what these lines mean. *)
Theorem C04_documented_file :
  forall sc, reads_decimal sc ->
  forall buf0 n rs rlast rows,
  Forall record_ok rs -> Forall (fun r => ok_line (record_text r)) rs ->
  record_ok rlast -> ok_line (record_text rlast) ->
  parse_gemfile sc buf0 n (file (map record_text rs) (record_text rlast)) = Some rows ->
  means 0 (rs ++ [rlast]) rows.
Proof.
  intros sc Hsc buf0 n rs rlast rows H1 H2 H3 H4 P.
  apply parse_rows_of in P as [-> _]. now apply file_means.
Qed.

Definition ex_dec (neg : bool) i f : declit := {| dneg := neg; dint := i; dfrac := f |}.
Definition ex_int (neg : bool) i : intlit := {| ineg := neg; idig := i |}.
Definition ex_records : list record :=
  [Other (b "#GemCSV1.1");
   Full_D (ex_dec false [8;1;9;0] (Some [5])) (ex_int true [4;2]) [];
   Compact2 (-3) 7 (b " x");
   Full_G [FDec (ex_dec false [7] None); FDec (ex_dec false [0] None); FInt (ex_int false [2;0;2;1]);
           FInt (ex_int false [3]); FInt (ex_int false [4]); FInt (ex_int false [5]); FInt (ex_int false [6]);
           FDec (ex_dec false [7] (Some [2;5])); FDec (ex_dec false [4;3] (Some [6])); FDec (ex_dec true [1;1;6] (Some []))] (b ",x");
   Compact1 13 []].

Example C04_case :
  Forall record_ok ex_records /\ Forall (fun r => ok_line (record_text r)) ex_records /\
  map record_text ex_records =
    [b "#GemCSV1.1"; b "D8190.5,-42"; b "jt x"; b "G,7,0,2021,3,4,5,6,7.25,43.6,-116.,x"; b "z"] /\
  exists rows, parse_gemfile dec_scanner [] 9 (file (map record_text ex_records) (b "m")) = Some rows /\
    map rkind rows = [KD; KD; KG; KD; KD].
Proof.
  split; [|split; [|split; [vm_compute; reflexivity|eexists; split; vm_compute; reflexivity]]].
  - unfold ex_records. repeat apply Forall_cons; try apply Forall_nil; simpl; auto; unfold letter; try lia;
      repeat match goal with
      | |- _ /\ _ => split
      | |- stops [] => left; reflexivity
      | |- stops _ => right; eexists _, _; split; [reflexivity|simpl; tauto]
      | |- Forall2 _ _ _ => constructor
      | |- field_ok _ _ => simpl
      | |- dec_ok _ => unfold dec_ok; simpl
      | |- int_ok _ => unfold int_ok, int_value; simpl
      | |- all_digits _ => repeat constructor
      | |- _ <> [] => discriminate
      | _ => lia
      end.
  - repeat constructor; simpl; try lia; intros H; repeat (destruct H as [H|H]; [discriminate|]); exact H.
Qed.

(** What the word "complete" excludes: a truncated D line repeats the previous sample. *)
Theorem incomplete_line_refuted :
  exists ls, Forall ok_line ls /\
  exists r r' r'', parse_gemfile dec_scanner [] 10 (file ls []) = Some [r; r'; r''] /\
    last ls [] = b "D" /\ r'' = r' /\ r' <> r.
Proof.
  exists [b "D100,5"; b "D110,6"; b "D"]. split.
  - repeat constructor; simpl; try lia; intros H; repeat (destruct H as [H|H]; [discriminate|]); exact H.
  - eexists _, _, _. split; [vm_compute; reflexivity|].
    split; [reflexivity|]. split; [reflexivity|discriminate].
Qed.

(** C05.  A compact line at any place of any file: 10 ms plus the coded deviation after the previous
    sample, reduced to [0, 8192), with the coded sample. *)
Theorem C05_compact_two_letters :
  forall sc, reads_decimal sc ->
  forall buf0 n l1 dev diff t l2 last rows, letter dev -> letter diff ->
  let line := 109 + dev :: 109 + diff :: t in
  Forall ok_line l1 -> ok_line line -> Forall ok_line l2 -> ok_line last ->
  parse_gemfile sc buf0 n (file (l1 ++ line :: l2) last) = Some rows ->
  exists r1 r r2 m, rows = r1 ++ r :: r2 /\ map rkind r1 = kinds l1 /\
    reduced (last_clock r1 + 10 + inject_Z dev) m /\ denotes r KD m [inject_Z diff].
Proof.
  intros sc Hsc buf0 n l1 dev diff t l2 last rows Hd1 Hd2 line H1 Hx H2 Hl P.
  apply parse_rows_of in P as [-> _].
  destruct (record_at sc buf0 l1 (Compact2 dev diff t) l2 last) as (r1 & r & r2 & E & _ & K & M); simpl; auto.
  inversion M as [| | | |? ? ? ? ? r' rows' m R D M'| |]; subst. inversion M'; subst.
  exists r1, r', r2, m. split; [exact E|]. split; [exact K|]. split; [exact R|exact D].
Qed.

Theorem C05_compact_one_letter :
  forall sc, reads_decimal sc ->
  forall buf0 n l1 diff t l2 last rows, letter diff ->
  match t with c :: _ => ~ (97 <= c <= 122) | [] => True end ->
  let line := 109 + diff :: t in
  Forall ok_line l1 -> ok_line line -> Forall ok_line l2 -> ok_line last ->
  parse_gemfile sc buf0 n (file (l1 ++ line :: l2) last) = Some rows ->
  exists r1 r r2 m, rows = r1 ++ r :: r2 /\ map rkind r1 = kinds l1 /\
    reduced (last_clock r1 + 10) m /\ denotes r KD m [inject_Z diff].
Proof.
  intros sc Hsc buf0 n l1 diff t l2 last rows Hd2 Ht line H1 Hx H2 Hl P.
  apply parse_rows_of in P as [-> _].
  destruct (record_at sc buf0 l1 (Compact1 diff t) l2 last) as (r1 & r & r2 & E & _ & K & M); simpl; auto.
  inversion M as [| | | | |? ? ? ? r' rows' m R D M'|]; subst. inversion M'; subst.
  exists r1, r', r2, m. split; [exact E|]. split; [exact K|]. split; [exact R|exact D].
Qed.

(** [reduced] determines the clock: it is a function of the previous clock and the deviation. *)
Theorem C05_reduced_unique : forall x y z, reduced x y -> reduced x z -> (y == z)%Q.
Proof.
  intros x y z (Hy0 & Hy1 & ky & Ey) (Hz0 & Hz1 & kz & Ez).
  assert (E : (y - z == inject_Z (8192 * (kz - ky)))%Q).
  { setoid_replace y with (x - inject_Z (8192 * ky))%Q by (rewrite Ey; ring).
    setoid_replace z with (x - inject_Z (8192 * kz))%Q by (rewrite Ez; ring).
    rewrite !inject_Z_mult. unfold Z.sub. rewrite inject_Z_plus, inject_Z_opp. ring. }
  assert (L : (inject_Z (8192 * (kz - ky)) < inject_Z 8192)%Q).
  { rewrite <- E. apply Qle_lt_trans with y; [|exact Hy1].
    apply (Qplus_le_r _ _ (z - y)). ring_simplify. exact Hz0. }
  assert (G : (inject_Z (- 8192) < inject_Z (8192 * (kz - ky)))%Q).
  { rewrite <- E. apply (Qplus_lt_r _ _ (z + 8192)).
    change (inject_Z (-8192)) with (-(8192))%Q. ring_simplify.
    apply Qlt_le_trans with 8192%Q; [exact Hz1|]. apply (Qplus_le_r _ _ (-(8192))). ring_simplify. exact Hy0. }
  rewrite <- Zlt_Qlt in L, G.
  assert (kz = ky) by lia. subst. rewrite Ey in Ez.
  apply (Qplus_inj_r _ _ (inject_Z (8192 * ky))). exact Ez.
Qed.

Example C05_case :
  letter (-3) /\ letter 7 /\ ok_line (109 + (-3) :: 109 + 7 :: b " x") /\
  reduced ((81905 # 10) + 10 + inject_Z (-3)) (55 # 10) /\ record_text (Compact2 (-3) 7 (b " x")) = b "jt x".
Proof.
  unfold letter. split; [lia|]. split; [lia|]. split.
  - split; [|simpl; lia]. simpl. intros H; repeat (destruct H as [H|H]; [discriminate|]); exact H.
  - split; [|reflexivity]. repeat split; try (vm_compute; congruence). exists 1. vm_compute. reflexivity.
Qed.

(** C45.  Cutting a file after any byte (power loss, card removed) leaves a prefix of the rows plus at
    most one row made of the cut line. *)
Theorem C45_cut_anywhere :
  forall sc buf0 n bs k rows, parse_gemfile sc buf0 n bs = Some rows ->
  exists common extra rest, rows = common ++ rest /\ (length extra <= 1)%nat /\
    forall n', n < n' -> parse_gemfile sc buf0 n' (firstn k bs) = Some (common ++ extra).
Proof.
  intros sc buf0 n bs k rows P. apply parse_rows_of in P as [-> Hn].
  destruct (rows_cut sc buf0 bs k) as (common & extra & rest & E1 & E2 & L).
  exists common, extra, rest. split; [exact E1|]. split; [exact L|].
  intros n' Hn'. unfold parse_gemfile. unfold rows_of in E2 at 1. rewrite E2.
  rewrite E1, app_length in Hn. rewrite app_length.
  destruct (Z.leb_spec (Z.of_nat (length common + length extra)) n'); [reflexivity|lia].
Qed.

(** C45.  Cutting at a line boundary leaves exactly the rows of the lines before the cut. *)
Theorem C45_cut_at_line :
  forall sc buf0 n l1 l2 last rows,
  Forall ok_line l1 -> Forall ok_line l2 -> ok_line last ->
  parse_gemfile sc buf0 n (file (l1 ++ l2) last) = Some rows ->
  exists r1 r2, rows = r1 ++ r2 /\ parse_gemfile sc buf0 n (file l1 []) = Some r1 /\
    map rkind r1 = kinds l1 /\ map rkind r2 = kinds (l2 ++ [last]).
Proof.
  intros sc buf0 n l1 l2 last rows H1 H2 Hl P.
  apply parse_rows_of in P as [E Hn].
  pose proof (rows_kinds_file sc buf0 (l1 ++ l2) last ltac:(now apply Forall_app) Hl) as K.
  fold (rows_of sc buf0 (file (l1 ++ l2) last)) in K. rewrite <- E in K.
  rewrite rows_split in E by assumption.
  exists (rows_of sc buf0 (file l1 [])). eexists. split; [exact E|].
  pose proof (rows_kinds_file sc buf0 l1 [] H1 ok_nil) as K1.
  fold (rows_of sc buf0 (file l1 [])) in K1. rewrite kinds_app in K1. simpl in K1. rewrite app_nil_r in K1.
  split; [|split; [exact K1|]].
  - unfold parse_gemfile. fold (rows_of sc buf0 (file l1 [])).
    rewrite E, app_length in Hn.
    destruct (Z.leb_spec (Z.of_nat (length (rows_of sc buf0 (file l1 [])))) n); [reflexivity|lia].
  - rewrite E, map_app, K1, <- app_assoc, (kinds_app l1) in K. now apply app_inv_head in K.
Qed.

Example C45_case :
  exists rows, parse_gemfile dec_scanner [] 10 (file ex_lines (b "ab")) = Some rows /\ length rows = 7%nat /\
  exists rows', parse_gemfile dec_scanner [] 10 (firstn 40 (file ex_lines (b "ab"))) = Some rows' /\ length rows' = 3%nat.
Proof. eexists. split; [vm_compute; reflexivity|]. split; [reflexivity|]. eexists. split; vm_compute; reflexivity. Qed.

Print Assumptions C01_one_row_per_data_line.
Print Assumptions C01_any_bytes.
Print Assumptions C01_pieces_unique.
Print Assumptions C01_too_many_rows_is_an_error.
Print Assumptions C02_inert_lines_deleted.
Print Assumptions C02_inert_lines.
Print Assumptions lone_marker_at_eof_refuted.
Print Assumptions long_line_refuted.
Print Assumptions C03_samples_independent.
Print Assumptions C03_same_samples.
Print Assumptions C04_complete_D.
Print Assumptions C04_complete_G.
Print Assumptions C04_complete_M.
Print Assumptions C04_decimal_scanner.
Print Assumptions C04_documented_file.
Print Assumptions incomplete_line_refuted.
Print Assumptions C05_compact_two_letters.
Print Assumptions C05_compact_one_letter.
Print Assumptions C05_reduced_unique.
Print Assumptions C45_cut_anywhere.
Print Assumptions C45_cut_at_line.
