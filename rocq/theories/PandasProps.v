(** Property C58: the readers that go through pandas. *)
From Coq Require Import String.
From Coq Require Import ZArith QArith Qround List Bool Lia Lqa.
From Verif Require Import Lib Base Scan Parser Convert110 ProcessSpec ProcessProofs ScanProofs GemCat Select Cli CliSpec Header HeaderSpec
  Reference ReferenceSpec ReferenceProofs ReferenceProps Pandas ParserSpec Process PandasSpec PandasProofs PandasFallback.
Import ListNotations.
Open Scope Z_scope.

(** C58.  The reader of the formats 0.8 and 0.85 returns exactly the rows that the lines after the sixth state, in their
    order: the kind, the whole milliseconds of the clock, the cells, empty ones as NaN.  Lines of other kinds, lines of a
    single letter and lines without clock value leave no trace.  Only if GPS data are required and no line states any is
    the file refused. *)
Theorem C58_old_rows : forall na pf, keeps na -> reads_float pf ->
  forall none_raises odd head body last req,
  head_ok head -> Forall (fun p => old_ok (fst p) /\ (snd p = [10] \/ snd p = [13; 10])) body -> old_ok last ->
  let rows := stated (map fst body ++ [last]) in
  rows <> [] ->
  let result := read_0_8 na pf none_raises odd (Some (old_file head body last)) req in
  (req = false \/ In KG (map row_kind rows) -> exists df, result = inl df /\ Forall2 row_is df rows) /\
  (req = true -> ~ In KG (map row_kind rows) -> result = inr NoGPS).
Proof.
  intros na pf Hna Hpf none_raises odd head body last req HH HB HL rows NE result.
  pose proof (read_old na pf Hna Hpf none_raises odd head body last req HH HB HL NE) as R. cbv zeta in R. fold rows in R. fold result in R.
  assert (K : existsb (fun s => kind_eqb (row_kind s) KG) rows = true <-> In KG (map row_kind rows)).
  { rewrite existsb_exists, in_map_iff. split; intros (s & A & B).
    - exists s. split; [destruct (row_kind s); try discriminate; reflexivity|exact A].
    - exists s. rewrite A. auto. }
  split.
  - intros H. destruct (negb _ && req) eqn:E; [|exact R]. apply andb_true_iff in E. destruct E as [E1 E2]. apply negb_true_iff in E1.
    destruct H as [->|H]; [discriminate|]. apply K in H. congruence.
  - intros -> N. destruct (existsb _ _); [exfalso; apply N, K; reflexivity|exact R].
Qed.

(** C58.  Reading a file of the formats 0.8 and 0.85 that states samples and metadata: the tables are consistent with the
    rows that the lines state ([consistent], C13), whatever the fast reader would do; the file is refused only if GPS data
    are required and none of the rows gives a plausible fix. *)
Theorem C58_old_format : forall na pf, keeps na -> reads_float pf ->
  forall sc buf0 ear pandas none_raises odd head body last version offset req,
  head_ok head -> Forall (fun p => old_ok (fst p) /\ (snd p = [10] \/ snd p = [13; 10])) body -> old_ok last ->
  plain version ->
  let rows := stated (map fst body ++ [last]) in
  In KD (map row_kind rows) -> In KM (map row_kind rows) ->
  let content := old_file head body last in
  let result := read_single sc buf0 ear pandas (read_0_8 na pf none_raises odd (Some content)) (Some content) version offset req in
  (forall tab, result = inl tab -> exists df, Forall2 row_is df rows /\ consistent version offset req df tab) /\
  (forall e, result = inr e -> req = true /\
     forall ms cells t, In (KG, ms, cells) rows -> ~ plausible (fix_stated 0 cells) t).
Proof.
  intros na pf Hna Hpf sc buf0 ear pandas none_raises odd head body last version offset req HH HB HL V rows ID IM content result.
  assert (NE : rows <> []) by (intros E; rewrite E in ID; destruct ID).
  pose proof (read_old na pf Hna Hpf none_raises odd head body last req HH HB HL NE) as R. cbv zeta in R. fold rows in R. fold content in R.
  assert (Mo : modern version = false) by (destruct V as [<-|[<-|[]]]; reflexivity).
  assert (St : exists r n, Process.settings version = Some (r, n)) by (destruct V as [<-|[<-|[]]]; do 2 eexists; reflexivity).
  assert (Ct : time_correction version = Some (893 # 100)%Q) by (destruct V as [<-|[<-|[]]]; reflexivity).
  assert (Res : result = try_readers ear version offset req [read_0_8 na pf none_raises odd (Some content)]) by (unfold result, read_single; now rewrite Mo).
  destruct (negb (existsb (fun s => kind_eqb (row_kind s) KG) rows) && req) eqn:G.
  - apply andb_true_iff in G. destruct G as [G ->]. cbn [try_readers] in Res. rewrite R in Res. cbn [fatal] in Res. rewrite Res.
    split; [discriminate|]. intros e [= <-]. split; [reflexivity|]. intros ms cells t I _. apply negb_true_iff in G.
    assert (X : existsb (fun s => kind_eqb (row_kind s) KG) rows = true) by (apply existsb_exists; eexists; split; [exact I|reflexivity]). congruence.
  - destruct R as (df & R & F). assert (Kd : map dkind df = map row_kind rows).
    { clear - F. induction F as [|d [[k ms] cells] l m (A & _) F IH]; [reflexivity|]. cbn [map]. rewrite A, IH. reflexivity. }
    assert (Fu : Forall full_row df).
    { clear - F. induction F as [|d s l m A F IH]; constructor; [exact (row_is_full _ _ A)|exact IH]. }
    split.
    + intros tab E. rewrite Res in E. apply try_readers_ok in E. destruct E as (rd & df' & I & E & C & _). destruct I as [<-|[]].
      rewrite R in E. injection E as <-. exists df. split; [exact F|exact C].
    + intros e E. rewrite Res in E. cbn [try_readers] in E. rewrite R in E.
      assert (No : (forall d g t, In d df -> dkind d = KG -> (exists m, fix_in (m, d) g) -> ~ plausible g t) ->
        forall ms cells t, In (KG, ms, cells) rows -> ~ plausible (fix_stated 0 cells) t).
      { intros H ms cells t I Pl. assert (exists d, In d df /\ row_is d (KG, ms, cells)) as (d & Id & Hd).
        { clear - F I. induction F as [|d s l m A F IH]; [destruct I|]. destruct I as [->|I]; [exists d; split; [now left|exact A]|].
          destruct (IH I) as (d' & Id & Hd). exists d'. split; [now right|exact Hd]. }
        destruct (stated_fix d KG ms cells 0 Hd) as (g & Fg & Pg). apply (H d g t Id); [exact (proj1 Hd)|exists 0%Q; exact Fg|now apply Pg]. }
      rewrite <- Kd in ID, IM.
      destruct (full_read ear version offset req df St Fu ID IM) as [(tab & P & N)|(P & -> & N)]; rewrite P in E.
      * rewrite Ct in E. destruct (gps tab) eqn:Eg; destruct req; try discriminate. split; [reflexivity|]. apply No. now apply N.
      * split; [reflexivity|]. now apply No.
Qed.

(** C58.  The fallback reader of the later formats agrees with the fast reader on every file with a head of six lines
    without data, followed by complete lines of the formats up to 0.9 with whole clock values: the same rows with the same
    numbers in the same order, or both refuse the file for lack of GPS data. *)
Theorem C58_fallback_agrees : forall sc na pf, reads_decimal sc -> keeps na -> reads_float pf -> letters_no_numbers pf ->
  forall buf0 none_raises odd head rs rlast req,
  let all := head ++ rs ++ [rlast] in
  let data r := is_D r || is_G r || is_M r in
  length head = 6%nat -> Forall (fun r => data r = false) head ->
  Forall plain_record all -> Forall (fun r => ok_line (record_text r)) all -> Forall unquoted all -> Forall (steady na) (rs ++ [rlast]) ->
  existsb data (rs ++ [rlast]) = true -> count data all <= 65520000 ->
  let content := file (map record_text (head ++ rs)) (record_text rlast) in
  match read_with_cython sc buf0 (Some content) req with
  | inl df => exists df', read_with_pandas na pf none_raises odd (Some content) req = inl df' /\ Forall2 same_row df df'
  | inr e => e = NoGPS /\ read_with_pandas na pf none_raises odd (Some content) req = inr NoGPS
  end.
Proof.
  intros sc na pf Hsc Hna Hpf Hlet buf0 none_raises odd head rs rlast req all data L HH P O U S D C content.
  assert (E : forall r, data_record r = data r) by (intros []; reflexivity).
  apply (readers_same sc na pf Hsc Hna Hpf Hlet); try assumption.
  - eapply Forall_impl; [|exact HH]. intros r. now rewrite E.
  - rewrite <- D. clear - E. induction (rs ++ [rlast]) as [|r l IH]; [reflexivity|]. cbn [existsb]. now rewrite E, IH.
  - unfold count in C. rewrite (filter_ext _ data E). exact C.
Qed.

(** The default missing values of pandas and a reader of decimal numbers meet the conditions. *)
Lemma no_na_word (s : bytes) : s <> [] -> (forall x, In x s -> 45 <= x <= 57) -> na_words s = false.
Proof.
  intros N R. destruct (na_words s) eqn:E; [|reflexivity]. exfalso. unfold na_words in E. apply existsb_exists in E. destruct E as (w & I & E).
  apply NamesProofs.eqb_bytes_iff in E. subst w.
  assert (X : forall w, In w (map b [""; "#N/A"; "#N/A N/A"; "#NA"; "-1.#IND"; "-1.#QNAN"; "-NaN"; "-nan"; "1.#IND"; "1.#QNAN";
    "<NA>"; "N/A"; "NA"; "NULL"; "NaN"; "None"; "n/a"; "nan"; "null"]%string) -> w = [] \/ existsb (fun c => negb ((45 <=? c) && (c <=? 57))) w = true).
  { intros w J. cbn [map] in J. repeat (destruct J as [<-|J]; [vm_compute; auto|]). destruct J. }
  destruct (X s I) as [->|X1]; [contradiction|]. apply existsb_exists in X1. destruct X1 as (c & Ic & Ec). specialize (R c Ic).
  apply negb_true_iff, andb_false_iff in Ec. rewrite !Z.leb_gt in Ec. lia.
Qed.

Theorem C58_conditions_met : keeps na_words /\ letters_no_numbers dec_float.
Proof.
  split.
  - split; [reflexivity|]. split; [|split].
    + intros i H. apply no_na_word; [|exact (good_range (FInt i) H)]. destruct H as (N & _). unfold int_text. destruct (idig i); [contradiction|].
      intros E. apply app_eq_nil in E. destruct E as [_ E]. discriminate.
    + intros d H. apply no_na_word; [|exact (good_range (FDec d) H)]. destruct H as (N & _). unfold dec_text. destruct (dint d); [contradiction|].
      intros E. apply app_eq_nil in E. destruct E as [_ E]. discriminate.
    + intros c t I _. destruct I as [<-|[<-|[<-|[]]]]; reflexivity.
  - intros c t I. destruct I as [<-|[<-|[<-|[]]]]; reflexivity.
Qed.

(** * Examples *)
Definition ex58_dec i f : declit := {| dneg := false; dint := i; dfrac := f |}.
Definition ex58_int (neg : bool) i : intlit := {| ineg := neg; idig := i |}.
Definition ex58_head : list (bytes * bytes) :=
  [(b "#GemCSV0.8", [13; 10]); (b "#D,msSamp,ADC", [10]); (b "#G,msPPS", [10]); (b "#M,ms", [10]); (b "S,014", [10]); ([], [10])].
Definition ex58_body : list (old_line * bytes) :=
  [(Row KD (ex58_dec [6;5;5;3;0] None) [Some (FInt (ex58_int true [4;2]))], [13; 10]);
   (Skip (b "G"), [10]); (Skip (b "R,2,a,b,c,d"), [10]);
   (Row KG (ex58_dec [6;5;5;3;5] (Some [7;5])) [Some (FDec (ex58_dec [3] (Some [5]))); Some (FInt (ex58_int false [2;0;1;6]));
      Some (FInt (ex58_int false [7])); Some (FInt (ex58_int false [6])); Some (FInt (ex58_int false [3])); Some (FInt (ex58_int false [1;9]));
      Some (FDec (ex58_dec [1;8] None)); Some (FDec (ex58_dec [4;3] (Some [5]))); Some (FDec (ex58_dec [1;1;6] (Some [2])))], [10]);
   (Skip [], [10]);
   (Row KM (ex58_dec [4] None) [Some (FDec (ex58_dec [5] (Some [1]))); None; Some (FInt (ex58_int false [3]))], [10])].
Definition ex58_last : old_line := Row KD (ex58_dec [4] None) [Some (FInt (ex58_int false [7]))].

Ltac chars := repeat constructor; simpl; unfold line_char; lia.
Ltac row_good := cbn [old_ok]; split; [split; [discriminate|split; [repeat constructor; lia|repeat constructor; lia]]|
  split; [reflexivity|split; [simpl; lia|repeat apply Forall_cons; try apply Forall_nil; try exact I;
    unfold good_field, dec_ok, int_ok, int_value; simpl; repeat split; try discriminate; try (repeat constructor; lia); try lia]]].
Ltac skip_good := cbn [old_ok]; split; [chars|split; [unfold commas_at_most; simpl; lia|]];
  intros c t J E; vm_compute in E; try discriminate; injection E as <- E; simpl in J; try lia.

Example C58_case_hypotheses :
  head_ok ex58_head /\ Forall (fun p => old_ok (fst p) /\ (snd p = [10] \/ snd p = [13; 10])) ex58_body /\ old_ok ex58_last /\
  nth 3 (map (fun p => old_text (fst p)) ex58_body) [] = b "G,65535.75,3.5,2016,7,6,3,19,18,43.5,116.2" /\
  map row_kind (stated (map fst ex58_body ++ [ex58_last])) = [KD; KG; KM; KD].
Proof.
  split; [|split; [|split; [|split; reflexivity]]].
  - split; [reflexivity|]. unfold ex58_head. repeat apply Forall_cons; try apply Forall_nil; (split; [chars|simpl; auto]).
  - unfold ex58_body. repeat apply Forall_cons; try apply Forall_nil; (split; [|simpl; auto]); cbn [fst].
    all: first [row_good | skip_good].
  - unfold ex58_last. row_good.
Qed.

Example C58_case : exists tab,
  let content := old_file ex58_head ex58_body ex58_last in
  read_single dec_scanner [] true (fun _ => inr CorruptRaw) (read_0_8 na_words dec_float true (fun _ _ => None) (Some content)) (Some content) "0.8" 70000 true = inl tab /\
  map snd (data tab) = [Some (-(42)); Some 7]%Q /\ Forall2 Qeq (map fst (data tab)) [65530 + (893 # 100); 65540 + (893 # 100)]%Q /\
  length (metadata tab) = 1%nat /\ length (gps tab) = 1%nat /\ Forall2 Qeq (map (fun g => msPPS (fst g)) (gps tab)) [65535]%Q.
Proof.
  eexists. cbv zeta. split; [vm_compute; reflexivity|]. repeat split; repeat constructor.
Qed.

Definition ex58_plain_head : list record :=
  [Other (b "#GemCSV0.9"); Other (b "#DmsSamp,ADC"); Other (b "#G,msPPS"); Other (b "#M,ms"); Other (b "S,012"); Other (b "#Firmware0.9")].
Definition ex58_records : list record :=
  [Other (b "C,1,15,20,0,0,0"); Full_D (ex51_dec false [8;1;9;0] None) (ex51_int true [4;2]) [13]; Other [];
   Full_G (FDec (ex51_dec false [8;1;9;1] None) :: match ex51_fix [2;8] [] with Full_G (_ :: fs) _ => fs | _ => [] end) []; ex51_meta].

Example C58_case_fallback : 
  let all := ex58_plain_head ++ ex58_records ++ [Full_D (ex51_dec false [8] None) (ex51_int false [7]) [13]] in
  Forall plain_record all /\ Forall (fun r => ok_line (record_text r)) all /\ Forall unquoted all /\ 
  Forall (steady na_words) (ex58_records ++ [Full_D (ex51_dec false [8] None) (ex51_int false [7]) [13]]) /\
  exists df, read_with_pandas na_words dec_float true (fun _ _ => None)
    (Some (file (map record_text (ex58_plain_head ++ ex58_records)) (b "D8,7" ++ [13]))) true = inl df /\
    map dkind df = [KD; KG; KM; KD] /\ map dsaw df = [8190; 8191; 8; 8]%Q.
Proof.
  cbv zeta. split; [|split; [|split; [|split]]].
  - unfold ex58_plain_head, ex58_records, ex51_fix, ex51_meta. repeat apply Forall_cons; try apply Forall_nil; cbn [plain_record map app];
      repeat match goal with
      | |- _ /\ _ => split
      | |- plain_end [] => left; reflexivity
      | |- plain_end [13] => right; reflexivity
      | |- Forall2 _ _ _ => constructor
      | |- field_ok _ _ => simpl
      | |- dec_ok _ => unfold dec_ok; simpl
      | |- int_ok _ => unfold int_ok, int_value; simpl
      | |- all_digits _ => repeat constructor
      | |- Forall _ _ => repeat constructor
      | |- line_kind _ = None => reflexivity
      | |- _ <> [] => discriminate
      | |- ~ In _ _ => let H := fresh in intros H; repeat (destruct H as [H|H]; [discriminate|]); exact H
      | _ => simpl; lia
      end.
  - repeat constructor; simpl; try lia; intros H; repeat (destruct H as [H|H]; [discriminate|]); exact H.
  - repeat constructor; simpl; lia.
  - unfold ex58_records, ex51_fix, ex51_meta. cbn [app]. repeat apply Forall_cons; try apply Forall_nil; try reflexivity.
    + split; [unfold commas_at_most; simpl; lia|]. right. intros s t N [E|E].
      * exfalso. apply N. rewrite <- E. simpl. auto.
      * destruct s as [|c [|d s]]; [discriminate|injection E as <- _; reflexivity|]. exfalso. injection E as _ <- _. apply N. simpl. auto.
    + split; [unfold commas_at_most; simpl; lia|]. left. constructor.
  - eexists. split; [vm_compute; reflexivity|]. split; reflexivity.
Qed.

(** * What does not hold *)

(** The first six lines are skipped whatever they are: in a file without head the first samples are lost, which the fast
    reader keeps. *)
Theorem C58_short_head_refuted : exists content df df',
  read_with_cython dec_scanner [] (Some content) false = inl df /\ length df = 8%nat /\
  read_with_pandas na_words dec_float true (fun _ _ => None) (Some content) false = inl df' /\ length df' = 2%nat.
Proof.
  exists (file [b "D10,1"; b "D20,1"; b "D30,1"; b "D40,1"; b "D50,1"; b "D60,1"; b "D70,1"; b "M,75,3.3,20.5,0,0,1,2,3,4,5,6,7"] []).
  eexists _, _. split; [vm_compute; reflexivity|]. split; [reflexivity|]. split; [vm_compute; reflexivity|]. reflexivity.
Qed.

(** The fraction of a GPS line's clock value (format 0.91) is cut off by the fallback reader; and with a text in the second
    cell of any other line it makes the reader fail. *)
Theorem C58_fraction_refuted : exists content content' df df',
  read_with_cython dec_scanner [] (Some content) true = inl df /\ Forall2 Qeq (map dsaw df) [4626 + (14 # 100)]%Q /\
  read_with_pandas na_words dec_float true (fun _ _ => None) (Some content) true = inl df' /\ map dsaw df' = [4626]%Q /\
  read_with_pandas na_words dec_float true (fun _ _ => None) (Some content') true = inr OtherExn.
Proof.
  exists (file [b "#"; b "#"; b "#"; b "#"; b "S,059"; b "#"; b "G,4626.14,89.86,2020,12,29,0,4,7.0,43.66744,-116.29344"] []).
  exists (file [b "#"; b "#"; b "#"; b "#"; b "#"; b "#"; b "S,x59"; b "G,4626.14,89.86,2020,12,29,0,4,7.0,43.66744,-116.29344"] []).
  eexists _, _. split; [vm_compute; reflexivity|]. split; [repeat constructor|]. split; [vm_compute; reflexivity|]. split; vm_compute; reflexivity.
Qed.

(** One line with an empty first cell makes the fallback reader give up. *)
Theorem C58_empty_cell_refuted : exists content df,
  read_with_cython dec_scanner [] (Some content) false = inl df /\
  read_with_pandas na_words dec_float true (fun _ _ => None) (Some content) false = inr CorruptRaw.
Proof.
  exists (file [b "#"; b "#"; b "#"; b "#"; b "S,059"; b "#"; b "D10,1"; b ",1"; b "D20,1"] []).
  eexists. split; vm_compute; reflexivity.
Qed.

(** The fallback reader does not see the compact lines of format 1.10. *)
Theorem C58_compact_refuted : exists content df df',
  read_with_cython dec_scanner [] (Some content) false = inl df /\ length df = 4%nat /\
  read_with_pandas na_words dec_float true (fun _ _ => None) (Some content) false = inl df' /\ length df' = 2%nat.
Proof.
  exists (file [b "#"; b "#"; b "#"; b "#"; b "S,059"; b "#"; b "D10,1"; b "mn"; b "mp"; b "D40,1"] []).
  eexists _, _. split; [vm_compute; reflexivity|]. split; [reflexivity|]. split; [vm_compute; reflexivity|]. reflexivity.
Qed.

(** In the formats 0.8 and 0.85 one clock value that is no number makes the whole file unreadable. *)
Theorem C58_bad_clock_refuted : exists content content' df,
  read_0_8 na_words dec_float true (fun _ _ => None) (Some content) false = inl df /\ length df = 2%nat /\
  read_0_8 na_words dec_float true (fun _ _ => None) (Some content') false = inr OtherExn.
Proof.
  exists (file [b "#"; b "#"; b "#"; b "#"; b "S,059"; b "#"; b "D,10,1"; b "D,20,1"] []).
  exists (file [b "#"; b "#"; b "#"; b "#"; b "S,059"; b "#"; b "D,10,1"; b "D,20,1"; b "D,3x,1"] []).
  eexists. split; [vm_compute; reflexivity|]. split; [reflexivity|]. vm_compute. reflexivity.
Qed.

Print Assumptions C58_old_rows.
Print Assumptions C58_old_format.
Print Assumptions C58_fallback_agrees.
Print Assumptions C58_conditions_met.
Print Assumptions C58_short_head_refuted.
Print Assumptions C58_fraction_refuted.
Print Assumptions C58_empty_cell_refuted.
Print Assumptions C58_compact_refuted.
Print Assumptions C58_bad_clock_refuted.
