(** Proofs about the fallback reader and its agreement with the fast one. *)
From Coq Require Import String.
From Coq Require Import ZArith QArith Qround List Bool Lia Lqa.
From Verif Require Import Lib Base Scan Parser ParserSpec ParserProofs ParserProps Convert110 Convert110Proofs NamesSpec NamesProofs
  ProcessSpec ProcessProofs ScanProofs GemCat GemCatProofs Select SelectSpec Cli CliSpec CliProofs Header HeaderSpec HeaderProofs
  ReferenceSpec ReferenceProofs Pandas ParserSpec Process PandasSpec PandasProofs.
Import ListNotations.
Open Scope Z_scope.

(** * Whole numbers *)
Lemma whole_text d : dec_ok d -> dfrac d = None -> exists n, Cli.int_of (dec_text d) = Some n /\ (dec_value d == inject_Z n)%Q.
Proof.
  intros (NE & A & _) F.
  assert (D : digits (digit_text (dint d)) /\ filter is_digit (digit_text (dint d)) = digit_text (dint d)).
  { clear F. induction A as [|x ds Hx H IH]; [contradiction|]. unfold digit_text in *. cbn [map].
    assert (Dx : digit (48 + x)) by (unfold digit; lia).
    assert (Ix : is_digit (48 + x) = true) by (unfold is_digit; apply andb_true_iff; split; apply Z.leb_le; lia).
    cbn [filter]. rewrite Ix. destruct ds as [|y ds].
    - split; [now apply last_digit|reflexivity].
    - destruct IH as [I1 I2]; [discriminate|]. split; [now apply next_digit|]. now rewrite I2. }
  destruct D as [D1 D2].
  assert (V : value_of (digit_text (dint d)) = pos_value (dint d)) by exact (value_pos (dint d)).
  exists ((if dneg d then -1 else 1) * pos_value (dint d)). split.
  - apply int_of_iff. unfold dec_text. rewrite F, app_nil_r.
    exists [], (sign_text (dneg d)), (digit_text (dint d)), []. rewrite app_nil_r.
    split; [reflexivity|]. split; [constructor|]. split; [constructor|]. split; [exact D1|]. rewrite D2, V.
    destruct (dneg d); [right|left]; cbn [sign_text]; [split; [reflexivity|lia]|split; [now left|lia]].
  - unfold dec_value, frac_digits. rewrite F. cbn [length pos_value]. change (10 ^ Z.of_nat 0) with 1.
    rewrite inject_Z_mult. change (inject_Z 0 / inject_Z 1)%Q with 0%Q. ring.
Qed.

Lemma trunc_whole v n : (v == inject_Z n)%Q -> py_trunc v = n.
Proof.
  intros E. unfold py_trunc. destruct (Qle_bool 0 v); rewrite E.
  - apply Qfloor_Z.
  - rewrite <- inject_Z_opp, Qfloor_Z. lia.
Qed.

Lemma head_lines_cr l : Forall line_char l -> head_lines (l ++ [13]) = [l].
Proof.
  intros Cl. unfold head_lines. rewrite filter_app, filter_all.
  2: { intros x I. rewrite Forall_forall in Cl. specialize (Cl x I). unfold line_char in Cl. apply Z.ltb_lt. lia. }
  change (filter (fun c => c <? 128) [13]) with [13].
  assert (N10 : ~ In 10 l) by (intros I; rewrite Forall_forall in Cl; specialize (Cl _ I); unfold line_char in Cl; lia).
  assert (N13 : ~ In 13 l) by (intros I; rewrite Forall_forall in Cl; specialize (Cl _ I); unfold line_char in Cl; lia).
  assert (E : text_lines (l ++ [13]) = [(l, true)]); [|now rewrite E].
  clear Cl. induction l as [|c l IH]; [reflexivity|]. cbn [app text_lines].
  destruct (Z.eqb_spec c 10) as [->|]; [exfalso; apply N10; now left|]. destruct (Z.eqb_spec c 13) as [->|]; [exfalso; apply N13; now left|].
  rewrite IH; [reflexivity|intros I; apply N10; now right|intros I; apply N13; now right].
Qed.

(** * Columns *)
Section Fallback.
  Variables (na : bytes -> bool) (pf : bytes -> option Q).
  Hypothesis Hna : keeps na.
  Hypothesis Hpf : reads_float pf.
  Hypothesis Hlet : letters_no_numbers pf.

  Definition cellv (s : bytes) : Process.cell := if na s then NaN else match pf s with Some v => Num v | None => Text end.

  Lemma columns_shift x row k n : columns na pf (x :: row) (Datatypes.S k) n = columns na pf row k n.
  Proof. unfold columns. rewrite <- seq_shift, map_map. apply map_ext. reflexivity. Qed.

  Lemma columns_all row : forall n, (length row <= n)%nat -> columns na pf row 0 n = map cellv row ++ repeat NaN (n - length row).
  Proof.
    induction row as [|x row IH]; intros n L.
    - cbn [map app length]. rewrite Nat.sub_0_r. unfold columns. generalize 0%nat. induction n as [|n IHn]; intros k; [reflexivity|].
      cbn [seq map repeat]. f_equal; [unfold column; destruct k; reflexivity|]. now rewrite IHn by (simpl; lia).
    - destruct n as [|n]; [inversion L|]. cbn [length map app Nat.sub]. unfold columns. cbn [seq map].
      f_equal. fold (columns na pf (x :: row) 1 n). rewrite columns_shift. apply IH. cbn [length] in L. lia.
  Qed.

  Lemma cellv_field c f : field_ok c f -> exists v, cellv (field_text f) = Num v /\ (v == field_value f)%Q.
  Proof.
    intros H. apply (column_field na pf Hna Hpf f _); [|reflexivity]. destruct c, f; simpl in H; try contradiction; exact H.
  Qed.

  Definition is_number (c : Process.cell) (x : Q) : Prop := exists v, c = Num v /\ (v == x)%Q.

  Lemma cellv_fields fmt fs : Forall2 field_ok fmt fs -> Forall2 is_number (map cellv (map field_text fs)) (map field_value fs).
  Proof. induction 1 as [|c f fmt fs Hf H IH]; constructor; [exact (cellv_field c f Hf)|exact IH]. Qed.

  (** * Rows *)
  Definition frame_says (d : drow) (s : kind * list Q) : Prop :=
    dkind d = fst s /\ exists x xs cells empty, snd s = x :: xs /\ (dsaw d == x)%Q /\ dcells d = cells ++ empty /\
      Forall2 is_number cells xs /\ Forall (fun c => c = NaN) empty.

  Lemma nan_repeat n : Forall (fun c => c = NaN) (repeat NaN n).
  Proof. induction n; constructor; auto. Qed.

  Lemma lettered_cons texts row rows : lettered na pf texts (row :: rows) =
    match linetype na row with
    | None => lettered na pf texts rows
    | Some c =>
        match letter_kind c with
        | None => lettered na pf texts rows
        | Some k =>
            match sawtooth na pf texts row k, lettered na pf texts rows with
            | Some ms, Some l => Some (mkd k (inject_Z ms) (columns na pf row (match k with KD => 1 | _ => 2 end)
                                                      (match k with KD => 12 | _ => 11 end)) :: l)
            | _, _ => None
            end
        end
    end.
  Proof. reflexivity. Qed.

  Lemma row_D ms a t : dec_ok ms -> int_ok a -> plain_end t -> split_comma (body (Full_D ms a t)) = [68 :: dec_text ms; int_text a].
  Proof. intros A B _. exact (split_D ms a A B). Qed.

  Lemma row_GM c fmt fs : c <> 44 -> Forall2 field_ok fmt fs -> fs <> [] -> split_comma (c :: 44 :: join fs ++ []) = [c] :: map field_text fs.
  Proof.
    intros N F NE. rewrite app_nil_r. change (c :: 44 :: join fs) with ([c] ++ 44 :: join fs).
    rewrite split_comma_app by (intros [H|[]]; congruence). f_equal. exact (ReferenceProofs.split_join _ _ F NE).
  Qed.

  (** The first cell of a line. *)
  Lemma first_cell l : exists s ws, split_comma l = s :: ws /\ ~ In 44 s /\ (l = s \/ exists t, l = s ++ 44 :: t).
  Proof.
    destruct (split_comma_hd l) as (w & ws & E & H). exists w, ws. split; [exact E|]. split; [|exact H].
    destruct (HeaderProofs.split_join l) as (_ & _ & F). rewrite E in F. now inversion F.
  Qed.

  Definition data_record (r : record) : bool := match r with Full_D _ _ _ | Full_G _ _ | Full_M _ _ => true | _ => false end.
  Definition row_of (r : record) : list bytes := split_comma (body r).

  Lemma D_na ms : dec_ok ms -> na (68 :: dec_text ms) = false.
  Proof. intros H. destruct Hna as (_ & _ & _ & N). apply N; [now left|right; eauto]. Qed.

  Lemma fields_G fs : Forall2 field_ok [Clf; Clf; Cd; Cd; Cd; Cd; Cd; Clf; Clf; Clf] fs -> (match fs with f :: _ => whole_ms f | [] => False end) ->
    exists ms gs, fs = FDec ms :: gs /\ dec_ok ms /\ dfrac ms = None /\ Forall2 field_ok [Clf; Cd; Cd; Cd; Cd; Cd; Clf; Clf; Clf] gs.
  Proof.
    intros F W. inversion F as [|? f ? gs Hf Hg]; subst. destruct f as [i|ms]; [destruct W|]. exists ms, gs. auto.
  Qed.
  Lemma fields_M fs : Forall2 field_ok [Clf; Clf; Clf; Clf; Clf; Cd; Cd; Cd; Cd; Cd; Cd; Cd] fs -> (match fs with f :: _ => whole_ms f | [] => False end) ->
    exists ms gs, fs = FDec ms :: gs /\ dec_ok ms /\ dfrac ms = None /\ Forall2 field_ok [Clf; Clf; Clf; Clf; Cd; Cd; Cd; Cd; Cd; Cd; Cd] gs.
  Proof.
    intros F W. inversion F as [|? f ? gs Hf Hg]; subst. destruct f as [i|ms]; [destruct W|]. exists ms, gs. auto.
  Qed.

  (** Every row has a line type; it is a letter D, G, M exactly for the data lines. *)
  Lemma type_of r : plain_record r -> steady na r -> no_row (body r) = false ->
    exists c, linetype na (row_of r) = Some c /\
      (c = 71 <-> is_G r = true) /\ (if data_record r then number (column na pf (row_of r) 0) = false else letter_kind c = None).
  Proof.
    destruct r as [ms a t|fs t|fs t| | |l]; simpl plain_record; simpl steady; try tauto; unfold row_of.
    - intros (A & B & T) F _. rewrite row_D by assumption. cbn [linetype hd_error]. rewrite D_na by exact A. exists 68. split; [reflexivity|].
      split; [split; discriminate|]. cbn [data_record]. unfold column. cbn [nth_error]. rewrite D_na by exact A. rewrite Hlet by (now left). reflexivity.
    - intros (A & T) W _. assert (W' : match fs with f :: _ => whole_ms f | [] => False end) by exact W. cbn [body]. unfold line_G. rewrite (row_GM 71 _ fs) with (2 := A) by (try lia; intros ->; inversion A).
      cbn [linetype hd_error]. pose proof (letter_na na Hna KG) as N. cbn [kind_letter] in N. rewrite N. exists 71. split; [reflexivity|].
      split; [split; reflexivity|]. cbn [data_record]. unfold column. cbn [nth_error]. rewrite N, Hlet by (simpl; auto). reflexivity.
    - intros (A & T) W _. cbn [body]. unfold line_M. rewrite (row_GM 77 _ fs) with (2 := A) by (try lia; intros ->; inversion A).
      cbn [linetype hd_error]. pose proof (letter_na na Hna KM) as N. cbn [kind_letter] in N. rewrite N. exists 77. split; [reflexivity|].
      split; [split; discriminate|]. cbn [data_record]. unfold column. cbn [nth_error]. rewrite N, Hlet by (simpl; auto). reflexivity.
    - intros (A & _ & _) (_ & [E|N]) R; cbn [body record_text] in *; [apply no_row_iff in E; congruence|].
      destruct (first_cell l) as (s & ws & E & I & H). rewrite E. cbn [linetype].
      assert (Ns : na s = false) by (destruct H as [H|(q & H)]; [apply (N s [] I); now left|apply (N s q I); now right]).
      rewrite Ns. destruct s as [|c s]; [destruct Hna as (N0 & _); congruence|]. cbn [hd_error]. exists c. split; [reflexivity|].
      assert (Hl : exists u, l = c :: u) by (destruct H as [->|(q & ->)]; [eauto|eexists; reflexivity]). destruct Hl as (u & ->).
      apply line_kind_other in A. destruct A as (A1 & A2 & A3). split; [split; [congruence|discriminate]|].
      cbn [data_record]. unfold letter_kind. apply Z.eqb_neq in A1, A2, A3. now rewrite A1, A2, A3.
  Qed.

  (** * All rows *)
  Lemma lettered_steady texts rs : Forall plain_record rs -> Forall (steady na) rs ->
    exists df, lettered na pf texts (rows_text (map body rs)) = Some df /\ Forall2 frame_says df (meanings rs).
  Proof.
    induction rs as [|r rs IH]; intros P S; [exists []; split; [reflexivity|constructor]|].
    inversion P as [|? ? P1 P2]; subst. inversion S as [|? ? S1 S2]; subst. destruct (IH P2 S2) as (df & E & F).
    unfold rows_text in *. cbn [map filter]. unfold meanings. cbn [map concat]. fold (meanings rs).
    destruct r as [ms a t|fs t|fs t| | |l]; simpl in P1, S1; try tauto.
    - destruct P1 as (A & B & T). rewrite (no_row_digit _ 68) by (try lia; left; reflexivity). cbn [negb map].
      rewrite row_D by assumption. rewrite lettered_cons, E. cbn [linetype hd_error]. rewrite D_na by exact A.
      change (letter_kind 68) with (Some KD). cbv iota beta. cbn [sawtooth tl].
      destruct (whole_text ms A S1) as (n & En & Hn). rewrite En. eexists. split; [reflexivity|]. cbn [meaning app]. constructor; [|exact F].
      split; [reflexivity|]. cbn [dsaw dcells snd]. do 2 eexists. exists [cellv (int_text a)], (repeat NaN 11).
      split; [reflexivity|]. split; [now rewrite Hn|]. split; [rewrite columns_shift, columns_all by (simpl; lia); reflexivity|].
      split; [constructor; [exact (cellv_field Cd (FInt a) B)|constructor]|apply nan_repeat].
    - destruct P1 as (A & T). rewrite (no_row_digit _ 71) by (try lia; left; reflexivity). cbn [negb map body]. unfold line_G.
      rewrite (row_GM 71 _ fs) with (2 := A) by (try lia; intros ->; inversion A).
      destruct (fields_G fs A S1) as (ms & gs & -> & Am & Fm & G). cbn [map field_text]. rewrite lettered_cons, E. cbn [linetype hd_error].
      pose proof (letter_na na Hna KG) as N. cbn [kind_letter] in N. rewrite N. change (letter_kind 71) with (Some KG). cbv iota beta.
      destruct (whole_text ms Am Fm) as (n & En & Hn). destruct (cellv_field Clf (FDec ms) Am) as (v & Ev & Hv). cbn [field_text field_value] in Ev, Hv.
      assert (X : sawtooth na pf texts ([71] :: dec_text ms :: map field_text gs) KG = Some n).
      { cbn [sawtooth nth_error]. destruct texts.
        - destruct Hna as (_ & _ & ND & _). now rewrite ND.
        - unfold column. cbn [nth_error]. unfold cellv in Ev. rewrite Ev. f_equal. apply trunc_whole. now rewrite Hv. }
      rewrite X. eexists. split; [reflexivity|]. cbn [meaning app]. constructor; [|exact F].
      split; [reflexivity|]. cbn [dsaw dcells snd map field_value]. do 2 eexists. exists (map cellv (map field_text gs)), (repeat NaN (11 - length (map field_text gs))).
      split; [reflexivity|]. split; [now rewrite Hn|].
      assert (Lg : length gs = 9%nat) by (apply Forall2_length_eq in G; symmetry; exact G).
      split; [rewrite 2 columns_shift, columns_all by (rewrite map_length; lia); reflexivity|].
      split; [exact (cellv_fields _ _ G)|apply nan_repeat].
    - destruct P1 as (A & T). rewrite (no_row_digit _ 77) by (try lia; left; reflexivity). cbn [negb map body]. unfold line_M.
      rewrite (row_GM 77 _ fs) with (2 := A) by (try lia; intros ->; inversion A).
      destruct (fields_M fs A S1) as (ms & gs & -> & Am & Fm & G). cbn [map field_text]. rewrite lettered_cons, E. cbn [linetype hd_error].
      pose proof (letter_na na Hna KM) as N. cbn [kind_letter] in N. rewrite N. change (letter_kind 77) with (Some KM). cbv iota beta.
      destruct (whole_text ms Am Fm) as (n & En & Hn). destruct (cellv_field Clf (FDec ms) Am) as (v & Ev & Hv). cbn [field_text field_value] in Ev, Hv.
      assert (X : sawtooth na pf texts ([77] :: dec_text ms :: map field_text gs) KM = Some n).
      { cbn [sawtooth nth_error]. destruct texts.
        - destruct Hna as (_ & _ & ND & _). now rewrite ND.
        - unfold column. cbn [nth_error]. unfold cellv in Ev. rewrite Ev. f_equal. apply trunc_whole. now rewrite Hv. }
      rewrite X. eexists. split; [reflexivity|]. cbn [meaning app]. constructor; [|exact F].
      split; [reflexivity|]. cbn [dsaw dcells snd map field_value]. do 2 eexists. exists (map cellv (map field_text gs)), (repeat NaN (11 - length (map field_text gs))).
      split; [reflexivity|]. split; [now rewrite Hn|].
      assert (Lg : length gs = 11%nat) by (apply Forall2_length_eq in G; symmetry; exact G).
      split; [rewrite 2 columns_shift, columns_all by (rewrite map_length; lia); reflexivity|].
      split; [exact (cellv_fields _ _ G)|apply nan_repeat].
    - cbn [meaning app]. destruct (no_row (body (Other l))) eqn:R; cbn [negb]; [exists df; auto|]. cbn [map]. rewrite lettered_cons, E.
      destruct (type_of (Other l) P1 S1 R) as (c & Ec & _ & Ek). unfold row_of in Ec. rewrite Ec. cbn [data_record] in Ek. rewrite Ek. exists df. auto.
  Qed.

  Lemma body_row r : data_record r = true -> no_row (body r) = false.
  Proof.
    destruct r as [ms a t|fs t|fs t| | |l]; try discriminate; intros _; cbn [body].
    - apply (no_row_digit _ 68); [now left|lia|lia].
    - apply (no_row_digit _ 71); [now left|lia|lia].
    - apply (no_row_digit _ 77); [now left|lia|lia].
  Qed.

  Lemma types_ok rs : Forall plain_record rs -> Forall (steady na) rs ->
    existsb (fun row => match linetype na row with None => true | Some _ => false end) (rows_text (map body rs)) = false /\
    existsb (fun row => match linetype na row with Some c => c =? 71 | None => false end) (rows_text (map body rs)) = existsb is_G rs /\
    (existsb data_record rs = true -> forallb (fun row => number (column na pf row 0)) (rows_text (map body rs)) = false).
  Proof.
    induction rs as [|r rs IH]; intros P S; [split; [reflexivity|split; [reflexivity|discriminate]]|].
    inversion P as [|? ? P1 P2]; subst. inversion S as [|? ? S1 S2]; subst. destruct (IH P2 S2) as (A & B & C).
    unfold rows_text in *. cbn [map filter existsb]. destruct (no_row (body r)) eqn:R; cbn [negb].
    - assert (D : data_record r = false) by (destruct (data_record r) eqn:D; [apply body_row in D; congruence|reflexivity]).
      assert (G : is_G r = false) by (destruct r; try reflexivity; discriminate D). rewrite D, G. auto.
    - cbn [map existsb forallb]. destruct (type_of r P1 S1 R) as (c & Ec & Eg & Ek). unfold row_of in Ec, Ek. rewrite Ec, A, B. split; [reflexivity|].
      split; [f_equal; destruct (is_G r); [apply Z.eqb_eq; tauto|apply Z.eqb_neq; intros ->; destruct Eg as [Eg _]; discriminate (Eg eq_refl)]|].
      intros H. destruct (data_record r); [now rewrite Ek|]. rewrite (C H). apply andb_false_r.
  Qed.

  (** * The file *)
  Lemma body_end r : plain_record r -> ~ In 10 (record_text r) -> exists e, (e = [10] \/ e = [13; 10]) /\ record_text r ++ [10] = body r ++ e.
  Proof.
    intros P N. destruct (body_spec r P N) as (_ & [E|E]); rewrite E.
    - exists [10]. auto.
    - exists [13; 10]. rewrite <- app_assoc. auto.
  Qed.

  Lemma body_chars r : plain_record r -> ~ In 10 (record_text r) -> unquoted r -> Forall line_char (body r).
  Proof.
    destruct r as [ms a t|fs t|fs t| | |l]; simpl plain_record; try tauto; cbn [body record_text].
    - intros (A & B & _) _ _. unfold line_D. rewrite app_nil_r. constructor; [unfold line_char; lia|].
      apply Forall_forall. intros x I. assert (F : Forall2 field_ok [Clf; Cd] [FDec ms; FInt a]) by (apply Forall2_cons; [exact A|apply Forall2_cons; [exact B|constructor]]).
      pose proof (join_range _ _ F x I). unfold line_char. lia.
    - intros (A & _) _ _. unfold line_G. rewrite app_nil_r. do 2 (constructor; [unfold line_char; lia|]).
      apply Forall_forall. intros x I. pose proof (join_range _ _ A x I). unfold line_char. lia.
    - intros (A & _) _ _. unfold line_M. rewrite app_nil_r. do 2 (constructor; [unfold line_char; lia|]).
      apply Forall_forall. intros x I. pose proof (join_range _ _ A x I). unfold line_char. lia.
  Qed.

  Lemma file_lines rs : Forall plain_record rs -> Forall (fun r => ok_line (record_text r)) rs -> Forall unquoted rs ->
    exists ls, unlines (map record_text rs) = lines_text ls /\ map fst ls = map body rs /\ Forall ended ls.
  Proof.
    induction rs as [|r rs IH]; intros P O U; [exists []; split; [reflexivity|split; [reflexivity|constructor]]|].
    inversion P as [|? ? P1 P2]; subst. inversion O as [|? ? [O1 _] O2]; subst. inversion U as [|? ? U1 U2]; subst.
    destruct (IH P2 O2 U2) as (ls & A & B & C). destruct (body_end r P1 O1) as (e & He & Ee).
    exists ((body r, e) :: ls). unfold unlines, lines_text in *. cbn [map concat fst snd]. rewrite Ee, A, B.
    split; [reflexivity|]. split; [reflexivity|]. constructor; [|exact C]. split; [now apply body_chars|exact He].
  Qed.

  Lemma width r : plain_record r -> steady na r -> (length (split_comma (body r)) <= 13)%nat.
  Proof.
    destruct r as [ms a t|fs t|fs t| | |l]; simpl plain_record; simpl steady; try tauto.
    - intros (A & B & T) _. rewrite row_D by assumption. simpl. lia.
    - intros (A & T) _. cbn [body]. unfold line_G. rewrite (row_GM 71 _ fs) with (2 := A) by (try lia; intros ->; inversion A).
      cbn [length]. rewrite map_length. apply Forall2_length_eq in A. cbn [length] in A. lia.
    - intros (A & T) _. cbn [body]. unfold line_M. rewrite (row_GM 77 _ fs) with (2 := A) by (try lia; intros ->; inversion A).
      cbn [length]. rewrite map_length. apply Forall2_length_eq in A. cbn [length] in A. lia.
    - intros _ (C & _). rewrite split_length. unfold commas_at_most in C. cbn [body record_text]. lia.
  Qed.

  Lemma read_csv_file odd head rs rlast : length head = 6%nat ->
    let all := head ++ rs ++ [rlast] in
    Forall plain_record all -> Forall (fun r => ok_line (record_text r)) all -> Forall unquoted all -> Forall (steady na) (rs ++ [rlast]) ->
    read_csv odd 13 (file (map record_text (head ++ rs)) (record_text rlast)) = Some (rows_text (map body (rs ++ [rlast]))).
  Proof.
    intros L all P O U S. unfold all in P, O, U. rewrite app_assoc in P, O, U.
    apply Forall_app in P. destruct P as [P Pl]. apply Forall_app in O. destruct O as [O Ol]. apply Forall_app in U. destruct U as [U Ul].
    inversion Pl as [|? ? Pl' _]; subst. inversion Ol as [|? ? [Ol' _] _]; subst. inversion Ul as [|? ? Ul' _]; subst.
    destruct (file_lines (head ++ rs) P O U) as (ls & A & B & C).
    assert (Ls : exists lh lr, ls = lh ++ lr /\ length lh = 6%nat /\ map fst lr = map body rs).
    { exists (firstn 6 ls), (skipn 6 ls). split; [symmetry; apply firstn_skipn|].
      assert (Ll : length ls = (6 + length rs)%nat) by (rewrite <- (map_length fst), B, map_length, app_length, L; reflexivity).
      split; [rewrite firstn_length, Ll; lia|]. rewrite <- skipn_map, B, map_app, skipn_app, map_length, L, Nat.sub_diag.
      rewrite skipn_all2 by (rewrite map_length, L; constructor). reflexivity. }
    destruct Ls as (lh & lr & -> & Lh & Br).
    assert (W : Forall (fun l => (length (split_comma l) <= 13)%nat) (map body (rs ++ [rlast]))).
    { apply Forall_forall. intros l I. apply in_map_iff in I. destruct I as (r & <- & I).
      apply width; [|rewrite Forall_forall in S; now apply S].
      apply in_app_or in I. destruct I as [I|[<-|[]]]; [|exact Pl']. rewrite Forall_forall in P. apply P. apply in_or_app. now right. }
    pose proof (body_chars rlast Pl' Ol' Ul') as Cl.
    assert (Rows : csv_rows (file (map record_text (head ++ rs)) (record_text rlast)) = rows_text (map body (rs ++ [rlast]))).
    { rewrite (map_app body rs [rlast]). cbn [map]. unfold file. rewrite A. destruct (body_spec rlast Pl' Ol') as (_ & [E|E]); rewrite E.
      - rewrite (csv_rows_text lh lr (body rlast) Lh C Cl), Br. reflexivity.
      - unfold csv_rows, rows_text. rewrite head_lines_text by (eapply Forall_impl; [exact ended_ok|exact C]).
        rewrite head_lines_cr by exact Cl. rewrite map_app, <- app_assoc, skipn_app, map_length, Lh, Nat.sub_diag.
        rewrite skipn_all2 by (rewrite map_length, Lh; constructor). cbn [app skipn]. now rewrite Br. }
    unfold read_csv, regular. rewrite Rows.
    assert (T : forallb (fun c => (0 <? c) && (c <? 128) && negb (c =? 34)) (file (map record_text (head ++ rs)) (record_text rlast)) = true).
    { unfold file. rewrite A. pose proof (chars_text (lh ++ lr) (body rlast) C Cl) as T.
      destruct (body_spec rlast Pl' Ol') as (_ & [E|E]); rewrite E; [exact T|]. rewrite app_assoc, forallb_app, T. reflexivity. }
    rewrite T. cbn [andb].
    replace (forallb (fun row => (length row <=? 13)%nat) (rows_text (map body (rs ++ [rlast])))) with true; [reflexivity|].
    symmetry. apply forallb_forall. intros row I. unfold rows_text in I. apply in_map_iff in I. destruct I as (l & <- & I).
    apply filter_In in I. rewrite Forall_forall in W. apply Nat.leb_le, W, I.
  Qed.

  (** * The reader *)
  Lemma data_meanings rs : Forall plain_record rs -> existsb data_record rs = true -> meanings rs <> [].
  Proof.
    induction 1 as [|r rs Hr H IH]; [discriminate|]. cbn [existsb]. unfold meanings. cbn [map concat].
    destruct r; simpl in Hr; try tauto; try discriminate; exact IH.
  Qed.

  Lemma read_fallback none_raises odd head rs rlast req : length head = 6%nat ->
    let all := head ++ rs ++ [rlast] in
    Forall plain_record all -> Forall (fun r => ok_line (record_text r)) all -> Forall unquoted all -> Forall (steady na) (rs ++ [rlast]) ->
    existsb data_record (rs ++ [rlast]) = true ->
    let content := file (map record_text (head ++ rs)) (record_text rlast) in
    if negb (existsb is_G (rs ++ [rlast])) && req
    then read_with_pandas na pf none_raises odd (Some content) req = inr NoGPS
    else exists df, read_with_pandas na pf none_raises odd (Some content) req = inl df /\ Forall2 frame_says df (meanings (rs ++ [rlast])).
  Proof.
    intros L all P O U S D content. unfold read_with_pandas.
    assert (R : read_csv odd 13 content = Some (rows_text (map body (rs ++ [rlast])))) by (apply read_csv_file; assumption).
    rewrite R. assert (P' : Forall plain_record (rs ++ [rlast])) by (apply Forall_app in P; tauto).
    destruct (types_ok _ P' S) as (T1 & T2 & T3). specialize (T3 D).
    destruct (lettered_steady (existsb (fun row => text (column na pf row 1)) (rows_text (map body (rs ++ [rlast])))) _ P' S) as (df & E & F).
    destruct (rows_text (map body (rs ++ [rlast]))) as [|r0 rows0] eqn:Er; [discriminate T3|]. rewrite <- Er in *.
    rewrite T1, T2, T3. cbn [orb]. destruct (_ && req); [reflexivity|]. rewrite E. eauto.
  Qed.
End Fallback.

(** * Agreement with the fast reader *)
Lemma fast_frame rows ss : Forall2 row_says rows ss -> Forall2 frame_says (map drow_of rows) ss.
Proof.
  intros F. apply Forall2_map_l. eapply Forall2_impl; [|exact F]. intros r [k xs] [A B]. cbn [fst snd] in *. split; [exact A|].
  inversion B as [|? x ? xs' B1 B2]; subst. exists x, xs', (map Num (rvals r)), []. split; [reflexivity|]. split; [exact B1|].
  split; [cbn; now rewrite app_nil_r|]. split; [|constructor]. apply Forall2_map_l. eapply Forall2_impl; [|exact B2]. intros v w H. exists v. auto.
Qed.

Lemma rows_agree rows df ss : Forall2 row_says rows ss -> Forall2 frame_says df ss -> Forall2 same_row (map drow_of rows) df.
Proof.
  intros F. revert df. induction F as [|r s rows ss H F IH]; intros df G; inversion G as [|d ? df' ? Hd G']; subst; [constructor|].
  cbn [map]. constructor; [|now apply IH]. destruct H as [A B], Hd as [C (x & xs & cells & empty & Es & Ex & Ec & En & Ee)].
  rewrite Es in B. inversion B as [|? ? ? ? B1 B2]; subst. split; [cbn; congruence|]. split; [cbn; now rewrite Ex|].
  exists cells, empty. split; [exact Ec|]. split; [|exact Ee]. cbn [drow_of dcells]. apply Forall2_map_l.
  revert En. clear - B2. revert cells. induction B2 as [|v w l m H F IH]; intros cells En; inversion En as [|c ? cs ? Hc En']; subst; constructor; [|now apply IH].
  destruct Hc as (u & -> & Hu). exists v, u. split; [reflexivity|]. split; [reflexivity|]. now rewrite H, Hu.
Qed.

Lemma fast_read sc buf0 rs rlast : reads_decimal sc ->
  let all := rs ++ [rlast] in
  Forall plain_record all -> Forall (fun r => ok_line (record_text r)) all -> Z.of_nat (length (filter data_record all)) <= 65520000 ->
  exists rows, parse_retry sc buf0 (file (map record_text rs) (record_text rlast)) = Some rows /\ Forall2 row_says rows (meanings all).
Proof.
  intros Hsc all P O L. set (content := file (map record_text rs) (record_text rlast)).
  assert (O1 : Forall ok_line (map record_text rs)) by (apply Forall_app in O; destruct O as [O _]; now apply Forall_map).
  assert (O2 : ok_line (record_text rlast)) by (apply Forall_app in O; destruct O as [_ O]; now inversion O).
  assert (F : Forall2 row_says (rows_of sc buf0 content) (meanings all)).
  { apply (fast_rows 0%Q); [|exact P]. apply Forall_app in P. destruct P as [P1 P2]. apply Forall_app in O. destruct O as [Oa Ob].
    apply file_means; try assumption.
    - eapply Forall_impl; [|exact P1]. exact plain_ok.
    - inversion P2; subst. now apply plain_ok. }
  assert (Lk : Z.of_nat (length (kinds (map record_text rs ++ [record_text rlast]))) <= 65520000).
  { rewrite <- (rows_kinds_file sc buf0 _ _ O1 O2). fold content. rewrite map_length. apply Forall2_length_eq in F. unfold rows_of in F. rewrite F.
    assert (E : length (meanings all) = length (filter data_record all)).
    { clear - P. induction P as [|r l Hr H IH]; [reflexivity|]. unfold meanings. cbn [map concat filter]. rewrite app_length.
      destruct r; simpl in Hr; try tauto; cbn [meaning data_record length]; unfold meanings in IH; lia. }
    rewrite E. exact L. }
  destruct (retry_lines sc buf0 _ _ O1 O2 Lk) as (rows & E & _ & _). exists rows. split; [exact E|].
  assert (rows = rows_of sc buf0 content) as ->; [|exact F].
  unfold parse_retry in E. fold content in E. destruct (parse_gemfile sc buf0 1560000 content) as [r|] eqn:G.
  - injection E as ->. now apply parse_rows_of in G as [-> _].
  - now apply parse_rows_of in E as [-> _].
Qed.

Lemma readers_same sc na pf : reads_decimal sc -> keeps na -> reads_float pf -> letters_no_numbers pf ->
  forall buf0 none_raises odd head rs rlast req,
  let all := head ++ rs ++ [rlast] in
  length head = 6%nat -> Forall (fun r => data_record r = false) head ->
  Forall plain_record all -> Forall (fun r => ok_line (record_text r)) all -> Forall unquoted all -> Forall (steady na) (rs ++ [rlast]) ->
  existsb data_record (rs ++ [rlast]) = true -> Z.of_nat (length (filter data_record all)) <= 65520000 ->
  let content := file (map record_text (head ++ rs)) (record_text rlast) in
  match read_with_cython sc buf0 (Some content) req with
  | inl df => exists df', read_with_pandas na pf none_raises odd (Some content) req = inl df' /\ Forall2 same_row df df'
  | inr e => e = NoGPS /\ read_with_pandas na pf none_raises odd (Some content) req = inr NoGPS
  end.
Proof.
  intros Hsc Hna Hpf Hlet buf0 none_raises odd head rs rlast req all L HH P O U S D C content.
  pose proof (read_fallback na pf Hna Hpf Hlet none_raises odd head rs rlast req L P O U S D) as R. cbv zeta in R. fold content in R.
  assert (M0 : meanings all = meanings (rs ++ [rlast])).
  { unfold all, meanings. rewrite map_app, concat_app. replace (concat (map meaning head)) with (@nil (kind * list Q)); [reflexivity|].
    clear - HH P. unfold all in P. apply Forall_app in P. destruct P as [P _]. induction HH as [|r l Hr H IH]; [reflexivity|].
    inversion P as [|? ? P1 P2]; subst. cbn [map concat]. rewrite <- IH by exact P2. destruct r; simpl in P1; try tauto; try discriminate. }
  assert (P0 : Forall plain_record (rs ++ [rlast])) by (unfold all in P; apply Forall_app in P; tauto).
  unfold all in P, O, C. rewrite app_assoc in P, O, C.
  destruct (fast_read sc buf0 (head ++ rs) rlast Hsc P O C) as (rows & E & F). fold content in E. rewrite <- app_assoc in F. fold all in F. rewrite M0 in F.
  pose proof (data_meanings _ P0 D) as NE.
  assert (G : existsb (fun r => kind_eqb (rkind r) KG) rows = existsb is_G (rs ++ [rlast])).
  { assert (K : existsb (fun r => kind_eqb (rkind r) KG) rows = existsb (fun s => kind_eqb (fst s) KG) (meanings (rs ++ [rlast]))).
    { clear - F. induction F as [|r s l m [A _] F IH]; [reflexivity|]. cbn [existsb]. now rewrite A, IH. }
    rewrite K. clear - P0. induction P0 as [|r l Hr H IH]; [reflexivity|]. unfold meanings. cbn [map concat existsb]. rewrite existsb_app. fold (meanings l). rewrite IH.
    destruct r; simpl in Hr; try tauto; reflexivity. }
  unfold read_with_cython. rewrite E. destruct rows as [|r0 rows0]; [inversion F; congruence|]. rewrite G.
  destruct (negb (existsb is_G (rs ++ [rlast])) && req); [split; [reflexivity|exact R]|].
  destruct R as (df & Rd & Fd). exists df. split; [exact Rd|]. exact (rows_agree _ _ _ F Fd).
Qed.
