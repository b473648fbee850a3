(** Proofs about the pandas readers. *)
From Coq Require Import String.
From Coq Require Import ZArith QArith Qround List Bool Lia Lqa.
From Verif Require Import Lib Base Scan Parser ParserSpec Unwrap UnwrapSpec UnwrapProofs Convert110 Convert110Proofs NamesSpec NamesProofs
  Process ProcessSpec ProcessProofs ScanProofs GemCat GemCatProofs Select Cli CliSpec CliProofs Header HeaderSpec HeaderProofs ReferenceSpec ReferenceProofs Pandas ParserSpec Process PandasSpec.
Import ListNotations.
Open Scope Z_scope.

Lemma good_ok f : good_field f -> exists c, field_ok c f.
Proof. destruct f; [exists Cd|exists Clf]; assumption. Qed.
Lemma good_range f : good_field f -> forall x, In x (field_text f) -> 45 <= x <= 57.
Proof. intros H. destruct (good_ok f H) as [c Hc]. exact (field_nonzero c f Hc). Qed.
Lemma dec_range d : dec_ok d -> forall x, In x (dec_text d) -> 45 <= x <= 57.
Proof. intros H. exact (good_range (FDec d) H). Qed.

Lemma no_row_digit l x : In x l -> x <> 32 -> x <> 9 -> no_row l = false.
Proof.
  intros I A B. destruct (no_row l) eqn:E; [|reflexivity]. apply no_row_iff in E. unfold empty_line in E.
  rewrite Forall_forall in E. specialize (E x I). lia.
Qed.

(** * Cells of a row *)
Lemma split_cells s cells : ~ In 44 s -> Forall (fun c => ~ In 44 (cell_text c)) cells ->
  split_comma (s ++ concat (map (fun c => 44 :: cell_text c) cells)) = s :: map cell_text cells.
Proof.
  intros H F. revert s H. induction F as [|c cells Hc F IH]; intros s H.
  - cbn [map concat]. rewrite app_nil_r. now apply split_comma_none.
  - cbn [map concat]. rewrite <- app_comm_cons. rewrite split_comma_app by exact H. now rewrite IH.
Qed.

Lemma cells_no_comma cells : Forall (fun c => match c with Some f => good_field f | None => True end) cells ->
  Forall (fun c => ~ In 44 (cell_text c)) cells.
Proof.
  apply Forall_impl. intros [f|] H I; [|destruct I]. pose proof (good_range f H 44 I). lia.
Qed.

Definition row_cells (k : kind) (ms : declit) (cells : list (option field)) : list bytes :=
  [kind_letter k] :: dec_text ms :: map cell_text cells.

Lemma split_row k ms cells : old_ok (Row k ms cells) -> split_comma (old_text (Row k ms cells)) = row_cells k ms cells.
Proof.
  intros (A & _ & _ & F). unfold old_text, row_cells.
  change (kind_letter k :: 44 :: dec_text ms ++ concat (map (fun c => 44 :: cell_text c) cells))
    with ([kind_letter k] ++ 44 :: dec_text ms ++ concat (map (fun c => 44 :: cell_text c) cells)).
  rewrite split_comma_app; [|destruct k; simpl; intuition discriminate]. f_equal.
  apply split_cells; [now apply dec_no_comma|now apply cells_no_comma].
Qed.

Lemma line_char_row x : old_ok x -> Forall line_char (old_text x).
Proof.
  destruct x as [k ms cells|l]; [|intros (A & _); exact A]. intros (A & _ & _ & F). unfold old_text.
  constructor; [destruct k; unfold line_char; simpl; lia|]. constructor; [unfold line_char; lia|].
  apply Forall_forall. intros x I. apply in_app_or in I. destruct I as [I|I].
  - pose proof (dec_range ms A x I). unfold line_char. lia.
  - apply in_concat in I. destruct I as (s & Is & Ix). apply in_map_iff in Is. destruct Is as (c & <- & Ic).
    destruct Ix as [<-|Ix]; [unfold line_char; lia|]. rewrite Forall_forall in F. specialize (F c Ic).
    destruct c as [f|]; [|destruct Ix]. pose proof (good_range f F x Ix). unfold line_char. lia.
Qed.

Lemma split_length l : length (split_comma l) = Datatypes.S (length (filter (Z.eqb 44) l)).
Proof.
  induction l as [|c l IH]; [reflexivity|]. cbn [split_comma filter]. rewrite (Z.eqb_sym 44 c).
  destruct (c =? 44); cbn [length]; [now rewrite IH|].
  destruct (split_comma l); [discriminate IH|exact IH].
Qed.

(** * Lines of the file *)
Lemma text_lines_last l : ~ In 10 l -> ~ In 13 l -> text_lines l = match l with [] => [] | _ => [(l, false)] end.
Proof.
  induction l as [|c l IH]; intros A B; [reflexivity|]. cbn [text_lines].
  destruct (Z.eqb_spec c 10) as [->|]; [exfalso; apply A; now left|].
  destruct (Z.eqb_spec c 13) as [->|]; [exfalso; apply B; now left|].
  rewrite IH; [|intros H; apply A; now right|intros H; apply B; now right]. destruct l; reflexivity.
Qed.

Lemma head_lines_last l : Forall line_char l -> head_lines l = match l with [] => [] | _ => [l] end.
Proof.
  intros H. unfold head_lines. rewrite filter_all.
  - rewrite text_lines_last; [destruct l; reflexivity|..]; intros I; rewrite Forall_forall in H; specialize (H _ I); unfold line_char in H; lia.
  - intros x I. rewrite Forall_forall in H. specialize (H _ I). unfold line_char in H. apply Z.ltb_lt. lia.
Qed.

Definition ended (p : bytes * bytes) : Prop := Forall line_char (fst p) /\ (snd p = [10] \/ snd p = [13; 10]).
Lemma ended_ok p : ended p -> line_ok p.
Proof.
  intros [A B]. rewrite Forall_forall in A. split; [|split; [|split; [|exact B]]].
  - intros I. specialize (A _ I). unfold line_char in A. lia.
  - intros I. specialize (A _ I). unfold line_char in A. lia.
  - apply Forall_forall. intros x I. specialize (A _ I). unfold line_char in A. lia.
Qed.

Definition rows_text (texts : list bytes) : list (list bytes) := map split_comma (filter (fun l => negb (no_row l)) texts).

Lemma csv_rows_text head ls last : length head = 6%nat -> Forall ended (head ++ ls) -> Forall line_char last ->
  csv_rows (lines_text (head ++ ls) ++ last) = rows_text (map fst ls ++ [last]).
Proof.
  intros L E C. unfold csv_rows, rows_text.
  rewrite head_lines_text by (eapply Forall_impl; [exact ended_ok|exact E]).
  rewrite head_lines_last by exact C. rewrite map_app, <- app_assoc, skipn_app, map_length, L, Nat.sub_diag.
  rewrite skipn_all2 by (rewrite map_length, L; constructor). cbn [app skipn].
  rewrite !filter_app. destruct last as [|c r]; [|reflexivity]. cbn [filter no_row forallb negb]. now rewrite app_nil_r.
Qed.

Lemma chars_text ls last : Forall ended ls -> Forall line_char last ->
  forallb (fun c => (0 <? c) && (c <? 128) && negb (c =? 34)) (lines_text ls ++ last) = true.
Proof.
  intros E C. apply forallb_forall. intros x I.
  assert (H : 0 < x < 128 /\ x <> 34).
  { apply in_app_or in I. destruct I as [I|I].
    - unfold lines_text in I. apply in_concat in I. destruct I as (s & Is & Ix). apply in_map_iff in Is. destruct Is as (p & <- & Ip).
      rewrite Forall_forall in E. destruct (E p Ip) as [A B]. apply in_app_or in Ix. destruct Ix as [Ix|Ix].
      + rewrite Forall_forall in A. specialize (A _ Ix). unfold line_char in A. lia.
      + assert (X : In x [10] \/ In x [13; 10]) by (destruct B as [B|B]; [left|right]; rewrite <- B; exact Ix).
        simpl in X. lia.
    - rewrite Forall_forall in C. specialize (C _ I). unfold line_char in C. lia. }
  destruct H as [[A B] D]. apply andb_true_iff. split; [apply andb_true_iff; split; apply Z.ltb_lt; lia|].
  destruct (Z.eqb_spec x 34); [contradiction|reflexivity].
Qed.

Lemma read_csv_text odd n head ls last : length head = 6%nat -> Forall ended (head ++ ls) -> Forall line_char last ->
  Forall (fun l => (length (split_comma l) <= n)%nat) (map fst ls ++ [last]) ->
  read_csv odd n (lines_text (head ++ ls) ++ last) = Some (rows_text (map fst ls ++ [last])).
Proof.
  intros L E C N. unfold read_csv, regular. rewrite chars_text by assumption.
  rewrite csv_rows_text by assumption. cbn [andb].
  replace (forallb (fun row => (length row <=? n)%nat) (rows_text (map fst ls ++ [last]))) with true; [reflexivity|].
  symmetry. apply forallb_forall. intros row I. unfold rows_text in I. apply in_map_iff in I. destruct I as (l & <- & I).
  apply filter_In in I. rewrite Forall_forall in N. apply Nat.leb_le, N, I.
Qed.

(** * The reader of the old formats *)
Section Old.
  Variables (na : bytes -> bool) (pf : bytes -> option Q).
  Hypothesis Hna : keeps na.
  Hypothesis Hpf : reads_float pf.

  Lemma column_field f s : good_field f -> s = field_text f -> exists v,
    (if na s then NaN else match pf s with Some v => Num v | None => Text end) = Num v /\ (v == field_value f)%Q.
  Proof.
    intros G ->. destruct Hna as (_ & NI & ND & _), Hpf as [PI PD]. destruct f as [i|d]; cbn [field_text field_value] in *.
    - rewrite NI by exact G. destruct (PI i G) as (v & E & H). rewrite E. eauto.
    - rewrite ND by exact G. destruct (PD d G) as (v & E & H). rewrite E. eauto.
  Qed.

  Lemma letter_na k : na [kind_letter k] = false.
  Proof. destruct Hna as (_ & _ & _ & H). apply H; [destruct k; simpl; auto|now left]. Qed.
  Lemma letter_kind_letter k : letter_kind (kind_letter k) = Some k.
  Proof. destruct k; reflexivity. Qed.

  Definition entry_is (e : kind * Q * list bytes) (s : kind * declit * list (option field)) : Prop :=
    fst (fst e) = fst (fst s) /\ (snd (fst e) == dec_value (snd (fst s)))%Q /\
    snd e = row_cells (fst (fst s)) (snd (fst s)) (snd s).

  Lemma clocked_cons row rows : clocked na pf (row :: rows) =
    match exact_kind na row with
    | None => clocked na pf rows
    | Some k => match column na pf row 1, clocked na pf rows with
                | Num v, Some l => Some ((k, v, row) :: l) | NaN, Some l => Some l | _, _ => None end
    end.
  Proof. reflexivity. Qed.

  Lemma skip_row l : skip_ok l -> exact_kind na (split_comma l) = None \/ column na pf (split_comma l) 1 = NaN.
  Proof.
    intros (_ & _ & K). destruct (split_comma_hd l) as (w & ws & E & H).
    destruct (exact_kind na (split_comma l)) as [k|] eqn:X; [|now left]. right.
    rewrite E in X. cbn [exact_kind] in X. destruct (na w); [discriminate|].
    destruct w as [|c [|? ?]]; try discriminate.
    assert (I : In c [68; 71; 77]).
    { unfold letter_kind in X. destruct (Z.eqb_spec c 68); [subst; simpl; auto|]. destruct (Z.eqb_spec c 77); [subst; simpl; auto|].
      destruct (Z.eqb_spec c 71); [subst; simpl; auto|discriminate]. }
    assert (N : c <> 44) by (simpl in I; lia).
    destruct H as [->|(q & ->)].
    - rewrite split_comma_none by (intros [H|[]]; congruence). reflexivity.
    - change ([c] ++ 44 :: q) with (c :: 44 :: q) in *. specialize (K c q I eq_refl).
      change (c :: 44 :: q) with ([c] ++ 44 :: q). rewrite split_comma_app by (intros [H|[]]; congruence).
      unfold column. cbn [nth_error]. destruct Hna as (N0 & _).
      destruct K as [->|(u & ->)]; [cbn [split_comma]|cbn [split_comma Z.eqb Pos.eqb]]; now rewrite N0.
  Qed.

  Lemma clocked_old xs : Forall old_ok xs ->
    exists l, clocked na pf (rows_text (map old_text xs)) = Some l /\ Forall2 entry_is l (stated xs).
  Proof.
    induction 1 as [|x xs Hx H (l & E & F)]; [exists []; split; [reflexivity|constructor]|].
    unfold rows_text in *. cbn [map filter]. destruct x as [k ms cells|t].
    - rewrite (no_row_digit _ (kind_letter k)); [|left; reflexivity|destruct k; simpl; lia|destruct k; simpl; lia].
      cbn [negb map]. rewrite split_row by exact Hx. rewrite clocked_cons, E.
      assert (exact_kind na (row_cells k ms cells) = Some k) as ->
        by (unfold row_cells, exact_kind; rewrite letter_na; apply letter_kind_letter).
      destruct Hx as (A & _). destruct (column_field (FDec ms) _ A eq_refl) as (v & Ev & Hv). cbn [field_text field_value] in Ev, Hv.
      unfold column, row_cells. cbn [nth_error]. rewrite Ev. eexists. split; [reflexivity|].
      unfold stated. cbn [map concat app]. constructor; [|exact F]. split; [reflexivity|]. split; [exact Hv|reflexivity].
    - unfold stated. cbn [map concat app]. fold (stated xs). cbn [old_text] in *.
      destruct (no_row t); cbn [negb]; [exists l; auto|]. cbn [map]. rewrite clocked_cons, E.
      destruct (skip_row t Hx) as [X|X]; rewrite X; [exists l; auto|].
      exists l. split; [|exact F]. destruct (exact_kind na (split_comma t)); reflexivity.
  Qed.

  Lemma trunc_floor v d : dec_ok d -> dneg d = false -> (v == dec_value d)%Q ->
    (inject_Z (py_trunc v) <= dec_value d /\ dec_value d < inject_Z (py_trunc v) + 1)%Q.
  Proof.
    intros (_ & A & B) N E.
    assert (P : (0 <= dec_value d)%Q).
    { unfold dec_value. rewrite N. setoid_replace (inject_Z 1 *
        (inject_Z (pos_value (dint d)) + inject_Z (pos_value (frac_digits d)) / inject_Z (10 ^ Z.of_nat (length (frac_digits d)))))%Q
        with (inject_Z (pos_value (dint d)) + inject_Z (pos_value (frac_digits d)) / inject_Z (10 ^ Z.of_nat (length (frac_digits d))))%Q by ring.
      assert (P0 : forall ds, all_digits ds -> 0 <= pos_value ds).
      { induction 1 as [|x ds Hx H IH]; [simpl; lia|]. cbn [pos_value]. pose proof (Z.pow_nonneg 10 (Z.of_nat (length ds))). nia. }
      assert (X1 : (0 <= inject_Z (pos_value (dint d)))%Q) by (rewrite <- (Zle_Qle 0); auto).
      assert (X2 : (0 <= inject_Z (pos_value (frac_digits d)) / inject_Z (10 ^ Z.of_nat (length (frac_digits d))))%Q).
      { apply Qle_shift_div_l; [rewrite <- (Zlt_Qlt 0); apply Z.pow_pos_nonneg; lia|]. rewrite Qmult_0_l, <- (Zle_Qle 0). auto. }
      lra. }
    rewrite <- E in P |- *. unfold py_trunc. assert (Qle_bool 0 v = true) as -> by now apply Qle_bool_iff.
    exact (floor_spec v).
  Qed.

  Lemma entry_row_is e s : entry_is e s -> (exists x, old_ok x /\ In s (stated [x])) ->
    row_is (let '(k, v, row) := e in mkd k (inject_Z (py_trunc v)) (columns na pf row 2 13)) s.
  Proof.
    destruct e as [[k v] row], s as [[k' ms] cells]. intros (A & B & C) (x & Hx & I). cbn [fst snd] in *. subst k' row.
    destruct x as [k' ms' cells'|l]; [|destruct I]. destruct I as [[= -> -> ->]|[]]. destruct Hx as (D & N & L & F).
    split; [reflexivity|]. split; [exists (py_trunc v); split; [reflexivity|now apply trunc_floor]|].
    split; [reflexivity|]. cbn [dcells]. intros i c Hc.
    unfold columns in Hc. rewrite nth_error_map in Hc.
    destruct (nth_error (seq 2 13) i) as [j|] eqn:Ej; [|discriminate]. cbn [option_map] in Hc. injection Hc as <-.
    assert (j = 2 + i)%nat as ->.
    { assert (i < 13)%nat by (rewrite <- (seq_length 13 2); apply nth_error_Some; congruence).
      apply (nth_error_nth _ _ 0%nat) in Ej. rewrite seq_nth in Ej by assumption. congruence. }
    unfold column, row_cells. cbn [Nat.add nth_error]. rewrite nth_error_map.
    destruct (nth_error cells i) as [[f|]|] eqn:Ei; cbn [option_map shows cell_text]; [| |reflexivity].
    - apply nth_error_In in Ei. rewrite Forall_forall in F. exact (column_field f _ (F _ Ei) eq_refl).
    - destruct Hna as (N0 & _). now rewrite N0.
  Qed.

  Lemma rows_are xs l : Forall old_ok xs -> Forall2 entry_is l (stated xs) ->
    Forall2 row_is (map (fun e => match e with (k, v, row) => mkd k (inject_Z (py_trunc v)) (columns na pf row 2 13) end) l) (stated xs).
  Proof.
    intros H. assert (S : Forall (fun s => exists x, old_ok x /\ In s (stated [x])) (stated xs)).
    { clear -H. induction H as [|x xs Hx H IH]; [constructor|]. unfold stated. cbn [map concat]. apply Forall_app. split; [|exact IH].
      apply Forall_forall. intros s I. exists x. split; [exact Hx|]. unfold stated. cbn [map concat]. rewrite app_nil_r. exact I. }
    intros F. induction F as [|e s l ss E F IH]; [constructor|]. inversion S as [|? ? S1 S2]; subst. constructor; [|now apply IH].
    now apply entry_row_is.
  Qed.

  Lemma kinds_are l ss : Forall2 entry_is l ss -> existsb (fun e => kind_eqb (fst (fst e)) KG) l = existsb (fun s => kind_eqb (row_kind s) KG) ss.
  Proof. induction 1 as [|e s l ss (A & _) F IH]; [reflexivity|]. cbn [existsb]. rewrite IH. unfold row_kind. now rewrite A. Qed.

  Lemma read_old none_raises odd head body last req :
    head_ok head -> Forall (fun p => old_ok (fst p) /\ (snd p = [10] \/ snd p = [13; 10])) body -> old_ok last ->
    let xs := map fst body ++ [last] in
    stated xs <> [] ->
    if negb (existsb (fun s => kind_eqb (row_kind s) KG) (stated xs)) && req
    then read_0_8 na pf none_raises odd (Some (old_file head body last)) req = inr NoGPS
    else exists df, read_0_8 na pf none_raises odd (Some (old_file head body last)) req = inl df /\ Forall2 row_is df (stated xs).
  Proof.
    intros [HL HH] HB Hl xs NE.
    assert (Fx : Forall old_ok xs).
    { unfold xs. apply Forall_app. split; [|now constructor]. apply Forall_forall. intros x I. apply in_map_iff in I. destruct I as (p & <- & I).
      rewrite Forall_forall in HB. now destruct (HB p I). }
    set (ls := map (fun p => (old_text (fst p), snd p)) body).
    assert (Fl : map fst ls ++ [old_text last] = map old_text xs).
    { unfold ls, xs. rewrite map_app, !map_map. reflexivity. }
    assert (R : read_csv odd 15 (old_file head body last) = Some (rows_text (map old_text xs))).
    { unfold old_file. fold ls. rewrite <- Fl. apply read_csv_text; [exact HL| |now apply line_char_row|].
      - apply Forall_app. split; [exact HH|]. unfold ls. apply Forall_forall. intros p I. apply in_map_iff in I. destruct I as (q & <- & I).
        rewrite Forall_forall in HB. destruct (HB q I) as [A B]. split; [now apply line_char_row|exact B].
      - enough (T : Forall (fun l => (length (split_comma l) <= 15)%nat) (map old_text xs)) by (rewrite <- Fl in T; exact T).
        apply Forall_forall. intros t I. apply in_map_iff in I. destruct I as (x & <- & I). rewrite Forall_forall in Fx. specialize (Fx x I).
        destruct x as [k ms cells|l].
        + rewrite split_row by exact Fx. destruct Fx as (_ & _ & L & _). unfold row_cells. cbn [length]. rewrite map_length. lia.
        + destruct Fx as (_ & C & _). rewrite split_length. unfold commas_at_most in C. cbn [old_text]. lia. }
    destruct (clocked_old xs Fx) as (l & E & F). unfold read_0_8. rewrite R.
    destruct (rows_text (map old_text xs)) as [|r0 rs0] eqn:Er.
    { cbn in E. injection E as <-. inversion F. congruence. }
    rewrite E, (kinds_are _ _ F). destruct (_ && req); [reflexivity|]. eexists. split; [reflexivity|]. now apply rows_are.
  Qed.
End Old.

(** * From rows to tables *)
Definition full_row (d : drow) : Prop := length (dcells d) = 13%nat /\ Forall (fun c => c <> Text) (dcells d).

Lemma row_is_full d s : row_is d s -> full_row d.
Proof.
  destruct s as [[k ms] cells]. intros (_ & _ & L & H). split; [exact L|]. apply Forall_forall. intros c I ->.
  apply In_nth_error in I. destruct I as (i & Ei). specialize (H i _ Ei). unfold shows in H.
  destruct (nth_error cells i) as [[f|]|]; [destruct H as (v & [=] & _)| |]; discriminate.
Qed.

Lemma holds_all l : Forall (fun c => c <> Text) l -> exists vs, Forall2 holds l vs.
Proof.
  induction 1 as [|c l Hc H (vs & F)]; [exists []; constructor|].
  destruct c as [x| |]; [exists (Some x :: vs)|exists (None :: vs)|congruence]; constructor; auto; constructor.
Qed.

Lemma Forall_firstn {A} (P : A -> Prop) n l : Forall P l -> Forall P (firstn n l).
Proof. intros H. rewrite <- (firstn_skipn n l) in H. now apply Forall_app in H. Qed.

Lemma traverse_total {A B} (f : A -> option B) l : Forall (fun x => exists y, f x = Some y) l -> exists ys, traverse f l = Some ys.
Proof.
  induction 1 as [|x l (y & E) H (ys & IH)]; [exists []; reflexivity|]. exists (y :: ys). cbn [traverse]. now rewrite E, IH.
Qed.

Lemma full_fix m d : full_row d -> exists g, fix_in (m, d) g.
Proof.
  intros [L F]. destruct (holds_all (firstn 9 (dcells d)) (Forall_firstn _ _ _ F)) as (vs & H).
  assert (length vs = 9%nat) by (rewrite <- (Forall2_length_eq _ _ _ H), firstn_length, L; reflexivity).
  destruct vs as [|v1 [|v2 [|v3 [|v4 [|v5 [|v6 [|v7 [|v8 [|v9 [|? ?]]]]]]]]]]; try discriminate.
  exists (mkfix m v1 v2 v3 v4 v5 v6 v7 v8 v9). split; [reflexivity|]. exists (skipn 9 (dcells d)). split; [exact H|]. symmetry. apply firstn_skipn.
Qed.

Lemma process_full ear version offset req df r n :
  Process.settings version = Some (r, n) -> Forall full_row df -> In KD (map dkind df) -> In KM (map dkind df) ->
  exists clock ds ms, length clock = length df /\
    process ear version offset req df =
    match gps_table ear (map mkrow' (of_kind KG (combine clock df))) with
    | Some g => inl (mktab ds ms g)
    | None => if req then inr NoGPS else inl (mktab ds ms [])
    end.
Proof.
  intros S F HD HM. unfold process. rewrite S. destruct df as [|d0 df0]; [destruct HD|]. set (df := d0 :: df0) in *.
  rewrite !group_correct. set (clock := unwrap r offset (map dsaw df)).
  assert (Lc : length clock = length df) by (unfold clock; now rewrite unwrap_length, map_length).
  assert (NE : forall k, In k (map dkind df) -> of_kind k (combine clock df) <> []).
  { intros k I E. apply (f_equal (map snd)) in E. rewrite of_kind_snd in E by exact Lc. cbn [map] in E.
    apply in_map_iff in I. destruct I as (d & K & I).
    assert (I' : In d (filter (fun d => kind_eqb (dkind d) k) df)) by (apply filter_In; split; [exact I|subst k; destruct (dkind d); reflexivity]).
    rewrite E in I'. destruct I'. }
  assert (Fk : forall k, Forall (fun p => full_row (snd p)) (of_kind k (combine clock df))).
  { intros k. apply Forall_forall. intros [c d] I. apply filter_In in I. destruct I as [I _]. apply in_combine_r in I.
    rewrite Forall_forall in F. now apply F. }
  assert (TD : exists ds, traverse sample_of (map mkrow' (of_kind KD (combine clock df))) = Some ds).
  { apply traverse_total. apply Forall_forall. intros x I. apply in_map_iff in I. destruct I as (p & <- & I).
    specialize (Fk KD). rewrite Forall_forall in Fk. destruct (Fk p I) as [L N]. unfold sample_of. cbn [ccells mkrow'].
    destruct (dcells (snd p)) as [|c cs]; [discriminate|]. inversion N as [|? ? N1 N2]; subst. destruct c; [..|congruence]; cbn; eauto. }
  assert (TM : exists ms, traverse (meta_of n) (map mkrow' (of_kind KM (combine clock df))) = Some ms).
  { apply traverse_total. apply Forall_forall. intros x I. apply in_map_iff in I. destruct I as (p & <- & I).
    specialize (Fk KM). rewrite Forall_forall in Fk. destruct (Fk p I) as [L N].
    destruct (holds_all (firstn n (dcells (snd p))) (Forall_firstn _ _ _ N)) as (vs & H).
    exists (fst p, vs). apply meta_of_spec. split; [reflexivity|exact H]. }
  destruct TD as [ds TD], TM as [ms TM].
  destruct (map mkrow' (of_kind KD (combine clock df))) eqn:E1; [apply map_eq_nil in E1; destruct (NE KD HD E1)|].
  destruct (map mkrow' (of_kind KM (combine clock df))) eqn:E2; [apply map_eq_nil in E2; destruct (NE KM HM E2)|].
  rewrite TD, TM. exists clock. do 2 eexists. split; [exact Lc|]. reflexivity.
Qed.

Lemma selected_none {A B} (R : A -> B -> Prop) l : selected R l [] -> forall x y, In x l -> ~ R x y.
Proof.
  remember [] as m eqn:E. induction 1 as [|x0 y0 l m H S IH|x0 l m H S IH]; intros x y I; [destruct I|discriminate|].
  destruct I as [->|I]; [apply H|now apply IH].
Qed.

(** With one plausible fix, or without need for one, the rows become tables. *)
Lemma full_read ear version offset req df :
  (exists r n, Process.settings version = Some (r, n)) -> Forall full_row df -> In KD (map dkind df) -> In KM (map dkind df) ->
  (exists tab, process ear version offset req df = inl tab /\ (gps tab = [] -> req = true ->
      forall d g t, In d df -> dkind d = KG -> (exists m, fix_in (m, d) g) -> ~ plausible g t)) \/
  (process ear version offset req df = inr NoGPS /\ req = true /\
      forall d g t, In d df -> dkind d = KG -> (exists m, fix_in (m, d) g) -> ~ plausible g t).
Proof.
  intros (r & n & S) F HD HM. destruct (process_full ear version offset req df r n S F HD HM) as (clock & ds & ms & Lc & ->).
  pose proof (gps_table_spec ear (of_kind KG (combine clock df))) as G.
  assert (X : selected kept_as (of_kind KG (combine clock df)) [] ->
    forall d g t, In d df -> dkind d = KG -> (exists m, fix_in (m, d) g) -> ~ plausible g t).
  { intros Sel d g t I K (m & Fx) P.
    assert (IG : In d (map snd (of_kind KG (combine clock df)))).
    { rewrite of_kind_snd by exact Lc. apply filter_In. split; [exact I|]. now rewrite K. }
    apply in_map_iff in IG. destruct IG as ([mx dx] & Ex & IG). cbn [snd] in Ex. subst dx.
    apply (selected_none _ _ Sel _ (mkfix mx (msLag g) (gyear g) (gmonth g) (gday g) (ghour g) (gminute g) (gsecond g) (glat g) (glon g), t) IG).
    split; [|exact P]. destruct Fx as (_ & rest & F1 & F2). split; [reflexivity|]. exists rest. split; [exact F1|exact F2]. }
  destruct (gps_table ear (map mkrow' (of_kind KG (combine clock df)))) as [g|].
  - left. eexists. split; [reflexivity|]. cbn [gps]. intros -> _. now apply X.
  - destruct req; [right|left; eexists; split; [reflexivity|intros _ [=]]].
    split; [reflexivity|]. split; [reflexivity|]. apply X. destruct G as [G|[G|G]]; [rewrite G; constructor| |exact G].
    exfalso. apply G. apply Forall_forall. intros [m d] I. apply filter_In in I. destruct I as [I _]. apply in_combine_r in I.
    rewrite Forall_forall in F. apply full_fix. now apply F.
Qed.

(** The fix of a row. *)
Lemma stated_fix d k ms cells m : row_is d (k, ms, cells) -> exists g, fix_in (m, d) g /\
  forall t, plausible (fix_stated 0 cells) t -> plausible g t.
Proof.
  intros (_ & _ & L & H). destruct d as [k' saw cs]. cbn [dcells] in *.
  destruct cs as [|x0 [|x1 [|x2 [|x3 [|x4 [|x5 [|x6 [|x7 [|x8 cs]]]]]]]]]; try discriminate.
  assert (V : forall i c, nth_error (x0 :: x1 :: x2 :: x3 :: x4 :: x5 :: x6 :: x7 :: x8 :: cs) i = Some c ->
    exists v, holds c v /\ opteq (match nth_error cells i with Some (Some f) => Some (field_value f) | _ => None end) v).
  { intros i c E. specialize (H i c E). unfold shows in H. destruct (nth_error cells i) as [[f|]|].
    - destruct H as (v & -> & Hv). exists (Some v). split; [constructor|]. cbn. now symmetry.
    - subst c. exists None. split; constructor.
    - subst c. exists None. split; constructor. }
  destruct (V 0%nat _ eq_refl) as (v0 & A0 & B0), (V 1%nat _ eq_refl) as (v1 & A1 & B1), (V 2%nat _ eq_refl) as (v2 & A2 & B2),
    (V 3%nat _ eq_refl) as (v3 & A3 & B3), (V 4%nat _ eq_refl) as (v4 & A4 & B4), (V 5%nat _ eq_refl) as (v5 & A5 & B5),
    (V 6%nat _ eq_refl) as (v6 & A6 & B6), (V 7%nat _ eq_refl) as (v7 & A7 & B7), (V 8%nat _ eq_refl) as (v8 & A8 & B8).
  exists (mkfix m v0 v1 v2 v3 v4 v5 v6 v7 v8). split.
  - split; [reflexivity|]. exists cs. split; [repeat constructor; assumption|reflexivity].
  - intros t. apply plausible_eq; assumption.
Qed.
