From Coq Require Import String.
From Coq Require Import ZArith List Bool Lia.
From Verif Require Import Lib Base Scan Convert110 Convert110Proofs NamesProofs GemCat GemCatProofs Select Cli CliSpec CliProofs Header HeaderSpec.
Import ListNotations.
Open Scope Z_scope.

Lemma filter_all {A} (p : A -> bool) l : (forall x, In x l -> p x = true) -> filter p l = l.
Proof.
  induction l as [|x l IH]; intros H; [reflexivity|]. cbn [filter]. rewrite (H x) by now left.
  f_equal. apply IH. intros y Hy. apply H. now right.
Qed.

Lemma ascii_line p : line_ok p -> filter (fun c => c <? 128) (fst p ++ snd p) = fst p ++ snd p.
Proof.
  intros (_ & _ & F & E). apply filter_all. intros x Hx. apply in_app_or in Hx. destruct Hx as [Hx|Hx].
  - rewrite Forall_forall in F. specialize (F _ Hx). lia.
  - destruct E as [E|E]; rewrite E in Hx; simpl in Hx; lia.
Qed.

Lemma head_lines_text ls rest : Forall line_ok ls -> head_lines (lines_text ls ++ rest) = map fst ls ++ head_lines rest.
Proof.
  unfold head_lines. induction 1 as [|p ls Hp H IH]; [reflexivity|].
  unfold lines_text. cbn [map concat]. rewrite <- app_assoc. rewrite filter_app, ascii_line by assumption.
  rewrite <- app_assoc. destruct Hp as (A & B & _ & E). rewrite text_lines_line by assumption.
  cbn [map fst app]. f_equal. exact IH.
Qed.

Lemma no_row_iff l : no_row l = true <-> empty_line l.
Proof.
  unfold no_row, empty_line. rewrite forallb_forall, Forall_forall. split; intros H x Hx; specialize (H x Hx).
  - apply orb_true_iff in H. rewrite !Z.eqb_eq in H. exact H.
  - apply orb_true_iff. rewrite !Z.eqb_eq. exact H.
Qed.

Lemma starts_iff c l : starts c l = true <-> exists t, l = c :: t.
Proof.
  destruct l as [|x t]; cbn [starts]; [split; [discriminate|intros (t & E); discriminate]|].
  rewrite Z.eqb_eq. split; [intros ->; now exists t|intros (u & E); congruence].
Qed.

Lemma note_iff l : negb (no_row l) && negb (starts 35 l) = false <-> note l.
Proof.
  unfold note. rewrite <- no_row_iff, <- starts_iff.
  destruct (no_row l), (starts 35 l); simpl; split; intros H; auto; try discriminate; destruct H; discriminate.
Qed.

Lemma filter_none {A} (p : A -> bool) l r : (forall x, In x l -> p x = false) -> filter p (l ++ r) = filter p r.
Proof.
  induction l as [|x l IH]; intros H; [reflexivity|]. cbn [filter app]. rewrite (H x) by now left.
  apply IH. intros y Hy. apply H. now right.
Qed.

Lemma before_hash_spec l : exists t, l = before_hash l ++ t /\ ~ In 35 (before_hash l) /\ (t = [] \/ exists u, t = 35 :: u).
Proof.
  induction l as [|c l (t & E & N & T)]; cbn [before_hash].
  - exists []. split; [reflexivity|]. split; [intros []|now left].
  - destruct (Z.eqb_spec c 35) as [->|Hc].
    + exists (35 :: l). split; [reflexivity|]. split; [intros []|right; now exists l].
    + exists t. split; [cbn [app]; now rewrite <- E|]. split; [|exact T]. intros [K|K]; [lia|now apply N].
Qed.

Lemma before_hash_app l t : ~ In 35 l -> (t = [] \/ exists u, t = 35 :: u) -> before_hash (l ++ t) = l.
Proof.
  intros N T. induction l as [|c l IH]; cbn [app before_hash].
  - destruct T as [->|(u & ->)]; reflexivity.
  - destruct (Z.eqb_spec c 35) as [->|_]; [exfalso; apply N; now left|]. f_equal. apply IH. intros K; apply N; now right.
Qed.

(** Joining the cells again gives the line. *)
Fixpoint join (fs : list bytes) : bytes :=
  match fs with [] => [] | [f] => f | f :: r => f ++ 44 :: join r end.
Lemma split_join l : join (split_comma l) = l /\ split_comma l <> [] /\ Forall (fun f => ~ In 44 f) (split_comma l).
Proof.
  induction l as [|c l (J & NE & F)]; cbn [split_comma].
  - repeat split; [discriminate|]. constructor; [intros []|constructor].
  - destruct (Z.eqb_spec c 44) as [->|Hc].
    + split; [|split; [discriminate|]].
      * destruct (split_comma l) as [|w ws] eqn:E; [congruence|]. change (join ([] :: w :: ws)) with (44 :: join (w :: ws)). now rewrite J.
      * constructor; [intros []|exact F].
    + destruct (split_comma l) as [|w ws] eqn:E; [congruence|]. split; [|split; [discriminate|]].
      * destruct ws as [|w' ws]; cbn [join app] in *; now rewrite J.
      * inversion F; subst. constructor; [|assumption]. intros [K|K]; [lia|now apply H1].
Qed.

Lemma join_cell fs f : In f fs -> exists p q, join fs = p ++ f ++ q /\ (p = [] \/ exists p', p = p' ++ [44]) /\ (q = [] \/ exists q', q = 44 :: q').
Proof.
  induction fs as [|g r IH]; intros H; [destruct H|]. destruct H as [->|H].
  - destruct r as [|h r].
    + exists [], []. cbn [join app]. rewrite app_nil_r. auto.
    + exists [], (44 :: join (h :: r)). split; [reflexivity|]. split; [now left|right; now exists (join (h :: r))].
  - destruct r as [|h r]; [destruct H|]. destruct (IH H) as (p & q & E & P & Q).
    exists (g ++ 44 :: p), q. change (join (g :: h :: r)) with (g ++ 44 :: join (h :: r)). rewrite E.
    split; [now rewrite <- app_assoc|]. split; [|exact Q]. right.
    destruct P as [->|(p' & ->)]; [now exists g|]. exists (g ++ 44 :: p'). now rewrite <- app_assoc.
Qed.

Lemma split_comma_cat p r : split_comma (p ++ 44 :: r) = split_comma p ++ split_comma r.
Proof.
  induction p as [|c p IH]; [reflexivity|]. cbn [app split_comma]. rewrite IH. destruct (c =? 44); [reflexivity|].
  destruct (split_comma p) as [|w ws] eqn:E; [|reflexivity]. destruct (split_join p) as (_ & NE & _). contradiction.
Qed.

Lemma mentions_C_iff l : mentions_C l <-> In (b "C") (split_comma l).
Proof.
  split.
  - intros (p & q & -> & P & T).
    assert (Y : In (b "C") (split_comma (b "C" ++ q))).
    { destruct T as [->|(q' & ->)]; [left; reflexivity|]. rewrite split_comma_app by (simpl; lia). now left. }
    destruct P as [->|(p' & ->)]; [exact Y|]. rewrite <- app_assoc. cbn [app]. change (67 :: q) with (b "C" ++ q).
    rewrite split_comma_cat. apply in_or_app. now right.
  - intros H. destruct (join_cell _ _ H) as (p & q & J & P & K). destruct (split_join l) as (J' & _). exists p, q. rewrite <- J. auto.
Qed.

(** * Serial number *)

Lemma read_SN_rows na odd l1 l2 l3 notes l0 rest' rest :
  Forall line_ok (l1 :: l2 :: l3 :: notes ++ l0 :: rest') -> Forall (fun p => note (fst p)) notes -> ~ note (fst l0) ->
  read_SN na odd (lines_text (l1 :: l2 :: l3 :: notes ++ l0 :: rest') ++ rest) =
    match split_comma (before_hash (fst l0)) with
    | [t; sn] => if eqb_bytes t (b "S") && negb (na t) then Some (if na sn then None else Some sn) else None
    | [t] => if eqb_bytes t (b "S") && negb (na t) then Some None else None
    | row => odd row
    end.
Proof.
  intros L N I0. unfold read_SN. rewrite head_lines_text by assumption.
  cbn [map fst app skipn]. rewrite map_app. cbn [map]. rewrite <- !app_assoc, filter_none.
  - cbn [app filter]. destruct (negb (no_row (fst l0)) && negb (starts 35 (fst l0))) eqn:E; [reflexivity|].
    exfalso. apply I0. now apply note_iff.
  - intros x Hx. apply note_iff. apply in_map_iff in Hx. destruct Hx as (p & <- & Hp). rewrite Forall_forall in N. now apply N.
Qed.

Lemma serial_line_cells l sn : serial_line l sn -> split_comma (before_hash l) = [b "S"; sn].
Proof.
  intros (t & -> & A & B & T). rewrite app_assoc, before_hash_app; [|simpl; intros [K|[K|K]]; try discriminate; now apply B|exact T].
  change (b "S," ++ sn) with (b "S" ++ 44 :: sn). rewrite split_comma_app by (simpl; lia). now rewrite split_comma_none.
Qed.

Lemma cells_serial_line l sn : split_comma (before_hash l) = [b "S"; sn] -> serial_line l sn.
Proof.
  intros E. destruct (before_hash_spec l) as (t & El & N & T). destruct (split_join (before_hash l)) as (J & _ & F).
  rewrite E in J, F. cbn [join] in J. exists t. rewrite app_assoc.
  replace (b "S," ++ sn) with (before_hash l) by (rewrite <- J; reflexivity). split; [exact El|].
  inversion F as [|? ? _ F']; subst. inversion F'; subst. split; [assumption|]. split; [|exact T].
  intros K. apply N. rewrite <- J. right. now right.
Qed.

Lemma cells_crowded l : (2 < length (split_comma (before_hash l)))%nat -> crowded l.
Proof.
  intros H. destruct (before_hash_spec l) as (t & El & N & T). destruct (split_join (before_hash l)) as (J & _ & F).
  destruct (split_comma (before_hash l)) as [|x [|y [|z r]]]; simpl in H; try lia.
  change (join (x :: y :: z :: r)) with (x ++ 44 :: y ++ 44 :: join (z :: r)) in J.
  exists x, y, (join (z :: r) ++ t).
  split; [rewrite El, <- J, <- !app_assoc; cbn [app]; now rewrite <- !app_assoc|].
  rewrite <- J in N. split; intros K; apply N; apply in_or_app; [now left|]. right. right. apply in_or_app. now left.
Qed.

(** * Configuration *)

Lemma config_of_cons na odd l ls : config_of na odd (l :: ls) = if no_row l then config_of na odd ls else config_of na odd [l].
Proof. unfold config_of. cbn [filter]. destruct (no_row l); reflexivity. Qed.

Lemma config_of_silent na odd l : ~ mentions_C l -> config_of na odd [l] = None.
Proof.
  intros H. unfold config_of. cbn [filter]. destruct (no_row l); [reflexivity|]. cbn [negb].
  destruct (nth_error (split_comma l) _) as [t|] eqn:N; [|reflexivity].
  destruct (eqb_bytes t (b "C")) eqn:C; [|reflexivity]. exfalso. apply eqb_bytes_iff in C. subst t.
  apply nth_error_In in N. destruct (join_cell _ _ N) as (p & q & J & P & K). destruct (split_join l) as (J' & _). apply H.
  exists p, q. rewrite <- J. auto.
Qed.

Lemma int_of_na na s n : plain_na na -> reads_as s n -> (if na s then None else int_of s) = Some n.
Proof. intros (_ & _ & H) R. rewrite (H _ _ R). now apply int_of_iff. Qed.

Lemma config_of_line na odd l c rest : plain_na na -> config_line l c -> config_of na odd (l :: rest) = Some c.
Proof.
  intros P (s1 & s2 & s3 & s4 & s5 & s6 & -> & N & R1 & R2 & R3 & R4 & R5 & R6).
  assert (X : forall s, In s [s1; s2; s3; s4; s5; s6] -> ~ In 44 s) by exact N. clear N.
  rewrite config_of_cons. set (l := b "C," ++ _). assert (E : no_row l = false) by reflexivity. rewrite E.
  assert (Sp : split_comma l = [b "C"; s1; s2; s3; s4; s5; s6]).
  { assert (El : l = b "C" ++ 44 :: s1 ++ 44 :: s2 ++ 44 :: s3 ++ 44 :: s4 ++ 44 :: s5 ++ 44 :: s6) by reflexivity. rewrite El.
    rewrite split_comma_app by (simpl; lia).
    rewrite split_comma_app, split_comma_app, split_comma_app, split_comma_app, split_comma_app, split_comma_none by (apply X; simpl; tauto).
    reflexivity. }
  unfold config_of. cbn [filter]. rewrite E. cbn [negb]. rewrite Sp. cbn [length Nat.sub nth_error].
  assert (EC : eqb_bytes (b "C") (b "C") = true) by reflexivity. rewrite EC. assert (PC : na (b "C") = false) by apply P. rewrite PC. cbn [andb negb Nat.eqb].
  unfold cell. cbn [nth_error].
  rewrite (int_of_na na s1 _ P R1), (int_of_na na s2 _ P R2), (int_of_na na s3 _ P R3), (int_of_na na s4 _ P R4), (int_of_na na s5 _ P R5), (int_of_na na s6 _ P R6).
  now destruct c.
Qed.

Lemma config_from_line na odd n pre l c rest : plain_na na -> config_line l c -> (length pre < n)%nat -> Forall (fun l => ~ mentions_C l) pre ->
  config_from na odd n (pre ++ l :: rest) = c.
Proof.
  intros P L. revert pre. induction n as [|n IH]; intros pre H F; [lia|]. cbn [config_from]. destruct pre as [|x pre].
  - cbn [app]. now rewrite (config_of_line na odd l c rest P L).
  - inversion F as [|? ? Fx F']; subst. cbn [app tl length] in *. rewrite config_of_cons.
    destruct (no_row x).
    + assert (K : forall q, Forall (fun l => ~ mentions_C l) q -> config_of na odd (q ++ l :: rest) = Some c \/ config_of na odd (q ++ l :: rest) = None).
      { clear - P L. induction q as [|y q IHq]; intros Fq; cbn [app].
        - left. now apply config_of_line.
        - inversion Fq; subst. rewrite config_of_cons. destruct (no_row y); [now apply IHq|right; now apply config_of_silent]. }
      destruct (K pre F') as [E|E]; rewrite E; [reflexivity|]. apply IH; [lia|assumption].
    + rewrite config_of_silent by assumption. apply IH; [lia|assumption].
Qed.

Lemma config_from_default na odd n pre rest : Forall (fun l => ~ mentions_C l) pre -> (n <= length pre)%nat ->
  (n = O \/ exists l, nth_error pre (n - 1) = Some l /\ ~ empty_line l) ->
  config_from na odd n (pre ++ rest) = default_config.
Proof.
  revert pre. induction n as [|n IH]; intros pre F H [E|E]; try discriminate; [reflexivity|reflexivity|].
  cbn [config_from]. destruct pre as [|x pre]; [simpl in H; lia|].
  assert (K : config_of na odd ((x :: pre) ++ rest) = None).
  { clear IH. replace (S n - 1)%nat with n in E by lia. clear H. revert x pre F E. induction n as [|n IHn]; intros x pre F (l & N & NE).
    - simpl in N. injection N as ->. inversion F; subst. cbn [app]. rewrite config_of_cons.
      destruct (no_row l) eqn:R; [apply no_row_iff in R; contradiction|]. now apply config_of_silent.
    - inversion F as [|? ? Fx F']; subst. cbn [app]. rewrite config_of_cons. destruct (no_row x); [|now apply config_of_silent].
      cbn [nth_error] in N. destruct pre as [|y pre]; [destruct n; discriminate|]. apply IHn; [assumption|]. exists l. auto. }
  rewrite K. inversion F; subst. cbn [app tl]. apply IH; [assumption|simpl in H; lia|].
  destruct n as [|n]; [now left|right]. destruct E as (l & N & NE). exists l. split; [|assumption].
  replace (S (S n) - 1)%nat with (S n) in N by lia. replace (S n - 1)%nat with n by lia. exact N.
Qed.

Lemma plain_na_words : plain_na na_words.
Proof.
  split; [reflexivity|]. split; [reflexivity|]. intros s n R. apply int_of_iff in R.
  destruct (na_words s) eqn:E; [|reflexivity]. exfalso. unfold na_words in E. apply existsb_exists in E. destruct E as (w & Hw & E).
  apply eqb_bytes_iff in E. subst w. simpl in Hw.
  repeat (destruct Hw as [Hw|Hw]; [rewrite <- Hw in R; vm_compute in R; discriminate|]). exact Hw.
Qed.
