(** Proofs about sample times. *)
From Coq Require Import ZArith QArith Qabs List Bool Lia Lqa.
From Verif Require Import Lib Base UnwrapSpec UnwrapProofs Process ReadSeveral ReadSeveralSpec ReadSeveralProofs Drift DriftSpec DriftProofs
  Segments SegmentsSpec.
Import ListNotations.
Open Scope Q_scope.

Lemma apply_fit_cubic x h : apply_fit x h == cubic_at (h_fit h) x.
Proof. unfold apply_fit, cubic_at. simpl (_ ^ _). unfold Qpower_positive; simpl. ring. Qed.

Lemma in_span h x : Qle_bool (h_start h) x && Qle_bool x (h_end h) = true <-> contains h x.
Proof. rewrite andb_true_iff, !Qle_bool_iff. reflexivity. Qed.

Lemma spans_cons {S} (row : hrow hinfo S) rows :
  spans (row :: rows) = match h_info row with Some h => [h] | None => [] end ++ spans rows.
Proof. reflexivity. Qed.
Lemma spans_app {S} (a c : list (hrow hinfo S)) : spans (a ++ c) = spans a ++ spans c.
Proof. apply flat_map_app. Qed.

Lemma fold_lines {S} (rows : list (hrow hinfo S)) x : forall y,
  (Forall (fun h => ~ contains h x) (lines rows) /\ fold_left (apply_row x) rows y = y) \/
  (exists h, last_containing (lines rows) x h /\ fold_left (apply_row x) rows y = Some (apply_fit x h)).
Proof.
  induction rows as [|row rows IH]; intros y; [left; split; [constructor|reflexivity]|].
  cbn [fold_left]. change (lines (row :: rows)) with (line row :: lines rows).
  unfold apply_row at 2 4. cbv zeta. generalize (line row). intros h. destruct (Qle_bool (h_start h) x && Qle_bool x (h_end h)) eqn:C.
  - apply in_span in C. right. destruct (IH (Some (apply_fit x h))) as [[N E]|(h' & (be & af & E & C' & N) & E')].
    + exists h. split; [|exact E]. exists [], (lines rows). auto.
    + exists h'. split; [|exact E']. exists (h :: be), af. rewrite E. auto.
  - assert (NC : ~ contains h x) by (intros X; apply in_span in X; congruence).
    destruct (IH y) as [[N E]|(h' & (be & af & E & C' & N) & E')].
    + left. split; [constructor; assumption|exact E].
    + right. exists h'. split; [|exact E']. exists (h :: be), af. rewrite E. auto.
Qed.

Lemma zero_line_contains x : contains zero_line x <-> x == 0.
Proof. unfold contains. cbn. split; [intros [A B]; lra|intros ->; lra]. Qed.

Lemma lines_none {S} (header : list (hrow hinfo S)) x : Forall (fun h => ~ contains h x) (lines header) ->
  Forall (fun h => ~ contains h x) (spans header).
Proof.
  induction header as [|row header IH]; [constructor|]. intros N. inversion N as [|? ? A B]; subst. rewrite spans_cons.
  destruct (h_info row); [constructor|]; auto.
Qed.

Lemma lines_last {S} (header : list (hrow hinfo S)) x h : ~ x == 0 -> last_containing (lines header) x h -> last_containing (spans header) x h.
Proof.
  intros X (be & af & E & C & N). revert be E. induction header as [|row header IH]; intros be E; [destruct be; discriminate|].
  change (lines (row :: header)) with ((match h_info row with Some h => h | None => zero_line end) :: lines header) in E.
  rewrite spans_cons. destruct be as [|k be]; injection E as E1 E2.
  - destruct (h_info row) as [h1|].
    + subst h1. exists [], (spans header). split; [reflexivity|]. split; [exact C|]. apply lines_none. rewrite E2. exact N.
    + subst h. exfalso. apply X. apply zero_line_contains. exact C.
  - destruct (IH be E2) as (b2 & a2 & E3 & D). exists (match h_info row with Some h => [h] | None => [] end ++ b2), a2.
    rewrite E3, <- app_assoc. auto.
Qed.

Lemma segments_lines {S} (header : list (hrow hinfo S)) x :
  (Forall (fun h => ~ contains h x) (lines header) /\ apply_segments header x = None) \/
  (exists h, last_containing (lines header) x h /\ apply_segments header x = Some (apply_fit x h)).
Proof. apply fold_lines. Qed.

Lemma segments_cases {S} (header : list (hrow hinfo S)) x : ~ x == 0 ->
  (Forall (fun h => ~ contains h x) (spans header) /\ apply_segments header x = None) \/
  (exists h, last_containing (spans header) x h /\ apply_segments header x = Some (apply_fit x h)).
Proof.
  intros X. destruct (segments_lines header x) as [[N E]|(h & L & E)].
  - left. split; [apply lines_none; exact N|exact E].
  - right. exists h. split; [apply lines_last; assumption|exact E].
Qed.

Lemma some_last hs x : (Forall (fun h => ~ contains h x) hs) \/ (exists h, last_containing hs x h).
Proof.
  induction hs as [|h hs IH]; [left; constructor|]. destruct IH as [N|(k & be & af & -> & C & N)].
  - destruct (Qle_bool (h_start h) x && Qle_bool x (h_end h)) eqn:C.
    + right. exists h, [], hs. apply in_span in C. auto.
    + left. constructor; [intros D; apply in_span in D; congruence|exact N].
  - right. exists k, (h :: be), af. auto.
Qed.

Lemma span_is_line {S} (header : list (hrow hinfo S)) h : In h (spans header) -> In h (lines header).
Proof.
  unfold spans, lines. intros H. apply in_flat_map in H as (row & I & J). apply in_map_iff. exists row.
  destruct (h_info row); [|contradiction]. destruct J as [->|[]]. auto.
Qed.

Lemma last_containing_unique hs x h h' : last_containing hs x h -> last_containing hs x h' -> h = h'.
Proof.
  intros (b1 & a1 & E1 & C1 & N1) (b2 & a2 & E2 & C2 & N2). subst hs.
  revert b2 E2. induction b1 as [|k b1 IH]; intros [|k' b2] E; cbn in E.
  - injection E as -> ->. reflexivity.
  - injection E as -> ->. exfalso. rewrite Forall_forall in N1. apply (N1 h'); [|exact C2].
    apply in_or_app. right. left. reflexivity.
  - injection E as <- <-. exfalso. rewrite Forall_forall in N2. apply (N2 h); [|exact C1].
    apply in_or_app. right. left. reflexivity.
  - injection E as -> E. exact (IH b2 E).
Qed.

Lemma last_containing_app hs hs' x h : last_containing hs x h -> Forall (fun k => ~ contains k x) hs' -> last_containing (hs ++ hs') x h.
Proof.
  intros (be & af & -> & C & N) N'. exists be, (af ++ hs'). rewrite <- app_assoc. split; [reflexivity|]. split; [exact C|].
  apply Forall_app. auto.
Qed.

Lemma last_containing_in hs x h : last_containing hs x h -> In h hs /\ contains h x.
Proof. intros (be & af & -> & C & _). split; [apply in_elt|exact C]. Qed.

Lemma last_containing_pre hs0 hs x h : last_containing hs x h -> last_containing (hs0 ++ hs) x h.
Proof. intros (be & af & -> & C & N). exists (hs0 ++ be), af. rewrite <- app_assoc. auto. Qed.

(** * Order of times *)

Lemma takes_over_all h hs h' : chain takes_over (h :: hs) -> Forall (fun k => h_start k <= h_end k) hs -> Forall rises (h :: hs) ->
  In h' hs -> takes_over h h'.
Proof.
  revert h. induction hs as [|k hs IH]; intros h C W R I; [contradiction|].
  change (takes_over h k /\ chain takes_over (k :: hs)) in C. destruct C as [[T1 T2] C].
  inversion W as [|? ? Wk W']; subst. inversion R as [|? ? Rh R']; subst.
  destruct I as [<-|I]; [split; assumption|].
  destruct (IH k C W' R' I) as [U1 U2]. inversion R' as [|? ? Rk _]; subst.
  assert (X : cubic_at (h_fit k) (h_start k) <= cubic_at (h_fit k) (h_end k)).
  { destruct (Qlt_le_dec (h_start k) (h_end k)) as [L|L].
    - apply Qlt_le_weak, Rk; [split; lra|split; lra|exact L].
    - assert (E : h_start k == h_end k) by lra. unfold cubic_at. rewrite E. lra. }
  split; lra.
Qed.

Lemma rises_le h x y : rises h -> contains h x -> contains h y -> x <= y -> cubic_at (h_fit h) x <= cubic_at (h_fit h) y.
Proof.
  intros R Cx Cy L. destruct (Qlt_le_dec x y) as [L'|L'].
  - apply Qlt_le_weak, R; assumption.
  - assert (E : x == y) by lra. unfold cubic_at. rewrite E. lra.
Qed.

Lemma chain_drop {A} (R : A -> A -> Prop) l m : chain R (l ++ m) -> chain R m.
Proof. induction l as [|x l IH]; [auto|]. intros C. apply IH. exact (chain_tail R x (l ++ m) C). Qed.

Lemma containing_ordered hs x y h h' : chain takes_over hs -> Forall (fun k => h_start k <= h_end k) hs -> Forall rises hs ->
  last_containing hs x h -> last_containing hs y h' -> x < y ->
  cubic_at (h_fit h) x < cubic_at (h_fit h') y.
Proof.
  intros C W R (b1 & a1 & E1 & C1 & _) (b2 & a2 & E2 & C2 & _) L. subst hs.
  revert b2 E2 C W R. induction b1 as [|k b1 IH]; intros [|k' b2] E C W R; cbn in E.
  - injection E as -> ->. inversion R as [|? ? Rh _]; subst. apply Rh; assumption.
  - injection E as -> ->. cbn in C, W, R. inversion W; subst.
    destruct (takes_over_all k' (b2 ++ h' :: a2) h' C ltac:(assumption) R) as [U1 U2]; [apply in_elt|].
    inversion R as [|? ? Rh R']; subst. rewrite Forall_forall in R'. pose proof (R' h' (in_elt _ _ _)) as Rh'.
    pose proof (rises_le k' x (h_end k') Rh C1) as X.
    pose proof (rises_le h' (h_start h') y Rh') as Y. destruct C1, C2.
    assert (cubic_at (h_fit k') x <= cubic_at (h_fit k') (h_end k')) by (apply X; [split; lra|lra]).
    assert (cubic_at (h_fit h') (h_start h') <= cubic_at (h_fit h') y) by (apply Y; [split; lra|split; assumption|lra]).
    lra.
  - (* h' before h: impossible *)
    injection E as <- <-. exfalso. cbn in C, W, R. inversion W; subst.
    destruct (takes_over_all k (b1 ++ h :: a1) h C ltac:(assumption) R) as [U1 U2]; [apply in_elt|].
    destruct C1, C2. lra.
  - injection E as -> E. inversion W; subst. inversion R; subst. apply (IH b2 E); [exact (chain_tail _ _ _ C)| |]; assumption.
Qed.

(** * The header of several files *)

Lemma drift_describes fit3 fit1 L req h : calculate_drift fit3 fit1 L req = inl h ->
  h_start h = hd 0 (map fst (data L)) /\ h_end h = last (map fst (data L)) 0 /\ (req = true -> gps L <> []).
Proof.
  unfold calculate_drift. intros E.
  destruct (req && negb (negb (Nat.eqb (length (gps L)) 0))) eqn:G; [discriminate|].
  assert (NG : req = true -> gps L <> []).
  { intros -> N. rewrite N in G. discriminate. }
  destruct (req && negb (negb (Nat.eqb (length (gps L)) 0) && sufficient L)); [discriminate|].
  destruct (if req then detect_step fit1 (fix_points L) else Some false) as [[|]|]; try discriminate.
  destruct (if negb (Nat.eqb (length (gps L)) 0) && sufficient L then accepted_fit fit3 L else None) as [[p kept]|].
  - injection E as <-. auto.
  - destruct (_ && _ && req); [discriminate|]. destruct (zero_drift L) as [[p n] m]. injection E as <-. auto.
Qed.

Lemma chain_le_first x l : chain good_step (x :: l) -> forall y, In y (x :: l) -> x <= y.
Proof.
  revert x. induction l as [|z l IH]; intros x C y [<-|I]; [lra|contradiction|lra|].
  change (good_step x z /\ chain good_step (z :: l)) in C. destruct C as [[A B] C].
  specialize (IH z C y I). lra.
Qed.
Lemma chain_le_last l : chain good_step l -> forall y, In y l -> y <= last l 0.
Proof.
  induction l as [|z l IH]; intros C y I; [contradiction|].
  destruct l as [|w l]; [destruct I as [<-|[]]; cbn; lra|].
  change (good_step z w /\ chain good_step (w :: l)) in C. destruct C as [[A B] C].
  change (last (z :: w :: l) 0) with (last (w :: l) 0).
  destruct I as [<-|I]; [|exact (IH C y I)]. specialize (IH C w (or_introl eq_refl)). lra.
Qed.

Section Header.
  Variables F S : Type.
  Variable read_v : F -> String.string -> Q -> bool -> res tables.
  Variable sn : F -> option S.
  Variable version : String.string.
  Variable req : bool.
  Variable fit3 : list point -> option cubic.
  Variable fit1 : list point -> option linear.
  Variable late : Prop.
  Let drift (L : tables) (_ : F) (r : bool) := calculate_drift fit3 fit1 L r.
  Let rd := read F read_v version req.

  Inductive layout : Q -> list (hrow hinfo S) -> list (tables * hinfo) -> Prop :=
  | lay_nil start : layout start [] []
  | lay_good start row h L t rows parts :
      h_info row = Some h -> calculate_drift fit3 fit1 L req = inl h -> data L <> [] -> chain good_step (map fst (data L)) ->
      (late -> start <= h_start h) -> h_end h = t -> layout t rows parts -> layout start (row :: rows) ((L, h) :: parts)
  | lay_bad start row rows parts : (forall h, h_info row = Some h -> late -> start <= h_start h) ->
      layout start rows parts -> layout start (row :: rows) parts.

  Lemma one_file_row fn start row r : (late -> late_enough rd fn) -> one_file F hinfo S read_v drift sn version req fn start = (row, r) ->
    (forall h, h_info row = Some h -> late -> start <= h_start h) /\
    (forall L, r = inl L -> exists h, h_info row = Some h /\ calculate_drift fit3 fit1 L req = inl h /\ data L <> [] /\
       chain good_step (map fst (data L))).
  Proof.
    intros HL. unfold one_file. fold rd. intros E. destruct (rd fn start) as [L0|e] eqn:R.
    2:{ injection E as <- <-. split; discriminate. }
    destruct (align start L0) as [L1|] eqn:A; [|injection E as <- <-; split; discriminate].
    destruct (align_content F read_v version req fn start L0 L1 R A) as (Ct & N1).
    destruct (discontinuous (map fst (data L1))) eqn:D; [injection E as <- <-; split; discriminate|].
    apply discontinuous_false in D. unfold drift in E.
    destruct (calculate_drift fit3 fit1 L1 req) as [hi|f] eqn:Dr; [|injection E as <- <-; split; discriminate].
    destruct (drift_describes _ _ _ _ _ Dr) as (Hs & He & Hg).
    assert (St : late -> start <= h_start hi).
    { intros La. rewrite Hs. destruct (data L1) as [|[t0 v0] l0] eqn:E1; [contradiction|]. cbn.
      exact (content_after rd start fn L1 (HL La) Ct t0 v0 l0 E1). }
    destruct (sn fn) as [s|]; injection E as <- <-; cbn [h_info].
    - split.
      + intros h Eh. destruct (_ || _); [|discriminate]. injection Eh as <-. exact St.
      + intros L [= <-]. exists hi. split; [|auto]. destruct req; [|reflexivity]. cbn.
        destruct (gps L1); [exfalso; apply Hg; reflexivity|reflexivity].
    - split; [|discriminate]. intros h Eh. destruct (_ || _); [|discriminate]. injection Eh as <-. exact St.
  Qed.

  Lemma last_of_data L l d : data L <> [] -> last_of d (l ++ data L) = last (map fst (data L)) 0.
  Proof.
    intros N. destruct (exists_last N) as (m & [t v] & E). rewrite E, app_assoc, last_of_snoc, map_app. cbn [map fst].
    symmetry. apply last_last.
  Qed.

  Lemma loop_layout fns : (late -> Forall (late_enough rd) fns) -> forall start acc out,
    loop F hinfo S read_v drift sn version req start acc fns = Some out ->
    exists rows parts, jheader out = jheader acc ++ rows /\ layout start rows parts /\
      jdata out = jdata acc ++ concat (map (fun p => data (fst p)) parts) /\
      (length parts + length (jproblems out) = length fns + length (jproblems acc))%nat.
  Proof.
    induction fns as [|fn fns IH]; intros HL start acc out E; cbn [loop] in E.
    - injection E as <-. exists [], []. rewrite !app_nil_r. repeat split. constructor.
    - assert (HL1 : late -> late_enough rd fn) by (intros La; specialize (HL La); inversion HL; assumption).
      assert (HL2 : late -> Forall (late_enough rd) fns) by (intros La; specialize (HL La); inversion HL; assumption).
      specialize (IH HL2).
      destruct (one_file F hinfo S read_v drift sn version req fn start) as [row r] eqn:O.
      destruct (one_file_row _ _ _ _ HL1 O) as (Hs & Hg). destruct r as [L|f].
      + destruct (Hg L eq_refl) as (h & Hi & Dr & N & Ch). destruct (drift_describes _ _ _ _ _ Dr) as (_ & He & _).
        rewrite (last_of_data L _ _ N), <- He in E.
        destruct (IH _ _ _ E) as (rows & parts & E1 & Ly & E2 & E3). cbn [jheader jdata jproblems] in *.
        exists (row :: rows), ((L, h) :: parts). rewrite E1, <- app_assoc. split; [reflexivity|].
        split; [apply (lay_good _ _ _ _ (h_end h)); auto; fail|]. rewrite E2, <- app_assoc. split; [reflexivity|]. cbn [length]. lia.
      + assert (E' : loop F hinfo S read_v drift sn version req start
          (mkj (jdata acc) (jmeta acc) (jgps acc) (jheader acc ++ [row]) (jproblems acc ++ [message_for F fn f])) fns = Some out).
        { destruct f as [[]| |]; (exact E || discriminate). }
        destruct (IH _ _ _ E') as (rows & parts & E1 & Ly & E2 & E3). cbn [jheader jdata jproblems] in *.
        exists (row :: rows), parts. rewrite E1, <- app_assoc. split; [reflexivity|].
        split; [constructor; assumption|]. split; [exact E2|]. rewrite app_length in E3. cbn [length] in *. lia.
  Qed.

  Lemma layout_after start rows parts : late -> layout start rows parts -> Forall (fun h => start <= h_start h) (spans rows).
  Proof.
    intros La Ly. induction Ly as [|start row h L t rows parts Hi Dr N Ch St <- Ly IH|start row rows parts Hs Ly IH].
    - constructor.
    - rewrite spans_cons, Hi. constructor; [auto|]. eapply Forall_impl; [|exact IH]. cbn. intros k Hk.
      destruct (drift_describes _ _ _ _ _ Dr) as (E1 & E2 & _). specialize (St La).
      destruct (data L) as [|[t0 v0] l0] eqn:E; [contradiction|]. cbn in E1.
      pose proof (chain_le_last _ Ch t0 (or_introl eq_refl)). rewrite E2 in Hk. rewrite E1 in St. lra.
    - rewrite spans_cons. destruct (h_info row) as [h|]; [|exact IH]. constructor; [auto|exact IH].
  Qed.

  Lemma own_span L h x : calculate_drift fit3 fit1 L req = inl h -> chain good_step (map fst (data L)) -> In x (map fst (data L)) -> contains h x.
  Proof.
    intros Dr Ch I. destruct (drift_describes _ _ _ _ _ Dr) as (E1 & E2 & _). split.
    - rewrite E1. destruct (map fst (data L)) as [|t0 l0] eqn:E; [contradiction|]. cbn. exact (chain_le_first _ _ Ch _ I).
    - rewrite E2. exact (chain_le_last _ Ch _ I).
  Qed.

  (** Any value in the span of a part is mapped by that part or by a later row. *)
  Lemma layout_last start rows parts : layout start rows parts -> forall L h x, In (L, h) parts -> contains h x ->
    exists h', last_containing (spans rows) x h' /\ (h' = h \/ (late -> h_end h <= x /\ h_start h' == x)).
  Proof.
    intros Ly. induction Ly as [|start row h L t rows parts Hi Dr N Ch St <- Ly IH|start row rows parts Hs Ly IH]; intros L' h' x I C.
    - contradiction.
    - rewrite spans_cons, Hi. cbn [app]. destruct I as [[= <- <-]|I].
      + destruct (some_last (spans rows) x) as [Nn|(k & Lk)].
        * exists h. split; [|left; reflexivity]. exists [], (spans rows). auto.
        * exists k. split; [exact (last_containing_pre [h] _ _ _ Lk)|]. right. intros La.
          pose proof (layout_after _ _ _ La Ly) as A. rewrite Forall_forall in A.
          apply last_containing_in in Lk as [I1 [C1 C2]]. specialize (A k I1). destruct C as [C C']. split; lra.
      + destruct (IH L' h' x I C) as (k & Lk & D). exists k. split; [exact (last_containing_pre [h] _ _ _ Lk)|exact D].
    - rewrite spans_cons. destruct (IH L' h' x I C) as (k & Lk & D). exists k. split; [apply last_containing_pre; exact Lk|exact D].
  Qed.

  Lemma layout_parts start rows parts : layout start rows parts ->
    Forall (fun p => calculate_drift fit3 fit1 (fst p) req = inl (snd p) /\ data (fst p) <> [] /\ chain good_step (map fst (data (fst p)))) parts.
  Proof. intros Ly. induction Ly; [constructor|constructor; auto|assumption]. Qed.
End Header.
