From Coq Require Import String.
From Coq Require Import ZArith QArith Qround List Bool Lia Lqa Setoid Morphisms.
From Verif Require Import Lib Base Scan Parser ParserSpec ParserProofs ScanProofs ParserProps Unwrap UnwrapSpec UnwrapProofs Convert110 Convert110Proofs
  Process ProcessSpec ProcessProofs Reference ReferenceSpec.
Import ListNotations.
Open Scope Z_scope.

(** * What the lines say *)

Definition meaning (r : record) : list (kind * list Q) :=
  match r with
  | Full_D ms a _ => [(KD, [dec_value ms; inject_Z (int_value a)])]
  | Full_G fs _ => [(KG, map field_value fs)]
  | Full_M fs _ => [(KM, map field_value fs)]
  | _ => []
  end.
Definition meanings (rs : list record) : list (kind * list Q) := concat (map meaning rs).

Definition row_says (row : row) (e : kind * list Q) : Prop :=
  rkind row = fst e /\ Forall2 Qeq (rmillis row :: rvals row) (snd e).

Lemma fast_rows c rs rows : means c rs rows -> Forall plain_record rs -> Forall2 row_says rows (meanings rs).
Proof.
  induction 1; intros P; inversion P as [|? ? P1 P2]; subst; unfold meanings in *; cbn [map concat meaning app] in *;
    try (constructor; [|now auto]); try (destruct P1; fail); auto.
  - destruct H as (A & B & C). split; [exact A|]. constructor; assumption.
  - destruct H as (A & B & C). split; [exact A|]. constructor; assumption.
  - destruct H as (A & B & C). split; [exact A|]. constructor; assumption.
Qed.

Lemma plain_stops t : plain_end t -> stops t.
Proof. intros [->| ->]; [now left|]. right. exists 13, []. split; [reflexivity|]. simpl. auto. Qed.

Lemma plain_ok r : plain_record r -> record_ok r.
Proof.
  destruct r as [ms a t|fs t|fs t| | |l]; simpl; try tauto.
  - intros (A & B & C). auto using plain_stops.
  - intros (A & B). auto using plain_stops.
  - intros (A & B). auto using plain_stops.
Qed.

(** * Lines of the reference *)

Definition clean (l : bytes) : Prop := Forall (fun c => c < 128 /\ c <> 10 /\ c <> 13) l.

Lemma ref_lines_app l : clean l -> forall cur rest, ref_lines cur (l ++ rest) = ref_lines (rev l ++ cur) rest.
Proof.
  induction 1 as [|c l (A & B & C) H IH]; intros cur rest; [reflexivity|].
  cbn [app ref_lines]. apply Z.eqb_neq in B, C. rewrite B, C. cbn [orb].
  replace (128 <=? c) with false by (symmetry; apply Z.leb_gt; exact A).
  rewrite IH. simpl. now rewrite <- app_assoc.
Qed.

Lemma ref_lines_line l rest : clean l -> ref_lines [] (l ++ 10 :: rest) = l :: ref_lines [] rest.
Proof. intros H. rewrite (ref_lines_app l H). cbn [ref_lines Z.eqb orb]. now rewrite app_nil_r, rev_involutive. Qed.
Lemma ref_lines_cr l rest : clean l -> ref_lines [] ((l ++ [13]) ++ 10 :: rest) = l :: [] :: ref_lines [] rest.
Proof.
  intros H. rewrite <- app_assoc, (ref_lines_app l H). cbn [app ref_lines Z.eqb orb]. now rewrite app_nil_r, rev_involutive.
Qed.
Lemma ref_lines_last l : clean l -> ref_lines [] l = [l].
Proof. intros H. rewrite <- (app_nil_r l) at 1. rewrite (ref_lines_app l H). cbn [ref_lines]. now rewrite app_nil_r, rev_involutive. Qed.
Lemma ref_lines_last_cr l : clean l -> ref_lines [] (l ++ [13]) = [l; []].
Proof. intros H. rewrite (ref_lines_app l H). cbn [ref_lines Z.eqb orb]. now rewrite app_nil_r, rev_involutive. Qed.

(** The line without its CR. *)
Definition body (r : record) : bytes :=
  match r with
  | Full_D ms a _ => line_D ms a []
  | Full_G fs _ => line_G fs []
  | Full_M fs _ => line_M fs []
  | _ => record_text r
  end.

Lemma field_range c f : field_ok c f -> forall x, In x (field_text f) -> 45 <= x <= 57.
Proof. exact (field_nonzero c f). Qed.

Lemma join_clean fmt fs : Forall2 field_ok fmt fs -> clean (join fs).
Proof.
  intros H. apply Forall_forall. intros x I. pose proof (join_range fmt fs H x I). lia.
Qed.

Lemma line_kind_other l : line_kind l = None -> match l with c :: _ => c <> 68 /\ c <> 71 /\ c <> 77 | [] => True end.
Proof.
  destruct l as [|c r]; [trivial|]. intros H. repeat split; intros ->; discriminate H.
Qed.

Lemma body_spec r : plain_record r -> ~ In 10 (record_text r) ->
  clean (body r) /\ (record_text r = body r \/ record_text r = body r ++ [13]).
Proof.
  destruct r as [ms a t|fs t|fs t| | |l]; simpl plain_record; try tauto.
  - intros (A & B & C) _. split.
    + cbn [body]. unfold line_D. rewrite app_nil_r. constructor; [lia|].
      apply (join_clean [Clf; Cd]). apply Forall2_cons; [exact A|]. apply Forall2_cons; [exact B|constructor].
    + cbn [body record_text]. unfold line_D. rewrite app_nil_r. destruct C as [->| ->]; [left; now rewrite app_nil_r|right; reflexivity].
  - intros (A & C) _. split.
    + cbn [body]. unfold line_G. rewrite app_nil_r. constructor; [lia|]. constructor; [lia|]. exact (join_clean _ _ A).
    + cbn [body record_text]. unfold line_G. rewrite app_nil_r. destruct C as [->| ->]; [left; now rewrite app_nil_r|right; reflexivity].
  - intros (A & C) _. split.
    + cbn [body]. unfold line_M. rewrite app_nil_r. constructor; [lia|]. constructor; [lia|]. exact (join_clean _ _ A).
    + cbn [body record_text]. unfold line_M. rewrite app_nil_r. destruct C as [->| ->]; [left; now rewrite app_nil_r|right; reflexivity].
  - intros (A & B & C) D. split; [|left; reflexivity]. cbn [body record_text] in *. apply Forall_forall. intros x I.
    rewrite Forall_forall in B. split; [now apply B|]. split; intros ->; contradiction.
Qed.

(** * Rows of the reference *)

Section Float.
  Variable pf : bytes -> option Q.
  Hypothesis Hpf : reads_float pf.

  Definition event := (kind * option (Q * list Q))%type.
  Definition rows_events (rows : list (list bytes)) : list event :=
    concat (map (fun row => match ref_row pf row with Some e => [e] | None => [] end) rows).

  Definition event_says (e : event) (s : kind * list Q) : Prop :=
    fst e = fst s /\ exists x xs, snd e = Some (x, xs) /\ Forall2 Qeq (x :: xs) (snd s).

  Lemma no_comma c f : field_ok c f -> ~ In 44 (field_text f).
  Proof. intros H I. pose proof (field_range c f H 44 I). lia. Qed.

  Lemma split_join fmt fs : Forall2 field_ok fmt fs -> fs <> [] -> split_comma (join fs) = map field_text fs.
  Proof.
    induction 1 as [|c f fmt fs Hf H IH]; intros N; [contradiction|].
    destruct fs as [|f' fs'].
    - simpl. apply split_comma_none. exact (no_comma c f Hf).
    - rewrite join_cons, split_comma_app by exact (no_comma c f Hf). cbn [map]. f_equal. apply IH. discriminate.
  Qed.

  Lemma float_field c f : field_ok c f -> exists v, pf (field_text f) = Some v /\ (v == field_value f)%Q.
  Proof.
    destruct Hpf as [A B]. destruct c, f; simpl; intros H; try (destruct H; fail); [now apply A|now apply B].
  Qed.

  Lemma float_fields fmt fs : Forall2 field_ok fmt fs ->
    exists vs, traverse pf (map field_text fs) = Some vs /\ Forall2 Qeq vs (map field_value fs).
  Proof.
    induction 1 as [|c f fmt fs Hf H (vs & E & V)]; [exists []; split; [reflexivity|constructor]|].
    destruct (float_field c f Hf) as (v & Ev & Hv). exists (v :: vs). cbn [map traverse]. rewrite Ev, E.
    split; [reflexivity|]. constructor; assumption.
  Qed.

  Lemma body_event r : plain_record r -> Forall2 event_says (rows_events [csv_row (body r)]) (meaning r).
  Proof.
    unfold rows_events. cbn [map concat]. rewrite app_nil_r.
    destruct r as [ms a t|fs t|fs t| | |l]; simpl plain_record; try tauto.
    - intros (A & B & C). cbn [body meaning]. unfold line_D. rewrite app_nil_r.
      assert (H : Forall2 field_ok [Clf; Cd] [FDec ms; FInt a]) by (apply Forall2_cons; [exact A|]; apply Forall2_cons; [exact B|constructor]).
      assert (E : csv_row (68 :: join [FDec ms; FInt a]) = [68 :: dec_text ms; int_text a]).
      { unfold csv_row. change (68 :: join [FDec ms; FInt a]) with ((68 :: dec_text ms) ++ 44 :: int_text a).
        rewrite split_comma_app, split_comma_none; [reflexivity| |].
        - exact (no_comma Cd (FInt a) B).
        - intros [I|I]; [discriminate|]. exact (no_comma Clf (FDec ms) A I). }
      rewrite E. unfold ref_row. cbv beta iota zeta. cbn [Z.eqb Pos.eqb]. destruct (float_fields _ _ H) as (vs & Ev & V). cbn [map field_text] in Ev. match goal with |- context [@traverse ?A ?B ?f ?l] => replace (@traverse A B f l) with (Some vs) by (symmetry; exact Ev) end.
      inversion V as [|x y l m Q1 Q2]; subst. cbn [map] in *. constructor; [|constructor]. split; [reflexivity|].
      exists x, l. split; [reflexivity|]. exact V.
    - intros (A & C). cbn [body meaning]. unfold line_G. rewrite app_nil_r.
      assert (N : fs <> []) by (intros ->; inversion A).
      assert (E : csv_row (71 :: 44 :: join fs) = [71] :: map field_text fs).
      { unfold csv_row. change (71 :: 44 :: join fs) with ([71] ++ 44 :: join fs). rewrite split_comma_app; [|intros [I|[]]; discriminate].
        f_equal. exact (split_join _ _ A N). }
      rewrite E. unfold ref_row. cbv beta iota zeta. cbn [Z.eqb Pos.eqb]. destruct (float_fields _ _ A) as (vs & Ev & V). match goal with |- context [@traverse ?A ?B ?f ?l] => replace (@traverse A B f l) with (Some vs) by (symmetry; exact Ev) end.
      destruct fs as [|f fs]; [contradiction|]. cbn [map] in V. inversion V as [|x y l m Q1 Q2]; subst. constructor; [|constructor]. split; [reflexivity|].
      exists x, l. split; [reflexivity|]. exact V.
    - intros (A & C). cbn [body meaning]. unfold line_M. rewrite app_nil_r.
      assert (N : fs <> []) by (intros ->; inversion A).
      assert (E : csv_row (77 :: 44 :: join fs) = [77] :: map field_text fs).
      { unfold csv_row. change (77 :: 44 :: join fs) with ([77] ++ 44 :: join fs). rewrite split_comma_app; [|intros [I|[]]; discriminate].
        f_equal. exact (split_join _ _ A N). }
      rewrite E. unfold ref_row. cbv beta iota zeta. cbn [Z.eqb Pos.eqb]. destruct (float_fields _ _ A) as (vs & Ev & V). match goal with |- context [@traverse ?A ?B ?f ?l] => replace (@traverse A B f l) with (Some vs) by (symmetry; exact Ev) end.
      destruct fs as [|f fs]; [contradiction|]. cbn [map] in V. inversion V as [|x y l m Q1 Q2]; subst. constructor; [|constructor]. split; [reflexivity|].
      exists x, l. split; [reflexivity|]. exact V.
    - intros (A & B & C). cbn [body meaning record_text]. apply line_kind_other in A. destruct l as [|c l]; [constructor|].
      destruct A as (A1 & A2 & A3). unfold csv_row. cbn [split_comma].
      apply Z.eqb_neq in A1, A2, A3.
      destruct (c =? 44) eqn:E44; [constructor|].
      destruct (split_comma l) as [|w ws]; cbn [ref_row]; rewrite A1, A2, A3; constructor.
  Qed.

  Lemma events_app r1 r2 : rows_events (r1 ++ r2) = rows_events r1 ++ rows_events r2.
  Proof. unfold rows_events. now rewrite map_app, concat_app. Qed.

  Lemma events_blank r : rows_events ([] :: r) = rows_events r.
  Proof. reflexivity. Qed.

  Lemma file_events rs rlast : Forall plain_record (rs ++ [rlast]) -> Forall (fun r => ok_line (record_text r)) (rs ++ [rlast]) ->
    Forall2 event_says (rows_events (map csv_row (ref_lines [] (file (map record_text rs) (record_text rlast))))) (meanings (rs ++ [rlast])).
  Proof.
    unfold file, unlines. induction rs as [|r rs IH]; intros P O.
    - cbn [map concat app] in *. unfold meanings. cbn [app map concat]. rewrite app_nil_r.
      inversion P as [|? ? P1 _]; subst. inversion O as [|? ? [O1 _] _]; subst.
      destruct (body_spec rlast P1 O1) as (C & [E|E]); rewrite E.
      + rewrite (ref_lines_last _ C). exact (body_event rlast P1).
      + rewrite (ref_lines_last_cr _ C). cbn [map]. change [csv_row (body rlast); csv_row []] with ([csv_row (body rlast)] ++ [csv_row []]).
        rewrite events_app. change (rows_events [csv_row []]) with (@nil event). rewrite app_nil_r. exact (body_event rlast P1).
    - cbn [app] in P, O. inversion P as [|? ? P1 P2]; subst. inversion O as [|? ? [O1 _] O2]; subst.
      specialize (IH P2 O2). unfold meanings in *. cbn [app map concat]. rewrite <- !app_assoc. cbn [app].
      destruct (body_spec r P1 O1) as (C & [E|E]); rewrite E.
      + rewrite (ref_lines_line _ _ C). cbn [map]. change (csv_row (body r) :: ?l) with ([csv_row (body r)] ++ l).
        rewrite events_app. apply Forall2_app; [exact (body_event r P1)|exact IH].
      + rewrite (ref_lines_cr _ _ C). cbn [map]. change (csv_row (body r) :: csv_row [] :: ?l) with ([csv_row (body r)] ++ csv_row [] :: l).
        rewrite events_app. apply Forall2_app; [exact (body_event r P1)|]. rewrite events_blank. exact IH.
  Qed.

  (** * The loop *)

  Definition zD (z : Q * (kind * list Q)) : list (Q * Q) :=
    match snd z with (KD, [v]) => [(fst z, v)] | _ => [] end.
  Definition zM (z : Q * (kind * list Q)) : list (list Q) :=
    match snd z with (KM, xs) => [fst z :: xs] | _ => [] end.
  Definition zG (z : Q * (kind * list Q)) : list (fix_ * option Z) :=
    match snd z with
    | (KG, xs) => let g := fix_of_line (fst z :: xs) in if check_gps g then [(g, make_gps_time g)] else []
    | _ => []
    end.
  Definition flat {A} (f : Q * (kind * list Q) -> list A) (zs : list (Q * (kind * list Q))) : list A := concat (map f zs).

  Definition ev_shape (e : kind * (Q * list Q)) : Prop :=
    length (snd (snd e)) = match fst e with KD => 1 | KG => 9 | KM => 11 end%nat.
  Definition nk (k : kind) (es : list (kind * (Q * list Q))) : Z := Z.of_nat (length (filter (fun e => kind_eqb (fst e) k) es)).
  Definition zip (m : Q) (es : list (kind * (Q * list Q))) : list (Q * (kind * list Q)) :=
    combine (ref_unwrap_from m (map (fun e => fst (snd e)) es)) (map (fun e => (fst e, snd (snd e))) es).

  Lemma ref_check_full l : length l = 10%nat -> ref_check l = Some (check_gps (fix_of_line l)).
  Proof.
    destruct l as [|a [|b0 [|c [|d [|e [|f [|g [|h [|i [|j [|]]]]]]]]]]]; try discriminate. intros _.
    unfold ref_check. cbn [nth_error]. destruct (Qeq_bool i 0 || Qltb 90 i || Qltb i (-90)) eqn:E; [|reflexivity].
    f_equal. symmetry. unfold check_gps, fix_of_line. cbn [nth glat]. unfold feq at 1, fgt at 1, flt at 1. rewrite E. reflexivity.
  Qed.

  Lemma loop_spec rows : forall es m nd nm ng,
    rows_events rows = map (fun e => (fst e, Some (snd e))) es -> Forall ev_shape es ->
    nd + nk KD es <= cap_D -> nm + nk KM es <= cap_M -> ng + nk KG es <= cap_G ->
    ref_loop pf m nd nm ng rows = Some (mkref (flat zD (zip m es)) (flat zM (zip m es)) (flat zG (zip m es))).
  Proof.
    induction rows as [|row rows IH]; intros es m nd nm ng E Sh D M G.
    - destruct es; [reflexivity|discriminate].
    - unfold rows_events in E. cbn [map concat] in E. fold (rows_events rows) in E. cbn [ref_loop].
      destruct (ref_row pf row) as [e|]; [|apply IH; assumption].
      destruct es as [|[k [x xs]] es]; [discriminate|]. cbn [map app fst snd] in E. injection E as -> E.
      inversion Sh as [|? ? S1 S2]; subst. unfold ev_shape in S1. cbn [fst snd] in S1.
      assert (P : forall k', 0 <= nk k' es) by (intros; unfold nk; lia).
      assert (K : forall k', nk k' ((k, (x, xs)) :: es) = (if kind_eqb k k' then 1 else 0) + nk k' es).
      { intros k'. unfold nk. cbn [filter fst]. destruct (kind_eqb k k'); cbn [length]; lia. }
      rewrite K in D, M, G. pose proof (P KD). pose proof (P KM). pose proof (P KG).
      unfold zip. cbn [map fst snd ref_unwrap_from combine]. fold (zip (unwrap_millis x m) es).
      unfold flat. cbn [map concat]. fold (flat zD (zip (unwrap_millis x m) es)). fold (flat zM (zip (unwrap_millis x m) es)).
      fold (flat zG (zip (unwrap_millis x m) es)). unfold zD at 1, zM at 1, zG at 1. cbn [fst snd].
      destruct k; cbn [kind_eqb] in D, M, G.
      + destruct xs as [|v [|]]; try discriminate. cbn [store length Nat.eqb].
        replace (cap_D <=? nd) with false by (symmetry; apply Z.leb_gt; lia).
        rewrite (IH es _ (nd + 1) nm ng E S2) by lia. reflexivity.
      + assert (L : length (unwrap_millis x m :: xs) = 10%nat) by (simpl; now rewrite S1).
        rewrite (ref_check_full _ L). destruct (check_gps (fix_of_line (unwrap_millis x m :: xs))).
        * rewrite L. cbn [Nat.eqb andb]. replace (ng <? cap_G) with true by (symmetry; apply Z.ltb_lt; lia).
          rewrite (IH es _ nd nm (ng + 1) E S2) by lia. reflexivity.
        * rewrite (IH es _ nd nm ng E S2) by lia. reflexivity.
      + unfold store. assert (L : length (unwrap_millis x m :: xs) = 12%nat) by (simpl; now rewrite S1). rewrite L. cbn [Nat.eqb].
        replace (cap_M <=? nm) with false by (symmetry; apply Z.leb_gt; lia).
        rewrite (IH es _ nd (nm + 1) ng E S2) by lia. reflexivity.
  Qed.
End Float.

(** * The tables of the fast reader *)

Definition zrow (r : row) : kind * list Q := (rkind r, rvals r).
Definition crows (clock : list Q) (rows : list row) : list crow :=
  map2 (fun m d => mkc (dkind d) m (dcells d)) clock (map drow_of rows).
Definition some_snd (p : Q * Q) : Q * option Q := (fst p, Some (snd p)).
Definition head_tail (l : list Q) : Q * list (option Q) := (hd 0%Q l, map Some (tl l)).
Definition zF (z : Q * (kind * list Q)) : list fix_ :=
  match snd z with (KG, xs) => [fix_of_line (fst z :: xs)] | _ => [] end.

Lemma flat_cons {A} (f : Q * (kind * list Q) -> list A) z zs : flat f (z :: zs) = f z ++ flat f zs.
Proof. reflexivity. Qed.

Lemma traverse_Num n l : traverse numeric (firstn n (map Num l)) = Some (map Some (firstn n l)).
Proof.
  revert n. induction l as [|x l IH]; intros [|n]; try reflexivity. cbn [map firstn traverse numeric]. rewrite IH. reflexivity.
Qed.

Lemma samples_flat rows : Forall shape rows -> forall clock,
  traverse sample_of (group KD (crows clock rows)) = Some (map some_snd (flat zD (combine clock (map zrow rows)))).
Proof.
  induction 1 as [|r rows Hs H IH]; intros [|c clock]; try reflexivity.
  unfold crows. cbn [map map2 combine]. fold (crows clock rows). rewrite flat_cons. unfold group. cbn [filter ckind drow_of dkind dcells].
  fold (group KD (crows clock rows)). unfold zD at 1. cbn [snd fst zrow]. unfold shape in Hs.
  destruct (rkind r); cbn [kind_eqb]; [|exact (IH clock)|exact (IH clock)].
  destruct (rvals r) as [|v [|]]; try discriminate. cbn [traverse]. unfold sample_of at 1. cbn [ccells map numeric cms].
  rewrite IH. reflexivity.
Qed.

Lemma meta_flat rows : Forall shape rows -> forall clock,
  traverse (meta_of 11) (group KM (crows clock rows)) = Some (map head_tail (flat zM (combine clock (map zrow rows)))).
Proof.
  induction 1 as [|r rows Hs H IH]; intros [|c clock]; try reflexivity.
  unfold crows. cbn [map map2 combine]. fold (crows clock rows). rewrite flat_cons. unfold group. cbn [filter ckind drow_of dkind dcells].
  fold (group KM (crows clock rows)). unfold zM at 1. cbn [snd fst zrow]. unfold shape in Hs.
  destruct (rkind r); cbn [kind_eqb]; [exact (IH clock)|exact (IH clock)|].
  cbn [traverse]. unfold meta_of at 1. cbn [ccells cms]. rewrite traverse_Num, firstn_all2 by (rewrite Hs; auto). rewrite IH. reflexivity.
Qed.

Lemma fixes_flat rows : Forall shape rows -> forall clock,
  traverse fix_of (group KG (crows clock rows)) = Some (flat zF (combine clock (map zrow rows))).
Proof.
  induction 1 as [|r rows Hs H IH]; intros [|c clock]; try reflexivity.
  unfold crows. cbn [map map2 combine]. fold (crows clock rows). rewrite flat_cons. unfold group. cbn [filter ckind drow_of dkind dcells].
  fold (group KG (crows clock rows)). unfold zF at 1. cbn [snd fst zrow]. unfold shape in Hs.
  destruct (rkind r); cbn [kind_eqb]; [exact (IH clock)| |exact (IH clock)].
  cbn [traverse]. unfold fix_of at 1. cbn [ccells cms]. rewrite traverse_Num, firstn_all2 by (rewrite Hs; auto). rewrite IH.
  destruct (rvals r) as [|v1 [|v2 [|v3 [|v4 [|v5 [|v6 [|v7 [|v8 [|v9 [|]]]]]]]]]]; try discriminate. reflexivity.
Qed.

Lemma integrate_sums l : integrate (map some_snd l) = map some_snd (sums 0 l).
Proof.
  unfold integrate. generalize 0%Q. induction l as [|[t v] l IH]; intros a; [reflexivity|].
  cbn [map some_snd fst snd cumsum combine sums]. now rewrite IH.
Qed.

Lemma kept_dated zs : keep_fixes (flat zF zs) = dated (flat zG zs).
Proof.
  induction zs as [|z zs IH]; [reflexivity|]. rewrite !flat_cons. unfold zF at 1, zG at 1.
  destruct (snd z) as [[] xs]; try exact IH. cbv zeta. cbn [app keep_fixes]. rewrite bounds_agree.
  destruct (check_gps (fix_of_line (fst z :: xs))); [|exact IH]. cbn [app]. unfold dated. cbn [map concat snd fst].
  destruct (make_gps_time (fix_of_line (fst z :: xs))); [cbn [app]; f_equal|]; exact IH.
Qed.

Lemma process_rows ear version offset req rows : difference_coded version -> Forall shape rows ->
  In KD (map rkind rows) -> In KM (map rkind rows) ->
  let zf := combine (unwrap 8192 offset (map rmillis rows)) (map zrow rows) in
  process ear version offset req (map drow_of rows) =
    inl (mktab (map some_snd (sums 0 (flat zD zf))) (map head_tail (flat zM zf)) (dated (flat zG zf))) \/
  (req = true /\ dated (flat zG zf) = [] /\ process ear version offset req (map drow_of rows) = inr NoGPS).
Proof.
  intros V Sh ID IM zf. destruct (difference_coded_settings _ V) as [_ S].
  assert (Int : integrates version = true) by (destruct V as [<-|[<-|[<-|[]]]]; reflexivity).
  unfold process. rewrite S, Int. destruct (map drow_of rows) as [|d0 df0] eqn:Edf; [destruct rows; [destruct ID|discriminate]|].
  rewrite <- Edf. unfold correct. rewrite map_map. cbn [drow_of dsaw]. change (map (fun x : row => rmillis x) rows) with (map rmillis rows).
  set (clock := unwrap 8192 offset (map rmillis rows)) in *.
  fold (crows clock rows).
  assert (Lc : length clock = length rows) by (unfold clock; now rewrite unwrap_length, map_length).
  assert (NE : forall k, In k (map rkind rows) -> group k (crows clock rows) <> []).
  { intros k. revert Lc. generalize clock. clear. induction rows as [|r rows IH]; intros [|c clock] L I; try discriminate; try (destruct I; fail).
    injection L as L. unfold crows. cbn [map map2]. fold (crows clock rows). unfold group. cbn [filter ckind dkind drow_of].
    destruct I as [<-|I]; [destruct (rkind r); discriminate|]. destruct (kind_eqb (rkind r) k); [discriminate|]. exact (IH clock L I). }
  pose proof (NE KD ID) as ND. pose proof (NE KM IM) as NM.
  destruct (group KD (crows clock rows)) as [|gd gds] eqn:ED; [contradiction|].
  destruct (group KM (crows clock rows)) as [|gm gms] eqn:EM; [contradiction|].
  rewrite <- ED, <- EM. rewrite (samples_flat rows Sh clock), (meta_flat rows Sh clock). cbv zeta. rewrite integrate_sums.
  fold zf. unfold gps_table.
  destruct (group KG (crows clock rows)) as [|gg ggs] eqn:EG.
  { pose proof (fixes_flat rows Sh clock) as F. rewrite EG in F. injection F as F. fold zf in F.
    assert (D0 : dated (flat zG zf) = []) by (rewrite <- kept_dated, <- F; reflexivity).
    destruct req; [right; auto|left; now rewrite D0]. }
  rewrite <- EG. rewrite (fixes_flat rows Sh clock). fold zf. rewrite kept_dated.
  destruct (filter gps_in_bounds (flat zF zf)) as [|g0 gr] eqn:Ef.
  - assert (D0 : dated (flat zG zf) = []) by (rewrite <- kept_dated; exact (keep_none _ Ef)). rewrite D0.
    destruct ear; [destruct req; [right; auto|left; reflexivity]|left; reflexivity].
  - left. reflexivity.
Qed.

(** * Equal values *)

Global Instance Qmod_comp : Proper (Qeq ==> Qeq ==> Qeq) Qmod.
Proof.
  intros x y E r s F. unfold Qmod. assert (Qfloor (x / r) = Qfloor (y / s)) as -> by (apply Qfloor_comp; now rewrite E, F).
  now rewrite E, F.
Qed.
Global Instance unwrap_millis_comp : Proper (Qeq ==> Qeq ==> Qeq) unwrap_millis.
Proof. intros x y E r s F. unfold unwrap_millis. now rewrite E, F. Qed.

Lemma ref_unwrap_comp saw saw' : Forall2 Qeq saw saw' -> forall m m', (m == m')%Q ->
  Forall2 Qeq (ref_unwrap_from m saw) (ref_unwrap_from m' saw').
Proof.
  induction 1 as [|x y l l' E H IH]; intros m m' Em; [constructor|]. cbn [ref_unwrap_from].
  assert (E' : (unwrap_millis x m == unwrap_millis y m')%Q) by now rewrite E, Em.
  constructor; [exact E'|]. apply IH. exact E'.
Qed.

(** [z] is [z'], later by [k]. *)
Definition later (k : Q) (z z' : Q * (kind * list Q)) : Prop :=
  (fst z == fst z' + k)%Q /\ fst (snd z) = fst (snd z') /\ Forall2 Qeq (snd (snd z)) (snd (snd z')).

Lemma opt_same_eq x y : opt_same x y <-> opteq x y. Proof. reflexivity. Qed.

Lemma nth_Qeq l l' i : Forall2 Qeq l l' -> (nth i l 0 == nth i l' 0)%Q.
Proof. intros H. revert i. induction H as [|x y l l' E H IH]; intros [|i]; simpl; try reflexivity; auto. Qed.

Lemma fix_later_line k m m' xs xs' : (m == m' + k)%Q -> Forall2 Qeq xs xs' ->
  fix_later k (fix_of_line (m :: xs)) (fix_of_line (m' :: xs')).
Proof.
  intros E H. unfold fix_later, fix_of_line. cbn [msPPS msLag gyear gmonth gday ghour gminute gsecond glat glon nth opt_same].
  split; [exact E|]. repeat (split; [apply nth_Qeq; exact H|]). apply nth_Qeq; exact H.
Qed.

Lemma later_plausible k g g' t : fix_later k g g' -> plausible g t <-> plausible g' t.
Proof.
  intros (_ & A & B & C & D & E & F & G & H & I).
  assert (Sy : forall x y, opteq x y -> opteq y x).
  { intros [x|] [y|]; simpl; auto. intros J. now symmetry. }
  split; apply plausible_eq; try assumption; apply Sy; assumption.
Qed.

Lemma flat_later_D k zf zs : Forall2 (later k) zf zs -> Forall (fun z => fst (snd z) = KD -> length (snd (snd z)) = 1%nat) zs ->
  Forall2 (fun p q => fst p == fst q + k /\ snd p == snd q)%Q (flat zD zf) (flat zD zs).
Proof.
  induction 1 as [|[m [kd xs]] [m' [kd' xs']] zf zs (A & B & C) H IH]; intros W; [constructor|].
  inversion W as [|? ? W1 W2]; subst. rewrite !flat_cons. apply Forall2_app; [|now apply IH].
  cbn [fst snd] in *. subst kd'. unfold zD. cbn [fst snd]. destruct kd; try constructor.
  destruct xs' as [|v' [|]]; try (specialize (W1 eq_refl); discriminate).
  inversion C as [|v ? ? ? Cv Cn]; subst. inversion Cn; subst. repeat constructor; assumption.
Qed.

Lemma flat_later_M k zf zs : Forall2 (later k) zf zs ->
  Forall2 (fun p q => exists c c' cs cs', p = c :: cs /\ q = c' :: cs' /\ (c == c' + k)%Q /\ Forall2 Qeq cs cs') (flat zM zf) (flat zM zs).
Proof.
  induction 1 as [|[m [kd xs]] [m' [kd' xs']] zf zs (A & B & C) H IH]; [constructor|].
  rewrite !flat_cons. apply Forall2_app; [|exact IH].
  cbn [fst snd] in *. subst kd'. unfold zM. cbn [fst snd]. destruct kd; try constructor; [|constructor].
  exists m, m', xs, xs'. auto.
Qed.

Lemma flat_later_G k zf zs : Forall2 (later k) zf zs ->
  Forall2 (fun p q => fix_later k (fst p) (fst q) /\ snd p = snd q) (dated (flat zG zf)) (dated (flat zG zs)).
Proof.
  induction 1 as [|[m [kd xs]] [m' [kd' xs']] zf zs (A & B & C) H IH]; [constructor|].
  rewrite <- !kept_dated in *. rewrite !flat_cons. cbn [fst snd] in *. subst kd'. unfold zF at 1 3. cbn [fst snd].
  destruct kd; try exact IH. cbn [app keep_fixes].
  pose proof (fix_later_line k m m' xs xs' A C) as L. set (g := fix_of_line (m :: xs)) in *. set (g' := fix_of_line (m' :: xs')) in *.
  assert (T : forall t, (gps_in_bounds g = true /\ make_gps_time g = Some t) <-> (gps_in_bounds g' = true /\ make_gps_time g' = Some t)).
  { intros t. rewrite !plausible_iff. now apply (later_plausible k). }
  destruct (gps_in_bounds g); destruct (make_gps_time g) as [t|]; destruct (gps_in_bounds g'); destruct (make_gps_time g') as [t'|];
    try exact IH;
    try (destruct (proj1 (T t) (conj eq_refl eq_refl)) as [T1 T2]); try discriminate;
    try (destruct (proj2 (T t') (conj eq_refl eq_refl)) as [T3 T4]); try discriminate.
  injection T2 as ->. constructor; [split; [exact L|reflexivity]|exact IH].
Qed.

Lemma sums_later k l l' : Forall2 (fun p q => fst p == fst q + k /\ snd p == snd q)%Q l l' -> forall a a', (a == a')%Q ->
  Forall2 (fun p q => fst p == fst q + k /\ snd p == snd q)%Q (sums a l) (sums a' l').
Proof.
  induction 1 as [|[t v] [t' v'] l l' (A & B) H IH]; intros a a' E; [constructor|]. cbn [sums fst snd] in *.
  assert (E' : (a + v == a' + v')%Q) by now rewrite E, B. constructor; [split; [exact A|exact E']|]. now apply IH.
Qed.

(** * Putting the two together *)

Lemma Forall2_trans_r {A B C} (R : A -> B -> Prop) (S : C -> B -> Prop) (T : A -> C -> Prop) l m :
  (forall x y z, R x z -> S y z -> T x y) -> Forall2 R l m -> forall l', Forall2 S l' m -> Forall2 T l l'.
Proof.
  intros H. induction 1 as [|x z l m Rx F IH]; intros l' G; inversion G; subst; constructor; eauto.
Qed.

Lemma Forall2_combine {A A' B B'} (R : A -> A' -> Prop) (S : B -> B' -> Prop) l l' : Forall2 R l l' -> forall m m', Forall2 S m m' ->
  Forall2 (fun x y => R (fst x) (fst y) /\ S (snd x) (snd y)) (combine l m) (combine l' m').
Proof.
  induction 1; intros m m' G; [constructor|]. destruct G; [constructor|]. constructor; [split; assumption|]. now apply IHForall2.
Qed.

Lemma meaning_shape r : plain_record r ->
  Forall (fun s => length (snd s) = match fst s with KD => 2 | KG => 10 | KM => 12 end%nat) (meaning r).
Proof.
  destruct r as [ms a t|fs t|fs t| | |l]; simpl; try tauto; intros H; repeat constructor.
  - destruct H as [H _]. apply Forall2_length_eq in H. simpl. now rewrite map_length.
  - destruct H as [H _]. apply Forall2_length_eq in H. simpl. now rewrite map_length.
Qed.

Lemma meanings_shape rs : Forall plain_record rs ->
  Forall (fun s => length (snd s) = match fst s with KD => 2 | KG => 10 | KM => 12 end%nat) (meanings rs).
Proof.
  induction 1 as [|r rs P H IH]; [constructor|]. unfold meanings. cbn [map concat]. apply Forall_app. split; [now apply meaning_shape|exact IH].
Qed.

Lemma clocks_meanings rs : Forall plain_record rs -> map (fun s => hd 0%Q (snd s)) (meanings rs) = clocks rs.
Proof.
  induction 1 as [|r rs P H IH]; [reflexivity|]. unfold meanings, clocks in *. cbn [map concat]. rewrite map_app, IH. f_equal.
  destruct r as [ms a t|[|f fs] t|[|f fs] t| | |l]; simpl in P; try tauto; try reflexivity; destruct P as [P _]; inversion P.
Qed.

Definition is_kind (k : kind) : record -> bool := match k with KD => is_D | KG => is_G | KM => is_M end.

Lemma count_meanings k rs : Forall plain_record rs ->
  Z.of_nat (length (filter (fun s => kind_eqb (fst s) k) (meanings rs))) = count (is_kind k) rs.
Proof.
  unfold count. induction 1 as [|r rs P H IH]; [reflexivity|]. unfold meanings. cbn [map concat]. fold (meanings rs).
  rewrite filter_app, app_length.
  destruct r as [ms a t|fs t|fs t| | |l]; simpl in P; try tauto; destruct k; simpl in *; lia.
Qed.

Lemma kinds_meanings rows rs : Forall2 row_says rows (meanings rs) -> map rkind rows = map fst (meanings rs).
Proof. induction 1 as [|r s l m [E _] H IH]; [reflexivity|]. simpl. now rewrite E, IH. Qed.

Lemma kind_in k rs : Forall plain_record rs -> existsb (is_kind k) rs = true -> In k (map fst (meanings rs)).
Proof.
  intros P E. apply existsb_exists in E as (r & I & E). unfold meanings. rewrite concat_map, map_map.
  apply in_concat. exists (map fst (meaning r)). split; [apply in_map_iff; exists r; auto|].
  destruct k, r; try discriminate; simpl; auto.
Qed.

Lemma chain_comp {A B} (R : A -> A -> Prop) (S : B -> B -> Prop) (T : A -> B -> Prop) l l' :
  (forall x y x' y', T x x' -> T y y' -> R x y -> S x' y') -> Forall2 T l l' -> chain R l -> chain S l'.
Proof.
  intros H. induction 1 as [|x x' l l' E F IH]; [trivial|]. destruct F as [|y y' l l' E' F]; [trivial|].
  cbn [chain]. intros [C1 C2]. split; [now apply (H x y x' y')|now apply IH].
Qed.

Section Agree.
  Variables (sc : scanner) (pf : bytes -> option Q).
  Hypothesis (Hsc : reads_decimal sc) (Hpf : reads_float pf).
  Variables (buf0 : bytes) (ear : bool) (pandas pandas08 : bool -> res (list drow)).
  Variables (rs : list record) (rlast : record).
  Let all := rs ++ [rlast].
  Hypothesis P : Forall plain_record all.
  Hypothesis O : Forall (fun r => ok_line (record_text r)) all.
  Hypothesis Per : Forall (in_period 8192) (clocks all).
  Hypothesis Tie : chain (fun x y => ~ y - x == 4096)%Q (clocks all).
  Hypothesis (CD : count is_D all <= 750000) (CM : count is_M all <= 15000) (CG : count is_G all <= 15000).
  Hypothesis (ED : existsb is_D all = true) (EM : existsb is_M all = true).
  Let content := file (map record_text rs) (record_text rlast).

  Lemma ok_parts : Forall ok_line (map record_text rs) /\ ok_line (record_text rlast).
  Proof.
    apply Forall_app in O as [O1 O2]. split; [now apply Forall_map|]. now inversion O2.
  Qed.

  Lemma the_rows : exists rows, parse_retry sc buf0 content = Some rows /\ Forall shape rows /\ Forall2 row_says rows (meanings all).
  Proof.
    destruct ok_parts as [O1 O2].
    assert (F : Forall2 row_says (rows_of sc buf0 content) (meanings all)).
    { apply (fast_rows 0%Q); [|exact P]. apply Forall_app in P as [P1 P2]. apply Forall_app in O as [Oa Ob].
      apply file_means; try assumption.
      - eapply Forall_impl; [|exact P1]. exact plain_ok.
      - inversion P2; subst. now apply plain_ok. }
    assert (L : Z.of_nat (length (kinds (map record_text rs ++ [record_text rlast]))) <= 65520000).
    { rewrite <- (rows_kinds_file sc buf0 _ _ O1 O2). fold content. rewrite map_length.
      apply Forall2_length_eq in F. unfold rows_of in F. rewrite F.
      pose proof (count_meanings KD all P) as A1. pose proof (count_meanings KM all P) as A2. pose proof (count_meanings KG all P) as A3.
      cbn [is_kind] in A1, A2, A3.
      assert (Sum : forall l : list (kind * list Q), Z.of_nat (length l) =
        Z.of_nat (length (filter (fun s => kind_eqb (fst s) KD) l)) + Z.of_nat (length (filter (fun s => kind_eqb (fst s) KM) l))
        + Z.of_nat (length (filter (fun s => kind_eqb (fst s) KG) l))).
      { clear. induction l as [|[[] v] l IH]; [reflexivity|cbn [filter fst kind_eqb length] in *; lia..]. }
      rewrite (Sum (meanings all)). lia. }
    destruct (retry_lines sc buf0 _ _ O1 O2 L) as (rows & E & K & Sh). exists rows. split; [exact E|]. split; [exact Sh|].
    assert (rows = rows_of sc buf0 content) as ->; [|exact F].
    unfold parse_retry in E. fold content in E. destruct (parse_gemfile sc buf0 1560000 content) as [r|] eqn:G.
    - injection E as ->. now apply parse_rows_of in G as [-> _].
    - now apply parse_rows_of in E as [-> _].
  Qed.

  Lemma the_events : exists es,
    rows_events pf (map csv_row (ref_lines [] content)) = map (fun e => (fst e, Some (snd e))) es /\ Forall ev_shape es /\
    Forall2 (fun e s => fst e = fst s /\ Forall2 Qeq (fst (snd e) :: snd (snd e)) (snd s)) es (meanings all).
  Proof.
    pose proof (file_events pf Hpf rs rlast P O) as F. fold content in F. fold all in F.
    pose proof (meanings_shape all P) as Sh. revert F Sh. generalize (rows_events pf (map csv_row (ref_lines [] content))) (meanings all).
    clear. intros l m F. induction F as [|[k o] s l m (A & x & xs & B & C) F IH]; intros Sh.
    - exists []. repeat constructor.
    - inversion Sh as [|? ? S1 S2]; subst. destruct (IH S2) as (es & E & E2 & E3). cbn [fst snd] in *. subst.
      exists ((fst s, (x, xs)) :: es). split; [reflexivity|]. split; constructor; try assumption.
      + unfold ev_shape. cbn [fst snd]. apply Forall2_length_eq in C. rewrite S1 in C. cbn [length] in C.
        destruct (fst s); injection C as C; exact C.
      + split; [reflexivity|exact C].
  Qed.

  Theorem readers_agree offset req version : difference_coded version ->
    let fast := read_single sc buf0 ear pandas pandas08 (Some content) version offset req in
    let ref := read_reference pf (Some content) offset req in
    (forall tab, fast = inl tab -> exists T, ref = inl T /\ same_tables offset tab T) /\
    (forall e, fast = inr e -> req = true /\
       (ref = inr NoGPS \/ exists T, ref = inl T /\ rgps T <> [] /\ dated (rgps T) = [])).
  Proof.
    intros V fast ref.
    destruct the_rows as (rows & Er & Sh & Fr). destruct the_events as (es & Ee & She & Fe).
    pose proof (kinds_meanings _ _ Fr) as K.
    assert (ID : In KD (map rkind rows)) by (rewrite K; apply kind_in; [exact P|exact ED]).
    assert (IM : In KM (map rkind rows)) by (rewrite K; apply kind_in; [exact P|exact EM]).
    set (zf := combine (unwrap 8192 offset (map rmillis rows)) (map zrow rows)).
    set (zs := zip (Qmod offset 8192) es).
    set (k := (8192 * inject_Z (Qfloor (offset / 8192)))%Q).
    assert (Sf : Forall2 (fun x s => (x == hd 0 (snd s))%Q) (map rmillis rows) (meanings all)).
    { apply Forall2_map_l. eapply Forall2_impl; [|exact Fr]. intros r s [_ H]. inversion H; subst. assumption. }
    assert (Se : Forall2 (fun x s => (x == hd 0 (snd s))%Q) (map (fun e => fst (snd e)) es) (meanings all)).
    { apply Forall2_map_l. eapply Forall2_impl; [|exact Fe]. intros r s [_ H]. inversion H; subst. assumption. }
    assert (Sc : Forall2 Qeq (clocks all) (map rmillis rows)).
    { rewrite <- (clocks_meanings all P). apply Forall2_map_l. clear - Sf. induction Sf; constructor; auto. now symmetry. }
    assert (Ag : Forall2 (fun u v => u == v + k)%Q (unwrap 8192 offset (map rmillis rows)) (ref_unwrap_from (Qmod offset 8192) (map (fun e => fst (snd e)) es))).
    { assert (A1 : Forall2 (fun u v => u == v + k)%Q (unwrap 8192 offset (map rmillis rows)) (ref_unwrap offset (map rmillis rows))).
      { apply agree.
        - clear - Sc Per. revert Per. induction Sc as [|x y l m E H IH]; intros Per; [constructor|]. inversion Per as [|? ? P1 P2]; subst.
          constructor; [|now apply IH]. unfold in_period in *. rewrite <- E. exact P1.
        - revert Tie. apply (chain_comp _ _ Qeq _ _) with (2 := Sc). intros x y x' y' E1 E2 N. rewrite <- E1, <- E2. exact N. }
      assert (A2 : Forall2 Qeq (ref_unwrap offset (map rmillis rows)) (ref_unwrap_from (Qmod offset 8192) (map (fun e => fst (snd e)) es))).
      { apply ref_unwrap_comp; [|reflexivity]. apply (Forall2_trans_r _ _ Qeq _ _) with (2 := Sf) (3 := Se).
        intros x y z -> ->. reflexivity. }
      clear - A1 A2. revert A2. generalize (ref_unwrap_from (Qmod offset 8192) (map (fun e => fst (snd e)) es)).
      induction A1 as [|u v l m E H IH]; intros l' A2; inversion A2; subst; constructor; [|now apply IH]. rewrite E.
      now match goal with H : (v == _)%Q |- _ => rewrite H end. }
    assert (La : Forall2 (later k) zf zs).
    { assert (F2 : Forall2 (fun a b0 => fst a = fst b0 /\ Forall2 Qeq (snd a) (snd b0)) (map zrow rows) (map (fun e => (fst e, snd (snd e))) es)).
      { apply Forall2_map_l, Forall2_map_r. apply (Forall2_trans_r _ _ _ _ _) with (2 := Fr) (3 := Fe).
        intros r e [sk sl] [A1 A2] [B1 B2]. cbn [zrow fst snd] in *. split; [congruence|]. clear A1 B1.
        inversion A2 as [|? c ? cs _ A3]; subst. inversion B2 as [|? ? ? ? _ B3]; subst. clear - A3 B3. revert B3. generalize (snd (snd e)).
        induction A3 as [|x y l m E H IH]; intros l' B3; inversion B3; subst; constructor; [|now apply IH].
        now match goal with H : (_ == y)%Q, H' : (_ == y)%Q |- _ => rewrite H, H' end. }
      eapply Forall2_impl; [|exact (Forall2_combine _ _ _ _ Ag _ _ F2)]. intros z z' (A1 & A2 & A3). repeat split; assumption. }
    assert (Nk : forall q, nk q es = count (is_kind q) all).
    { intros q. rewrite <- (count_meanings q all P). unfold nk. f_equal. clear - Fe.
      induction Fe as [|e s l m [E _] H IH]; [reflexivity|]. cbn [filter]. rewrite E. destruct (kind_eqb (fst s) q); cbn [length]; congruence. }
    assert (Lo : ref_loop pf (Qmod offset 8192) 0 0 0 (map csv_row (ref_lines [] content)) = Some (mkref (flat zD zs) (flat zM zs) (flat zG zs))).
    { apply loop_spec; try assumption; rewrite Nk; cbn [is_kind]; [unfold cap_D|unfold cap_M|unfold cap_G]; lia. }
    assert (Wz : Forall (fun z => fst (snd z) = KD -> length (snd (snd z)) = 1%nat) zs).
    { apply Forall_forall. intros [m [q xs]] I Eq. cbn [fst snd] in *. unfold zs, zip in I. apply in_combine_r in I.
      apply in_map_iff in I as (e & Ex & I). injection Ex as <- <-. rewrite Forall_forall in She. specialize (She e I). unfold ev_shape in She.
      rewrite Eq in She. exact She. }
    pose proof (flat_later_D k zf zs La Wz) as RD. pose proof (flat_later_M k zf zs La) as RM. pose proof (flat_later_G k zf zs La) as RG.
    assert (NDz : flat zD zs <> []).
    { intros E. rewrite E in RD. inversion RD as [E0|]; subst.
      pose proof (samples_flat rows Sh (unwrap 8192 offset (map rmillis rows))) as Sam. fold zf in Sam. rewrite <- E0 in Sam. cbn [map] in Sam.
      apply traverse_spec in Sam. inversion Sam as [E1|].
      destruct (process_rows ear version offset false rows V Sh ID IM) as [H|(H & _)]; [|discriminate].
      cbv zeta in H. fold zf in H. rewrite <- E0 in H.
      pose proof (process_ok ear version offset false _ _ _ (correction_known _ _ _ (proj2 (difference_coded_settings _ V))) H (fun _ => eq_refl)) as (_ & H' & _).
      apply H'. reflexivity. }
    assert (Er' : ref = match flat zG zs, req with [], true => inr NoGPS | _, _ => inl (mkref (sums 0 (flat zD zs)) (flat zM zs) (flat zG zs)) end).
    { unfold ref, read_reference. rewrite Lo. cbn [rdata rgps rmeta]. destruct (flat zD zs) as [|d0 dr]; [contradiction|].
      destruct (flat zG zs); [destruct req|]; reflexivity. }
    assert (Sam : forall T, T = mkref (sums 0 (flat zD zs)) (flat zM zs) (flat zG zs) ->
      same_tables offset (mktab (map (fun p => (fst p + (893 # 100), snd p))%Q (map some_snd (sums 0 (flat zD zf)))) (map head_tail (flat zM zf)) (dated (flat zG zf))) T).
    { intros T ->. unfold same_tables. fold k. cbn [data metadata gps rdata rmeta rgps]. split; [|split; [|exact RG]].
      - rewrite map_map. apply Forall2_map_l. eapply Forall2_impl; [|exact (sums_later k _ _ RD 0%Q 0%Q (Qeq_refl 0))].
        intros p q [A B]. cbn [some_snd fst snd]. split; [now rewrite A|]. exists (snd p). auto.
      - apply Forall2_map_l. eapply Forall2_impl; [|exact RM]. intros p q (c & c' & cs & cs' & -> & -> & A & B).
        exists c', cs'. split; [reflexivity|]. cbn [head_tail fst snd hd tl]. split; [exact A|]. apply Forall2_map_l.
        eapply Forall2_impl; [|exact B]. intros x y E. exists x. auto. }
    assert (Dn : dated (flat zG zf) = [] <-> dated (flat zG zs) = []).
    { split; intros E; rewrite E in RG; inversion RG; reflexivity. }
    assert (Gn : flat zG zs = [] -> dated (flat zG zs) = []) by (intros ->; reflexivity).
    unfold fast. rewrite (cython_decides _ _ _ _ _ _ _ _ _ _ V Er ID IM). unfold read_with_cython. rewrite Er.
    destruct rows as [|r0 rows0]; [destruct ID|]. set (rows := r0 :: rows0) in *.
    destruct (negb (existsb (fun r => kind_eqb (rkind r) KG) rows) && req) eqn:Eg.
    { apply andb_true_iff in Eg as [Eg Rq]. split; [discriminate|]. intros e _. split; [exact Rq|]. left. rewrite Er', Rq.
      assert (flat zG zs = []) as ->; [|reflexivity].
      assert (Nz : Forall (fun z => fst (snd z) <> KG) zs).
      { apply Forall_forall. intros z I. assert (exists z', In z' zf /\ fst (snd z') = fst (snd z)) as (z' & I' & Ez').
        { clear - La I. induction La as [|a b0 l m (A & B & C) H IH]; [destruct I|]. destruct I as [<-|I]; [exists a; split; [left; reflexivity|exact B]|].
          destruct (IH I) as (z' & I' & E'). exists z'. split; [right; exact I'|exact E']. }
        intros Ez. rewrite Ez in Ez'. unfold zf in I'. destruct z' as [m' [q xs']]. cbn [fst snd] in Ez'. subst q. apply in_combine_r in I'.
        apply in_map_iff in I' as (r & Er2 & Ir). injection Er2 as Er2 _.
        apply negb_true_iff in Eg. assert (existsb (fun r => kind_eqb (rkind r) KG) rows = true) as X; [|congruence].
        apply existsb_exists. exists r. split; [exact Ir|]. now rewrite Er2. }
      clear - Nz. induction Nz as [|[m [q xs]] l H N IH]; [reflexivity|]. rewrite flat_cons, IH. unfold zG. cbn [snd fst] in *. destruct q; [reflexivity|contradiction|reflexivity]. }
    destruct (process_rows ear version offset req rows V Sh ID IM) as [H|(Rq & D0 & H)]; cbv zeta in H; fold zf in H; rewrite H.
    - cbn [data metadata gps]. destruct (dated (flat zG zf)) as [|g0 gr] eqn:Ed.
      + destruct req.
        * split; [discriminate|]. intros e _. split; [reflexivity|]. pose proof (proj1 Dn eq_refl) as Dz.
          rewrite Er'. destruct (flat zG zs) as [|g1 gr1] eqn:Ez; [left; reflexivity|]. right. eexists. split; [reflexivity|]. cbn [rgps].
          split; [discriminate|exact Dz].
        * split; [|discriminate]. intros tab [= <-]. exists (mkref (sums 0 (flat zD zs)) (flat zM zs) (flat zG zs)). split; [rewrite Er'; destruct (flat zG zs); reflexivity|]. exact (Sam _ eq_refl).
      + split; [|discriminate]. intros tab [= <-]. exists (mkref (sums 0 (flat zD zs)) (flat zM zs) (flat zG zs)). split; [|exact (Sam _ eq_refl)].
        rewrite Er'. destruct (flat zG zs) as [|g1 gr1] eqn:Ez; [|reflexivity]. exfalso.
        pose proof (proj2 Dn eq_refl) as X. discriminate X.
    - split; [discriminate|]. intros e _. split; [exact Rq|]. cbv zeta in D0. fold zf in D0. pose proof (proj1 Dn D0) as Dz.
      rewrite Er'. rewrite Rq in *. destruct (flat zG zs) as [|g1 gr1] eqn:Ez; [left; reflexivity|]. right. eexists. split; [reflexivity|]. cbn [rgps].
      split; [discriminate|exact Dz].
  Qed.
End Agree.
