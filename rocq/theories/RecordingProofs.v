(** Proofs about whole recordings. *)
From Coq Require Import String.
From Coq Require Import ZArith QArith Qabs Qround List Bool Lia Lqa.
From Verif Require Import Base Lib UnwrapSpec UnwrapProofs Scan Parser ParserProofs ParserProps Process ProcessSpec ProcessProofs
  ReadSeveral ReadSeveralSpec ReadSeveralProofs ReadSeveralProps Drift DriftSpec DriftProofs DriftProps Segments SegmentsSpec SegmentsProofs
  InterpSpec ParserSpec Polyfit PolyfitSpec PolyfitProofs PolyfitWrong RecordingSpec.
Import ListNotations.
Open Scope Q_scope.

(** * From lines to rows *)

Definition kind_of (e : event) : kind := match e with Sample _ _ => KD | Fix _ _ | No_fix _ => KG | Health _ => KM end.

(** The fix in the values of a row. *)
Definition row_fix (vs : list Q) (t : Z) : Prop :=
  exists v1 v2 v3 v4 v5 v6 v7 v8 v9, vs = [v1; v2; v3; v4; v5; v6; v7; v8; v9] /\
    plausible (mkfix 0 (Some v1) (Some v2) (Some v3) (Some v4) (Some v5) (Some v6) (Some v7) (Some v8) (Some v9)) t.

Definition logged (e : event) (r : row) : Prop :=
  rkind r = kind_of e /\ reduced (reading e) (rmillis r) /\
  match e with
  | Sample _ d => exists v, rvals r = [v] /\ v == inject_Z d
  | Fix _ t => row_fix (rvals r) t
  | No_fix _ => forall t, ~ row_fix (rvals r) t
  | Health _ => True
  end.

Lemma reduced_eq x y y' : reduced x y -> y' == y -> reduced x y'.
Proof. intros (A & B & k & C) E. unfold reduced. rewrite E. split; [exact A|]. split; [exact B|]. exists k. rewrite C, E. reflexivity. Qed.

Lemma says_row fs vs t : Forall2 Qeq vs (map field_value fs) -> (says_fix fs t <-> row_fix vs t).
Proof.
  intros F. split.
  - intros (lag & y & mo & d & h & mi & s & la & lo & -> & P). cbn [map] in F.
    destruct vs as [|v1 [|v2 [|v3 [|v4 [|v5 [|v6 [|v7 [|v8 [|v9 [|v10 vr]]]]]]]]]];
      try (apply Forall2_length_eq in F; discriminate).
    exists v1, v2, v3, v4, v5, v6, v7, v8, v9. split; [reflexivity|].
    repeat match goal with H : Forall2 Qeq (_ :: _) (_ :: _) |- _ => inversion H; clear H; subst end.
    eapply plausible_eq; [..|exact P]; cbn [msLag gyear gmonth gday ghour gminute gsecond glat glon opteq]; symmetry; assumption.
  - intros (v1 & v2 & v3 & v4 & v5 & v6 & v7 & v8 & v9 & -> & P).
    destruct fs as [|f1 [|f2 [|f3 [|f4 [|f5 [|f6 [|f7 [|f8 [|f9 [|f10 fr]]]]]]]]]];
      try (apply Forall2_length_eq in F; discriminate).
    exists f1, f2, f3, f4, f5, f6, f7, f8, f9. split; [reflexivity|]. cbn [map] in F.
    repeat match goal with H : Forall2 Qeq (_ :: _) (_ :: _) |- _ => inversion H; clear H; subst end.
    eapply plausible_eq; [..|exact P]; cbn [msLag gyear gmonth gday ghour gminute gsecond glat glon opteq]; assumption.
Qed.

Lemma rows_logged p evs rs : writes p evs rs -> forall c rows, means c rs rows ->
  match p with Some q => reduced q c | None => True end -> Forall2 logged evs rows.
Proof.
  intros W. induction W as [p|p l evs rs W IH|p c ms a t evs rs R W IH|p c dev diff t evs rs R W IH|p c diff t evs rs R W IH
    |p c t f fs x evs rs R S W IH|p c f fs x evs rs R S W IH|p c f fs x evs rs R W IH]; intros c0 rows M P;
    inversion M as [|? ? ? ? ? r rows' D M'|? ? ? ? ? r rows' D M'|? ? ? ? ? r rows' D M'|? ? ? ? ? r rows' m Rm D M'|? ? ? ? r rows' m Rm D M'|? ? ? ? M']; subst.
  - constructor.
  - exact (IH _ _ M' P).
  - destruct D as (D1 & D2 & D3). pose proof (reduced_eq _ _ _ R D2) as R'. constructor; [|exact (IH _ _ M' R')].
    split; [exact D1|]. split; [exact R'|]. inversion D3 as [|v ? ? ? E D4]; subst. inversion D4; subst. exists v. auto.
  - destruct D as (D1 & D2 & D3).
    assert (R' : reduced c (rmillis r)).
    { destruct Rm as (A & B & k & C). destruct P as (_ & _ & j & P). unfold reduced. rewrite D2. split; [exact A|]. split; [exact B|].
      exists (k + j)%Z. rewrite R, D2. rewrite P. rewrite Z.mul_add_distr_l, inject_Z_plus. lra. }
    constructor; [|exact (IH _ _ M' R')]. split; [exact D1|]. split; [exact R'|]. inversion D3 as [|v ? ? ? E D4]; subst. inversion D4; subst. exists v. auto.
  - destruct D as (D1 & D2 & D3).
    assert (R' : reduced c (rmillis r)).
    { destruct Rm as (A & B & k & C). destruct P as (_ & _ & j & P). unfold reduced. rewrite D2. split; [exact A|]. split; [exact B|].
      exists (k + j)%Z. rewrite R, D2. rewrite P. rewrite Z.mul_add_distr_l, inject_Z_plus. lra. }
    constructor; [|exact (IH _ _ M' R')]. split; [exact D1|]. split; [exact R'|]. inversion D3 as [|v ? ? ? E D4]; subst. inversion D4; subst. exists v. auto.
  - destruct D as (D1 & D2 & D3). constructor; [|exact (IH _ _ M' P)]. split; [exact D1|]. split; [exact (reduced_eq _ _ _ R D2)|].
    apply (says_row _ _ _ D3). exact S.
  - destruct D as (D1 & D2 & D3). constructor; [|exact (IH _ _ M' P)]. split; [exact D1|]. split; [exact (reduced_eq _ _ _ R D2)|].
    intros t T. apply (says_row _ _ _ D3) in T. exact (S t T).
  - destruct D as (D1 & D2 & D3). constructor; [|exact (IH _ _ M' P)]. split; [exact D1|]. split; [exact (reduced_eq _ _ _ R D2)|exact I].
Qed.

Lemma kinds_written p evs rs : writes p evs rs -> Forall record_ok rs -> kinds (map record_text rs) = map kind_of evs.
Proof.
  intros W. induction W as [p|p l evs rs W IH|p c ms a t evs rs R W IH|p c dev diff t evs rs R W IH|p c diff t evs rs R W IH
    |p c t f fs x evs rs R S W IH|p c f fs x evs rs R S W IH|p c f fs x evs rs R W IH]; intros F; [reflexivity|..];
    inversion F as [|? ? O F']; subst; specialize (IH F'); cbn [map kinds record_text].
  - cbn in O. rewrite O. exact IH.
  - cbn. rewrite IH. reflexivity.
  - cbn in O. unfold letter in O. cbn [line_kind]. destruct O as [O _].
    assert ((97 <=? 109 + dev)%Z && (109 + dev <=? 122)%Z = true) as -> by (apply andb_true_iff; split; apply Z.leb_le; lia).
    cbn. rewrite IH. reflexivity.
  - cbn in O. unfold letter in O. cbn [line_kind]. destruct O as [O _].
    assert ((97 <=? 109 + diff)%Z && (109 + diff <=? 122)%Z = true) as -> by (apply andb_true_iff; split; apply Z.leb_le; lia).
    cbn. rewrite IH. reflexivity.
  - cbn. rewrite IH. reflexivity.
  - cbn. rewrite IH. reflexivity.
  - cbn. rewrite IH. reflexivity.
Qed.

Lemma raw_rows sc buf0 evs bs : reads_decimal sc -> raw_text evs bs ->
  exists rows, parse_retry sc buf0 bs = Some rows /\ Forall2 logged evs rows /\ Forall shape rows /\ map rkind rows = map kind_of evs.
Proof.
  intros Sc (rs & last & -> & Ok & Lo & W & Ln). pose proof (kinds_written _ _ _ W Ok) as K.
  apply Forall_app in Ok as [Ok1 Ok2]. apply Forall_app in Lo as [Lo1 Lo2]. inversion Ok2 as [|? ? Ok3 _]; subst. inversion Lo2 as [|? ? Lo3 _]; subst.
  assert (Lo1' : Forall ok_line (map record_text rs)) by (apply Forall_map; exact Lo1).
  rewrite map_app in K. cbn [map] in K.
  destruct (retry_lines sc buf0 (map record_text rs) (record_text last) Lo1' Lo3) as (rows & P & Kr & Sh).
  { rewrite K, map_length. exact Ln. }
  exists rows. split; [exact P|]. split; [|split; [exact Sh|congruence]].
  assert (M : means 0 (rs ++ [last]) rows).
  { unfold parse_retry in P. destruct (parse_gemfile sc buf0 1560000 _) as [rows'|] eqn:E.
    - injection P as ->. exact (C04_documented_file sc Sc _ _ _ _ _ Ok1 Lo1 Ok3 Lo3 E).
    - exact (C04_documented_file sc Sc _ _ _ _ _ Ok1 Lo1 Ok3 Lo3 P). }
  exact (rows_logged _ _ _ W _ _ M I).
Qed.

(** * From rows to tables *)

(** A clock recovered from its readings. *)
Lemma clock_recovered clock taus saw : Forall2 (congruent 8192) clock saw -> recorded 8192 taus saw ->
  chain (step_within (8192 / 2)) clock -> chain (step_below 4096) taus ->
  exists k, Forall2 (fun t c => c == t + 8192 * inject_Z k) taus clock.
Proof.
  intros Cg Rec Hc Ch. destruct (recorded_congruent 8192 taus saw Rec) as [Fc Fp].
  assert (H2 : (8192 / 2 == 4096)%Q) by reflexivity.
  destruct taus as [|t ts].
  - inversion Fc as [E1 E2|]. rewrite <- E2 in Cg. inversion Cg. exists 0%Z. constructor.
  - destruct saw as [|s ss]; [inversion Fc|]. destruct clock as [|c cs]; [inversion Cg|].
    inversion Fc as [|? ? ? ? Ft Fts]; subst. inversion Cg as [|? ? ? ? Fu Fus]; subst.
    destruct (congruent_trans 8192 c s t Fu (congruent_sym _ _ _ Ft)) as [k Hk]. exists k.
    constructor; [exact Hk|].
    assert (Y : Forall2 Qeq cs (map (fun t => t + 8192 * inject_Z k)%Q ts)).
    { eapply (unique_path 8192 eq_refl cs _ ss c (t + 8192 * inject_Z k)%Q).
      - exact Hk.
      - exact Hc.
      - change ((t + 8192 * inject_Z k)%Q :: map (fun t => t + 8192 * inject_Z k)%Q ts)
          with (map (fun t => t + 8192 * inject_Z k)%Q (t :: ts)).
        apply chain_map with (R := step_below 4096); [|exact Ch].
        intros x y [A B]. unfold step_below. rewrite H2. split; lra.
      - exact Fus.
      - clear -Fts. induction Fts as [|x y l m Hxy F IH]; constructor; [|exact IH].
        eapply congruent_trans; [|exact Hxy]. exists k. reflexivity. }
    clear -Y. remember (map (fun t => t + 8192 * inject_Z k)%Q ts) as l eqn:El. revert ts El.
    induction Y as [|x y m l Hxy F IH]; intros [|t ts] El; try discriminate; constructor.
    + injection El as -> _. exact Hxy.
    + apply IH. injection El as _ ->. reflexivity.
Qed.

(** Counter readings and values of the samples. *)
Fixpoint levels (level : Z) (evs : list event) : list (Q * Z) :=
  match evs with
  | [] => []
  | Sample c d :: r => (c, level + d)%Z :: levels (level + d)%Z r
  | _ :: r => levels level r
  end.

(** The tables of a file, [k] rollovers ahead. *)
Definition track (k : Z) (evs : list event) (L : tables) : Prop :=
  Forall2 (fun s p => fst p == fst s + (893 # 100) + 8192 * inject_Z k /\ exists v, snd p = Some v /\ v == inject_Z (snd s)) (levels 0 evs) (data L) /\
  Forall2 (fun f e => msPPS (fst e) == fst f + 8192 * inject_Z k /\ snd e = snd f) (fixes_of evs) (gps L).

Lemma row_fix_unique vs t t' : row_fix vs t -> row_fix vs t' -> t = t'.
Proof.
  intros (v1 & v2 & v3 & v4 & v5 & v6 & v7 & v8 & v9 & -> & P) (w1 & w2 & w3 & w4 & w5 & w6 & w7 & w8 & w9 & E & P').
  injection E as <- <- <- <- <- <- <- <- <-. apply plausible_iff in P as [_ P], P' as [_ P']. congruence.
Qed.

Lemma cumsum_running vs : forall out, running_sums vs out -> Forall2 (fun x y => opteq x y) (cumsum 0 vs) out.
Proof.
  intros out (Ln & A).
  assert (G : forall l m : list (option Q), length l = length m -> (forall i x y, nth_error l i = Some x -> nth_error m i = Some y -> opteq x y) -> Forall2 opteq l m).
  { clear. induction l as [|x l IH]; intros [|y m] E H; try discriminate; constructor.
    - exact (H 0%nat x y eq_refl eq_refl).
    - apply IH; [injection E; auto|]. intros i u v. exact (H (S i) u v). }
  apply G; [rewrite cumsum_length; auto|]. intros i x y Ex Ey.
  destruct (nth_error vs i) as [v|] eqn:Ev.
  2:{ apply nth_error_None in Ev. assert (i < length out)%nat by (apply nth_error_Some; congruence). lia. }
  pose proof (A i v Ev) as B. pose proof (cumsum_nth vs 0 i v Ev) as C. destruct v as [q|].
  - destruct B as (s & B1 & B2). destruct C as (s' & C1 & C2). rewrite B1 in Ey. rewrite C1 in Ex. injection Ex as <-. injection Ey as <-.
    cbn. rewrite C2, B2. ring.
  - rewrite B in Ey. rewrite C in Ex. injection Ex as <-. injection Ey as <-. exact I.
Qed.

Definition diff_cell (e : event) (d : drow) : Prop :=
  match e with Sample _ x => exists v, dcells d = [Num v] /\ v == inject_Z x | _ => True end.

Lemma table_track version offset evs rows L : difference_coded version -> Forall2 logged evs rows -> Forall shape rows -> chain (step_below 4096) (map reading evs) ->
  consistent version offset true (map drow_of rows) L ->
  exists k, track k evs L /\ (forall a, hd_error (map reading evs) = Some a ->
    offset - 4096 <= a + 8192 * inject_Z k /\ a + 8192 * inject_Z k < offset + 4096).
Proof.
  intros V Lg Sh Ch (r & clock & F & Cg & H0 & Hc & C).
  assert (r = 8192%Q) as ->.
  { destruct F as [[_ F]|[F _]]; [exact F|]. exfalso. destruct V as [<-|[<-|[<-|[]]]]; destruct F as [F|[F|[]]]; discriminate. }
  assert (H2 : (8192 / 2 == 4096)%Q) by reflexivity.
  assert (Rec : recorded 8192 (map reading evs) (map dsaw (map drow_of rows))).
  { rewrite map_map. clear - Lg. induction Lg as [|e r l m (_ & (A & B & k & D) & _) Lg IH]; constructor; [|exact IH].
    split; [split; assumption|]. exists k. cbn [dsaw drow_of]. rewrite D, inject_Z_mult. change (inject_Z 8192) with 8192. ring. }
  destruct (recorded_congruent _ _ _ Rec) as [_ Fp]. specialize (Hc Fp).
  destruct (clock_recovered _ _ _ Cg Rec Hc Ch) as (k & X). exists k.
  cbv zeta in C. destruct C as (Dt & (vs & Vs & Rs & _) & _ & Gt). specialize (Rs V). split.
  2:{ intros a Ha. destruct (map reading evs) as [|t ts]; [discriminate|]. injection Ha as <-. inversion X as [|? c ? cs Hct]; subst.
      destruct (H0 c cs eq_refl) as [A B]. rewrite H2 in A, B. rewrite Hct in A, B. auto. }
  clear Cg H0 Hc F Rec Fp Ch.
  assert (Y : Forall2 (fun e p => fst p == reading e + 8192 * inject_Z k /\ dkind (snd p) = kind_of e /\ exists r, snd p = drow_of r /\ shape r /\ logged e r)
                evs (combine clock (map drow_of rows))).
  { clear - Lg X Sh. revert clock X. induction Lg as [|e r l m G Lg IH]; intros clock X; cbn [map] in X; inversion X as [|? c ? cs Hc X']; subst; [constructor|].
    inversion Sh as [|? ? Sr Sh']; subst. cbn [map combine]. constructor; [|exact (IH Sh' _ X')]. cbn [fst snd]. split; [exact Hc|]. split; [exact (proj1 G)|]. exists r. auto. }
  clear X Lg. split.
  - (* samples *)
    pose proof (cumsum_running _ _ Rs) as Cs.
    assert (Z : Forall2 (fun s v => exists q, v = Some q /\ q == inject_Z (snd s)) (levels 0 evs) (cumsum 0 vs) /\
                Forall2 (fun s p => fst p == fst s + 8192 * inject_Z k) (levels 0 evs) (of_kind KD (combine clock (map drow_of rows)))).
    { clear - Y Vs. revert Vs Y. generalize (combine clock (map drow_of rows)). intros l Vs Y.
      assert (Z0 : (0 == inject_Z 0)%Q) by reflexivity. revert Z0. generalize 0%Q at 1 2. generalize 0%Z. intros lev acc Z0. revert lev acc vs Z0 Vs.
      induction Y as [|e p evs l (C & K & r & E & Sr & Lr) Y IH]; intros lev acc vs Z0 Vs.
      - inversion Vs; subst. split; constructor.
      - unfold of_kind in *. cbn [filter] in *. rewrite K in *.
        destruct e as [c d|c t|c|c]; cbn [kind_of levels] in *; try (apply IH; assumption).
        inversion Vs as [|? v ? vs' Hv Vs']; subst. destruct Hv as (c1 & cs1 & Ec & Ho). destruct Lr as (_ & _ & q & Er & Eq).
        rewrite E in Ec. cbn [dcells drow_of] in Ec. rewrite Er in Ec. cbn [map] in Ec. injection Ec as <- <-. inversion Ho; subst. cbn [cumsum].
        assert (Z1 : (acc + q == inject_Z (lev + d))%Q) by (rewrite inject_Z_plus, Z0, Eq; reflexivity).
        destruct (IH (lev + d)%Z (acc + q)%Q vs' Z1 Vs') as [I1 I2]. split; constructor; try assumption.
        + exists (acc + q)%Q. split; [reflexivity|]. exact Z1. }
    destruct Z as [Z1 Z2].
    assert (Z3 : Forall2 (fun s o => exists q, o = Some q /\ q == inject_Z (snd s)) (levels 0 evs) (map snd (data L))).
    { clear - Z1 Cs. revert Z1. generalize (levels 0 evs). intros l Z1. revert l Z1. induction Cs as [|x y l m Hxy Cs IH]; intros l' Z1; inversion Z1 as [|s ? ? ? (q & -> & Eq) Z1']; subst; constructor.
      - destruct y as [y|]; [|contradiction]. exists y. split; [reflexivity|]. cbn in Hxy. rewrite <- Hxy. exact Eq.
      - apply IH. exact Z1'. }
    clear - Z2 Z3 Dt. revert Z2 Z3 Dt. generalize (levels 0 evs) (of_kind KD (combine clock (map drow_of rows))) (data L).
    intros l m D Z2. revert D. induction Z2 as [|s p l m Hs Z2 IH]; intros D Z3 Dt; inversion Dt as [|? q ? D' Hq Dt']; subst; cbn [map] in Z3; inversion Z3; subst; constructor.
    + split; [rewrite Hq, Hs; ring|assumption].
    + apply IH; assumption.
  - (* fixes *)
    destruct Gt as [Gt|(_ & X & _)]; [|discriminate]. clear - Y Gt. revert Gt. generalize (gps L).
    induction Y as [|e p evs l (C & K & r & E & Sr & Lr) Y IH]; intros G Gt.
    { inversion Gt; subst. constructor. }
    unfold of_kind in *. cbn [filter] in Gt. rewrite K in Gt.
    assert (FX : kind_of e = KG -> forall g t, kept_as p (g, t) -> row_fix (rvals r) t /\ (msPPS g == fst p)%Q).
    { intros Ke g t ((A & rest & B & _) & Pl). cbn [fst snd] in *. split; [|exact A]. rewrite E in B. cbn [dcells drow_of] in B.
      unfold shape in Sr. rewrite (proj1 Lr), Ke in Sr.
      destruct (rvals r) as [|v1 [|v2 [|v3 [|v4 [|v5 [|v6 [|v7 [|v8 [|v9 [|v10 vr]]]]]]]]]] eqn:Er; try discriminate Sr.
      exists v1, v2, v3, v4, v5, v6, v7, v8, v9. split; [reflexivity|]. cbn [map firstn] in B.
      repeat match goal with H : Forall2 holds (_ :: _) (_ :: _) |- _ => inversion H; clear H; subst end.
      repeat match goal with H : holds (Num _) _ |- _ => inversion H; clear H; subst end.
      eapply plausible_eq; [..|exact Pl]; cbn [msLag gyear gmonth gday ghour gminute gsecond glat glon opteq];
        match goal with H : Some _ = ?x |- opteq ?x _ => rewrite <- H; cbn; reflexivity end. }
    destruct e as [c d|c t|c|c]; cbn [kind_of fixes_of kind_eqb] in *; try (apply IH; exact Gt).
    + inversion Gt as [|? [g t'] ? m Kp Gt'|? ? ? Nk Gt']; subst.
      * destruct (FX eq_refl g t' Kp) as [Rf Em]. constructor; [|apply IH; exact Gt']. cbn [fst snd]. split.
        -- rewrite Em, C. reflexivity.
        -- destruct Lr as (_ & _ & Lr). exact (row_fix_unique _ _ _ Rf Lr).
      * exfalso. destruct Lr as (_ & _ & v1 & v2 & v3 & v4 & v5 & v6 & v7 & v8 & v9 & Er & Pl).
        apply (Nk (mkfix (fst p) (Some v1) (Some v2) (Some v3) (Some v4) (Some v5) (Some v6) (Some v7) (Some v8) (Some v9), t)).
        split; [|exact Pl]. cbn [fst]. split; [reflexivity|]. exists []. rewrite E. cbn [dcells drow_of]. rewrite Er. cbn [map firstn msLag gyear gmonth gday ghour gminute gsecond glat glon].
        split; [repeat constructor|reflexivity].
    + inversion Gt as [|? [g t'] ? m Kp Gt'|? ? ? Nk Gt']; subst; [|apply IH; exact Gt'].
      exfalso. destruct (FX eq_refl g t' Kp) as [Rf _]. destruct Lr as (_ & _ & Lr). exact (Lr _ Rf).
Qed.

(** * From a file to its tables *)

Lemma levels_samples evs : forall lev, map fst (levels lev evs) = samples evs.
Proof. induction evs as [|[c d|c t|c|c] evs IH]; intros lev; cbn [levels samples map fst]; [reflexivity| |apply IH|apply IH|apply IH]. now rewrite IH. Qed.

Lemma begin_kinds tau evs : true_clock tau evs -> In KD (map kind_of evs) /\ In KM (map kind_of evs).
Proof.
  intros T. split.
  - destruct (tc_begin _ _ T) as (pre & c & d & rest & -> & _). rewrite map_app. apply in_or_app. right. left. reflexivity.
  - destruct (tc_health _ _ T) as (c & H). apply (in_map kind_of _ _ H).
Qed.

Lemma begin_reading tau evs a : true_clock tau evs -> hd_error (map reading evs) = Some a ->
  exists c rest, samples evs = c :: rest /\ a <= c.
Proof.
  intros T. destruct (tc_begin _ _ T) as (pre & c & d & rest & -> & N & Ch). clear T. intros H. exists c, (samples rest). split.
  - clear - N. induction pre as [|[c' d'|c' t'|c'|c'] pre IH]; cbn [samples app] in *; [reflexivity|discriminate|auto|auto|auto].
  - destruct pre as [|e pre]; cbn in H; injection H as <-; [lra|]. cbn [map app] in Ch.
    assert (G : forall l x, chain Qle (x :: l) -> forall y, In y l -> x <= y).
    { clear. induction l as [|z l IH]; intros x C y I; [contradiction|]. destruct C as [A C]. destruct I as [<-|I]; [exact A|]. specialize (IH z C y I). lra. }
    apply (G _ _ Ch). apply in_or_app. right. left. reflexivity.
Qed.

Lemma read_track sc buf0 ear f start tau evs bs L : reads_decimal sc -> f_content f = Some bs -> raw_text evs bs -> true_clock tau evs ->
  read_raw sc buf0 ear f "0.9" start true = inl L ->
  exists k, track k evs L /\ data L <> [] /\ gps L <> [] /\ (forall t v l, data L = (t, v) :: l -> start - 8192 <= t) /\
    (forall a, hd_error (map reading evs) = Some a -> start - 4096 <= a + 8192 * inject_Z k /\ a + 8192 * inject_Z k < start + 4096).
Proof.
  intros Sc Ec Rt T R. destruct (raw_rows sc buf0 evs bs Sc Rt) as (rows & P & Lg & Sh & K).
  destruct (begin_kinds _ _ T) as [KD' KM']. rewrite <- K in KD', KM'.
  unfold read_raw in R. rewrite Ec in R.
  assert (V : difference_coded "0.9") by (right; left; reflexivity).
  rewrite (cython_decides sc buf0 ear _ _ bs "0.9" start true rows V P KD' KM') in R.
  destruct (read_with_cython sc buf0 (Some bs) true) as [df|] eqn:Er; [|discriminate].
  assert (Df : df = map drow_of rows).
  { unfold read_with_cython in Er. rewrite P in Er. destruct rows; [discriminate|]. destruct (negb _ && true); [discriminate|]. congruence. }
  subst df. destruct (process ear "0.9" start true (map drow_of rows)) as [out|] eqn:Ep; [|discriminate].
  destruct (gps out) as [|g0 gs] eqn:Eg; [discriminate|].
  assert (Hg : gps out = [] -> true = false) by (rewrite Eg; discriminate).
  destruct (process_ok ear "0.9" start true _ out (893 # 100) eq_refl Ep Hg) as (C & D & M).
  rewrite <- Eg in R. injection R as <-. destruct (table_track _ _ _ _ _ V Lg Sh (tc_steps _ _ T) C) as (k & Tr & H0).
  exists k. split; [exact Tr|]. split; [cbn [data]; destruct (data out); [contradiction|discriminate]|]. split; [cbn [gps]; rewrite Eg; discriminate|]. split; [|exact H0].
  intros t v l E. destruct Tr as [Tr _]. rewrite E in Tr.
  destruct (map reading evs) as [|a as_] eqn:Ea.
  { destruct evs; [|discriminate]. inversion Tr. }
  destruct (H0 a eq_refl) as [A _]. assert (Ha : hd_error (map reading evs) = Some a) by (rewrite Ea; reflexivity).
  destruct (begin_reading _ _ _ T Ha) as (c & rest & Es & Le). rewrite <- (levels_samples evs 0) in Es.
  inversion Tr as [|s ? ? ? (B & _) ? E1]; subst. rewrite <- E1 in Es. injection Es as <- _. cbn [fst] in B. rewrite B. lra.
Qed.

Lemma track_shift k evs L : track k evs L -> track (k + 1) evs (shift 8192 L).
Proof.
  intros [A B]. unfold track, shift. cbn [data gps]. split.
  - clear B. induction A as [|s p l m (H & V) A IH]; cbn [map]; constructor; [|exact IH]. cbn [fst snd]. split; [|exact V].
    rewrite H, inject_Z_plus. change (inject_Z 1) with 1. ring.
  - clear A. induction B as [|s p l m (H & V) B IH]; cbn [map]; constructor; [|exact IH]. cbn [fst snd]. split; [|exact V].
    unfold shift_fix. cbn [msPPS]. rewrite H, inject_Z_plus. change (inject_Z 1) with 1. ring.
Qed.

(** * Fits *)

Lemma cubic_at_proper p x y : x == y -> cubic_at p x == cubic_at p y.
Proof. intros E. unfold cubic_at. rewrite E. reflexivity. Qed.
Lemma cubic_at_flat p x : cubic_at p x == c0 p + c1 p * x + c2 p * x * x + c3 p * x * x * x.
Proof. unfold cubic_at. simpl (_ ^ _). unfold Qpower_positive; simpl. ring. Qed.
Lemma eval3_cubic p x : eval3 p x == cubic_at p x.
Proof. rewrite cubic_at_flat. unfold eval3. ring. Qed.

Lemma root_factor a c : a * c == 0 -> ~ a == 0 -> c == 0.
Proof. intros E N. destruct (Qmult_integral _ _ E); [contradiction|assumption]. Qed.

Lemma cubic_unique p q x1 x2 x3 x4 : x1 < x2 -> x2 < x3 -> x3 < x4 ->
  cubic_at p x1 == cubic_at q x1 -> cubic_at p x2 == cubic_at q x2 -> cubic_at p x3 == cubic_at q x3 -> cubic_at p x4 == cubic_at q x4 ->
  forall x, cubic_at p x == cubic_at q x.
Proof.
  intros L1 L2 L3 E1 E2 E3 E4 x. rewrite !cubic_at_flat in *.
  set (a := c0 p - c0 q) in *. set (a1 := c1 p - c1 q). set (a2 := c2 p - c2 q). set (a3 := c3 p - c3 q).
  assert (Z : forall y, c0 p + c1 p * y + c2 p * y * y + c3 p * y * y * y == c0 q + c1 q * y + c2 q * y * y + c3 q * y * y * y ->
              a + a1 * y + a2 * y * y + a3 * y * y * y == 0).
  { intros y E. transitivity ((c0 p + c1 p * y + c2 p * y * y + c3 p * y * y * y) - (c0 q + c1 q * y + c2 q * y * y + c3 q * y * y * y)); [unfold a, a1, a2, a3; ring|rewrite E; ring]. }
  apply Z in E1, E2, E3, E4.
  assert (D : forall u w, u < w -> a + a1 * u + a2 * u * u + a3 * u * u * u == 0 -> a + a1 * w + a2 * w * w + a3 * w * w * w == 0 ->
              a1 + a2 * (u + w) + a3 * (u * u + u * w + w * w) == 0).
  { intros u w L U W. apply (root_factor (w - u)); [|intros X; lra].
    transitivity ((a + a1 * w + a2 * w * w + a3 * w * w * w) - (a + a1 * u + a2 * u * u + a3 * u * u * u)); [ring|rewrite U, W; ring]. }
  pose proof (D x1 x2 L1 E1 E2) as D1. pose proof (D x1 x3 ltac:(lra) E1 E3) as D2. pose proof (D x1 x4 ltac:(lra) E1 E4) as D3.
  assert (F1 : a2 + a3 * (x1 + x2 + x3) == 0).
  { apply (root_factor (x3 - x2)); [|intros X; lra].
    transitivity ((a1 + a2 * (x1 + x3) + a3 * (x1 * x1 + x1 * x3 + x3 * x3)) - (a1 + a2 * (x1 + x2) + a3 * (x1 * x1 + x1 * x2 + x2 * x2))); [ring|rewrite D1, D2; ring]. }
  assert (F2 : a2 + a3 * (x1 + x2 + x4) == 0).
  { apply (root_factor (x4 - x2)); [|intros X; lra].
    transitivity ((a1 + a2 * (x1 + x4) + a3 * (x1 * x1 + x1 * x4 + x4 * x4)) - (a1 + a2 * (x1 + x2) + a3 * (x1 * x1 + x1 * x2 + x2 * x2))); [ring|rewrite D1, D3; ring]. }
  assert (G3 : a3 == 0).
  { apply (root_factor (x4 - x3)); [|intros X; lra]. transitivity ((a2 + a3 * (x1 + x2 + x4)) - (a2 + a3 * (x1 + x2 + x3))); [ring|rewrite F1, F2; ring]. }
  assert (G2 : a2 == 0) by (rewrite G3 in F1; lra).
  assert (G1 : a1 == 0) by (rewrite G3, G2 in D1; lra).
  assert (G0 : a == 0) by (rewrite G3, G2, G1 in E1; lra).
  transitivity ((c0 q + c1 q * x + c2 q * x * x + c3 q * x * x * x) + (a + a1 * x + a2 * x * x + a3 * x * x * x)); [unfold a, a1, a2, a3; ring|].
  rewrite G0, G1, G2, G3. ring.
Qed.

Definition shifted (p : cubic) (s : Q) : cubic :=
  mkcubic (c0 p - c1 p * s + c2 p * s * s - c3 p * s * s * s) (c1 p - 2 * c2 p * s + 3 * c3 p * s * s) (c2 p - 3 * c3 p * s) (c3 p).
Lemma shifted_at p s x : cubic_at (shifted p s) x == cubic_at p (x - s).
Proof. rewrite !cubic_at_flat. unfold shifted. cbn [c0 c1 c2 c3]. ring. Qed.

Lemma subsequence_in {A} (l l' : list A) : subsequence l' l -> forall x, In x l' -> In x l.
Proof. induction 1 as [|x l' l H IH|x l' l H IH]; intros y; [auto|intros [->|I]; [left; reflexivity|right; auto]|right; auto]. Qed.
Lemma subsequence_chain (l l' : list point) : subsequence l' l -> chain Qlt (map fst l) -> chain Qlt (map fst l').
Proof.
  induction 1 as [|x l' l H IH|x l' l H IH]; intros C; [exact I| |exact (IH (chain_tail _ _ _ C))].
  pose proof (IH (chain_tail _ _ _ C)) as C'. cbn [map] in *. destruct l' as [|y l']; [exact I|]. cbn [map] in *. split; [|exact C'].
  assert (G : forall l x, chain Qlt (x :: l) -> forall y, In y l -> x < y).
  { clear. induction l as [|z l IH]; intros x C y J; [contradiction|]. destruct C as [A C]. destruct J as [<-|J]; [exact A|]. specialize (IH z C y J). lra. }
  apply (G _ _ C). apply (in_map fst l y). eapply subsequence_in; [exact H|left; reflexivity].
Qed.

Lemma track_forward k evs L tau : track k evs L -> true_clock tau evs -> chain Qlt (map fst (fixes L)).
Proof.
  intros [_ B] T. unfold fixes. pose proof (tc_forward _ _ T) as C. clear T. rewrite map_map. cbn [fst]. revert C. induction B as [|f e l m (H & _) B IH]; [intros; exact I|].
  intros C. specialize (IH (chain_tail _ _ _ C)). cbn [map] in *. destruct B as [|f' e' l m (H' & _) B]; [exact I|]. cbn [map] in *.
  split; [|exact IH]. destruct C as [A _]. rewrite H, H'. lra.
Qed.
(** A fix and the point it gives. *)
Definition gives (s : Q) (f : Q * Z) (q : point) : Prop := fst q == fst f + s /\ snd q = inject_Z (snd f).
Lemma track_gives k evs L : track k evs L -> Forall2 (gives (8192 * inject_Z k)) (fixes_of evs) (fixes L).
Proof. intros [_ B]. unfold fixes. induction B as [|f e l m (H & H') B IH]; cbn [map]; constructor; [split; cbn [fst snd]; [exact H|rewrite H'; reflexivity]|exact IH]. Qed.
Lemma gives_exact s tau fs pts : Forall2 (gives s) fs pts -> exact_fixes tau fs -> forall x y, In (x, y) pts -> y == cubic_at (shifted tau s) x.
Proof.
  induction 1 as [|f q l m (H & H') B IH]; intros X x y J; [contradiction|].
  destruct J as [->|J]; [|apply IH; [intros c t K; apply X; right; exact K|exact J]]. cbn [fst snd] in *.
  rewrite H', shifted_at, (X (fst f) (snd f)) by (left; destruct f; reflexivity). apply cubic_at_proper. rewrite H. ring.
Qed.
Lemma ordinary_moved s fs pts c x : Forall2 (gives s) fs pts -> ordinary (points_of fs) c -> x == c + s -> ordinary pts x.
Proof.
  intros F O E p. specialize (O (shifted p (- s))).
  assert (V : forall u w, w == u + s -> eval3 (shifted p (- s)) u == eval3 p w).
  { intros u w W. rewrite !eval3_cubic, shifted_at. apply cubic_at_proper. rewrite W. ring. }
  rewrite (V c x E) in O.
  assert (N : number pts = number (points_of fs)).
  { unfold number, points_of. rewrite map_length. rewrite (Forall2_length_eq _ _ _ F). reflexivity. }
  assert (M : sum_of (map (fun q => eval3 (shifted p (- s)) (fst q) * eval3 (shifted p (- s)) (fst q)) (points_of fs)) == sum_of (map (fun q => eval3 p (fst q) * eval3 p (fst q)) pts)).
  { clear - F V. induction F as [|f q l m (H & _) F IH]; [reflexivity|]. cbn [points_of map sum_of fst] in *. unfold points_of in IH. rewrite IH, (V (fst f) (fst q) H). reflexivity. }
  rewrite N, <- M. exact O.
Qed.

(** The fixes left after fitting: all, or all but the false one; and they are on the curve. *)
Definition without_false (tau : cubic) (fs fs' : list (Q * Z)) : Prop :=
  fs' = fs \/ exists before c t after, fs = before ++ (c, t) :: after /\ ~ inject_Z t == cubic_at tau c /\ fs' = before ++ after /\ (33 <= length fs)%nat.
Lemma clock_kept P (eval : P -> Q -> Q) (comb : forall p q k, exists r, forall x, eval r x == eval p x + k * eval q x) (one : exists p, forall x, eval p x == 1)
    (low : forall p, exists p3, forall x, eval3 p3 x == eval p x) fit need (Fit : fits_least_squares eval need fit) (few : (need <= 4)%nat) k evs L tau c lim :
  track k evs L -> true_clock tau evs -> (4 <= length (fixes L))%nat -> (forall x, eval c x == cubic_at (shifted tau (8192 * inject_Z k)) x) -> (forall m, lim = Some m -> 0 <= m) ->
  exists p kept fs', pruned P fit eval 4 lim (fixes L) p kept /\ (forall x y, In (x, y) kept -> y == eval p x) /\ (forall x y, In (x, y) kept -> y == eval c x) /\
    subsequence kept (fixes L) /\ without_false tau (fixes_of evs) fs' /\ Forall2 (gives (8192 * inject_Z k)) fs' kept.
Proof.
  intros Tr T L4 Ec Lim. pose proof (track_forward _ _ _ _ Tr T) as Ch. pose proof (track_gives _ _ _ Tr) as G. set (s := 8192 * inject_Z k) in *.
  destruct (tc_exact _ _ T) as [Ex|(before & c0' & t & after & Ef & Ex & Wr & Z2 & Z3 & L33 & Or)].
  - pose proof (gives_exact _ _ _ _ G Ex) as On. assert (On' : forall x y, In (x, y) (fixes L) -> y == eval c x) by (intros x y J; rewrite Ec; apply On; exact J).
    destruct (Fit (fixes L) ltac:(unfold point in *; lia) Ch) as (p & Ep & Bp).
    assert (Hp : forall x y, In (x, y) (fixes L) -> y == eval p x) by (intros x y J; apply (best_exact P eval p c (fixes L) Bp On' x y J)).
    exists p, (fixes L), (fixes_of evs). split; [|split; [exact Hp|split; [exact On'|split; [|split; [left; reflexivity|exact G]]]]].
    + apply robust_iff. apply C18_exact_data_kept; [destruct (fixes L); [cbn in L4; lia|discriminate]|exact Ep| |exact Lim]. apply Forall_forall. intros [x y] J. symmetry. apply Hp. exact J.
    + clear. induction (fixes L); constructor; assumption.
  - rewrite Ef in G, Or. apply Forall2_app_inv_l in G as (bp & r & G1 & G2 & Ep). inversion G2 as [|? q ? ap (Hq & Hq') G3]; subst r.
    assert (On : forall x y, In (x, y) (bp ++ ap) -> y == eval c x) by (intros u w J; rewrite Ec; apply (gives_exact s tau (before ++ after) (bp ++ ap)); [apply Forall2_app; assumption|exact Ex|exact J]).
    assert (W : one_wrong eval c (fixes L) bp q ap).
    { split; [exact Ep|]. split; [exact On|]. rewrite Hq', Ec, shifted_at. cbn [snd]. intros X. apply Wr. rewrite X. apply cubic_at_proper. cbn [fst] in Hq. rewrite Hq. ring. }
    assert (G : Forall2 (gives s) (before ++ (c0', t) :: after) (fixes L)) by (rewrite Ep; apply Forall2_app; [exact G1|constructor; [split; assumption|exact G3]]).
    assert (L33' : (33 <= length (fixes L))%nat) by (pose proof (Forall2_length_eq _ _ _ G) as X; rewrite <- Ef in X; unfold point in *; lia).
    pose proof (ordinary_moved _ _ _ _ (fst q) G Or Hq) as Or'.
    destruct (wrong_left_out P eval comb one fit need Fit few 4 (fixes L) bp q ap c lim ltac:(reflexivity) L33' Ch W) as (p & Pr & Hp).
    { intros p. destruct (low p) as (p3 & E3). pose proof (ordinary_ip _ _ Or' p3) as X. rewrite E3 in X.
      rewrite (ip_ext _ _ (fun q => eval p (fst q)) _ (fun q => eval p (fst q))) in X by (intros; apply E3). exact X. }
    { exact Lim. }
    exists p, (bp ++ ap), (before ++ after). split; [exact Pr|]. split; [exact Hp|]. split; [exact On|]. split; [rewrite Ep; apply subsequence_middle|]. split; [|apply Forall2_app; assumption].
    right. exists before, c0', t, after. auto.
Qed.

Lemma fit_is_clock fit3 fit1 k evs L tau h : fits_cubics fit3 -> track k evs L -> true_clock tau evs -> data L <> [] ->
  calculate_drift fit3 fit1 L true = inl h -> forall x, cubic_at (h_fit h) x == cubic_at tau (x - 8192 * inject_Z k).
Proof.
  intros Fc Tr T N E x. apply (C17_accepted_iff fit3 fit1 L h N) in E as (_ & _ & _ & _ & kept & (Pr & Ln & _) & _).
  destruct (pruned_sub _ _ _ _ _ _ _ _ Pr) as (Sb & _).
  assert (L4 : (4 <= length (fixes L))%nat) by (assert (K : (length kept <= length (fixes L))%nat) by (clear - Sb; induction Sb; cbn [length] in *; lia); unfold point in *; lia).
  destruct (clock_kept cubic eval3 comb3 one3 (fun p => ex_intro _ p (fun _ => Qeq_refl _)) fit3 4 Fc (le_n 4) k evs L tau (shifted tau (8192 * inject_Z k)) (Some (1 # 100)) Tr T L4
    (fun x => eval3_cubic _ x) ltac:(intros m [= <-]; discriminate)) as (p & kept' & fs' & Pr' & Hp & On' & _).
  apply robust_iff in Pr, Pr'. rewrite Pr in Pr'. injection Pr' as <- <-.
  pose proof (subsequence_chain _ _ Sb (track_forward _ _ _ _ Tr T)) as Ck.
  destruct kept as [|[x1 y1] [|[x2 y2] [|[x3 y3] [|[x4 y4] kept]]]]; try (cbn in Ln; lia).
  cbn [map fst chain] in Ck. destruct Ck as (L1 & L2 & L3 & _). rewrite <- shifted_at.
  apply (cubic_unique _ _ x1 x2 x3 x4 L1 L2 L3); rewrite <- !eval3_cubic.
  - rewrite <- (Hp x1 y1), <- (On' x1 y1) by (left; reflexivity). reflexivity.
  - rewrite <- (Hp x2 y2), <- (On' x2 y2) by (right; left; reflexivity). reflexivity.
  - rewrite <- (Hp x3 y3), <- (On' x3 y3) by (right; right; left; reflexivity). reflexivity.
  - rewrite <- (Hp x4 y4), <- (On' x4 y4) by (right; right; right; left; reflexivity). reflexivity.
Qed.

(** * Several files *)

Lemma track_waveform k evs L tau : track k evs L ->
  Forall2 (fun w p => cubic_at tau (fst p - 8192 * inject_Z k) == fst w /\ exists v, snd p = Some v /\ v == inject_Z (snd w)) (waveform tau 0 evs) (data L).
Proof.
  intros [A _]. assert (W : forall evs lev, waveform tau lev evs = map (fun s => (cubic_at tau (fst s + (893 # 100)), snd s)) (levels lev evs)).
  { clear. induction evs as [|[c d|c t|c|c] evs IH]; intros lev; cbn [waveform levels map fst snd]; rewrite ?IH; reflexivity. }
  rewrite W. clear W. induction A as [|s p l m (H & V) A IH]; cbn [map]; constructor; [|exact IH]. cbn [fst snd]. split; [|exact V].
  apply cubic_at_proper. rewrite H. ring.
Qed.

Section Files.
  Variables F S : Type.
  Variable sc : scanner.
  Variable buf0 : bytes.
  Variable ear : bool.
  Variable content : F -> raw_file.
  Variable sn : F -> option S.
  Variable fit3 : list point -> option cubic.
  Variable fit1 : list point -> option linear.
  Variable evs : F -> list event.
  Variable tau : F -> cubic.

  (** The file is a recording. *)
  Definition is_recording (f : F) : Prop := recorded_file (content f) (tau f) (evs f).

  (** The number of rollovers is that of the nearest reading, or one more if the samples would begin before [start]. *)
  Definition settled (start : Q) (f : F) (k : Z) (L : tables) : Prop :=
    exists k0, (forall a, hd_error (map reading (evs f)) = Some a -> start - 4096 <= a + 8192 * inject_Z k0 /\ a + 8192 * inject_Z k0 < start + 4096) /\
      (k = k0 \/ k = (k0 + 1)%Z /\ hd 0 (map fst (data L)) < start + 8192).

  Inductive laid : Q -> list F -> list (tables * hinfo) -> Prop :=
  | laid_nil start : laid start [] []
  | laid_cons start f fl k L h parts : track k (evs f) L -> calculate_drift fit3 fit1 L true = inl h -> data L <> [] ->
      chain good_step (map fst (data L)) -> start <= h_start h -> settled start f k L -> laid (h_end h) fl parts -> laid start (f :: fl) ((L, h) :: parts).

  Hypothesis Sc : reads_decimal sc.

  Let drift (L : tables) (_ : F) (r : bool) := calculate_drift fit3 fit1 L r.
  Let readv (f : F) := read_raw sc buf0 ear (content f).

  Lemma one_file_track fn start row L : is_recording fn -> one_file F hinfo S readv drift sn "0.9" true fn start = (row, inl L) ->
    exists k h, track k (evs fn) L /\ calculate_drift fit3 fit1 L true = inl h /\ data L <> [] /\ chain good_step (map fst (data L)) /\
      start <= h_start h /\ settled start fn k L /\ h_info row = Some h.
  Proof.
    intros (bs & Ec & Rt & T). unfold one_file. rewrite (read_modern readv "0.9" true fn start) by (right; right; left; reflexivity).
    unfold readv. destruct (read_raw sc buf0 ear (content fn) "0.9" start true) as [L0|e] eqn:R; [|discriminate].
    destruct (read_track _ _ _ _ _ _ _ _ _ Sc Ec Rt T R) as (k & Tr & N & G & Lt & Bd).
    destruct (align start L0) as [L1|] eqn:A; [|discriminate].
    assert (X : exists k', track k' (evs fn) L1 /\ data L1 <> [] /\ gps L1 <> [] /\ start <= hd 0 (map fst (data L1)) /\ settled start fn k' L1).
    { unfold align in A. destruct (data L0) as [|[t v] l] eqn:Ed; [discriminate|]. destruct (Qltb t start) eqn:Lq; injection A as <-.
      - exists (k + 1)%Z. split; [apply track_shift; exact Tr|]. split; [cbn [shift data]; rewrite Ed; discriminate|].
        split; [cbn [shift gps]; destruct (gps L0); [contradiction|discriminate]|]. cbn [shift data]. rewrite Ed. cbn. specialize (Lt t v l eq_refl). apply Qltb_lt in Lq.
        split; [lra|]. exists k. split; [exact Bd|]. right. split; [reflexivity|]. cbn [shift data]. rewrite Ed. cbn. lra.
      - exists k. split; [exact Tr|]. split; [rewrite Ed; discriminate|]. split; [exact G|]. rewrite Ed. cbn. apply Qltb_ge in Lq. split; [exact Lq|]. exists k. auto. }
    destruct X as (k' & Tr' & N' & G' & St & Se).
    destruct (discontinuous (map fst (data L1))) eqn:D; [discriminate|]. apply discontinuous_false in D. unfold drift.
    destruct (calculate_drift fit3 fit1 L1 true) as [h|] eqn:Dr; [|discriminate]. destruct (sn fn); [|discriminate].
    intros [= <- <-]. exists k', h. split; [exact Tr'|]. split; [exact Dr|]. split; [exact N'|]. split; [exact D|]. split; [|split; [exact Se|]].
    - destruct (drift_describes _ _ _ _ _ Dr) as (E1 & _). rewrite E1. exact St.
    - cbn [h_info negb orb]. destruct (gps L1); [contradiction|reflexivity].
  Qed.

  Lemma loop_problems {H} (rd : F -> string -> Q -> bool -> res tables) (dr : tables -> F -> bool -> H + failure) v req fns : forall start acc out,
    loop F H S rd dr sn v req start acc fns = Some out -> jproblems out = [] -> jproblems acc = [].
  Proof.
    induction fns as [|fn fns IH]; intros start acc out E P; cbn [loop] in E; [injection E as <-; exact P|].
    destruct (one_file F H S rd dr sn v req fn start) as [row [L|f]].
    - exact (IH _ _ _ E P).
    - assert (E' : loop F H S rd dr sn v req start
          (mkj (jdata acc) (jmeta acc) (jgps acc) (jheader acc ++ [row]) (jproblems acc ++ [message_for F fn f])) fns = Some out).
      { destruct f as [[]| |]; (exact E || discriminate). }
      specialize (IH _ _ _ E' P). cbn [jproblems] in IH. destruct (jproblems acc); discriminate.
  Qed.

  Lemma loop_laid fns : Forall is_recording fns -> forall start acc out,
    loop F hinfo S readv drift sn "0.9" true start acc fns = Some out -> jproblems out = [] ->
    exists parts, laid start fns parts /\ lines (jheader out) = lines (jheader acc) ++ map snd parts /\
      jdata out = jdata acc ++ concat (map (fun p => data (fst p)) parts) /\ jgps out = jgps acc ++ concat (map (fun p => gps (fst p)) parts).
  Proof.
    induction 1 as [|fn fns Rf Rs IH]; intros start acc out E P; pose proof E as E0; cbn [loop] in E.
    - injection E as <-. exists []. split; [constructor|]. cbn [map concat]. rewrite !app_nil_r. auto.
    - destruct (one_file F hinfo S readv drift sn "0.9" true fn start) as [row [L|f]] eqn:O.
      + destruct (one_file_track _ _ _ _ Rf O) as (k & h & Tr & Dr & N & Ch & St & Se & Hi).
        destruct (drift_describes _ _ _ _ _ Dr) as (_ & He & _). rewrite (last_of_data L _ _ N), <- He in E.
        destruct (IH _ _ _ E P) as (parts & La & E1 & E2 & E3). cbn [jheader jdata jgps] in *.
        exists ((L, h) :: parts). split; [exact (laid_cons _ _ _ _ _ _ _ Tr Dr N Ch St Se La)|]. rewrite E1, E2, E3. unfold lines. rewrite map_app. cbn [map concat fst snd].
        rewrite Hi, <- !app_assoc. auto.
      + exfalso. assert (E' : loop F hinfo S readv drift sn "0.9" true start
          (mkj (jdata acc) (jmeta acc) (jgps acc) (jheader acc ++ [row]) (jproblems acc ++ [message_for F fn f])) fns = Some out).
        { destruct f as [[]| |]; (exact E || discriminate). }
        apply loop_problems in E'; [|exact P]. cbn [jproblems] in E'. destruct (jproblems acc); discriminate.
  Qed.

  Lemma drift_order L h : calculate_drift fit3 fit1 L true = inl h -> data L <> [] -> chain good_step (map fst (data L)) -> h_start h <= h_end h.
  Proof.
    intros Dr N Ch. destruct (drift_describes _ _ _ _ _ Dr) as (E1 & E2 & _). rewrite E1, E2. destruct (data L) as [|[t v] l]; [contradiction|].
    apply (chain_le_last _ Ch). left. reflexivity.
  Qed.

  Lemma laid_after start fl parts : laid start fl parts -> Forall (fun p => start <= h_start (snd p)) parts.
  Proof.
    induction 1 as [|start f fl k L h parts Tr Dr N Ch St Se La IH]; [constructor|]. constructor; [exact St|]. pose proof (drift_order _ _ Dr N Ch).
    eapply Forall_impl; [|exact IH]. cbn. intros p Hp. lra.
  Qed.

  Lemma track_ends k e L : track k e L -> forall x, finishes (map fst (data L)) x -> exists c, finishes (samples e) c /\ x == c + (893 # 100) + 8192 * inject_Z k.
  Proof.
    intros [A _] x (l & E). rewrite <- (levels_samples e 0). revert E. generalize (levels 0 e) (data L) A. clear. intros l1 l2 A. revert l.
    induction A as [|s p l1 l2 (H & _) A IH]; intros l E; [destruct l; discriminate|]. cbn [map] in *. destruct A as [|s' p' l1 l2 H' A].
    - destruct l as [|y [|? l]]; try discriminate. injection E as <-. exists (fst s). split; [exists []; reflexivity|exact H].
    - destruct l as [|y l]; [discriminate|]. injection E as _ E. destruct (IH l E) as (c & (l' & E') & X). exists c. split; [|exact X].
      exists (fst s :: l'). rewrite E'. reflexivity.
  Qed.
  Lemma track_starts k e L : track k e L -> forall x, begins (map fst (data L)) x -> exists c, begins (samples e) c /\ x == c + (893 # 100) + 8192 * inject_Z k.
  Proof.
    intros [A _] x B. rewrite <- (levels_samples e 0). inversion A as [E1 E2|s p l m (H & _) A' E1 E2].
    - rewrite <- E2 in B. discriminate.
    - rewrite <- E2 in B. injection B as <-. exists (fst s). split; [reflexivity|exact H].
  Qed.

  Lemma laid_strict start fl parts : laid start fl parts -> chain (fun f g => apart (evs f) (evs g)) fl ->
    chain (fun p q => h_end (snd p) < h_start (snd q)) parts.
  Proof.
    induction 1 as [|start f fl k L h parts Tr Dr N Ch St Se La IH]; intros C; [exact I|]. specialize (IH (chain_tail _ _ _ C)).
    inversion La as [|? f' fl' k' L' h' parts' Tr' Dr' N' Ch' St' Se' La']; subst; [exact I|]. split; [|exact IH]. cbn [snd].
    apply Qle_lteq in St' as [X|X]; [exact X|]. exfalso. destruct C as [Ap _].
    destruct (drift_describes _ _ _ _ _ Dr) as (_ & E2 & _). destruct (drift_describes _ _ _ _ _ Dr') as (E1 & _).
    destruct (track_ends _ _ _ Tr (h_end h)) as (c & Fc & Xc).
    { rewrite E2. assert (Nm : map fst (data L) <> []) by (destruct (data L); [contradiction|discriminate]). exists (removelast (map fst (data L))). apply app_removelast_last. exact Nm. }
    destruct (track_starts _ _ _ Tr' (h_start h')) as (c' & Fc' & Xc').
    { rewrite E1. destruct (data L') as [|[t v] l]; [contradiction|]. reflexivity. }
    apply (Ap c c' Fc Fc'). exists (k' - k)%Z. rewrite Xc, Xc' in X. unfold Z.sub. rewrite inject_Z_plus, inject_Z_opp. lra.
  Qed.

  Lemma strict_after p parts : Forall (fun q => h_start (snd q) <= h_end (snd q)) parts -> chain (fun p q => h_end (snd p) < h_start (snd q)) (p :: parts) ->
    Forall (fun q => h_end (snd p) < h_start (snd q)) (parts : list (tables * hinfo)).
  Proof.
    revert p. induction parts as [|q parts IH]; intros p O C; [constructor|]. destruct C as [A C]. inversion O; subst.
    constructor; [exact A|]. eapply Forall_impl; [|exact (IH q ltac:(assumption) C)]. cbn. intros r Hr. lra.
  Qed.

  Lemma laid_times start fl parts : fits_cubics fit3 -> laid start fl parts -> Forall is_recording fl -> chain (fun f g => apart (evs f) (evs g)) fl -> forall hs0,
    Forall2 (fun w p => (exists h, last_containing (hs0 ++ map snd parts) (fst p) h /\ cubic_at (h_fit h) (fst p) == fst w) /\ exists v, snd p = Some v /\ v == inject_Z (snd w))
      (flat_map (fun f => waveform (tau f) 0 (evs f)) fl) (concat (map (fun p => data (fst p)) parts)).
  Proof.
    intros Fc La Rf Ap. pose proof (laid_strict _ _ _ La Ap) as Sx. clear Ap. revert Rf Sx. induction La as [|start f fl k L h parts Tr Dr N Ch St Se La IH]; intros Rf Sx hs0; [constructor|].
    inversion Rf as [|? ? (bs & _ & _ & T) Rf']; subst. cbn [flat_map map concat fst snd]. apply Forall2_app.
    - pose proof (track_waveform _ _ _ (tau f) Tr) as W. pose proof (fit_is_clock fit3 fit1 _ _ _ _ _ Fc Tr T N Dr) as Fk.
      assert (Own : forall p, In p (data L) -> last_containing (hs0 ++ h :: map snd parts) (fst p) h).
      { intros p Ip. apply last_containing_pre. exists [], (map snd parts). split; [reflexivity|].
        assert (C : contains h (fst p)) by (eapply own_span; [exact Dr|exact Ch|apply in_map; exact Ip]). split; [exact C|].
        apply Forall_map. assert (O : Forall (fun q => h_start (snd q) <= h_end (snd q)) parts).
        { clear - La. induction La as [|? ? ? ? ? ? ? ? Dr N Ch]; constructor; [exact (drift_order _ _ Dr N Ch)|assumption]. }
        eapply Forall_impl; [|exact (strict_after _ _ O Sx)]. cbn [snd]. intros q Hq [Cq _]. destruct C as [_ C]. lra. }
      clear - W Fk Own. induction W as [|w p l m (A & V) W IH]; constructor.
      + split; [|exact V]. exists h. split; [apply Own; left; reflexivity|]. rewrite Fk. exact A.
      + apply IH. intros q Iq. apply Own. right. exact Iq.
    - specialize (IH Rf' (chain_tail _ _ _ Sx) (hs0 ++ [h])). rewrite <- app_assoc in IH. exact IH.
  Qed.
End Files.
