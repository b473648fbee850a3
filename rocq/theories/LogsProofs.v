(** Proofs about the logs of a conversion. *)
From Coq Require Import String.
From Coq Require Import ZArith QArith Qabs Qround List Bool Lia Lqa.
From Verif Require Import Base Lib UnwrapSpec UnwrapProofs Scan Parser ParserProofs ParserProps Process ProcessSpec ProcessProofs
  ReadSeveral ReadSeveralSpec ReadSeveralProofs ReadSeveralProps Drift DriftSpec DriftProofs DriftProps Segments SegmentsSpec SegmentsProofs
  Interp InterpSpec InterpProofs ParserSpec Select Fields Breaks BreaksSpec BreaksProofs BreaksProps Block BlockSpec BlockProofs RecordingSpec RecordingProofs RecordingTotal CardSpec CardProps PausesSpec PausesProofs LogsSpec.
Import ListNotations.
Open Scope Q_scope.

(** * From lines to tables *)

Inductive row_noted : list event -> list row -> list place -> list health -> Prop :=
| rn_nil : row_noted [] [] [] []
| rn_sample c d r evs rows ps hs : row_noted evs rows ps hs -> row_noted (Sample c d :: evs) (r :: rows) ps hs
| rn_fix c t r v1 v2 v3 v4 v5 v6 v7 v8 v9 la lo evs rows ps hs : rvals r = [v1; v2; v3; v4; v5; v6; v7; v8; v9] -> v8 == la -> v9 == lo ->
    row_noted evs rows ps hs -> row_noted (Fix c t :: evs) (r :: rows) ((t, (la, lo)) :: ps) hs
| rn_no_fix c r evs rows ps hs : row_noted evs rows ps hs -> row_noted (No_fix c :: evs) (r :: rows) ps hs
| rn_health c r vs evs rows ps hs : Forall2 Qeq (rvals r) vs -> row_noted evs rows ps hs -> row_noted (Health c :: evs) (r :: rows) ps ((c, vs) :: hs).

Lemma means_noted evs rs ps hs : noted evs rs ps hs -> forall c rows, means c rs rows -> row_noted evs rows ps hs.
Proof.
  induction 1 as [|l evs rs ps hs N IH|c d ms a x evs rs ps hs N IH|c d dev diff x evs rs ps hs N IH|c d diff x evs rs ps hs N IH
    |c t f lag y mo d h mi s la lo x evs rs ps hs N IH|c f fs x evs rs ps hs N IH|c f fs x evs rs ps hs N IH]; intros c0 rows M;
    inversion M as [|? ? ? ? ? r rows' D M'|? ? ? ? ? r rows' D M'|? ? ? ? ? r rows' D M'|? ? ? ? ? r rows' m Rm D M'|? ? ? ? r rows' m Rm D M'|? ? ? ? M']; subst;
    try (econstructor; eapply IH; eassumption).
  - eapply IH; eassumption.
  - destruct D as (_ & _ & D). cbn [map] in D.
    destruct (rvals r) as [|v1 [|v2 [|v3 [|v4 [|v5 [|v6 [|v7 [|v8 [|v9 [|v10 vr]]]]]]]]]] eqn:Er; try (apply Forall2_length_eq in D; discriminate).
    assert (E8 : v8 == field_value la /\ v9 == field_value lo).
    { repeat match goal with H : Forall2 Qeq (_ :: _) (_ :: _) |- _ => inversion H; clear H; subst end. auto. }
    econstructor; [exact Er|apply E8|apply E8|]. eapply IH; eassumption.
  - destruct D as (_ & _ & D). econstructor; [exact D|]. eapply IH; eassumption.
Qed.

Definition value_is (v : Q) (x : option Q) : Prop := exists y, x = Some y /\ y == v.
Definition place_tag (p : place) (e : tag) : Prop := snd e = fst p /\ value_is (fst (snd p)) (glat (fst e)) /\ value_is (snd (snd p)) (glon (fst e)).
Definition meta_row (k : Z) (h : health) (m : Q * list (option Q)) : Prop := fst m == fst h + 8192 * inject_Z k /\ Forall2 value_is (snd h) (snd m).

Lemma bounds_unique a o k k' : o - 4096 <= a + 8192 * inject_Z k -> a + 8192 * inject_Z k < o + 4096 ->
  o - 4096 <= a + 8192 * inject_Z k' -> a + 8192 * inject_Z k' < o + 4096 -> k = k'.
Proof.
  intros A B C D. assert (X : inject_Z (k - k') < 1) by (unfold Z.sub; rewrite inject_Z_plus, inject_Z_opp; lra).
  assert (Y : -1 < inject_Z (k - k')) by (unfold Z.sub; rewrite inject_Z_plus, inject_Z_opp; lra).
  change 1 with (inject_Z 1) in X. change (-1) with (inject_Z (-1)) in Y. rewrite <- Zlt_Qlt in X, Y. lia.
Qed.

Lemma table_noted version offset evs rows L ps hs : difference_coded version -> meta_columns version = 11%nat ->
  Forall2 logged evs rows -> Forall shape rows -> chain (step_below 4096) (map reading evs) ->
  consistent version offset true (map drow_of rows) L -> row_noted evs rows ps hs ->
  exists k, track k evs L /\ (forall a, hd_error (map reading evs) = Some a -> offset - 4096 <= a + 8192 * inject_Z k /\ a + 8192 * inject_Z k < offset + 4096) /\
    Forall2 place_tag ps (gps L) /\ Forall2 (meta_row k) hs (metadata L).
Proof.
  intros V V11 Lg Sh Ch Co Rn. destruct (table_track _ _ _ _ _ V Lg Sh Ch Co) as (kt & Tr & Bt).
  destruct Co as (r & clock & F & Cg & H0 & Hc & C).
  assert (r = 8192%Q) as ->.
  { destruct F as [[_ F]|[F _]]; [exact F|]. exfalso. destruct V as [<-|[<-|[<-|[]]]]; destruct F as [F|[F|[]]]; discriminate. }
  assert (H2 : (8192 / 2 == 4096)%Q) by reflexivity.
  assert (Rec : recorded 8192 (map reading evs) (map dsaw (map drow_of rows))).
  { rewrite map_map. clear - Lg. induction Lg as [|e r l m (_ & (A & B & k & D) & _) Lg IH]; constructor; [|exact IH].
    split; [split; assumption|]. exists k. cbn [dsaw drow_of]. rewrite D, inject_Z_mult. change (inject_Z 8192) with 8192. ring. }
  destruct (recorded_congruent _ _ _ Rec) as [_ Fp]. specialize (Hc Fp).
  destruct (clock_recovered _ _ _ Cg Rec Hc Ch) as (k & X).
  assert (Ek : evs <> [] -> k = kt).
  { intros Ne. destruct evs as [|e evs]; [contradiction|]. cbn [map] in X. inversion X as [|? c ? cs Hct]; subst. destruct (H0 c cs eq_refl) as [A B]. rewrite H2 in A, B. rewrite Hct in A, B.
    destruct (Bt _ eq_refl) as [A' B']. exact (bounds_unique _ _ _ _ A B A' B'). }
  exists kt. split; [exact Tr|]. split; [exact Bt|].
  cbv zeta in C. destruct C as (_ & _ & Mt & Gt). rewrite V11 in Mt.
  assert (Y : Forall2 (fun e p => fst p == reading e + 8192 * inject_Z k /\ dkind (snd p) = kind_of e /\ exists r, snd p = drow_of r /\ shape r /\ logged e r)
                evs (combine clock (map drow_of rows))).
  { clear - Lg X Sh. revert clock X. induction Lg as [|e r l m G Lg IH]; intros clock X; cbn [map] in X; inversion X as [|? c ? cs Hc X']; subst; [constructor|].
    inversion Sh as [|? ? Sr Sh']; subst. cbn [map combine]. constructor; [|exact (IH Sh' _ X')]. cbn [fst snd]. split; [exact Hc|]. split; [exact (proj1 G)|]. exists r. auto. }
  assert (Ln : length clock = length rows).
  { apply Forall2_length_eq in X. apply Forall2_length_eq in Lg. rewrite map_length in X. congruence. }
  destruct Gt as [Gt|(_ & Z & _)]; [|discriminate].
  assert (Main : Forall2 place_tag ps (gps L) /\ Forall2 (meta_row k) hs (metadata L)).
  { clear - Y Rn Mt Gt Ln. revert Gt Mt. generalize (gps L) (metadata L). revert clock Y Ln.
    induction Rn as [|c d r evs rows ps hs Rn IH|c t r v1 v2 v3 v4 v5 v6 v7 v8 v9 la lo evs rows ps hs Er E8 E9 Rn IH|c r evs rows ps hs Rn IH|c r vs evs rows ps hs Ev Rn IH];
      intros clock Y Ln G M Gt Mt.
    { destruct clock; [|discriminate]. cbn in Gt, Mt. inversion Gt; inversion Mt; subst. split; constructor. }
    all: destruct clock as [|q clock]; [discriminate|]; injection Ln as Ln; cbn [map combine] in Y, Gt, Mt; inversion Y as [|? ? ? ? (Cq & Kq & r' & Er' & Sr & Lr) Y']; subst; cbn [fst snd] in *;
      unfold of_kind in Gt, Mt; cbn [filter snd] in Gt, Mt; rewrite Kq in Gt, Mt; cbn [kind_of kind_eqb] in Gt, Mt.
    all: assert (Sm : rvals r' = rvals r) by (apply (f_equal dcells) in Er'; cbn [dcells drow_of] in Er'; clear - Er'; revert Er'; generalize (rvals r) (rvals r');
        induction l as [|x l IHl]; intros [|y m] E; try discriminate; [reflexivity|]; injection E as -> E; f_equal; apply IHl; exact E).
    - exact (IH clock Y' Ln G M Gt Mt).
    - inversion Gt as [|? [g t'] ? G' Kp Gt'|? ? ? Nk Gt']; subst.
      + destruct (IH clock Y' Ln G' M Gt' Mt) as [I1 I2]. split; [|exact I2]. constructor; [|exact I1].
        destruct Kp as ((A & rest & B & _) & Pl). cbn [fst snd dcells drow_of] in *. rewrite Er in B. cbn [map firstn] in B.
        assert (Rf : row_fix (rvals r) t').
        { rewrite Er. exists v1, v2, v3, v4, v5, v6, v7, v8, v9. split; [reflexivity|].
          repeat match goal with H : Forall2 holds (_ :: _) (_ :: _) |- _ => inversion H; clear H; subst end.
          repeat match goal with H : holds (Num _) _ |- _ => inversion H; clear H; subst end.
          eapply plausible_eq; [..|exact Pl]; cbn [msLag gyear gmonth gday ghour gminute gsecond glat glon opteq];
            match goal with H : Some _ = ?x |- opteq ?x _ => rewrite <- H; cbn; reflexivity end. }
        destruct Lr as (_ & _ & Lr). rewrite Sm in Lr. split; [exact (row_fix_unique _ _ _ Rf Lr)|]. cbn [fst snd].
        repeat match goal with H : Forall2 holds (_ :: _) (_ :: _) |- _ => inversion H; clear H; subst end.
        repeat match goal with H : holds (Num _) _ |- _ => inversion H; clear H; subst end.
        split; [exists v8|exists v9]; auto.
      + exfalso. destruct Lr as (_ & _ & w1 & w2 & w3 & w4 & w5 & w6 & w7 & w8 & w9 & Ew & Pl). rewrite Sm, Er in Ew. injection Ew as <- <- <- <- <- <- <- <- <-.
        apply (Nk (mkfix q (Some v1) (Some v2) (Some v3) (Some v4) (Some v5) (Some v6) (Some v7) (Some v8) (Some v9), t)).
        split; [|exact Pl]. cbn [fst]. split; [reflexivity|]. exists []. cbn [snd dcells drow_of]. rewrite Er. cbn [map firstn msLag gyear gmonth gday ghour gminute gsecond glat glon].
        split; [repeat constructor|reflexivity].
    - inversion Gt as [|? [g t'] ? G' Kp Gt'|? ? ? Nk Gt']; subst; [|exact (IH clock Y' Ln G M Gt' Mt)].
      exfalso. destruct Kp as ((A & rest & B & _) & Pl). cbn [fst snd dcells drow_of] in *. destruct Lr as (_ & _ & Lr). apply (Lr t'). rewrite Sm.
      unfold shape in Sr. rewrite Sm in Sr. assert (Kr : rkind r' = KG) by (apply (f_equal dkind) in Er'; cbn [dkind drow_of kind_of] in Er', Kq; congruence). rewrite Kr in Sr.
      destruct (rvals r) as [|v1 [|v2 [|v3 [|v4 [|v5 [|v6 [|v7 [|v8 [|v9 [|v10 vr]]]]]]]]]] eqn:Er; try discriminate Sr.
      exists v1, v2, v3, v4, v5, v6, v7, v8, v9. split; [reflexivity|]. cbn [map firstn] in B.
      repeat match goal with H : Forall2 holds (_ :: _) (_ :: _) |- _ => inversion H; clear H; subst end.
      repeat match goal with H : holds (Num _) _ |- _ => inversion H; clear H; subst end.
      eapply plausible_eq; [..|exact Pl]; cbn [msLag gyear gmonth gday ghour gminute gsecond glat glon opteq];
        match goal with H : Some _ = ?x |- opteq ?x _ => rewrite <- H; cbn; reflexivity end.
    - inversion Mt as [|? m ? M' (Fm & Fv) Mt']; subst. destruct (IH clock Y' Ln G M' Gt Mt') as [I1 I2]. split; [exact I1|]. constructor; [|exact I2].
      cbn [fst snd dcells drow_of reading] in *. split; [cbn [fst]; rewrite Fm, Cq; reflexivity|]. cbn [snd].
      assert (Kr : rkind r' = KM) by (apply (f_equal dkind) in Er'; cbn [dkind drow_of kind_of] in Er', Kq; congruence).
      unfold shape in Sr. rewrite Kr, Sm in Sr. rewrite firstn_all2 in Fv by (rewrite map_length; lia).
      clear - Ev Fv. revert Fv. generalize (snd m). induction Ev as [|x y l l' Hxy Ev IH]; intros o Fv; cbn [map] in Fv; inversion Fv as [|? z ? o' Hz Fv']; subst; constructor.
      + inversion Hz; subst. exists x. auto.
      + apply IH. exact Fv'. }
  destruct evs as [|e0 evs0]; [|rewrite <- (Ek ltac:(discriminate)); exact Main].
  split; [exact (proj1 Main)|]. inversion Rn; subst. destruct Main as [_ Main]. inversion Main; subst. constructor.
Qed.

(** * From a file to its tables *)

Lemma noted_raw evs bs ps hs : noted_text evs bs ps hs -> raw_text evs bs.
Proof. intros (rs & last & A & B & C & D & E & _). exists rs, last. auto 6. Qed.

Lemma noted_rows sc buf0 evs bs ps hs rows : reads_decimal sc -> noted_text evs bs ps hs -> parse_retry sc buf0 bs = Some rows -> row_noted evs rows ps hs.
Proof.
  intros Sc (rs & last & -> & Ok & Lo & W & Ln & No) P.
  apply Forall_app in Ok as [Ok1 Ok2]. apply Forall_app in Lo as [Lo1 Lo2]. inversion Ok2 as [|? ? Ok3 _]; subst. inversion Lo2 as [|? ? Lo3 _]; subst.
  eapply means_noted; [exact No|].
  unfold parse_retry in P. destruct (parse_gemfile sc buf0 1560000 _) as [rows'|] eqn:E.
  - injection P as ->. exact (C04_documented_file sc Sc _ _ _ _ _ Ok1 Lo1 Ok3 Lo3 E).
  - exact (C04_documented_file sc Sc _ _ _ _ _ Ok1 Lo1 Ok3 Lo3 P).
Qed.

Lemma read_noted sc buf0 ear f start tau evs bs ps hs L : reads_decimal sc -> f_content f = Some bs -> noted_text evs bs ps hs -> true_clock tau evs ->
  read_raw sc buf0 ear f "0.9" start true = inl L ->
  exists k, track k evs L /\ Forall2 place_tag ps (gps L) /\ Forall2 (meta_row k) hs (metadata L).
Proof.
  intros Sc Ec No T R. destruct (raw_rows sc buf0 evs bs Sc (noted_raw _ _ _ _ No)) as (rows & P & Lg & Sh & K).
  pose proof (noted_rows _ _ _ _ _ _ _ Sc No P) as Rn.
  destruct (begin_kinds _ _ T) as [KD' KM']. rewrite <- K in KD', KM'.
  unfold read_raw in R. rewrite Ec in R.
  assert (V : difference_coded "0.9") by (right; left; reflexivity).
  rewrite (cython_decides sc buf0 ear _ _ bs "0.9" start true rows V P KD' KM') in R.
  destruct (read_with_cython sc buf0 (Some bs) true) as [df|] eqn:Er; [|discriminate].
  assert (Df : df = map drow_of rows).
  { unfold read_with_cython in Er. rewrite P in Er. destruct rows; [discriminate|]. destruct (negb _ && true); [discriminate|]. congruence. }
  subst df. destruct (process ear "0.9" start true (map drow_of rows)) as [out|] eqn:Ep; [|discriminate].
  destruct (gps out) as [|g0 gs] eqn:Eg; [discriminate|].
  assert (Hg : gps out = [] -> true = false) by (rewrite Eg; discriminate).
  destruct (process_ok ear "0.9" start true _ out (893 # 100) eq_refl Ep Hg) as (C & D & M).
  rewrite <- Eg in R. injection R as <-. destruct (table_noted _ _ _ _ _ ps hs V eq_refl Lg Sh (tc_steps _ _ T) C Rn) as (k & Tr & _ & A & B).
  exists k. auto.
Qed.

Lemma track_unique k k' evs L : track k evs L -> track k' evs L -> data L <> [] -> k = k'.
Proof.
  intros [A _] [A' _] N. destruct (data L) as [|p l]; [contradiction|]. inversion A as [|s ? ? ? (H & _) _ E]; subst. rewrite <- E in A'. inversion A' as [|? ? ? ? (H' & _) _]; subst.
  assert (X : inject_Z k == inject_Z k') by lra. apply inject_Z_injective. exact X.
Qed.

Section Loop.
  Variables F S : Type.
  Variable sc : scanner.
  Variable buf0 : bytes.
  Variable ear : bool.
  Variable content : F -> raw_file.
  Variable sn : F -> option S.
  Variable fit3 : list point -> option cubic.
  Variable fit1 : list point -> option Drift.linear.
  Variable evs : F -> list RecordingSpec.event.
  Variable tau : F -> cubic.
  Hypothesis Sc : reads_decimal sc.
  Let drift (L : tables) (_ : F) (r : bool) := calculate_drift fit3 fit1 L r.
  Let readv (f : F) := read_raw sc buf0 ear (content f).

  Definition noted_file (f : F) (n : list place * list health) : Prop :=
    exists bs, f_content (content f) = Some bs /\ noted_text (evs f) bs (fst n) (snd n) /\ true_clock (tau f) (evs f).
  Definition noted_part (f : F) (n : list place * list health) (p : tables * hinfo) : Prop :=
    exists k, track k (evs f) (fst p) /\ Forall2 place_tag (fst n) (gps (fst p)) /\ Forall2 (meta_row k) (snd n) (metadata (fst p)).
  Inductive noted_parts : list F -> list (list place * list health) -> list (tables * hinfo) -> Prop :=
  | np_nil : noted_parts [] [] []
  | np_cons f n p fl ns parts : noted_part f n p -> noted_parts fl ns parts -> noted_parts (f :: fl) (n :: ns) (p :: parts).

  Lemma one_file_noted fn n start row L : noted_file fn n -> one_file F hinfo S readv drift sn "0.9" true fn start = (row, inl L) ->
    exists k, track k (evs fn) L /\ Forall2 place_tag (fst n) (gps L) /\ Forall2 (meta_row k) (snd n) (metadata L).
  Proof.
    intros (bs & Ec & So & T). unfold one_file. rewrite (read_modern readv "0.9" true fn start) by (right; right; left; reflexivity).
    unfold readv. destruct (read_raw sc buf0 ear (content fn) "0.9" start true) as [L0|e] eqn:R; [|discriminate].
    destruct (read_noted _ _ _ _ _ _ _ _ _ _ _ Sc Ec So T R) as (k & Tr & A & B).
    destruct (align start L0) as [L1|] eqn:Al; [|discriminate].
    assert (P1 : exists k, track k (evs fn) L1 /\ Forall2 place_tag (fst n) (gps L1) /\ Forall2 (meta_row k) (snd n) (metadata L1)).
    { unfold align in Al. destruct (data L0) as [|[t v] l]; [discriminate|]. injection Al as <-. destruct (Qltb t start); [|exists k; auto].
      exists (k + 1)%Z. split; [apply track_shift; exact Tr|]. cbn [gps metadata shift]. split.
      - clear - A. induction A as [|p e l m H A IH]; cbn [map]; constructor; [exact H|exact IH].
      - clear - B. induction B as [|h m l l' (H & V) B IH]; cbn [map]; constructor; [|exact IH]. split; [|exact V]. cbn [fst]. rewrite H, inject_Z_plus. change (inject_Z 1) with 1. ring. }
    destruct (discontinuous _); [discriminate|]. destruct (drift L1 fn true); [|discriminate]. destruct (sn fn); [|discriminate].
    intros [= _ <-]. exact P1.
  Qed.

  Lemma noted_is_recording f n : noted_file f n -> is_recording F content evs tau f.
  Proof. intros (bs & A & B & C). exists bs. split; [exact A|]. split; [exact (noted_raw _ _ _ _ B)|exact C]. Qed.

  Lemma loop_noted fns ns : Forall2 noted_file fns ns -> forall start acc out,
    loop F hinfo S readv drift sn "0.9" true start acc fns = Some out -> jproblems out = [] ->
    exists parts, laid F fit3 fit1 evs start fns parts /\ noted_parts fns ns parts /\ lines (jheader out) = lines (jheader acc) ++ map snd parts /\
      jmeta out = jmeta acc ++ concat (map (fun p => metadata (fst p)) parts) /\ jgps out = jgps acc ++ concat (map (fun p => gps (fst p)) parts).
  Proof.
    induction 1 as [|fn n fns ns Nf Ns IH]; intros start acc out E P; pose proof E as E0; cbn [loop] in E.
    - injection E as <-. exists []. split; [constructor|]. split; [constructor|]. cbn [map concat]. rewrite !app_nil_r. auto.
    - destruct (one_file F hinfo S readv drift sn "0.9" true fn start) as [row [L|f]] eqn:O.
      + destruct (one_file_track F S sc buf0 ear content sn fit3 fit1 evs tau Sc fn start row L (noted_is_recording _ _ Nf) O) as (k & h & Tr & Dr & N & Ch & St & Se & Hi).
        destruct (one_file_noted _ _ _ _ _ Nf O) as (k' & No).
        destruct (drift_describes _ _ _ _ _ Dr) as (_ & He & _). rewrite (last_of_data L _ _ N), <- He in E.
        destruct (IH _ _ _ E P) as (parts & La & Np & E1 & E2 & E3). cbn [jheader jmeta jgps] in *.
        exists ((L, h) :: parts). split; [exact (laid_cons F fit3 fit1 evs _ _ _ _ _ _ _ Tr Dr N Ch St Se La)|]. split; [constructor; [exists k'; exact No|exact Np]|].
        rewrite E1, E2, E3. unfold lines. rewrite map_app. cbn [map concat fst snd]. rewrite Hi, <- !app_assoc. auto.
      + exfalso. assert (E' : loop F hinfo S readv drift sn "0.9" true start
          (mkj (jdata acc) (jmeta acc) (jgps acc) (jheader acc ++ [row]) (jproblems acc ++ [message_for F fn f])) fns = Some out).
        { destruct f as [[]| |]; (exact E || discriminate). }
        apply loop_problems in E'; [|exact P]. cbn [jproblems] in E'. destruct (jproblems acc); discriminate.
  Qed.

  (** The true times of the state-of-health readings. *)
  Definition health_tag (hs : list hinfo) (q : F * health) (m : Q * list (option Q)) : Prop :=
    let (f, h) := q in
    Forall2 value_is (snd h) (snd m) /\
    forall a z, begins (samples (evs f)) a -> finishes (samples (evs f)) z -> a + (893 # 100) <= fst h <= z + (893 # 100) ->
      exists l, last_containing hs (fst m) l /\ cubic_at (h_fit l) (fst m) == cubic_at (tau f) (fst h).
  Definition healths (fl : list F) (ns : list (list place * list health)) : list (F * health) :=
    flat_map (fun p => map (fun h => (fst p, h)) (snd (snd p))) (combine fl ns).

  Lemma noted_times start fl ns parts : fits_cubics fit3 -> laid F fit3 fit1 evs start fl parts -> noted_parts fl ns parts ->
    Forall (is_recording F content evs tau) fl -> chain (fun f g => apart (evs f) (evs g)) fl -> forall hs0,
    Forall2 (health_tag (hs0 ++ map snd parts)) (healths fl ns) (concat (map (fun p => metadata (fst p)) parts)).
  Proof.
    intros Fc La Np Rf Ap. pose proof (laid_strict F fit3 fit1 evs _ _ _ La Ap) as Sx. clear Ap. revert ns Np Rf Sx.
    induction La as [|start f fl k L h parts Tr Dr N Ch St Se La IH]; intros ns Np Rf Sx hs0; inversion Np as [|? n ? ? ns' ? (k' & Tr' & _ & M) Np']; subst; [constructor|].
    cbn [fst] in *. pose proof (track_unique _ _ _ _ Tr Tr' N) as <-.
    inversion Rf as [|? ? (bs & _ & _ & T) Rf']; subst. unfold healths. cbn [combine flat_map map concat fst snd]. apply Forall2_app.
    - pose proof (fit_is_clock fit3 fit1 _ _ _ _ _ Fc Tr T N Dr) as Fk. destruct (drift_describes _ _ _ _ _ Dr) as (E1 & E2 & _).
      assert (O : Forall (fun q => h_start (snd q) <= h_end (snd q)) parts).
      { clear - La. induction La as [|? ? ? ? ? ? ? ? Dr N Ch]; constructor; [exact (drift_order fit3 fit1 _ _ Dr N Ch)|assumption]. }
      pose proof (strict_after _ _ O Sx) as Sa. cbn [snd] in Sa.
      assert (Nm : map fst (data L) <> []) by (destruct (data L); [contradiction|discriminate]).
      destruct (begins_exists _ Nm) as (x & Bx). destruct (finishes_exists _ Nm) as (y & Fy).
      destruct (track_starts _ _ _ Tr x Bx) as (a & Ba & Xa). destruct (track_ends _ _ _ Tr y Fy) as (z & Fz & Xz).
      assert (Hs : h_start h = x) by (rewrite E1; destruct (data L) as [|[t v] l]; [contradiction|]; injection Bx as <-; reflexivity).
      assert (He : h_end h = y).
      { rewrite E2. destruct Fy as (l & El). rewrite El. apply last_last. }
      induction M as [|q m l l' (Mq & Vq) M IHm]; cbn [map]; constructor; [|exact IHm]. split; [exact Vq|].
      intros a' z' Ba' Fz' [Ga Gz]. assert (a' = a) as -> by (unfold begins in *; congruence).
      assert (z' = z) as -> by (destruct Fz as (u & Eu); destruct Fz' as (w & Ew); rewrite Eu in Ew; apply app_inj_tail in Ew as [_ Ew]; congruence).
      exists h. split.
      + apply last_containing_pre. exists [], (map snd parts). split; [reflexivity|]. split; [split; [rewrite Hs|rewrite He]; lra|].
        apply Forall_map. eapply Forall_impl; [|exact Sa]. cbn [snd]. intros p Hp [Cp _]. rewrite He in Hp. lra.
      + rewrite Fk. apply cubic_at_proper. rewrite Mq. ring.
    - specialize (IH ns' Np' Rf' (chain_tail _ _ _ Sx) (hs0 ++ [h])). rewrite <- app_assoc in IH. exact IH.
  Qed.

  Lemma noted_places fl ns parts : noted_parts fl ns parts -> Forall2 place_tag (flat_map fst ns) (concat (map (fun p => gps (fst p)) parts)).
  Proof. induction 1 as [|f n p fl ns parts (k & _ & A & _) Np IH]; [constructor|]. cbn [flat_map map concat]. apply Forall2_app; assumption. Qed.
End Loop.
