(** Proofs about recordings with pauses. *)
From Coq Require Import String.
From Coq Require Import ZArith QArith Qabs Qround List Bool Lia Lqa.
From Verif Require Import Base Lib UnwrapSpec UnwrapProofs Scan Parser ParserProofs ParserProps Process ProcessSpec ProcessProofs
  ReadSeveral ReadSeveralSpec ReadSeveralProofs ReadSeveralProps Drift DriftSpec DriftProofs DriftProps Segments SegmentsSpec SegmentsProofs
  Interp InterpSpec InterpProofs ParserSpec Select Fields Breaks BreaksSpec BreaksProofs BreaksProps Block BlockSpec BlockProofs RecordingSpec RecordingProofs RecordingTotal CardSpec CardProofs CardProps PausesSpec.
Import ListNotations.
Open Scope Q_scope.

(** * Runs *)

Lemma inside {A} (R : A -> A -> Prop) (runs : list (list A)) : forall l m r, concat runs = l ++ m ++ r -> m <> [] -> Forall (fun x => x <> []) runs ->
  chain (fun u w => forall a x y c, u = a ++ [x] -> w = y :: c -> ~ R x y) runs -> chain R m ->
  exists run l' r', In run runs /\ run = l' ++ m ++ r'.
Proof.
  induction runs as [|u runs IH]; intros l m r E Nm F C Cm.
  - symmetry in E. apply app_eq_nil in E as [_ E]. apply app_eq_nil in E as [E _]. contradiction.
  - inversion F as [|? ? Nu F']; subst. cbn [concat] in E. pose proof (chain_tail _ _ _ C) as C'.
    destruct (app_eq_app _ _ _ _ E) as (z & [[E1 E2]|[E1 E2]]).
    + (* [l] ends within [u] *)
      symmetry in E2. destruct (app_eq_app _ _ _ _ E2) as (y & [[E3 E4]|[E3 E4]]).
      * exists u, l, y. split; [left; reflexivity|]. rewrite E1, E3. rewrite <- ?app_assoc. reflexivity.
      * (* [m] goes on *)
        destruct y as [|b y].
        { rewrite app_nil_r in E3. exists u, l, []. split; [left; reflexivity|]. rewrite app_nil_r, E1, E3. reflexivity. }
        destruct z as [|a z].
        { rewrite app_nil_r in E1. subst u. cbn [app] in E3. destruct (IH [] m r) as (run & l' & r' & I & H); [cbn [app]; rewrite E4, E3; reflexivity|exact Nm|exact F'|exact C'|exact Cm|].
          exists run, l', r'. split; [right; exact I|exact H]. }
        exfalso. destruct (exists_last (l := a :: z)) as (z' & x & Ez); [discriminate|].
        destruct runs as [|w runs]; [discriminate E4|]. pose proof (Forall_inv F') as Nw. cbn beta in Nw. destruct w as [|b' w]; [contradiction|].
        cbn [concat app] in E4. injection E4 as Eb _. subst b'. destruct C as [C _].
        apply (C (l ++ z') x b w); [rewrite <- app_assoc, <- Ez; exact E1|reflexivity|].
        rewrite E3, Ez, <- app_assoc in Cm. cbn [app] in Cm. clear - Cm. induction z' as [|q z' IHz]; cbn [app] in *; [exact (proj1 Cm)|]. apply IHz. exact (chain_tail _ _ _ Cm).
    + (* [l] goes beyond [u] *)
      destruct (IH z m r) as (run & l' & r' & I & H); auto. exists run, l', r'. split; [right; exact I|exact H].
Qed.

Lemma in_one {A} (ls : list (list A)) l l' x : NoDup (concat ls) -> In l ls -> In l' ls -> In x l -> In x l' -> l = l'.
Proof.
  induction ls as [|u ls IH]; intros N I I' X X'; [destruct I|]. cbn [concat] in N.
  assert (D : forall w, In w ls -> In x w -> In x u -> False).
  { intros w W Xw Xu. clear - N W Xw Xu. induction u as [|q u IHu]; [destruct Xu|]. cbn [app] in N. inversion N as [|? ? N1 N2]; subst. destruct Xu as [->|Xu]; [|exact (IHu N2 Xu)].
    apply N1. apply in_or_app. right. apply in_concat. eauto. }
  assert (N' : NoDup (concat ls)) by (clear - N; induction u as [|q u IHu]; [exact N|]; inversion N; subst; auto).
  destruct I as [<-|I], I' as [<-|I']; [reflexivity|exfalso; eauto|exfalso; eauto|auto].
Qed.
Lemma lt_nodup l : chain Qlt l -> NoDup l.
Proof.
  induction l as [|x l IH]; intros C; [constructor|]. constructor; [|exact (IH (chain_tail _ _ _ C))]. intros I.
  assert (G : forall l x, chain Qlt (x :: l) -> forall y, In y l -> x < y).
  { clear. induction l as [|z l IH]; intros x C y J; [contradiction|]. destruct C as [A C]. destruct J as [<-|J]; [exact A|]. specialize (IH z C y J). lra. }
  specialize (G l x C x I). lra.
Qed.

Lemma run_breaks ts runs : runs_of ts runs ->
  Forall (fun x => x <> []) runs /\ chain (fun u w => forall a x y c, u = a ++ [x] -> w = y :: c -> ~ follows x y) runs.
Proof.
  intros (E & a & z & _ & _ & F & C). split.
  - eapply Forall_impl; [|exact F]. cbn. tauto.
  - eapply chain_weaken; [|exact C]. intros u w H p x y c -> -> [A B].
    destruct (H x y) as [[K|K] _]; [exists p; reflexivity|reflexivity|lra|lra].
Qed.

(** A part without a gap lies in one run. *)
Lemma run_around ts runs l m r : runs_of ts runs -> ts = l ++ m ++ r -> m <> [] -> chain follows m ->
  exists run l' r', In run runs /\ run = l' ++ m ++ r'.
Proof.
  intros Ru E Nm C. destruct (run_breaks _ _ Ru) as [F B]. destruct Ru as (Ec & _). rewrite <- Ec in E.
  exact (inside follows runs l m r E Nm F B C).
Qed.

(** Every run begins with a whole file. *)
Lemma run_whole W runs run : runs_of (concat W) runs -> chain Qlt (concat W) -> Forall (fun w => w <> [] /\ chain follows w) W -> In run runs ->
  exists w run', In w W /\ run = w ++ run'.
Proof.
  intros Ru C F I. pose proof (lt_nodup _ C) as N. destruct (run_breaks _ _ Ru) as [Fn _]. rewrite Forall_forall in Fn.
  pose proof (Fn run I) as Nr. destruct run as [|x run]; [contradiction|].
  assert (Ix : In x (concat W)).
  { destruct Ru as (<- & _). apply in_concat. exists (x :: run). split; [exact I|left; reflexivity]. }
  apply in_concat in Ix as (w & Iw & Ix). rewrite Forall_forall in F. destruct (F w Iw) as [Nw Cw].
  destruct (in_split _ _ Iw) as (W1 & W2 & EW). pose proof Ru as (Ec & _).
  destruct (run_around _ _ (concat W1) w (concat W2) Ru) as (run2 & l' & r' & I2 & E2); [rewrite EW, concat_app; reflexivity|exact Nw|exact Cw|].
  rewrite <- Ec in N.
  assert (X : x :: run = run2).
  { apply (in_one runs _ _ x N I I2); [left; reflexivity|]. rewrite E2. apply in_or_app. right. apply in_or_app. left. exact Ix. }
  exists w, r'. split; [exact Iw|]. rewrite X, E2. destruct l' as [|q l']; [reflexivity|exfalso].
  rewrite <- X in E2. injection E2 as <- E2.
  assert (Nx : NoDup (x :: run)).
  { clear - N I. induction runs as [|u runs IH]; [destruct I|]. cbn [concat] in N. destruct I as [->|I].
    - clear IH. revert N. generalize (x :: run). intros l N. induction l as [|a l IH]; [constructor|]. cbn [app] in N. inversion N as [|? ? N1 N2]; subst. constructor; [intros J; apply N1; apply in_or_app; auto|auto].
    - apply IH; [exact I|]. clear - N. induction u as [|a u IHu]; [exact N|]. inversion N; subst. auto. }
  inversion Nx as [|? ? Nx1 _]; subst. apply Nx1. apply in_or_app. right. apply in_or_app. left. exact Ix.
Qed.

Lemma concat_Qeq W : forall ts, Forall2 Qeq (concat W) ts -> exists W', concat W' = ts /\ Forall2 (Forall2 Qeq) W W'.
Proof.
  induction W as [|w W IH]; intros ts F; cbn [concat] in F.
  - inversion F; subst. exists []. split; [reflexivity|constructor].
  - apply Forall2_app_inv_l in F as (t1 & t2 & F1 & F2 & ->). destruct (IH t2 F2) as (W' & <- & G). exists (t1 :: W'). split; [reflexivity|constructor; assumption].
Qed.
Lemma chain_Qeq_follows l m : Forall2 Qeq l m -> chain follows l -> chain follows m.
Proof.
  intros F. induction F as [|x y l m E F IH]; [auto|]. intros C. specialize (IH (chain_tail _ _ _ C)). destruct F as [|x' y' l m E' F]; [exact I|].
  destruct C as [A _]. split; [unfold follows in *; rewrite <- E, <- E'; exact A|exact IH].
Qed.

(** No run crosses a pause. *)
Lemma run_pause W runs run s e x y : runs_of (concat W) runs -> chain Qlt (concat W) -> Forall (fun w => (2 <= length w)%nat /\ chain follows w) W -> In run runs ->
  begins run s -> finishes run e -> (forall t, In t (concat W) -> t <= x \/ y <= t) -> (25 # 1000) < y - x -> s <= x -> y <= e -> False.
Proof.
  intros Ru C F I Bs Fe Gap L Sx Ye. destruct Ru as (Ec & a & z & Ba & Fz & Fr & _).
  rewrite Forall_forall in Fr. destruct (Fr run I) as [Nr Cr].
  assert (Sub : exists l r, concat W = l ++ run ++ r).
  { destruct (in_split _ _ I) as (R1 & R2 & ER). exists (concat R1), (concat R2). rewrite <- Ec, ER, concat_app. reflexivity. }
  destruct Sub as (l & r & Es).
  (* two consecutive times around the pause *)
  assert (X : exists p u w q, run = p ++ u :: w :: q /\ u <= x /\ y <= w).
  { assert (G : forall t, In t run -> t <= x \/ y <= t) by (intros t It; apply Gap; rewrite Es; apply in_or_app; right; apply in_or_app; auto).
    clear - Bs Fe Sx Ye G L. revert s Bs Sx. induction run as [|t run IH]; intros s Bs Sx; [discriminate|]. injection Bs as ->. destruct run as [|w q].
    - destruct Fe as (l & E). destruct l as [|? [|]]; try discriminate. injection E as <-. lra.
    - destruct (G w (or_intror (or_introl eq_refl))) as [K|K].
      + assert (Fe' : finishes (w :: q) e) by (destruct Fe as (l & E); destruct l as [|? l]; [discriminate|]; injection E as _ E; exists l; exact E).
        destruct (IH Fe' (fun t It => G t (or_intror It)) w eq_refl K) as (p & u & w' & q' & E & H). exists (s :: p), u, w', q'. rewrite E. split; [reflexivity|exact H].
      + exists [], s, w, q. auto. }
  destruct X as (p & u & w & q & Er & Ux & Wy).
  assert (Nb : ~ break a z u w).
  { rewrite Er in Cr. clear - Cr. induction p as [|t p IH]; cbn [app] in Cr; [exact (proj1 Cr)|]. apply IH. exact (chain_tail _ _ _ Cr). }
  assert (Nf : ~ follows u w) by (intros [_ K]; lra).
  assert (Eq : concat W = (l ++ p) ++ u :: w :: (q ++ r)) by (rewrite Es, Er, <- !app_assoc; reflexivity).
  (* they belong to different files *)
  assert (Sp : forall W pre post, Forall (fun w => (2 <= length w)%nat /\ chain follows w) W -> concat W = pre ++ u :: w :: post -> pre <> [] /\ post <> []).
  { clear - Nf. induction W as [|v W IH]; intros pre post F E; [destruct pre; discriminate|]. inversion F as [|? ? [L2 Cv] F']; subst. cbn [concat] in E.
    destruct (app_eq_app _ _ _ _ E) as (m & [[E1 E2]|[E1 E2]]).
    - destruct m as [|m0 [|m1 m]].
      + cbn [app] in E2. symmetry in E2. destruct (IH [] post F' E2) as [K _]. contradiction.
      + cbn [app] in E2. injection E2 as <- E2. split.
        * intros ->. rewrite E1 in L2. cbn in L2. lia.
        * intros ->. destruct W as [|v' W]; [discriminate|]. inversion F' as [|? ? [L2' _] _]; subst. cbn [concat] in E2. destruct v' as [|? [|? v']]; cbn in L2'; try lia. discriminate.
      + exfalso. cbn [app] in E2. injection E2 as <- <- E2. rewrite E1 in Cv. clear - Cv Nf. induction pre as [|t pre IHp]; cbn [app] in Cv; [destruct Cv as [K _]; exact (Nf K)|]. apply IHp. exact (chain_tail _ _ _ Cv).
    - destruct (IH m post F' E2) as [K1 K2]. split; [intros X; rewrite E1 in X; apply app_eq_nil in X as [_ X]; exact (K1 X)|exact K2]. }
  destruct (Sp W _ _ F Eq) as [P1 P2]. rewrite Eq in C, Ba, Fz.
  assert (Gt : forall l t, chain Qlt (t :: l) -> forall y, In y l -> t < y).
  { clear. induction l as [|k l IH]; intros x C y J; [contradiction|]. destruct C as [A C]. destruct J as [<-|J]; [exact A|]. specialize (IH k C y J). lra. }
  apply Nb. split; [left; lra|]. split.
  - destruct (l ++ p) as [|a' l']; [contradiction|]. injection Ba as ->. apply (Gt _ _ C). apply in_elt.
  - destruct (exists_last P2) as (q' & z' & Ez). rewrite Ez in *.
    assert (z = z').
    { destruct Fz as (k & Ek). change (u :: w :: q' ++ [z']) with ((u :: w :: q') ++ [z']) in Ek. rewrite app_assoc in Ek. apply app_inj_tail in Ek as [_ ->]. reflexivity. }
    subst z'. clear - C Gt. induction (l ++ p) as [|t k IH]; cbn [app] in C.
    + destruct C as [_ C]. apply (Gt _ _ C). apply in_elt.
    + apply IH. exact (chain_tail _ _ _ C).
Qed.

(** * Sound fixes *)

Lemma sound_raw evs bs : sound_text evs bs -> raw_text evs bs.
Proof. intros (rs & last & A & B & C & D & E & _). exists rs, last. auto 6. Qed.

(** A tag of 2015 or later, off the equator and the prime meridian. *)
Definition placed (e : tag) : Prop :=
  (forall y, gyear (fst e) = Some y -> 2015 <= y) /\ (forall x, glat (fst e) = Some x -> ~ x == 0) /\ (forall x, glon (fst e) = Some x -> ~ x == 0).

Definition sound_row (r : row) : Prop :=
  rkind r = KG -> forall t, row_fix (rvals r) t -> exists v1 v2 v3 v4 v5 v6 v7 v8 v9, rvals r = [v1; v2; v3; v4; v5; v6; v7; v8; v9] /\
    2015 <= v2 /\ ~ v8 == 0 /\ ~ v9 == 0.

Lemma means_sound c rs rows : means c rs rows -> Forall sound_line rs -> Forall sound_row rows.
Proof.
  induction 1 as [c|c ms a t rs r rows D M IH|c f fs t rs r rows D M IH|c f fs t rs r rows D M IH|c dev diff t rs r rows m R D M IH|c diff t rs r rows m R D M IH|c l rs rows M IH];
    intros F; [constructor|..]; inversion F as [|? ? S F']; subst; specialize (IH F'); try exact IH; constructor; try exact IH; destruct D as (D1 & _ & D3); intros K; try congruence.
  intros t' Fx. apply (says_row _ _ _ D3) in Fx. destruct (S t' Fx) as (lag & y & mo & d & h & mi & s & la & lo & -> & Y & La & Lo).
  cbn [map] in D3. destruct (rvals r) as [|v1 [|v2 [|v3 [|v4 [|v5 [|v6 [|v7 [|v8 [|v9 [|v10 vr]]]]]]]]]]; try (apply Forall2_length_eq in D3; discriminate).
  exists v1, v2, v3, v4, v5, v6, v7, v8, v9. split; [reflexivity|].
  repeat match goal with H : Forall2 Qeq (_ :: _) (_ :: _) |- _ => inversion H; clear H; subst end.
  repeat match goal with H : ?v == field_value _ |- _ => rewrite <- H in * ; clear H end. auto.
Qed.

Lemma sound_rows sc buf0 evs bs rows : reads_decimal sc -> sound_text evs bs -> parse_retry sc buf0 bs = Some rows -> Forall sound_row rows.
Proof.
  intros Sc (rs & last & -> & Ok & Lo & W & Ln & So) P. pose proof (kinds_written _ _ _ W Ok) as K.
  apply Forall_app in Ok as [Ok1 Ok2]. apply Forall_app in Lo as [Lo1 Lo2]. inversion Ok2 as [|? ? Ok3 _]; subst. inversion Lo2 as [|? ? Lo3 _]; subst.
  eapply means_sound; [|exact So].
  unfold parse_retry in P. destruct (parse_gemfile sc buf0 1560000 _) as [rows'|] eqn:E.
  - injection P as ->. exact (C04_documented_file sc Sc _ _ _ _ _ Ok1 Lo1 Ok3 Lo3 E).
  - exact (C04_documented_file sc Sc _ _ _ _ _ Ok1 Lo1 Ok3 Lo3 P).
Qed.

Lemma read_placed sc buf0 ear f start tau evs bs L : reads_decimal sc -> f_content f = Some bs -> sound_text evs bs -> true_clock tau evs ->
  read_raw sc buf0 ear f "0.9" start true = inl L -> Forall placed (gps L).
Proof.
  intros Sc Ec So T R. destruct (raw_rows sc buf0 evs bs Sc (sound_raw _ _ So)) as (rows & P & Lg & Sh & K).
  pose proof (sound_rows _ _ _ _ _ Sc So P) as Sr.
  destruct (begin_kinds _ _ T) as [KD' KM']. rewrite <- K in KD', KM'.
  unfold read_raw in R. rewrite Ec in R.
  assert (V : difference_coded "0.9") by (right; left; reflexivity).
  rewrite (cython_decides sc buf0 ear _ _ bs "0.9" start true rows V P KD' KM') in R.
  destruct (read_with_cython sc buf0 (Some bs) true) as [df|] eqn:Er; [|discriminate].
  assert (Df : df = map drow_of rows).
  { unfold read_with_cython in Er. rewrite P in Er. destruct rows; [discriminate|]. destruct (negb _ && true); [discriminate|]. congruence. }
  subst df. destruct (process ear "0.9" start true (map drow_of rows)) as [out|] eqn:Ep; [|discriminate].
  destruct (gps out) as [|g0 gs] eqn:Eg; [discriminate|].
  assert (Hg : gps out = [] -> true = false) by (rewrite Eg; discriminate).
  destruct (process_ok ear "0.9" start true _ out (893 # 100) eq_refl Ep Hg) as (C & _ & _).
  rewrite <- Eg in R. injection R as <-. cbn [gps].
  destruct C as (r & clock & _ & _ & _ & _ & C). cbv zeta in C. destruct C as (_ & _ & _ & [Gt|(_ & X & _)]); [|discriminate]. cbn [gps] in Gt.
  assert (Y : Forall (fun p => exists r, snd p = drow_of r /\ sound_row r /\ shape r) (combine clock (map drow_of rows))).
  { clear - Sr Sh. revert clock. induction Sr as [|r rows H Sr IH]; intros [|c clock]; cbn [map combine]; try constructor; inversion Sh; subst.
    - exists r. auto.
    - apply IH. assumption. }
  clear - Y Gt. revert Gt. generalize (gps out). induction Y as [|p l (r & E & So & Sh) Y IH]; intros G Gt; unfold of_kind in *; cbn [filter] in Gt.
  { inversion Gt; subst. constructor. }
  destruct (dkind (snd p)) eqn:Kd; try (apply IH; exact Gt).
  assert (Kr : rkind r = KG) by (rewrite E in Kd; exact Kd).
  inversion Gt as [|? [g t'] ? m Kp Gt'|? ? ? Nk Gt']; subst; [|apply IH; exact Gt']. constructor; [|apply IH; exact Gt'].
  destruct Kp as ((A & rest & B & _) & Pl). cbn [fst snd] in *. rewrite E in B. cbn [dcells drow_of] in B. unfold shape in Sh. rewrite Kr in Sh.
  destruct (rvals r) as [|v1 [|v2 [|v3 [|v4 [|v5 [|v6 [|v7 [|v8 [|v9 [|v10 vr]]]]]]]]]] eqn:Er; try discriminate Sh.
  cbn [map firstn] in B.
  repeat match goal with H : Forall2 holds (_ :: _) (_ :: _) |- _ => inversion H; clear H; subst end.
  repeat match goal with H : holds (Num _) _ |- _ => inversion H; clear H; subst end.
  assert (Rf : row_fix (rvals r) t').
  { rewrite Er. exists v1, v2, v3, v4, v5, v6, v7, v8, v9. split; [reflexivity|].
    eapply plausible_eq; [..|exact Pl]; cbn [msLag gyear gmonth gday ghour gminute gsecond glat glon opteq];
      match goal with H : Some _ = ?x |- opteq ?x _ => rewrite <- H; cbn; reflexivity end. }
  destruct (So Kr t' Rf) as (w1 & w2 & w3 & w4 & w5 & w6 & w7 & w8 & w9 & Ew & Y2 & La & Lo). rewrite Er in Ew. injection Ew as <- <- <- <- <- <- <- <- <-.
  repeat split; cbn [fst]; congruence.
Qed.

Section Loop.
  Variables F S : Type.
  Variable sc : scanner.
  Variable buf0 : bytes.
  Variable ear : bool.
  Variable content : F -> raw_file.
  Variable sn : F -> option S.
  Variable fit3 : list point -> option cubic.
  Variable fit1 : list point -> option Drift.linear.
  Variable evs : F -> list RecordingSpec.event.
  Variable tau : F -> cubic.
  Hypothesis Sc : reads_decimal sc.
  Let drift (L : tables) (_ : F) (r : bool) := calculate_drift fit3 fit1 L r.
  Let readv (f : F) := read_raw sc buf0 ear (content f).

  (** The fixes in the file are sound. *)
  Definition sound_file (f : F) : Prop := exists bs, f_content (content f) = Some bs /\ sound_text (evs f) bs /\ true_clock (tau f) (evs f).

  Lemma one_file_placed fn start row L : sound_file fn -> one_file F hinfo S readv drift sn "0.9" true fn start = (row, inl L) -> Forall placed (gps L).
  Proof.
    intros (bs & Ec & So & T). unfold one_file. rewrite (read_modern readv "0.9" true fn start) by (right; right; left; reflexivity).
    unfold readv. destruct (read_raw sc buf0 ear (content fn) "0.9" start true) as [L0|e] eqn:R; [|discriminate].
    pose proof (read_placed _ _ _ _ _ _ _ _ _ Sc Ec So T R) as P0.
    destruct (align start L0) as [L1|] eqn:A; [|discriminate].
    assert (P1 : Forall placed (gps L1)).
    { unfold align in A. destruct (data L0) as [|[t v] l]; [discriminate|]. injection A as <-. destruct (Qltb t start); [|exact P0].
      cbn [gps shift]. apply Forall_map. exact P0. }
    destruct (discontinuous _); [discriminate|]. destruct (drift L1 fn true); [|discriminate]. destruct (sn fn); [|discriminate].
    intros [= _ <-]. exact P1.
  Qed.
  Lemma loop_placed fns : Forall sound_file fns -> forall start acc out, loop F hinfo S readv drift sn "0.9" true start acc fns = Some out ->
    Forall placed (jgps acc) -> Forall placed (jgps out).
  Proof.
    induction 1 as [|fn fns Sf Fs IH]; intros start acc out E D; cbn [loop] in E; [injection E as <-; exact D|].
    destruct (one_file F hinfo S readv drift sn "0.9" true fn start) as [h r] eqn:O. destruct r as [L|f].
    - apply IH in E; [exact E|]. cbn [jgps]. apply Forall_app. split; [exact D|exact (one_file_placed _ _ _ _ Sf O)].
    - destruct f as [[]| |]; try discriminate; apply IH in E; assumption.
  Qed.
End Loop.
