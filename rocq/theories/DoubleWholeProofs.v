(** Proofs about whole conversions in double precision. *)
From Coq Require Import String.
From Coq Require Import ZArith QArith Qabs List Bool Lia Lqa.
From Verif Require Import Lib Base Process ReadSeveral UnwrapSpec UnwrapProofs Drift Segments SegmentsSpec SegmentsProofs DoubleSpec DoubleSeveral DoubleSeveralSpec DoubleWholeSpec.
Import ListNotations.
Open Scope Q_scope.

(** * The lines of a header span the joined samples *)
Definition within (D : list (Q * option Q)) {S} (row : hrow hinfo S) : Prop :=
  match h_info row with Some h => In (h_start h) (map fst D) /\ In (h_end h) (map fst D) | None => True end.
Lemma within_app D D' {S} (row : hrow hinfo S) : within D row -> within (D ++ D') row.
Proof. unfold within. destruct (h_info row); [|auto]. rewrite map_app. intros [A B]. split; apply in_or_app; left; assumption. Qed.
Lemma within_later D D' {S} (row : hrow hinfo S) : within D row -> within (D' ++ D) row.
Proof. unfold within. destruct (h_info row); [|auto]. rewrite map_app. intros [A B]. split; apply in_or_app; right; assumption. Qed.

Section Lines.
  Variable rnd : Q -> Q.
  Variables F S : Type.
  Variable read_v : F -> string -> Q -> bool -> res tables.
  Variable drift : tables -> F -> bool -> hinfo + failure.
  Variable sn : F -> option S.
  Variable version : string.
  Variable req : bool.
  Hypothesis Sp : spans_samples drift.

  Lemma align_some s L u : align s L = Some u -> data u <> [].
  Proof. unfold align. destruct (data L) as [|[y w] m] eqn:E; [discriminate|]. destruct (Qltb y s); intros X; injection X as X; subst u; [unfold ReadSeveral.shift; cbn [data]|]; rewrite E; discriminate. Qed.
  Lemma dalign_some s L u : dalign rnd s L = Some u -> data u <> [].
  Proof. unfold dalign. destruct (data L) as [|[y w] m] eqn:E; [discriminate|]. destruct (Qltb y s); intros X; injection X as X; subst u; [unfold dshift; cbn [data]|]; rewrite E; discriminate. Qed.

  Lemma one_within fn start : sn fn <> None -> match one_file F hinfo S read_v drift sn version req fn start with (row, inl L) => within (data L) row | (row, inr _) => h_info row = None end.
  Proof.
    intros Hs. unfold one_file. destruct (read F read_v version req fn start) as [L0|]; [|reflexivity]. destruct (align start L0) as [L|] eqn:Ea; [|reflexivity].
    destruct (discontinuous (map fst (data L))); [reflexivity|]. destruct (drift L fn req) as [h|] eqn:Ed; [|reflexivity]. destruct (sn fn) as [s|]; [|congruence].
    unfold within. cbn [h_info]. destruct (_ || _); [|exact I]. exact (Sp L fn req h (align_some _ _ _ Ea) Ed).
  Qed.
  Lemma done_within fn start : sn fn <> None -> match done_file rnd F hinfo S read_v drift sn version req fn start with (row, inl L) => within (data L) row | (row, inr _) => h_info row = None end.
  Proof.
    intros Hs. unfold done_file. destruct (read F read_v version req fn start) as [L0|]; [|reflexivity]. destruct (dalign rnd start L0) as [L|] eqn:Ea; [|reflexivity].
    destruct (ddiscontinuous rnd (map fst (data L))); [reflexivity|]. destruct (drift L fn req) as [h|] eqn:Ed; [|reflexivity]. destruct (sn fn) as [s|]; [|congruence].
    unfold within. cbn [h_info]. destruct (_ || _); [|exact I]. exact (Sp L fn req h (dalign_some _ _ _ Ea) Ed).
  Qed.

  Lemma loop_within fns : Forall (fun fn => sn fn <> None) fns -> forall start acc out, Forall (within (jdata acc)) (jheader acc) ->
    loop F hinfo S read_v drift sn version req start acc fns = Some out -> Forall (within (jdata out)) (jheader out).
  Proof.
    induction 1 as [|fn fns Hf Hs IH]; intros start acc out A E; [injection E as <-; exact A|]. cbn [loop] in E. pose proof (one_within fn start Hf) as W.
    destruct (one_file F hinfo S read_v drift sn version req fn start) as [row [L|f]].
    - apply IH in E; [exact E|]. cbn [jdata jheader]. apply Forall_app. split; [eapply Forall_impl; [|exact A]; intros r; apply within_app|]. constructor; [apply within_later; exact W|constructor].
    - assert (K : Forall (within (jdata acc)) (jheader acc ++ [row])) by (apply Forall_app; split; [exact A|]; constructor; [unfold within; rewrite W; exact I|constructor]).
      destruct f as [e| |]; [destruct e|..]; try discriminate E; (apply IH in E; [exact E|exact K]).
  Qed.
  Lemma dloop_within fns : Forall (fun fn => sn fn <> None) fns -> forall start acc out, Forall (within (jdata acc)) (jheader acc) ->
    dloop rnd F hinfo S read_v drift sn version req start acc fns = Some out -> Forall (within (jdata out)) (jheader out).
  Proof.
    induction 1 as [|fn fns Hf Hs IH]; intros start acc out A E; [injection E as <-; exact A|]. cbn [dloop] in E. pose proof (done_within fn start Hf) as W.
    destruct (done_file rnd F hinfo S read_v drift sn version req fn start) as [row [L|f]].
    - apply IH in E; [exact E|]. cbn [jdata jheader]. apply Forall_app. split; [eapply Forall_impl; [|exact A]; intros r; apply within_app|]. constructor; [apply within_later; exact W|constructor].
    - assert (K : Forall (within (jdata acc)) (jheader acc ++ [row])) by (apply Forall_app; split; [exact A|]; constructor; [unfold within; rewrite W; exact I|constructor]).
      destruct f as [e| |]; [destruct e|..]; try discriminate E; (apply IH in E; [exact E|exact K]).
  Qed.
End Lines.

(** * Order *)
Lemma chain_sep x l : chain (fun x y => x + (1 # 1000) <= y) (x :: l) -> forall y, In y l -> x + (1 # 1000) <= y.
Proof.
  revert x. induction l as [|z l IH]; intros x C y I; [contradiction|]. destruct C as [A C]. destruct I as [<-|I]; [exact A|]. specialize (IH z C y I). lra.
Qed.
Definition close (p : Q * Q) : Prop := Qabs (fst p - snd p) <= tiny.
Lemma pair_order P : Forall close P -> chain (fun x y => x + (1 # 1000) <= y) (map snd P) -> forall p q, In p P -> In q P ->
  (fst p <= fst q <-> snd p <= snd q) /\ (Qabs (snd p - snd q) <= 1 # 2000 -> snd p == snd q).
Proof.
  assert (K : forall p q, close p -> close q -> snd p + (1 # 1000) <= snd q -> fst p < fst q).
  { intros p q A B C. unfold close, tiny in *. apply Qabs_Qle_condition in A as [A1 A2], B as [B1 B2]. lra. }
  induction P as [|r P IH]; intros F C p q Ip Iq; [contradiction|]. apply Forall_cons_iff in F as [Fr F]. pose proof F as F'. rewrite Forall_forall in F'.
  pose proof (chain_sep (snd r) (map snd P) C) as Cr. assert (C' : chain (fun x y => x + (1 # 1000) <= y) (map snd P)) by (destruct P; [exact I|exact (proj2 C)]).
  destruct Ip as [<-|Ip], Iq as [<-|Iq].
  - split; [split; intros; apply Qle_refl|reflexivity].
  - pose proof (Cr _ (in_map snd _ _ Iq)) as X. pose proof (K r q Fr (F' q Iq) X) as Y. split; [split; intros; lra|]. intros B. apply Qabs_Qle_condition in B as [B1 B2]. lra.
  - pose proof (Cr _ (in_map snd _ _ Ip)) as X. pose proof (K r p Fr (F' p Ip) X) as Y. split; [split; intros; lra|]. intros B. apply Qabs_Qle_condition in B as [B1 B2]. lra.
  - exact (IH F C' p q Ip Iq).
Qed.

(** * Times *)
Section Times.
  Variable S : Type.
  Variable eps : Q.
  Variables D' D : list (Q * option Q).
  Variables H' H : list (hrow hinfo S).
  Hypothesis Nd : near_data tiny D' D.
  Hypothesis Fw : forward (map fst D).
  Hypothesis Al : Forall2 (alike_line (alike_fit eps)) H' H.
  Hypothesis W' : Forall (within D') H'.
  Hypothesis W : Forall (within D) H.

  Definition pairs : list (Q * Q) := combine (map fst D') (map fst D).
  Lemma pairs_facts : Forall close pairs /\ map fst pairs = map fst D' /\ map snd pairs = map fst D.
  Proof.
    unfold pairs. clear - Nd. unfold near_data in Nd. revert Nd. generalize D', D. intros a c N. induction N as [|p q l m [A _] F (I1 & I2 & I3)]; cbn [map combine].
    { split; [apply Forall_nil|]. split; reflexivity. }
    split; [apply Forall_cons; [exact A|exact I1]|]. split; cbn [fst snd]; congruence.
  Qed.
  Lemma partner s' s : In s' (map fst D') -> In s (map fst D) -> Qabs (s' - s) <= tiny -> exists y, In (s', y) pairs /\ y == s.
  Proof.
    intros A B E. destruct pairs_facts as (C & E1 & E2). rewrite <- E1 in A. rewrite <- E2 in B. apply in_map_iff in A as ((a & y) & A1 & A2), B as ((x2 & c) & B1 & B2). cbn [fst snd] in *. subst a c.
    exists y. split; [exact A2|]. destruct Fw as [Fc _]. rewrite <- E2 in Fc. apply (proj2 (pair_order pairs C Fc (s', y) (x2, s) A2 B2)). cbn [snd].
    rewrite Forall_forall in C. pose proof (C _ A2) as X. unfold close, tiny in *. cbn [fst snd] in X. apply Qabs_Qle_condition in X as [X1 X2], E as [E3 E4]. apply Qabs_Qle_condition. split; lra.
  Qed.
  Lemma contains_alike (r' r : hrow hinfo S) x' x : alike_line (alike_fit eps) r' r -> within D' r' -> within D r -> In (x', x) pairs -> (contains (line r') x' <-> contains (line r) x).
  Proof.
    intros (_ & _ & A) Wr' Wr I. destruct pairs_facts as (C & E1 & E2). destruct Fw as [Fc Fp]. pose proof Fc as Fc'. rewrite <- E2 in Fc'. unfold within, line in *.
    destruct (h_info r') as [h'|], (h_info r) as [h|]; try contradiction.
    - destruct A as (S1 & S2 & _). destruct Wr' as [A1 A2], Wr as [B1 B2]. destruct (partner _ _ A1 B1 S1) as (y1 & P1 & Q1). destruct (partner _ _ A2 B2 S2) as (y2 & P2 & Q2).
      destruct (pair_order pairs C Fc' _ _ P1 I) as [O1 _]. destruct (pair_order pairs C Fc' _ _ I P2) as [O2 _]. cbn [fst snd] in *. unfold contains. rewrite O1, O2, Q1, Q2. reflexivity.
    - assert (Ix : In x (map fst D)) by (rewrite <- E2; exact (in_map snd _ _ I)). rewrite Forall_forall in C, Fp. specialize (Fp x Ix). pose proof (C _ I) as X. unfold close, tiny in X. cbn [fst snd] in X.
      apply Qabs_Qle_condition in X as [X1 X2]. unfold contains, blank. cbn [h_start h_end]. split; intros [K1 K2]; exfalso; lra.
  Qed.
  Lemma segments_alike x' x : In (x', x) pairs -> 0 <= eps -> times_within eps (apply_segments H' x') (apply_segments H x).
  Proof.
    intros I Pe. unfold apply_segments. assert (A0 : times_within eps None None) by exact Logic.I. revert A0. generalize (@None Q) at 1 3. generalize (@None Q). revert W' W. induction Al as [|r' r H1 H2 A Al' IH]; intros V' V y y' Hy; [exact Hy|]. apply Forall_cons_iff in V' as [Wr' V'], V as [Wr V]. cbn [fold_left]. apply (IH Al' V' V). clear IH Al' V V'.
    unfold apply_row. cbv zeta. pose proof (contains_alike r' r x' x A Wr' Wr I) as Ca. rewrite <- !in_span in Ca.
    destruct (Qle_bool (h_start (line r')) x' && Qle_bool x' (h_end (line r'))) eqn:E', (Qle_bool (h_start (line r)) x && Qle_bool x (h_end (line r))) eqn:E; try (exfalso; intuition congruence); [|exact Hy].
    cbn [times_within]. rewrite !apply_fit_cubic. apply in_span in E. destruct pairs_facts as (C & E1 & E2). rewrite Forall_forall in C. specialize (C _ I). destruct A as (_ & _ & A). unfold line in *.
    destruct (h_info r') as [h'|], (h_info r) as [h|]; try contradiction.
    - apply A; [exact E|exact C].
    - unfold blank, cubic_at. cbn [h_fit c0 c1 c2 c3]. setoid_replace (0 + 0 * x' + 0 * x' ^ 2 + 0 * x' ^ 3 - (0 + 0 * x + 0 * x ^ 2 + 0 * x ^ 3)) with 0 by ring. exact Pe.
  Qed.
End Times.
