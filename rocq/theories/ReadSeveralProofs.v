From Coq Require Import String.
From Coq Require Import ZArith QArith List Bool Lia Lqa.
From Verif Require Import Lib Base Parser Unwrap UnwrapSpec UnwrapProofs Process ProcessSpec ProcessProofs ReadSeveral ReadSeveralSpec.
Import ListNotations.
Open Scope Z_scope.

Lemma discontinuous_false ts : discontinuous ts = false <-> chain good_step ts.
Proof.
  induction ts as [|x [|y r] IH]; [simpl; tauto|simpl; tauto|].
  change (discontinuous (x :: y :: r)) with (Qltb (y - x) 0 || Qltb 1000 (y - x) || discontinuous (y :: r)).
  change (chain good_step (x :: y :: r)) with (good_step x y /\ chain good_step (y :: r)).
  rewrite !orb_false_iff, IH. unfold good_step.
  split.
  - intros [[A B] C]. apply Qltb_ge in A. apply Qltb_ge in B. auto.
  - intros [[A B] C]. split; [split|exact C]; apply Qltb_ge; assumption.
Qed.

Lemma last_of_snoc l t v d : last_of d (l ++ [(t, v)]) = t.
Proof. revert d. induction l as [|[a w] l IH]; intros d; simpl; auto. Qed.

Lemma ends_at_exists L : data L <> [] -> exists t, ends_at L t.
Proof.
  intros N. destruct (exists_last N) as (l & (t & v) & E). exists t, l, v. exact E.
Qed.

Lemma last_of_ends L l d t : ends_at L t -> last_of d (l ++ data L) = t.
Proof. intros (m & v & ->). rewrite app_assoc. apply last_of_snoc. Qed.

Lemma shift_ahead c L : ahead c L (shift c L).
Proof.
  unfold ahead, shift. cbn [data metadata gps]. split; [|split].
  - induction (data L) as [|p l IH]; constructor; [split; reflexivity|exact IH].
  - induction (metadata L) as [|p l IH]; constructor; [split; reflexivity|exact IH].
  - induction (gps L) as [|p l IH]; constructor; [|exact IH]. cbn.
    split; [reflexivity|]. repeat split.
Qed.

Section L.
  Variables F H S : Type.
  Variable read_v : F -> string -> Q -> bool -> res tables.
  Variable drift : tables -> F -> bool -> H + failure.
  Variable sn : F -> option S.
  Variable version : string.
  Variable req : bool.
  Let rd := read F read_v version req.
  Let dr := fun L fn => drift L fn req.

  Lemma align_content fn start L0 L : rd fn start = inl L0 -> align start L0 = Some L ->
    content rd start fn L /\ data L <> [].
  Proof.
    intros R A. unfold align in A. destruct (data L0) as [|[t v] l] eqn:E; [discriminate|]. injection A as <-.
    destruct (Qltb t start) eqn:Q.
    - apply Qltb_lt in Q. split.
      + exists L0, t, v, l. split; [exact R|]. split; [exact E|]. right. split; [exact Q|]. apply shift_ahead.
      + unfold shift. cbn [data]. rewrite E. discriminate.
    - apply Qltb_ge in Q. split.
      + exists L0, t, v, l. auto.
      + rewrite E. discriminate.
  Qed.

  Lemma one_file_good fn start h L : one_file F H S read_v drift sn version req fn start = (h, inl L) ->
    exists hi s, accepted rd dr sn start fn L hi s /\ data L <> [] /\ h_sn h = Some s /\ h_num h = Some (length (data L)) /\
      (req = false \/ gps L <> [] -> h_info h = Some hi).
  Proof.
    unfold one_file. fold rd. intros E. destruct (rd fn start) as [L0|e] eqn:R; [|discriminate].
    destruct (align start L0) as [L1|] eqn:A; [|discriminate].
    destruct (discontinuous (map fst (data L1))) eqn:D; [discriminate|].
    destruct (drift L1 fn req) as [hi|f] eqn:Dr; [|discriminate].
    destruct (sn fn) as [s|] eqn:Sn; [|discriminate]. injection E as <- <-.
    destruct (align_content _ _ _ _ R A) as [C N].
    exists hi, s. split; [split; [exact C|split; [apply discontinuous_false; exact D|split; [exact Dr|exact Sn]]]|].
    split; [exact N|]. split; [reflexivity|]. split; [reflexivity|].
    cbn [h_info]. intros [->|G]; [reflexivity|]. destruct (gps L1); [contradiction|]. rewrite orb_true_r. reflexivity.
  Qed.

  Lemma one_file_bad fn start h f : one_file F H S read_v drift sn version req fn start = (h, inr f) -> f <> Exn Interrupt ->
    rejected rd dr sn start fn (message_for F fn f) /\ h_sn h = None.
  Proof.
    unfold one_file. fold rd. intros E NI. destruct (rd fn start) as [L0|e] eqn:R.
    2:{ injection E as <- <-. split; [|reflexivity].
        destruct e; cbn; try (eapply rej_other; [exact R|discriminate|discriminate|discriminate]);
          [apply rej_no_gps; exact R|congruence|apply rej_corrupt; exact R]. }
    destruct (align start L0) as [L1|] eqn:A.
    2:{ injection E as <- <-. split; [|reflexivity]. cbn. eapply rej_empty; [exact R|].
        unfold align in A. destruct (data L0) as [|[? ?] ?]; [reflexivity|discriminate]. }
    destruct (align_content _ _ _ _ R A) as [C N].
    destruct (discontinuous (map fst (data L1))) eqn:D.
    { injection E as <- <-. split; [|reflexivity]. cbn. eapply rej_steps; [exact C|].
      intros X. apply discontinuous_false in X. congruence. }
    apply discontinuous_false in D.
    destruct (drift L1 fn req) as [hi|f'] eqn:Dr.
    - destruct (sn fn) as [s|] eqn:Sn; [discriminate|]. injection E as <- <-. split; [|reflexivity].
      eapply rej_sn; [exact C|exact D|exact Dr|exact Sn].
    - injection E as <- <-. split; [|reflexivity].
      destruct f' as [e| |].
      + destruct e; cbn; try (eapply rej_drift_other; [exact C|exact D|exact Dr|discriminate|discriminate|discriminate]).
        * eapply rej_drift_no_gps; [exact C|exact D|exact Dr].
        * congruence.
        * eapply rej_drift_corrupt; [exact C|exact D|right; exact Dr].
      + eapply rej_inadequate; [exact C|exact D|exact Dr].
      + eapply rej_drift_corrupt; [exact C|exact D|left; exact Dr].
  Qed.

  (** The header row of a file that was accepted, and of one that was not. *)
  Definition header_row (v : F * verdict F H S) (h : hrow H S) : Prop :=
    match snd v with
    | Good L hi s => h_sn h = Some s /\ h_num h = Some (length (data L)) /\
                     (req = false \/ gps L <> [] -> h_info h = Some hi)
    | Bad _ => h_sn h = None
    end.

  Lemma loop_spec fns : forall start acc out,
    loop F H S read_v drift sn version req start acc fns = Some out ->
    exists vs hs, map fst vs = fns /\ history rd dr sn start vs /\
      jdata out = jdata acc ++ flat_map (fun p => data (snd (fst p))) (goods vs) /\
      jmeta out = jmeta acc ++ flat_map (fun p => metadata (snd (fst p))) (goods vs) /\
      jgps out = jgps acc ++ flat_map (fun p => gps (snd (fst p))) (goods vs) /\
      jproblems out = jproblems acc ++ bads vs /\
      jheader out = jheader acc ++ hs /\ Forall2 header_row vs hs /\
      (* leaving out the rejected files *)
      (forall acc', jdata acc' = jdata acc -> jmeta acc' = jmeta acc -> jgps acc' = jgps acc ->
       exists out', loop F H S read_v drift sn version req start acc' (map (fun p => fst (fst p)) (goods vs)) = Some out' /\
         jdata out' = jdata out /\ jmeta out' = jmeta out /\ jgps out' = jgps out /\ jproblems out' = jproblems acc').
  Proof.
    induction fns as [|fn fns IH]; intros start acc out E; cbn [loop] in E.
    - injection E as <-. exists [], []. rewrite !app_nil_r. repeat (split; [constructor || reflexivity|]).
      intros acc' A1 A2 A3. exists acc'. cbn. auto.
    - destruct (one_file F H S read_v drift sn version req fn start) as [h [L|f]] eqn:O.
      + destruct (one_file_good _ _ _ _ O) as (hi & s & A & N & Hh).
        destruct (ends_at_exists L N) as (t & Et). rewrite (last_of_ends _ _ _ _ Et) in E.
        destruct (IH _ _ _ E) as (vs & hs & Ef & Hi & E1 & E2 & E3 & E4 & E5 & E6 & E7).
        exists ((fn, Good L hi s) :: vs), (h :: hs). cbn [map fst]. rewrite Ef.
        split; [reflexivity|]. split; [econstructor; eassumption|].
        cbn [jdata jmeta jgps jproblems jheader] in *. rewrite <- !app_assoc in *. cbn in E5.
        repeat (split; [assumption|]). split; [constructor; [exact Hh|exact E6]|].
        intros acc' A1 A2 A3. cbn [goods flat_map contribution app map fst loop]. rewrite O. rewrite (last_of_ends _ _ _ _ Et).
        apply (E7 (mkj (jdata acc' ++ data L) (jmeta acc' ++ metadata L) (jgps acc' ++ gps L) (jheader acc' ++ [h]) (jproblems acc')));
          cbn [jdata jmeta jgps]; congruence.
      + assert (NI : f <> Exn Interrupt) by (intros ->; discriminate).
        destruct (one_file_bad _ _ _ _ O NI) as (R & Hh).
        assert (E' : loop F H S read_v drift sn version req start
          (mkj (jdata acc) (jmeta acc) (jgps acc) (jheader acc ++ [h]) (jproblems acc ++ [message_for F fn f])) fns = Some out).
        { destruct f as [[]| |]; (exact E || congruence). }
        destruct (IH _ _ _ E') as (vs & hs & Ef & Hi & E1 & E2 & E3 & E4 & E5 & E6 & E7).
        exists ((fn, Bad (message_for F fn f)) :: vs), (h :: hs). cbn [map fst]. rewrite Ef.
        split; [reflexivity|]. split; [constructor; assumption|].
        cbn [jdata jmeta jgps jproblems jheader] in *. rewrite <- !app_assoc in *. cbn in E5.
        repeat (split; [assumption|]). split; [constructor; [exact Hh|exact E6]|].
        intros acc' A1 A2 A3. apply (E7 acc' A1 A2 A3).
  Qed.

End L.

(** * Sample times never go backwards *)

Lemma chain_tail {A} (R : A -> A -> Prop) x l : chain R (x :: l) -> chain R l.
Proof. destruct l; simpl; tauto. Qed.

Lemma chain_imp {A} (R R' : A -> A -> Prop) l : (forall x y, R x y -> R' x y) -> chain R l -> chain R' l.
Proof. intros I. induction l as [|x [|y l] IH]; simpl; auto. intros [P Q]. split; auto. apply IH. exact Q. Qed.

Lemma chain_glue {A} (R : A -> A -> Prop) l t rest : chain R (l ++ [t]) -> chain R (t :: rest) -> chain R (l ++ t :: rest).
Proof.
  induction l as [|x l IH]; intros H1 H2; [exact H2|].
  destruct l as [|y l].
  - simpl in *. split; [tauto|exact H2].
  - change (R x y /\ chain R ((y :: l) ++ t :: rest)). change (R x y /\ chain R ((y :: l) ++ [t])) in H1.
    split; [tauto|]. apply IH; tauto.
Qed.

Lemma good_le x y : good_step x y -> (x <= y)%Q.
Proof. intros [A _]. lra. Qed.

Definition late_enough {F} (rd : F -> Q -> res tables) (fn : F) : Prop :=
  forall start L t v l, rd fn start = inl L -> data L = (t, v) :: l -> (start - 8192 <= t)%Q.

Lemma content_after {F} (rd : F -> Q -> res tables) start fn L : late_enough rd fn -> content rd start fn L ->
  forall t v l, data L = (t, v) :: l -> (start <= t)%Q.
Proof.
  intros HL (L0 & t0 & v0 & l0 & R & E0 & [[A ->]|[A B]]) t v l E.
  - rewrite E0 in E. injection E as <- <- <-. exact A.
  - destruct B as (B & _). rewrite E0, E in B. inversion B as [|? ? ? ? [B1 B2] ?]; subst. cbn in B1.
    pose proof (HL _ _ _ _ _ R E0). lra.
Qed.

Lemma history_monotone {F H S} (rd : F -> Q -> res tables) (dr : tables -> F -> H + failure) (sn : F -> option S) start vs :
  Forall (late_enough rd) (map fst vs) -> history rd dr sn start vs ->
  chain Qle (start :: map fst (flat_map (fun p => data (snd (fst p))) (goods vs))).
Proof.
  intros HA Hi. induction Hi as [|start fn L h s t rest (C & G & _) (l & v & E) Hi IH|]; [exact I| |inversion HA; subst; auto].
  inversion HA as [|? ? HL HA']; subst. specialize (IH HA').
  change (flat_map (fun p => data (snd (fst p))) (goods ((fn, Good L h s) :: rest)))
    with (data L ++ flat_map (fun p => data (snd (fst p))) (goods rest)).
  rewrite map_app. rewrite E in *. rewrite map_app in *. cbn [map fst app] in *. rewrite <- app_assoc.
  cbn [app]. change (chain Qle ((start :: map fst l) ++ t :: map fst (flat_map (fun p => data (snd (fst p))) (goods rest)))).
  apply chain_glue; [|exact IH].
  apply (chain_imp _ _ _ good_le) in G. destruct l as [|[t0 v0] l]; cbn in *.
  - split; [|exact I]. eapply content_after; [exact HL|exact C|exact E].
  - split; [|exact G]. eapply content_after; [exact HL|exact C|exact E].
Qed.

Lemma of_kind_skip clock pre d rest : Forall (fun x => dkind x <> KD) pre -> dkind d = KD ->
  length clock = length (pre ++ d :: rest) ->
  exists cs c cr, clock = cs ++ c :: cr /\ length cs = length pre /\
    of_kind KD (combine clock (pre ++ d :: rest)) = (c, d) :: of_kind KD (combine cr rest).
Proof.
  revert clock. induction pre as [|p pre IH]; intros clock Hp Hd HL.
  - destruct clock as [|c cr]; [discriminate|]. exists [], c, cr. split; [reflexivity|]. split; [reflexivity|].
    cbn. rewrite Hd. reflexivity.
  - destruct clock as [|c clock]; [discriminate|]. inversion Hp; subst. injection HL as HL.
    destruct (IH clock H2 Hd HL) as (cs & c' & cr & -> & E & E').
    exists (c :: cs), c', cr. split; [reflexivity|]. split; [cbn; congruence|].
    cbn. destruct (dkind p); try contradiction; exact E'.
Qed.

Lemma forward_clock us xs u x :
  chain (step_within 4096) (u :: us) -> Forall2 (congruent 8192) (u :: us) (x :: xs) -> chain (forward 8192) (x :: xs) ->
  Forall (fun w => u <= w)%Q us.
Proof.
  revert u x xs. induction us as [|w us IH]; intros u x xs C F W; [constructor|].
  inversion F as [|? ? ? ? Hu F']; subst. inversion F' as [|? y ? ys Hw F'']; subst.
  destruct C as [[A B] C]. destruct W as [(k & K1 & K2) W].
  assert (E : (u <= w)%Q).
  { assert (Q : (w - u == y - x + 8192 * inject_Z k)%Q).
    { apply (congruent_close 8192); [reflexivity| | |].
      - eapply congruent_trans; [apply congruent_sub; [exact Hw|exact Hu]|]. exists (- k). rewrite inject_Z_opp. ring.
      - change (8192 / 2)%Q with (8192 / 2)%Q in K2. assert (H2 : (8192 / 2 == 4096)%Q) by reflexivity. rewrite H2 in K2. lra.
      - lra. }
    lra. }
  constructor; [exact E|].
  eapply Forall_impl; [|exact (IH w y ys C F' W)]. cbn. intros z Hz. lra.
Qed.

Lemma chain_app_l {A} (R : A -> A -> Prop) l m : chain R (l ++ m) -> chain R l.
Proof.
  induction l as [|x [|y l] IH]; [reflexivity|simpl; auto|].
  intros [P Q]. split; [exact P|]. apply IH. exact Q.
Qed.

Lemma Forall2_firstn {A B} (R : A -> B -> Prop) l m n : Forall2 R l m -> Forall2 R (firstn n l) (firstn n m).
Proof. intros F. revert n. induction F; intros [|n]; simpl; constructor; auto. Qed.

Lemma first_sample version offset req df L t v l : difference_coded version ->
  consistent version offset req df L -> begins_well df -> data L = (t, v) :: l -> (offset - 8192 <= t)%Q.
Proof.
  intros V (r & clock & F & Cg & H0 & Hc & C) (pre & d & rest & -> & Hp & Hd & W) E.
  assert (r = 8192%Q) as ->.
  { destruct F as [[_ F]|[F _]]; [exact F|]. exfalso. destruct V as [<-|[<-|[<-|[]]]]; destruct F as [F|[F|[]]]; discriminate. }
  cbv zeta in C. destruct C as (Dt & _).
  pose proof (Forall2_length_eq _ _ _ Cg) as Lc. rewrite map_length in Lc.
  destruct (of_kind_skip clock pre d rest Hp Hd Lc) as (cs & c & cr & Ec & Lcs & Eo).
  rewrite Eo, E in Dt. inversion Dt as [|? ? ? ? D1 ?]; subst. cbn [fst] in D1.
  assert (H2 : (8192 / 2 == 4096)%Q) by reflexivity.
  destruct cs as [|c0 cs].
  - destruct (H0 c cr eq_refl) as [A _]. rewrite H2 in A. lra.
  - cbn [app] in *. destruct (H0 c0 (cs ++ c :: cr) eq_refl) as [A _]. rewrite H2 in A.
    destruct W as [->|[P W]]; [discriminate|].
    specialize (Hc P).
    assert (Hc' : chain (step_within 4096) (c0 :: cs ++ c :: cr)).
    { eapply chain_imp; [|exact Hc]. intros x y [X Y]. rewrite H2 in X, Y. split; assumption. }
    destruct W as [W|W].
    + destruct pre as [|p0 [|p1 pre]]; try (cbn in *; lia). destruct cs; [|discriminate].
      destruct Hc' as [[X _] _]. lra.
    + assert (Q : Forall (fun w => c0 <= w)%Q (cs ++ [c])).
      { destruct pre as [|p0 pre]; [discriminate|].
        eapply forward_clock; [| |].
        - apply (chain_app_l _ (c0 :: cs ++ [c]) cr). cbn [app]. rewrite <- app_assoc. exact Hc'.
        - apply (Forall2_firstn _ _ _ (S (length cs + 1))) in Cg.
          replace (firstn (S (length cs + 1)) (c0 :: cs ++ c :: cr)) with (c0 :: cs ++ [c]) in Cg.
          2:{ cbn [firstn]. f_equal. rewrite firstn_app. replace (length cs + 1 - length cs)%nat with 1%nat by lia.
              rewrite firstn_all2 by lia. reflexivity. }
          injection Lcs as Lcs.
          replace (firstn (S (length cs + 1)) (map dsaw ((p0 :: pre) ++ d :: rest))) with (map dsaw ((p0 :: pre) ++ [d])) in Cg.
          2:{ rewrite !map_app. cbn [map app firstn]. f_equal. rewrite firstn_app, map_length.
              replace (length cs + 1 - length pre)%nat with 1%nat by lia.
              rewrite firstn_all2 by (rewrite map_length; lia). reflexivity. }
          exact Cg.
        - exact W. }
      apply Forall_app in Q as [_ Q]. inversion Q; subst. lra.
Qed.

(** * One clock for contiguous files *)

(** The tables of one file on the true clock plus [k] rollovers. *)
Definition on_clock (rec : recording) (k : Z) (L : tables) : Prop :=
  Forall2 (fun t p => fst p == t + (893 # 100) + 8192 * inject_Z k)%Q (clocks_of KD rec) (data L) /\
  Forall2 (fun t p => fst p == t + 8192 * inject_Z k)%Q (clocks_of KM rec) (metadata L) /\
  Forall (fun e => exists t, In t (clocks_of KG rec) /\ msPPS (fst e) == t + 8192 * inject_Z k)%Q (gps L).

Lemma kinds_clock (P : Q -> Q -> Prop) K clock df rec :
  Forall2 P clock (map snd rec) -> map dkind df = map fst rec ->
  Forall2 (fun p t => P (fst p) t) (of_kind K (combine clock df)) (clocks_of K rec).
Proof.
  revert clock rec. induction df as [|d df IH]; intros clock rec F E.
  - destruct rec; [|discriminate]. inversion F; subst. constructor.
  - destruct rec as [|[k t] rec]; [discriminate|]. injection E as E1 E2. inversion F as [|c ? cs ? Hc F']; subst.
    cbn. specialize (IH cs rec F' E2). destruct (dkind d), K; cbn; try exact IH; constructor; cbn; assumption.
Qed.

Lemma on_clock_of_rows version offset req df rec L : difference_coded version ->
  consistent version offset req df L -> written rec df -> data L <> [] ->
  exists k, on_clock rec k L /\
    (forall a, hd_error (map snd rec) = Some a -> offset - 4096 <= a + 8192 * inject_Z k /\ a + 8192 * inject_Z k < offset + 4096)%Q.
Proof.
  intros V (r & clock & F & Cg & H0 & Hc & C) (Ek & Rec & Ch) N.
  assert (r = 8192%Q) as ->.
  { destruct F as [[_ F]|[F _]]; [exact F|]. exfalso. destruct V as [<-|[<-|[<-|[]]]]; destruct F as [F|[F|[]]]; discriminate. }
  assert (H2 : (8192 / 2 == 4096)%Q) by reflexivity.
  destruct (recorded_congruent 8192 (map snd rec) (map dsaw df) Rec) as [Fc Fp]. specialize (Hc Fp).
  cbv zeta in C. destruct C as (Dt & _ & Mt & Gt).
  assert (X : exists k, Forall2 (fun c t => c == t + 8192 * inject_Z k)%Q clock (map snd rec)).
  { destruct (map snd rec) as [|t ts] eqn:Er.
    - inversion Fc as [E1 E2|]. rewrite <- E2 in Cg. inversion Cg. subst. exists 0. constructor.
    - destruct (map dsaw df) as [|s ss]; [inversion Fc|]. destruct clock as [|c cs]; [inversion Cg|].
      inversion Fc as [|? ? ? ? Ft Fts]; subst. inversion Cg as [|? ? ? ? Fu Fus]; subst.
      destruct (congruent_trans 8192 c s t Fu (congruent_sym _ _ _ Ft)) as [k Hk]. exists k.
      constructor; [exact Hk|].
      assert (Y : Forall2 Qeq cs (map (fun t => t + 8192 * inject_Z k)%Q ts)).
      { eapply (unique_path 8192 eq_refl cs _ ss c (t + 8192 * inject_Z k)%Q).
        - exact Hk.
        - exact Hc.
        - change ((t + 8192 * inject_Z k)%Q :: map (fun t => t + 8192 * inject_Z k)%Q ts)
            with (map (fun t => t + 8192 * inject_Z k)%Q (t :: ts)).
          apply chain_map with (R := step_below 4096); [|exact Ch].
          intros x y [A B]. unfold step_below. rewrite H2. split; lra.
        - exact Fus.
        - clear -Fts. induction Fts as [|x y l m Hxy F IH]; constructor; [|exact IH].
          eapply congruent_trans; [|exact Hxy]. exists k. reflexivity. }
      clear -Y. remember (map (fun t => t + 8192 * inject_Z k)%Q ts) as l eqn:El. revert ts El.
      induction Y as [|x y m l Hxy F IH]; intros [|t ts] El; try discriminate; constructor.
      + injection El as -> _. exact Hxy.
      + apply IH. injection El as _ ->. reflexivity. }
  destruct X as (k & X). exists k. split.
  - split; [|split].
    + pose proof (kinds_clock _ KD _ _ _ X Ek) as D. clear -D Dt.
      revert D. generalize (clocks_of KD rec). intros l D. revert Dt. generalize (data L). intros m Dt.
      revert l D. induction Dt as [|p s l m Hp Dt IH]; intros l' D; inversion D; subst; constructor; [|auto].
      rewrite Hp, H1. ring.
    + pose proof (kinds_clock _ KM _ _ _ X Ek) as D. clear -D Mt.
      revert D. generalize (clocks_of KM rec). intros l D. revert Mt. generalize (metadata L). intros m Dt.
      revert l D. induction Dt as [|p s l m Hp Dt IH]; intros l' D; inversion D; subst; constructor; [|auto].
      destruct Hp as [Hp _]. rewrite Hp, H1. reflexivity.
    + destruct Gt as [Gt|(-> & _)]; [|constructor].
      pose proof (kinds_clock _ KG _ _ _ X Ek) as D. clear -D Gt.
      revert D. generalize (clocks_of KG rec). intros l D.
      revert l D. induction Gt as [|p s l m Hp Dt IH|p l m Hp Dt IH]; intros l' D; inversion D; subst; [constructor| |].
      * constructor.
        -- exists y. split; [left; reflexivity|]. destruct Hp as [[Hp _] _]. rewrite Hp, H1. reflexivity.
        -- eapply Forall_impl; [|apply IH; eassumption]. cbn. intros e (t & I & E). exists t. auto.
      * eapply Forall_impl; [|apply IH; eassumption]. cbn. intros e (t & I & E). exists t. auto.
  - intros a Ha. destruct (map snd rec) as [|t ts]; [discriminate|]. injection Ha as <-.
    inversion X as [|c ? cs ? Hct]; subst.
    destruct (H0 c cs eq_refl) as [A B]. rewrite H2 in A, B. rewrite Hct in A, B. auto.
Qed.

Lemma on_clock_ahead rec k L L' : on_clock rec k L -> ahead 8192 L L' -> on_clock rec (k + 1) L'.
Proof.
  assert (E : (8192 * inject_Z (k + 1) == 8192 * inject_Z k + 8192)%Q) by (rewrite inject_Z_plus; ring).
  intros (A & B & C) (A' & B' & C'). split; [|split].
  - revert A. generalize (clocks_of KD rec). intros l A. revert l A.
    induction A' as [|p q m m' [Hp _] A' IH]; intros l A; inversion A as [|? ? ? ? Hx]; subst; constructor; [|auto]. rewrite Hp, Hx, E. ring.
  - revert B. generalize (clocks_of KM rec). intros l B. revert l B.
    induction B' as [|p q m m' [Hp _] B' IH]; intros l B; inversion B as [|? ? ? ? Hx]; subst; constructor; [|auto]. rewrite Hp, Hx, E. ring.
  - revert C. induction C' as [|p q m m' Hp C' IH]; intros C; inversion C as [|? ? Hx]; subst; constructor; [|auto].
    destruct Hx as (t & I & Ht). exists t. split; [exact I|]. destruct Hp as [Hp _]. rewrite Hp, Ht, E. ring.
Qed.

Section OneClock.
  Variables F H S : Type.
  Variable rd : F -> Q -> res tables.
  Variable dr : tables -> F -> H + failure.
  Variable sn : F -> option S.
  Variable rec : F -> recording.
  (** Every successful read of one file is on the true clock, near the given start. *)
  Definition placed (fn : F) : Prop := forall start L, rd fn start = inl L ->
    exists k, on_clock (rec fn) k L /\
      (forall a, hd_error (map snd (rec fn)) = Some a -> start - 4096 <= a + 8192 * inject_Z k /\ a + 8192 * inject_Z k < start + 4096)%Q.

  Definition on_clocks (k : Z) (vs : list (F * verdict F H S)) : Prop :=
    Forall (fun p => on_clock (rec (fst (fst p))) k (snd (fst p))) (goods vs).

  Lemma content_clock start fn L : placed fn -> content rd start fn L -> exists k, on_clock (rec fn) k L.
  Proof.
    intros Pl (L0 & t & v & l & R & E & [[_ ->]|[_ A]]); destruct (Pl _ _ R) as (k & O & _); eauto using on_clock_ahead.
  Qed.

  Lemma hd_nonempty k rc L t v l : on_clock rc k L -> data L = (t, v) :: l ->
    exists a s, hd_error (map snd rc) = Some a /\ hd_error (clocks_of KD rc) = Some s /\ (t == s + (893 # 100) + 8192 * inject_Z k)%Q.
  Proof.
    intros (A & _) E. rewrite E in A. inversion A as [|s p l' m Hs Fa Eq]; subst. cbn in Hs.
    assert (map snd rc <> []) as N.
    { intros Z. apply map_eq_nil in Z. subst rc. discriminate. }
    destruct (map snd rc) as [|a r] eqn:Er; [contradiction|]. exists a, s. repeat split. exact Hs.
  Qed.

  Lemma one_clock vs : Forall placed (map fst vs) -> forall start prev l k,
    (start == l + (893 # 100) + 8192 * inject_Z k)%Q -> (exists pre, clocks_of KD prev = pre ++ [l]) ->
    history rd dr sn start vs ->
    chain follows (prev :: map (fun p => rec (fst (fst p))) (goods vs)) -> on_clocks k vs.
  Proof.
    induction vs as [|[fn [L h s|m]] vs IH]; intros HA start prev l k Es Ep Hi Ch; [constructor| |];
      inversion HA as [|? ? Pl HA']; subst; specialize (IH HA').
    - inversion Hi as [|? ? ? ? ? t ? (C & _) Et Hi'|]; subst.
      change (goods ((fn, Good L h s) :: vs)) with ((fn, L, s) :: goods vs) in *.
      cbn [map fst snd] in Ch. destruct Ch as [Fo Ch].
      destruct C as (L0 & t0 & v0 & l0 & R & E & W).
      destruct (Pl _ _ R) as (k' & O & B).
      destruct (hd_nonempty _ _ _ _ _ _ O E) as (a & s0 & Ha & Hs & Et0).
      destruct (Fo l a s0 Ep Ha Hs) as (F1 & F2 & F3). destruct (B a Ha) as (B1 & B2).
      assert (k' = k) as ->.
      { assert (k' - k = 0); [|lia]. apply (small_multiple 8192 (k' - k)); [reflexivity|..];
        unfold Z.sub; rewrite inject_Z_plus, inject_Z_opp; lra. }
      destruct W as [[W ->]|[W _]]; [|exfalso; lra].
      constructor; [exact O|].
      destruct O as (OD & _). destruct Et as (ld & vl & Ed). rewrite Ed in OD.
      apply Forall2_app_inv_r in OD as (pre & lst & _ & Ol & Ec). inversion Ol as [|tl p ? ? Hl Nl]; subst. inversion Nl; subst. cbn in Hl.
      apply (IH t (rec fn) tl k Hl); [eauto|exact Hi'|exact Ch].
    - inversion Hi; subst. exact (IH start prev l k Es Ep H5 Ch).
  Qed.

  Lemma one_clock_start start vs : Forall placed (map fst vs) -> history rd dr sn start vs ->
    chain follows (map (fun p => rec (fst (fst p))) (goods vs)) -> exists k, on_clocks k vs.
  Proof.
    induction vs as [|[fn [L h s|m]] vs IH]; intros HA Hi Ch; [exists 0; constructor| |];
      inversion HA as [|? ? Pl HA']; subst; specialize (IH HA').
    - inversion Hi as [|? ? ? ? ? t ? (C & _) Et Hi'|]; subst.
      change (goods ((fn, Good L h s) :: vs)) with ((fn, L, s) :: goods vs) in *.
      cbn [map fst snd] in Ch.
      destruct (content_clock _ _ _ Pl C) as (k & O). exists k.
      constructor; [exact O|].
      destruct O as (OD & _). destruct Et as (ld & vl & Ed). rewrite Ed in OD.
      apply Forall2_app_inv_r in OD as (pre & lst & _ & Ol & Ec). inversion Ol as [|tl p ? ? Hl Nl]; subst. inversion Nl; subst. cbn in Hl.
      apply (one_clock vs HA' t (rec fn) tl k Hl); [eauto|exact Hi'|exact Ch].
    - inversion Hi; subst. exact (IH H5 Ch).
  Qed.

  Lemma on_clocks_joined k vs : on_clocks k vs ->
    Forall2 (fun t p => fst p == t + (893 # 100) + 8192 * inject_Z k)%Q
      (flat_map (fun p => clocks_of KD (rec (fst (fst p)))) (goods vs)) (flat_map (fun p => data (snd (fst p))) (goods vs)) /\
    Forall2 (fun t p => fst p == t + 8192 * inject_Z k)%Q
      (flat_map (fun p => clocks_of KM (rec (fst (fst p)))) (goods vs)) (flat_map (fun p => metadata (snd (fst p))) (goods vs)) /\
    Forall (fun e => exists t, In t (flat_map (fun p => clocks_of KG (rec (fst (fst p)))) (goods vs)) /\ msPPS (fst e) == t + 8192 * inject_Z k)%Q
      (flat_map (fun p => gps (snd (fst p))) (goods vs)).
  Proof.
    unfold on_clocks. induction 1 as [|p l (A & B & C) _ (IA & IB & IC)]; [repeat constructor|]. cbn [flat_map].
    split; [apply Forall2_app; assumption|]. split; [apply Forall2_app; assumption|].
    apply Forall_app. split.
    - eapply Forall_impl; [|exact C]. cbn. intros e (t & I & E). exists t. split; [apply in_or_app; left; exact I|exact E].
    - eapply Forall_impl; [|exact IC]. cbn. intros e (t & I & E). exists t. split; [apply in_or_app; right; exact I|exact E].
  Qed.
End OneClock.
