From Coq Require Import String.
From Coq Require Import ZArith List Bool Lia Permutation.
From Verif Require Import Lib Base Stations StationsProofs StationsProps Names NamesProofs Select SelectProofs UnwrapSpec Ids IdsSpec.
Import ListNotations.
Open Scope Z_scope.

Lemma is_word_iff c : is_word c = true <-> word c.
Proof. unfold is_word, word. rewrite !orb_true_iff, !andb_true_iff, !Z.leb_le, Z.eqb_eq. lia. Qed.
Lemma word_not_dot c : word c -> c <> 46.
Proof. unfold word. lia. Qed.

Lemma code_iff hi lo s r : (lo <= hi)%nat -> code hi lo s = Some r <-> exists w, s = w ++ 46 :: r /\ code_of lo hi w.
Proof.
  revert hi lo. induction s as [|c s IH]; intros hi lo LE; cbn [code].
  - split; [discriminate|]. intros ([|? ?] & E & _); discriminate E.
  - destruct (Z.eqb_spec c 46) as [->|N].
    + split.
      * destruct lo; [|discriminate]. intros H. injection H as ->. exists []. split; [reflexivity|]. split; [constructor|cbn; lia].
      * intros ([|x w] & E & F & L).
        -- cbn in L. destruct lo; [|lia]. injection E as ->. reflexivity.
        -- injection E as E1 E2. inversion F as [|? ? W _]; subst. apply word_not_dot in W. congruence.
    + split.
      * destruct hi as [|h]; [discriminate|]. destruct (is_word c) eqn:W; [|discriminate]. intros H.
        apply IH in H; [|lia]. destruct H as (w & -> & F & L). exists (c :: w). split; [reflexivity|].
        split; [constructor; [apply is_word_iff; exact W|exact F]|]. cbn [length]. lia.
      * intros ([|x w] & E & F & L); [injection E as E1 E2; congruence|]. injection E as <- ->.
        inversion F as [|? ? W F']; subst. destruct hi as [|h]; [cbn in L; lia|].
        rewrite (proj2 (is_word_iff c) W). apply IH; [lia|]. exists w. split; [reflexivity|]. split; [exact F'|]. cbn in L. lia.
Qed.

Lemma code3_iff s : (match s with x :: y :: z :: _ => is_word x && is_word y && is_word z | _ => false end) = true <->
  exists c rest, s = c ++ rest /\ code_of 3 3 c.
Proof.
  split.
  - destruct s as [|x [|y [|z s]]]; try discriminate. rewrite !andb_true_iff, !is_word_iff. intros ((X & Y) & Z).
    exists [x; y; z], s. split; [reflexivity|]. split; [apply Forall_cons; [exact X|]; apply Forall_cons; [exact Y|]; apply Forall_cons; [exact Z|constructor]|cbn; lia].
  - intros (c & rest & -> & F & L). destruct c as [|x [|y [|z [|? ?]]]]; try (cbn in L; lia). cbn [app].
    inversion F as [|? ? F1 Fa]; subst. inversion Fa as [|? ? F2 Fb]; subst. inversion Fb as [|? ? F3 _]; subst.
    rewrite !andb_true_iff, !is_word_iff. auto.
Qed.

Lemma conventional_iff s : conventional s = true <-> begins_like_id s.
Proof.
  unfold conventional, begins_like_id. split.
  - destruct (code 2 0 s) as [s1|] eqn:E1; [|discriminate]. destruct (code 5 1 s1) as [s2|] eqn:E2; [|discriminate].
    destruct (code 2 0 s2) as [s3|] eqn:E3; [|discriminate]. intros H. apply code3_iff in H. destruct H as (c & rest & -> & C).
    apply code_iff in E1; [|lia]. apply code_iff in E2; [|lia]. apply code_iff in E3; [|lia].
    destruct E1 as (n & -> & N), E2 as (st & -> & ST), E3 as (l & -> & L'). exists n, st, l, c, rest. auto.
  - intros (n & st & l & c & rest & -> & N & ST & L' & C).
    rewrite (proj2 (code_iff 2 0 _ (st ++ b "." ++ l ++ b "." ++ c ++ rest) ltac:(lia))) by (exists n; auto).
    rewrite (proj2 (code_iff 5 1 _ (l ++ b "." ++ c ++ rest) ltac:(lia))) by (exists st; auto).
    rewrite (proj2 (code_iff 2 0 _ (c ++ rest) ltac:(lia))) by (exists l; auto).
    apply code3_iff. exists c, rest. auto.
Qed.
Lemma conventional_false s : conventional s = false <-> ~ begins_like_id s.
Proof. rewrite <- conventional_iff. destruct (conventional s); intuition discriminate. Qed.

Lemma unique_props l : NoDup (unique eqb_bytes l) /\ forall x, In x (unique eqb_bytes l) <-> In x l.
Proof. destruct (StationsProps.C37_unique bytes eqb_bytes eqb_bytes_iff l) as (_ & H). exact H. Qed.

Section S.
  Variable search : bytes -> bytes -> option bool.

  Lemma matches_some p found l : matches search p found = Some l ->
    (forall x, In x found -> search p x <> None) /\ forall x, In x l <-> In x found /\ search p x = Some true.
  Proof.
    revert l. induction found as [|f r IH]; intros l H; cbn in H.
    - injection H as <-. split; [intros x []|]. cbn. tauto.
    - destruct (search p f) as [m|] eqn:E; [|discriminate]. destruct (matches search p r) as [k|]; [|discriminate].
      injection H as <-. destruct (IH k eq_refl) as [I1 I2]. split.
      + intros x [<-|X]; [congruence|]. apply I1. exact X.
      + intros x. destruct m; cbn [In]; rewrite I2; intuition (subst; auto; congruence).
  Qed.
  Lemma matches_none p found : matches search p found = None <-> exists x, In x found /\ search p x = None.
  Proof.
    split.
    - induction found as [|f r IH]; cbn; [discriminate|]. destruct (search p f) as [m|] eqn:E; [|intros _; exists f; auto].
      destruct (matches search p r); [discriminate|]. intros _. destruct (IH eq_refl) as (x & X & N). exists x. auto.
    - intros (x & X & N). destruct (matches search p found) as [l|] eqn:E; [|reflexivity].
      destruct (matches_some _ _ _ E) as [I1 _]. destruct (I1 x X N).
  Qed.

  Lemma resolve_some found ids l : resolve search found ids = Some l ->
    (forall i x, In i ids -> ~ begins_like_id i -> In x found -> search i x <> None) /\
    forall x, In x l <-> exists i, In i ids /\
      (begins_like_id i /\ x = i \/ ~ begins_like_id i /\ In x found /\ search i x = Some true).
  Proof.
    revert l. induction ids as [|i r IH]; intros l H; cbn in H.
    - injection H as <-. split; [intros i x []|]. cbn. intros x. split; [intros []|]. intros (i & [] & _).
    - destruct (if conventional i then Some [i] else matches search i found) as [m|] eqn:E; [|discriminate].
      destruct (resolve search found r) as [k|]; [|discriminate]. injection H as <-. destruct (IH k eq_refl) as [I1 I2].
      assert (M : (~ begins_like_id i -> forall x, In x found -> search i x <> None) /\
        forall x, In x m <-> (begins_like_id i /\ x = i \/ ~ begins_like_id i /\ In x found /\ search i x = Some true)).
      { destruct (conventional i) eqn:C.
        - apply conventional_iff in C. injection E as <-. split; [intros NC; contradiction|]. intros x. cbn. intuition.
        - apply conventional_false in C. destruct (matches_some _ _ _ E) as [M1 M2]. split; [auto|]. intros x. rewrite M2. tauto. }
      destruct M as [M1 M2]. split.
      + intros j x [<-|J] N X; [apply M1; assumption|]. eapply I1; eassumption.
      + intros x. rewrite in_app_iff, M2, I2. split.
        * intros [H|(j & J & H)]; [exists i; cbn; auto|exists j; cbn; auto].
        * intros (j & [<-|J] & H); [auto|]. right. exists j. auto.
  Qed.
  Lemma resolve_none found ids : resolve search found ids = None <->
    exists i x, In i ids /\ ~ begins_like_id i /\ In x found /\ search i x = None.
  Proof.
    split.
    - induction ids as [|i r IH]; cbn; [discriminate|].
      destruct (if conventional i then Some [i] else matches search i found) as [m|] eqn:E.
      + destruct (resolve search found r); [discriminate|]. intros _. destruct (IH eq_refl) as (j & x & J & H). exists j, x. auto.
      + intros _. destruct (conventional i) eqn:C; [discriminate|]. apply matches_none in E. destruct E as (x & X & N).
        exists i, x. apply conventional_false in C. auto.
    - intros (i & x & J & C & X & N). destruct (resolve search found ids) as [l|] eqn:E; [|reflexivity].
      destruct (resolve_some _ _ _ E) as [I1 _]. destruct (I1 i x J C X N).
  Qed.

  Lemma any_search_some ps x m : any_search search ps x = Some m ->
    (forall p, In p ps -> search p x <> None) /\ (m = true <-> exists p, In p ps /\ search p x = Some true).
  Proof.
    revert m. induction ps as [|p r IH]; intros m H; cbn in H.
    - injection H as <-. split; [intros p []|]. split; [discriminate|]. intros (p & [] & _).
    - destruct (search p x) as [a|] eqn:E; [|discriminate]. destruct (any_search search r x) as [c|]; [|discriminate].
      injection H as <-. destruct (IH c eq_refl) as [I1 I2]. split.
      + intros q [<-|Hq]; [congruence|]. apply I1. exact Hq.
      + rewrite orb_true_iff, I2. split.
        * intros [->|(q & Hq & E')]; [exists p; cbn; auto|exists q; cbn; auto].
        * intros (q & [<-|Hq] & E'); [left; congruence|right; exists q; auto].
  Qed.
  Lemma any_search_none ps x : any_search search ps x = None <-> exists p, In p ps /\ search p x = None.
  Proof.
    split.
    - induction ps as [|p r IH]; cbn; [discriminate|]. destruct (search p x) as [a|] eqn:E; [|intros _; exists p; auto].
      destruct (any_search search r x); [discriminate|]. intros _. destruct (IH eq_refl) as (q & Hq & N). exists q. auto.
    - intros (p & P & N). destruct (any_search search ps x) as [m|] eqn:E; [|reflexivity].
      destruct (any_search_some _ _ _ E) as [I1 _]. destruct (I1 p P N).
  Qed.

  Lemma remaining_some ps l k : remaining search ps l = Some k ->
    (forall x p, In x l -> In p ps -> search p x <> None) /\
    (forall x, In x k <-> In x l /\ ~ exists p, In p ps /\ search p x = Some true) /\ (NoDup l -> NoDup k).
  Proof.
    revert k. induction l as [|x r IH]; intros k H; cbn in H.
    - injection H as <-. split; [intros x p []|]. split; [cbn; tauto|auto].
    - destruct (any_search search ps x) as [m|] eqn:E; [|discriminate]. destruct (remaining search ps r) as [j|]; [|discriminate].
      injection H as <-. destruct (IH j eq_refl) as (I1 & I2 & I3), (any_search_some _ _ _ E) as [A1 A2].
      split; [|split].
      + intros y p [<-|Y] P; [apply A1; exact P|apply I1; assumption].
      + intros y. destruct m.
        * assert (T := proj1 A2 eq_refl). rewrite I2. cbn [In]. split; [tauto|]. intros ([<-|Y] & N); [contradiction|tauto].
        * cbn [In]. rewrite I2. split.
          -- intros [<-|(Y & N)]; [|tauto]. split; [auto|]. rewrite <- A2. discriminate.
          -- tauto.
      + intros ND. inversion ND as [|? ? N ND']; subst. destruct m; [auto|]. constructor; [|auto]. intros X. apply N.
        apply I2 in X. tauto.
  Qed.
  Lemma remaining_none ps l : remaining search ps l = None <-> exists x p, In x l /\ In p ps /\ search p x = None.
  Proof.
    split.
    - induction l as [|x r IH]; cbn; [discriminate|]. destruct (any_search search ps x) as [m|] eqn:E.
      + destruct (remaining search ps r); [discriminate|]. intros _. destruct (IH eq_refl) as (y & p & Y & H). exists y, p. auto.
      + intros _. apply any_search_none in E. destruct E as (p & P & N). exists x, p. auto.
    - intros (x & p & X & P & N). destruct (remaining search ps l) as [k|] eqn:E; [|reflexivity].
      destruct (remaining_some _ _ _ E) as (I1 & _). destruct (I1 x p X P N).
  Qed.

  (** The list before exclusions. *)
  Lemma before_some rows ids out :
    match ids with None | Some [] => Some (unique eqb_bytes rows)
    | Some l => option_map (unique eqb_bytes) (resolve search (unique eqb_bytes rows) l) end = Some out ->
    NoDup out /\ (forall x, In x out <-> asked search rows ids x) /\
    ~ exists l i x, ids = Some l /\ In i l /\ ~ begins_like_id i /\ In x rows /\ search i x = None.
  Proof.
    destruct (unique_props rows) as [U1 U2].
    assert (Base : Some (unique eqb_bytes rows) = Some out -> NoDup out /\ forall x, In x out <-> In x rows).
    { intros H. injection H as <-. auto. }
    destruct ids as [[|i l]|].
    - intros H. destruct (Base H) as [B1 B2]. split; [exact B1|]. split; [exact B2|]. intros (l & i & x & E & J & _).
      injection E as <-. destruct J.
    - intros H. destruct (resolve search (unique eqb_bytes rows) (i :: l)) as [k|] eqn:E; [|discriminate H].
      injection H as <-. destruct (unique_props k) as [K1 K2]. destruct (resolve_some _ _ _ E) as [R1 R2].
      split; [exact K1|]. split.
      + intros x. rewrite K2, R2. unfold asked. setoid_rewrite U2. reflexivity.
      + intros (l' & j & x & E' & J & C & X & N). injection E' as <-. apply (R1 j x); auto. apply U2. exact X.
    - intros H. destruct (Base H) as [B1 B2]. split; [exact B1|]. split; [exact B2|]. intros (l & i & x & E & J & _). discriminate E.
  Qed.
  Lemma before_none rows ids :
    match ids with None | Some [] => Some (unique eqb_bytes rows)
    | Some l => option_map (unique eqb_bytes) (resolve search (unique eqb_bytes rows) l) end = None ->
    exists l i x, ids = Some l /\ In i l /\ ~ begins_like_id i /\ In x rows /\ search i x = None.
  Proof.
    destruct (unique_props rows) as [U1 U2]. destruct ids as [[|i l]|]; try discriminate.
    intros H. destruct (resolve search (unique eqb_bytes rows) (i :: l)) as [k|] eqn:E; [discriminate H|].
    apply resolve_none in E. destruct E as (j & x & J & C & X & N). exists (i :: l), j, x. rewrite <- U2. auto.
  Qed.

  Lemma check_some rows ids excl out : check_input_ids search rows ids excl = Some out ->
    NoDup out /\ (forall x, In x out <-> asked search rows ids x /\ ~ excluded search excl x) /\ ~ invalid search rows ids excl.
  Proof.
    unfold check_input_ids, invalid, excluded.
    destruct (match ids with None | Some [] => Some (unique eqb_bytes rows)
      | Some l => option_map (unique eqb_bytes) (resolve search (unique eqb_bytes rows) l) end) as [k|] eqn:E; [|discriminate].
    destruct (before_some _ _ _ E) as (B1 & B2 & B3). destruct excl as [ps|]; intros H.
    - destruct (remaining_some _ _ _ H) as (I1 & I2 & I3). split; [auto|]. split.
      + intros x. rewrite I2, B2. split.
        * intros [A N]. split; [exact A|]. intros (ps' & p & E' & P & S'). injection E' as <-. apply N. exists p. auto.
        * intros [A N]. split; [exact A|]. intros (p & P & S'). apply N. exists ps, p. auto.
      + intros [Y|(ps' & p & x & E' & P & A & N)]; [apply B3; exact Y|]. injection E' as <-. apply (I1 x p); auto. apply B2. exact A.
    - injection H as <-. split; [exact B1|]. split.
      + intros x. rewrite B2. split; [|tauto]. intros A. split; [exact A|]. intros (ps' & p & E' & _). discriminate E'.
      + intros [Y|(ps' & p & x & E' & _)]; [apply B3; exact Y|discriminate E'].
  Qed.
  Lemma check_none rows ids excl : check_input_ids search rows ids excl = None <-> invalid search rows ids excl.
  Proof.
    split.
    - unfold check_input_ids, invalid.
      destruct (match ids with None | Some [] => Some (unique eqb_bytes rows)
        | Some l => option_map (unique eqb_bytes) (resolve search (unique eqb_bytes rows) l) end) as [k|] eqn:E.
      + destruct excl as [ps|]; [|discriminate]. intros H. apply remaining_none in H. destruct H as (x & p & X & P & N).
        right. exists ps, p, x. destruct (before_some _ _ _ E) as (_ & B2 & _). rewrite <- B2. auto.
      + intros _. left. apply before_none. exact E.
    - intros N. destruct (check_input_ids search rows ids excl) as [out|] eqn:E; [|reflexivity].
      destruct (check_some _ _ _ _ E) as (_ & _ & C). contradiction.
  Qed.
End S.

Lemma chain_ascending (R : bytes -> bytes -> Prop) l : (forall x y z, R x y -> R y z -> R x z) -> chain R l -> ascending R l.
Proof.
  intros T. induction l as [|x l IH]; [auto|]. intros C. split.
  - clear IH. revert x C. induction l as [|y l IH2]; intros x C; [constructor|]. destruct C as [C1 C2].
    constructor; [exact C1|]. apply IH2. destruct l as [|z l]; [exact Logic.I|]. destruct C2 as [C2 C3]. split; [eapply T; eassumption|exact C3].
  - apply IH. destruct l; [exact Logic.I|]. apply C.
Qed.
