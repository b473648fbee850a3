From Coq Require Import ZArith QArith Qminmax List Bool Lia Lqa.
From Verif Require Import Base Lib UnwrapSpec UnwrapProofs Process Interp Breaks BreaksSpec.
Import ListNotations.
Open Scope Q_scope.

(** * Positions *)
Lemma where_in c : forall i j, In j (where_ i c) <-> exists k, j = (i + k)%nat /\ nth_error c k = Some true.
Proof.
  induction c as [|a c IH]; intros i j; cbn [where_].
  { split; [intros []|]. intros (k & _ & H). destruct k; discriminate. }
  assert (T : In j (where_ (S i) c) <-> exists k, j = (i + S k)%nat /\ nth_error c k = Some true).
  { rewrite IH. split; intros (k & E & H); exists k; split; (lia || assumption). }
  destruct a; cbn [In]; rewrite T; split.
  - intros [<-|(k & E & H)]; [exists 0%nat; split; [lia|reflexivity]|exists (S k); auto].
  - intros ([|k] & E & H); [left; lia|right; exists k; auto].
  - intros (k & E & H). exists (S k). auto.
  - intros ([|k] & E & H); [discriminate|exists k; auto].
Qed.

Lemma diffs_length l : length (diffs l) = (length l - 1)%nat.
Proof. induction l as [|x [|y r] IH]; [reflexivity..|]. cbn [diffs length] in *. rewrite IH. lia. Qed.

Lemma diffs_nth l : forall k d, nth_error (diffs l) k = Some d <-> exists x y, nth_error l k = Some x /\ nth_error l (S k) = Some y /\ d = y - x.
Proof.
  induction l as [|a [|c r] IH]; intros k d.
  - split; [destruct k; discriminate|]. intros (x & y & H & _). destruct k; discriminate.
  - split; [destruct k; discriminate|]. intros (x & y & _ & H & _). destruct k; discriminate.
  - change (diffs (a :: c :: r)) with ((c - a) :: diffs (c :: r)). destruct k as [|k].
    + cbn. split; [intros [= <-]; eauto|]. intros (x & y & [= <-] & [= <-] & ->). reflexivity.
    + cbn [nth_error] in *. rewrite (IH k d). reflexivity.
Qed.

Definition jump_at (l : list Q) (k : nat) : Prop :=
  exists x y, nth_error l k = Some x /\ nth_error l (S k) = Some y /\ jump x y.

Lemma data_breaks_in l j : In j (data_breaks l) <-> jump_at l j.
Proof.
  unfold data_breaks, jump_at, jump. rewrite where_in. split.
  - intros (k & -> & H). cbn [Nat.add]. rewrite nth_error_map in H. destruct (nth_error (diffs l) k) as [d|] eqn:D; [|discriminate].
    injection H as H. apply diffs_nth in D as (x & y & X & Y & ->). exists x, y. rewrite orb_true_iff, !Qltb_lt in H.
    split; [exact X|]. split; [exact Y|]. destruct H; [left|right]; lra.
  - intros (x & y & X & Y & J). exists j. split; [reflexivity|]. rewrite nth_error_map.
    assert (D : nth_error (diffs l) j = Some (y - x)) by (apply diffs_nth; eauto). rewrite D. cbn. f_equal.
    rewrite orb_true_iff, !Qltb_lt. destruct J; [left|right]; lra.
Qed.

(** * Trimmed clock *)
Lemma in_existsb (p : nat -> bool) l : existsb p l = true <-> exists i, In i l /\ p i = true.
Proof. apply existsb_exists. Qed.

Lemma jump_at_bound l k : jump_at l k -> (S k < length l)%nat.
Proof. intros (x & y & _ & H & _). apply nth_error_Some. congruence. Qed.

Lemma without_first_spec l : exists off mD bs, without_first (l, data_breaks l) = (mD, bs) /\
  mD = skipn off l /\ (off = 0 \/ off = 1)%nat /\ (off = 1%nat <-> jump_at l 0) /\
  forall i, In i bs <-> jump_at l (i + off) /\ (1 <= i + off)%nat.
Proof.
  unfold without_first. destruct (existsb (Nat.eqb 0) (data_breaks l)) eqn:E.
  - apply in_existsb in E as (z & I & E). apply Nat.eqb_eq in E. subst z. apply data_breaks_in in I.
    exists 1%nat. eexists. eexists. split; [reflexivity|]. split; [destruct l; reflexivity|]. split; [auto|]. split; [tauto|].
    intros i. rewrite in_map_iff. split.
    + intros (k & <- & H). apply filter_In in H as [H N]. apply negb_true_iff, Nat.eqb_neq in N. apply data_breaks_in in H.
      replace (Nat.pred k + 1)%nat with k by lia. split; [exact H|lia].
    + intros [J _]. exists (i + 1)%nat. split; [lia|]. apply filter_In. split; [apply data_breaks_in; exact J|].
      apply negb_true_iff, Nat.eqb_neq. lia.
  - exists 0%nat. eexists. eexists. split; [reflexivity|]. split; [reflexivity|]. split; [auto|].
    assert (N : ~ jump_at l 0).
    { intros J. apply data_breaks_in in J. assert (X : existsb (Nat.eqb 0) (data_breaks l) = true) by (apply in_existsb; exists 0%nat; auto). congruence. }
    split; [split; [discriminate|tauto]|]. intros i. rewrite Nat.add_0_r, data_breaks_in. split; [|tauto].
    intros J. split; [exact J|]. destruct i; [contradiction|lia].
Qed.

Lemma nth_skipn {A} (l : list A) o i : nth_error (skipn o l) i = nth_error l (o + i).
Proof. revert l. induction o as [|o IH]; intros l; [reflexivity|]. destruct l; [destruct i; reflexivity|]. apply IH. Qed.

Lemma removelast_firstn_len {A} (l : list A) : removelast l = firstn (length l - 1) l.
Proof.
  induction l as [|x [|y r] IH]; [reflexivity..|]. cbn [removelast length] in *. rewrite IH.
  replace (S (S (length r)) - 1)%nat with (S (S (length r) - 1)) by lia. reflexivity.
Qed.
Lemma nth_firstn {A} (l : list A) n i : (i < n)%nat -> nth_error (firstn n l) i = nth_error l i.
Proof. revert n l. induction i as [|i IH]; intros [|n] [|x l] L; try lia; try reflexivity. apply IH. lia. Qed.

(** With five samples or more: what is left of the clock and of its breaks. *)
Lemma inner_breaks_spec l : (5 <= length l)%nat -> exists off mD bs, inner_breaks l = (mD, bs) /\
  (off = 0 \/ off = 1)%nat /\ (off = 1%nat <-> jump_at l 0) /\ (3 <= length mD)%nat /\
  (forall i, (i < length mD)%nat -> nth_error mD i = nth_error l (i + off)) /\
  (forall i, In i bs <-> jump_at l (i + off) /\ (1 <= i + off)%nat /\ (i + off + 3 <= length l)%nat) /\
  (forall i, In i bs -> (S i < length mD)%nat).
Proof.
  intros L5. destruct (without_first_spec l) as (off & mD & bs & E & Em & O & O1 & B). exists off.
  unfold inner_breaks. rewrite E. unfold without_last. cbn [fst snd].
  assert (Lm : length mD = (length l - off)%nat) by (rewrite Em; apply skipn_length).
  assert (Nm : forall i, nth_error mD i = nth_error l (i + off)) by (intros i; rewrite Em, nth_skipn; f_equal; lia).
  set (k := length (diffs mD)). assert (Ek : k = (length l - off - 1)%nat) by (unfold k; rewrite diffs_length; lia).
  destruct (existsb (fun i => Nat.eqb (S i) k) bs) eqn:X.
  - assert (Rl : length (removelast mD) = (length mD - 1)%nat) by (rewrite removelast_firstn_len, firstn_length; lia).
    eexists. eexists. split; [reflexivity|]. split; [exact O|]. split; [exact O1|]. split; [rewrite Rl; lia|].
    split; [|split].
    + intros i Li. rewrite removelast_firstn_len in *. rewrite nth_firstn by (rewrite firstn_length in Li; lia). apply Nm.
    + intros i. rewrite filter_In, B, negb_true_iff, Nat.eqb_neq. split.
      * intros [[J P] N]. split; [exact J|]. pose proof (jump_at_bound _ _ J). split; lia.
      * intros (J & P & Bd). split; [auto|lia].
    + intros i Hi. apply filter_In in Hi as [Hi N]. apply B in Hi as [J _]. apply negb_true_iff, Nat.eqb_neq in N.
      pose proof (jump_at_bound _ _ J). lia.
  - exists mD, bs. split; [reflexivity|]. split; [exact O|]. split; [exact O1|]. split; [lia|]. split; [intros; apply Nm|].
    assert (NX : forall i, In i bs -> S i <> k).
    { intros i Hi C. assert (existsb (fun i => Nat.eqb (S i) k) bs = true) by (apply in_existsb; exists i; split; [exact Hi|apply Nat.eqb_eq; exact C]). congruence. }
    split.
    + intros i. rewrite B. split; [|tauto]. intros [J P]. split; [exact J|]. split; [exact P|].
      pose proof (jump_at_bound _ _ J). assert (S i <> k) by (apply NX, B; auto). lia.
    + intros i Hi. apply B in Hi as [J _]. pose proof (jump_at_bound _ _ J). lia.
Qed.

(** * The three values around a break *)
Lemma three_at {A} (l : list A) i x y z :
  nth_error l i = Some x -> nth_error l (S i) = Some y -> nth_error l (S (S i)) = Some z -> firstn 3 (skipn i l) = [x; y; z].
Proof.
  revert l. induction i as [|i IH]; intros l X Y Z.
  - destruct l as [|a [|c [|d r]]]; cbn in *; congruence.
  - destruct l as [|a l]; [discriminate|]. cbn [skipn]. apply IH; assumption.
Qed.

Lemma around_inner m i x y z : nth_error m i = Some x -> nth_error m (S i) = Some y -> nth_error m (S (S i)) = Some z ->
  around_break m (S i) = [x; y; z].
Proof.
  intros X Y Z. assert (Ln : (S (S i) < length m)%nat) by (apply nth_error_Some; congruence).
  unfold around_break, py_slice, py_index.
  assert (E1 : (Z.of_nat (S i) - 1 <? 0)%Z = false) by (apply Z.ltb_ge; lia).
  assert (E2 : (Z.of_nat (S i) + 2 <? 0)%Z = false) by (apply Z.ltb_ge; lia).
  rewrite E1, E2. replace (Z.to_nat (Z.min (Z.of_nat (length m)) (Z.of_nat (S i) - 1))) with i by lia.
  replace (Z.to_nat (Z.min (Z.of_nat (length m)) (Z.of_nat (S i) + 2)) - i)%nat with 3%nat by lia.
  apply three_at; assumption.
Qed.

Lemma around_first m : around_break m 0 = [] <-> length m <> 2%nat /\ length m <> 1%nat.
Proof.
  destruct m as [|a [|c [|d r]]]; try (cbn; split; [discriminate || intros _; split; discriminate|intros []; congruence || reflexivity]).
  split; [intros _; split; discriminate|intros _].
  unfold around_break, py_slice, py_index. cbn [length]. set (n := length r).
  replace (Z.of_nat 0 - 1 <? 0)%Z with true by reflexivity. replace (Z.of_nat 0 + 2 <? 0)%Z with false by reflexivity.
  replace (Z.to_nat (Z.min (Z.of_nat (S (S (S n)))) (Z.of_nat 0 + 2)) -
           Z.to_nat (Z.min (Z.of_nat (S (S (S n)))) (Z.max 0 (Z.of_nat 0 - 1 + Z.of_nat (S (S (S n)))))))%nat with 0%nat by lia.
  reflexivity.
Qed.

Lemma amax_ge l : forall x v, fold_left Qmax l x = v -> forall m, m <= v <-> m <= x \/ exists u, In u l /\ m <= u.
Proof.
  induction l as [|a l IH]; cbn [fold_left]; intros x v E m.
  - subst v. split; [auto|]. intros [H|(u & [] & _)]. exact H.
  - rewrite (IH _ _ E m). rewrite Q.max_le_iff. cbn [In]. split.
    + intros [[H|H]|(u & I & H)]; [left|right; exists a|right; exists u]; auto.
    + intros [H|(u & [->|I] & H)]; [auto|auto|right; exists u; auto].
Qed.
Lemma amin_le l : forall x v, fold_left Qmin l x = v -> forall m, v <= m <-> x <= m \/ exists u, In u l /\ u <= m.
Proof.
  induction l as [|a l IH]; cbn [fold_left]; intros x v E m.
  - subst v. split; [auto|]. intros [H|(u & [] & _)]. exact H.
  - rewrite (IH _ _ E m). rewrite Q.min_le_iff. cbn [In]. split.
    + intros [[H|H]|(u & I & H)]; [left|right; exists a|right; exists u]; auto.
    + intros [H|(u & [->|I] & H)]; [auto|auto|right; exists u; auto].
Qed.
Lemma amax_iff l v : amax l = Some v -> forall m, m <= v <-> exists u, In u l /\ m <= u.
Proof.
  destruct l as [|x l]; [discriminate|]. intros [= E] m. rewrite (amax_ge _ _ _ E m). cbn [In]. split.
  - intros [H|(u & I & H)]; [exists x|exists u]; auto.
  - intros (u & [->|I] & H); [auto|right; exists u; auto].
Qed.
Lemma amin_iff l v : amin l = Some v -> forall m, v <= m <-> exists u, In u l /\ u <= m.
Proof.
  destruct l as [|x l]; [discriminate|]. intros [= E] m. rewrite (amin_le _ _ _ E m). cbn [In]. split.
  - intros [H|(u & I & H)]; [exists x|exists u]; auto.
  - intros (u & [->|I] & H); [auto|right; exists u; auto].
Qed.
Lemma amax_none l : amax l = None <-> l = [].
Proof. destruct l; cbn; split; congruence. Qed.
Lemma amin_none l : amin l = None <-> l = [].
Proof. destruct l; cbn; split; congruence. Qed.
(** The extremes are attained. *)
Lemma amax_in l v : amax l = Some v -> exists u, In u l /\ u == v.
Proof.
  intros E. destruct (proj1 (amax_iff _ _ E v) (Qle_refl v)) as (u & I & H). exists u. split; [exact I|].
  assert (u <= v) by (apply (amax_iff _ _ E); exists u; split; [exact I|apply Qle_refl]). lra.
Qed.
Lemma amin_in l v : amin l = Some v -> exists u, In u l /\ u == v.
Proof.
  intros E. destruct (proj1 (amin_iff _ _ E v) (Qle_refl v)) as (u & I & H). exists u. split; [exact I|].
  assert (v <= u) by (apply (amin_iff _ _ E); exists u; split; [exact I|apply Qle_refl]). lra.
Qed.

Lemma data_limits_none m bs : data_limits m bs = None <-> exists i, In i bs /\ around_break m i = [].
Proof.
  induction bs as [|i bs IH]; cbn [data_limits]; [split; [discriminate|intros (i & [] & _)]|].
  destruct (amax (around_break m i)) as [s|] eqn:E1.
  2:{ apply amax_none in E1. split; [|auto]. intros _. exists i. cbn. auto. }
  destruct (amin (around_break m i)) as [e|] eqn:E2.
  2:{ apply amin_none in E2. split; [|auto]. intros _. exists i. cbn. auto. }
  assert (around_break m i <> []) by (intros X; rewrite X in E1; discriminate).
  destruct (data_limits m bs) as [[ss es]|].
  - split; [discriminate|]. intros (k & [->|I] & X); [contradiction|]. assert (Some (ss, es) = None) by (apply IH; exists k; auto). discriminate.
  - split; [|auto]. intros _. destruct (proj1 IH eq_refl) as (k & I & X). exists k. cbn. auto.
Qed.
Lemma data_limits_some m bs : forall ss es, data_limits m bs = Some (ss, es) -> length ss = length es /\
  forall s e, In (s, e) (combine ss es) <-> exists i, In i bs /\ amax (around_break m i) = Some s /\ amin (around_break m i) = Some e.
Proof.
  induction bs as [|i bs IH]; cbn [data_limits]; intros ss es.
  { intros [= <- <-]. split; [reflexivity|]. intros s e. split; [intros []|intros (i & [] & _)]. }
  destruct (amax (around_break m i)) as [s0|] eqn:E1; [|discriminate]. destruct (amin (around_break m i)) as [e0|] eqn:E2; [|discriminate].
  destruct (data_limits m bs) as [[ss' es']|]; [|discriminate]. intros [= <- <-]. destruct (IH _ _ eq_refl) as [L H].
  split; [cbn; congruence|]. intros s e. cbn [combine In]. rewrite H. split.
  - intros [[= <- <-]|(k & I & X)]; [exists i; auto|exists k; auto].
  - intros (k & [->|I] & X & Y); [left; congruence|right; exists k; auto].
Qed.

(** * The loop over the GPS breaks, for tags in time order *)
Lemma and_same x y : length x = length y -> and_arrays x y = Some (map (fun p => fst p && snd p) (combine x y)).
Proof. intros E. unfold and_arrays. rewrite E, Nat.eqb_refl. reflexivity. Qed.

Lemma combine_map {A B C D} (f : A -> C) (g : B -> D) l m : combine (map f l) (map g m) = map (fun p => (f (fst p), g (snd p))) (combine l m).
Proof. revert m. induction l as [|x l IH]; intros [|y m]; [reflexivity..|]. cbn. rewrite IH. reflexivity. Qed.

Lemma take_ok l w : (forall i, In i w -> (i < length l)%nat) -> exists r, take l w = Some r.
Proof.
  induction w as [|i w IH]; intros H; [eexists; reflexivity|]. cbn [take].
  destruct (nth_error l i) as [x|] eqn:E; [|apply nth_error_None in E; specialize (H i (or_introl eq_refl)); lia].
  destruct IH as (r & ->); [intros; apply H; right; assumption|]. eauto.
Qed.
Lemma amax_app l x : exists v, amax (l ++ [x]) = Some v.
Proof. destruct l; cbn; eauto. Qed.
Lemma put_all_length l w v : length (put_all l w v) = length l.
Proof. unfold put_all. rewrite map_length, combine_length, seq_length. lia. Qed.

Lemma extreme_some choose keep mG tG : length mG = length tG ->
  (forall l, choose l = None <-> l = []) -> (forall l v, choose l = Some v -> exists u, In u l /\ u == v) ->
  (exists t, In t tG /\ keep t = true) -> exists m, extreme choose keep mG tG = Some m.
Proof.
  intros L N A (t & I & K). unfold extreme. set (sel := filter _ _).
  assert (S : In t (map snd sel)).
  { apply in_map_iff. apply In_nth_error in I as (k & Ik). assert (Bk : (k < length mG)%nat) by (rewrite L; apply nth_error_Some; congruence).
    destruct (nth_error mG k) as [m|] eqn:Em; [|apply nth_error_None in Em; lia].
    exists (m, t). split; [reflexivity|]. apply filter_In. split; [|exact K].
    assert (X : nth_error (combine mG tG) k = Some (m, t)).
    { clear - Em Ik. revert mG tG Em Ik. induction k; intros [|a mG] [|c tG] Em Ik; try discriminate; cbn in *; [congruence|auto]. }
    eapply nth_error_In. exact X. }
  destruct (choose (map snd sel)) as [v|] eqn:C; [|apply N in C; rewrite C in S; destruct S].
  apply A in C as (u & Iu & Eu). apply in_map_iff in Iu as ([m u'] & E & Is). cbn in E. subst u'.
  assert (Is' : In (m, u) (rev (filter (fun p => Qeq_bool (snd p) v) sel))).
  { rewrite <- in_rev. apply filter_In. split; [exact Is|]. apply Qeq_bool_iff. exact Eu. }
  destruct (rev _) as [|p r]; [destruct Is'|]. eauto.
Qed.

Definition overlaps (m0 m1 : Q) (ss es : list Q) : Prop := exists s e, In (s, e) (combine ss es) /\ m0 <= s /\ e <= m1.

Section Increasing.
  Variables mG tG : list Q.
  Hypothesis same : length mG = length tG.
  Hypothesis incr : forall i, (S i < length tG)%nat -> at_ tG i < at_ tG (S i).

  Lemma step_cases i s : (S i < length tG)%nat -> length (starts s) = length (ends s) ->
    (gps_step mG tG i s = None /\ i = 0%nat /\ (3 <= length tG)%nat /\ overlaps (at_ mG 0) (at_ mG 1) (starts s) (ends s)) \/
    (exists s', gps_step mG tG i s = Some s' /\ length (starts s') = length (ends s') /\
       (i = 0%nat -> (3 <= length tG)%nat -> ~ overlaps (at_ mG 0) (at_ mG 1) (starts s) (ends s))).
  Proof.
    intros Bi Ls. unfold gps_step. rewrite and_same by (rewrite !map_length; exact Ls). rewrite combine_map, map_map. cbn [fst snd].
    set (ov := map _ _). assert (Lo : length ov = length (starts s)) by (unfold ov; rewrite map_length, combine_length; lia).
    assert (Ov : existsb (fun c => c) ov = true <-> overlaps (at_ mG i) (at_ mG (S i)) (starts s) (ends s)).
    { rewrite existsb_exists. unfold ov, overlaps. split.
      - intros (c & I & ->). apply in_map_iff in I as ([a e] & E & I). cbn [fst snd] in E. apply andb_prop in E as [E1 E2].
        exists a, e. rewrite <- !Qle_bool_iff. auto.
      - intros (a & e & I & H1 & H2). exists true. split; [|reflexivity]. apply in_map_iff. exists (a, e). cbn [fst snd]. split; [|exact I].
        apply Qle_bool_iff in H1, H2. rewrite H1, H2. reflexivity. }
    destruct (existsb (fun c => c) ov) eqn:E.
    - set (w := where_ 0 ov). assert (W : forall k, In k w -> (k < length (starts s))%nat).
      { intros k I. apply where_in in I as (k' & -> & H). rewrite <- Lo. apply nth_error_Some. cbn. congruence. }
      destruct (take_ok (starts s) w W) as (ss & ->). destruct (take_ok (ends s) w) as (es & ->); [rewrite <- Ls; exact W|].
      destruct (around_break mG i) as [|x l] eqn:A.
      + left. cbn. split; [reflexivity|]. destruct i as [|i].
        * apply around_first in A. split; [reflexivity|]. split; [lia|]. apply Ov. reflexivity.
        * exfalso. destruct (nth_error mG i) as [a|] eqn:N1; [|apply nth_error_None in N1; lia].
          destruct (nth_error mG (S i)) as [c|] eqn:N2; [|apply nth_error_None in N2; lia].
          destruct (nth_error mG (S (S i))) as [d|] eqn:N3; [|apply nth_error_None in N3; lia].
          rewrite (around_inner _ _ _ _ _ N1 N2 N3) in A. discriminate.
      + right. cbn [amax amin]. destruct (amax_app ss (fold_left Qmax l x)) as (v & ->). destruct (amax_app es (fold_left Qmin l x)) as (v' & ->).
        eexists. split; [reflexivity|]. cbn [starts ends]. rewrite !put_all_length. split; [exact Ls|].
        intros -> L3 _. assert (A0 : around_break mG 0 = []) by (apply around_first; lia). rewrite A0 in A. discriminate.
    - right. pose proof (incr i Bi) as Lt.
      destruct (extreme_some amin (Qltb (at_ tG i)) mG tG same amin_none amin_in) as (m1 & E1).
      { exists (at_ tG (S i)). split; [apply nth_In; exact Bi|apply Qltb_lt; exact Lt]. }
      destruct (extreme_some amax (fun t => Qltb t (at_ tG (S i))) mG tG same amax_none amax_in) as (m2 & E2).
      { exists (at_ tG i). split; [apply nth_In; lia|apply Qltb_lt; exact Lt]. }
      rewrite E1, E2. eexists. split; [reflexivity|]. cbn [starts ends]. rewrite !app_length. split; [cbn; lia|].
      intros -> _ H. apply Ov in H. discriminate.
  Qed.

  Lemma loop_inner bs : (forall i, In i bs -> (1 <= i)%nat /\ (S i < length tG)%nat) -> forall s, length (starts s) = length (ends s) ->
    exists s', gps_loop mG tG bs s = Some s'.
  Proof.
    induction bs as [|i bs IH]; intros B s Ls; [eexists; reflexivity|]. cbn [gps_loop].
    destruct (B i (or_introl eq_refl)) as [B1 B2].
    destruct (step_cases i s B2 Ls) as [(_ & X & _)|(s' & -> & Ls' & _)]; [lia|]. apply IH; [|exact Ls']. intros; apply B; right; assumption.
  Qed.

  Lemma where_zero c : In 0%nat (where_ 0 c) -> exists r, where_ 0 c = 0%nat :: r /\ forall i, In i r -> (1 <= i)%nat.
  Proof.
    destruct c as [|[|] c]; cbn [where_].
    - intros [].
    - intros _. eexists. split; [reflexivity|]. intros i I. apply where_in in I as (k & -> & _). lia.
    - intros I. apply where_in in I as (k & E & _). lia.
  Qed.

  Lemma loop_cases s : length (starts s) = length (ends s) ->
    (gps_loop mG tG (gps_breaks mG tG) s = None <->
     In 0%nat (gps_breaks mG tG) /\ (3 <= length tG)%nat /\ overlaps (at_ mG 0) (at_ mG 1) (starts s) (ends s)).
  Proof.
    intros Ls. unfold gps_breaks. set (c := map _ _).
    assert (Bd : forall i, In i (where_ 0 c) -> (S i < length tG)%nat).
    { intros i I. apply where_in in I as (k & -> & H). assert (k < length c)%nat by (apply nth_error_Some; congruence).
      unfold c in *. rewrite map_length, combine_length, !diffs_length in *. cbn. lia. }
    destruct (in_dec Nat.eq_dec 0%nat (where_ 0 c)) as [Z|Z].
    - destruct (where_zero c Z) as (r & Er & Br). assert (B0 : (1 < length tG)%nat) by (apply Bd; exact Z).
      assert (Bd' : forall i, In i r -> (S i < length tG)%nat) by (intros i I; apply Bd; rewrite Er; right; exact I).
      rewrite Er. cbn [gps_loop]. destruct (step_cases 0 s B0 Ls) as [(-> & _ & L3 & O)|(s' & -> & Ls' & NO)].
      + split; [|auto]. intros _. split; [left; reflexivity|auto].
      + destruct (loop_inner r (fun i I => conj (Br i I) (Bd' i I)) s' Ls') as (s'' & ->). split; [discriminate|].
        intros (_ & L3 & O). exfalso. exact (NO eq_refl L3 O).
    - destruct (loop_inner (where_ 0 c)) with (s := s) as (s' & ->); [|exact Ls|].
      + intros i I. split; [|apply Bd; exact I]. destruct i; [contradiction|lia].
      + split; [discriminate|]. tauto.
  Qed.
End Increasing.

(** * Trusted tags *)
Lemma far_close s t : far s t = false <-> close s t.
Proof. unfold far, close. rewrite Z.ltb_ge. reflexivity. Qed.

Lemma bad_tag_iff now gps i e prev next :
  (match i with O => prev = snd e | S j => exists e', nth_error gps j = Some e' /\ prev = snd e' end) ->
  (match nth_error gps (S i) with None => next = snd e /\ S i = length gps | Some e' => next = snd e' end) ->
  bad_tag now prev next e = false <-> trusted now gps i e.
Proof.
  intros P N. unfold bad_tag, trusted. rewrite !orb_false_iff, andb_false_iff, !far_close, Qltb_ge.
  assert (Yr : flt (gyear (fst e)) 2015 = false <-> (forall y, gyear (fst e) = Some y -> 2015 <= y)).
  { unfold flt. destruct (gyear (fst e)) as [y|]; [rewrite Qltb_ge; split; [intros H y' [= <-]; exact H|auto]|split; [discriminate|auto]]. }
  assert (Fq : forall o, feq o 0 = false <-> (forall x, o = Some x -> ~ x == 0)).
  { intros o. unfold feq. destruct o as [x|]; [|split; [discriminate|auto]]. destruct (Qeq_bool x 0) eqn:E.
    - split; [discriminate|]. intros H. exfalso. apply (H x eq_refl), Qeq_bool_iff, E.
    - split; [|auto]. intros _ x' [= <-] X. apply Qeq_bool_iff in X. congruence. }
  rewrite Yr, !Fq. assert (Self : close (snd e) (snd e)) by (unfold close; lia).
  assert (K : close (snd e) prev \/ close (snd e) next <->
              i = 0%nat \/ S i = length gps \/ (exists e', nth_error gps (i - 1) = Some e' /\ close (snd e) (snd e')) \/
              (exists e', nth_error gps (S i) = Some e' /\ close (snd e) (snd e'))).
  { destruct (nth_error gps (S i)) as [en|] eqn:En.
    - subst next. assert (S i <> length gps) by (intros X; assert (S i < length gps)%nat by (apply nth_error_Some; congruence); lia).
      destruct i as [|j]; [subst prev; tauto|]. destruct P as (ep & Ep & ->). replace (S j - 1)%nat with j by lia. split.
      + intros [Hc|Hc]; [right; right; left; eauto|right; right; right; eauto].
      + intros [Hc|[Hc|[(e' & Hc & C)|(e' & [= <-] & C)]]]; [discriminate|contradiction| |auto]. rewrite Ep in Hc. injection Hc as <-. auto.
    - destruct N as [-> Ln]. split; [intros _; right; left; exact Ln|auto]. }
  rewrite K. tauto.
Qed.

Lemma good_tags_picked now gps : forall l pre prev, gps = pre ++ l ->
  (match length pre with O => forall e r, l = e :: r -> prev = snd e | S j => exists e', nth_error gps j = Some e' /\ prev = snd e' end) ->
  picked (trusted now gps) (length pre) l (good_tags now prev l).
Proof.
  induction l as [|e r IH]; intros pre prev E P; cbn [good_tags]; [constructor|].
  set (next := match r with [] => snd e | e' :: _ => snd e' end).
  assert (E' : gps = (pre ++ [e]) ++ r) by (rewrite <- app_assoc; exact E).
  assert (Ne : nth_error gps (length pre) = Some e) by (rewrite E, nth_error_app2, Nat.sub_diag by lia; reflexivity).
  assert (Ln : length (pre ++ [e]) = S (length pre)) by (rewrite app_length; cbn; lia).
  assert (T : picked (trusted now gps) (S (length pre)) r (good_tags now (snd e) r)).
  { rewrite <- Ln. apply IH; [exact E'|]. rewrite Ln. exists e. auto. }
  assert (B : bad_tag now prev next e = false <-> trusted now gps (length pre) e).
  { apply bad_tag_iff.
    - destruct (length pre); [eapply P; reflexivity|exact P].
    - assert (X : nth_error gps (S (length pre)) = hd_error r).
      { rewrite E', nth_error_app2 by lia. replace (S (length pre) - length (pre ++ [e]))%nat with 0%nat by lia. destruct r; reflexivity. }
      rewrite X. unfold next. destruct r; cbn [hd_error]; [|reflexivity]. split; [reflexivity|]. rewrite E', app_length. cbn. lia. }
  change (picked (trusted now gps) (length pre) (e :: r) (if bad_tag now prev next e then good_tags now (snd e) r else e :: good_tags now (snd e) r)).
  destruct (bad_tag now prev next e); [apply picked_skip|apply picked_take]; try assumption.
  - intros X. apply B in X. discriminate.
  - apply B. reflexivity.
Qed.

Lemma picked_fun {A} (P : nat -> A -> Prop) i l l1 l2 : picked P i l l1 -> picked P i l l2 -> l1 = l2.
Proof. intros H. revert l2. induction H; intros l2 H2; inversion H2; subst; try reflexivity; try contradiction; [f_equal|]; auto. Qed.

Lemma usable_iff now gps gs : gps <> [] -> usable_tags now gps = Some gs <-> usable now gps gs.
Proof.
  intros N. destruct gps as [|e r]; [contradiction|]. cbn [usable_tags].
  assert (U : usable now (e :: r) (good_tags now (snd e) (e :: r))).
  { apply (good_tags_picked now (e :: r) (e :: r) []); [reflexivity|]. cbn [length]. intros e' r' [= <- <-]. reflexivity. }
  split; [intros [= <-]; exact U|]. intros H. f_equal. eapply picked_fun; eassumption.
Qed.

(** * Rates *)
Lemma gps_break_iff e e' : (snd e < snd e')%Z ->
  gps_break (msPPS (fst e') - msPPS (fst e)) (inject_Z (snd e') - inject_Z (snd e)) = true <-> off_rate e e'.
Proof.
  intros L. assert (D : 0 < inject_Z (snd e') - inject_Z (snd e)) by (rewrite Zlt_Qlt in L; lra).
  unfold gps_break, off_rate. cbv zeta. set (dt := inject_Z (snd e') - inject_Z (snd e)) in *. set (dm := msPPS (fst e') - msPPS (fst e)).
  clearbody dt dm. clear - D.
  assert (E : Qeq_bool dt 0 = false). { destruct (Qeq_bool dt 0) eqn:E; [|reflexivity]. apply Qeq_bool_iff in E. lra. }
  rewrite E, orb_true_iff, !andb_true_iff, !orb_true_iff, !Qltb_lt, Qle_bool_iff.
  assert (R : dm / dt * (1024 # 1000) == ((1024 # 1000) * dm) / dt) by (field; lra).
  assert (A1 : forall k, k < dm / dt * (1024 # 1000) <-> k * dt < (1024 # 1000) * dm).
  { intros k. rewrite R. split; intros H.
    - apply (Qmult_lt_r _ _ dt D) in H. assert (X : (1024 # 1000) * dm / dt * dt == (1024 # 1000) * dm) by (field; lra). lra.
    - apply Qlt_shift_div_l; assumption. }
  assert (A2 : forall k, dm / dt * (1024 # 1000) < k <-> (1024 # 1000) * dm < k * dt).
  { intros k. rewrite R. split; intros H.
    - apply (Qmult_lt_r _ _ dt D) in H. assert (X : (1024 # 1000) * dm / dt * dt == (1024 # 1000) * dm) by (field; lra). lra.
    - apply Qlt_shift_div_r; assumption. }
  rewrite !A1, !A2. reflexivity.
Qed.
