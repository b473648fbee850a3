(** Proofs about the group part of the huddle test. *)
From Coq Require Import String.
From Coq Require Import ZArith QArith Qround Qabs List Bool Lia Lqa.
From Verif Require Import Base Lib UnwrapProofs Process Outliers OutliersSpec OutliersProofs Windows Select Huddle HuddleSpec HuddleProofs.
Import ListNotations.
Open Scope Z_scope.

(** Columns without missing values. *)
Lemma numbers_app l m : numbers (l ++ m) = numbers l ++ numbers m.
Proof. unfold numbers. apply flat_map_app. Qed.
Lemma numbers_some (l : list Q) : numbers (map Some l) = l.
Proof. unfold numbers. induction l as [|x l IH]; [reflexivity|]. cbn. rewrite IH. reflexivity. Qed.
Lemma numbers_in l v : In v (numbers l) <-> In (Some v) l.
Proof.
  unfold numbers. rewrite in_flat_map. split.
  - intros ([u|] & I & J); [|destruct J]. destruct J as [ -> |[]]. exact I.
  - intro I. exists (Some v). split; [exact I|left; reflexivity].
Qed.
Lemma timed_map rows : timed rows -> exists l, map h_t rows = map Some l.
Proof.
  induction rows as [|r rows IH]; intro T; [exists []; reflexivity|].
  destruct (T r (or_introl eq_refl)) as (t & E). destruct IH as (l & F); [intros r' I; apply T; right; exact I|].
  exists (t :: l). cbn. rewrite E, F. reflexivity.
Qed.

(** The mean interval is the whole time over the number of steps. *)
Lemma diffs_sum a l : numbers (diffs (map Some (a :: l))) = map (fun p => snd p - fst p)%Q (pairs (a :: l)) /\
  (sumQ (numbers (diffs (map Some (a :: l)))) == last l a - a)%Q /\ length (numbers (diffs (map Some (a :: l)))) = length l.
Proof.
  revert a. induction l as [|x l IH]; intro a.
  - cbn. repeat split. lra.
  - change (diffs (map Some (a :: x :: l))) with (Some (x - a)%Q :: diffs (map Some (x :: l))).
    change (numbers (Some (x - a)%Q :: diffs (map Some (x :: l)))) with ((x - a)%Q :: numbers (diffs (map Some (x :: l)))).
    destruct (IH x) as (E & S & L). split; [rewrite E; reflexivity|]. split; [|cbn [length]; rewrite L; reflexivity].
    cbn [sumQ]. rewrite S. assert (Hl : last (x :: l) a = last l x).
    { clear. revert x. induction l as [|y l IH]; intro x; [reflexivity|]. change (last (y :: l) a = last (y :: l) x). rewrite IH.
      change (last (y :: l) x) with (match l with [] => y | _ => last l x end). destruct l as [|z l]; [reflexivity|].
      clear. revert y z. induction l as [|w l IH]; intros y z; [reflexivity|]. change (last (z :: w :: l) y) with (last (w :: l) y).
      change (last (z :: w :: l) x) with (last (w :: l) x). apply IH. }
    rewrite Hl. lra.
Qed.
Lemma interval_spec rows a l : map h_t rows = map Some (a :: l) -> l <> [] ->
  exists v, interval rows = Some v /\ (v * inject_Z (Z.of_nat (length l)) == last l a - a)%Q.
Proof.
  intros E N. unfold interval. rewrite E. destruct (diffs_sum a l) as (_ & S & L).
  destruct (numbers (diffs (map Some (a :: l)))) as [|x m] eqn:F.
  - destruct l; [contradiction|]. discriminate.
  - eexists. split; [reflexivity|]. rewrite <- S. unfold mean, count. rewrite L. field.
    intro Z. unfold Qeq, inject_Z in Z. cbn in Z. destruct l; [contradiction|]. cbn in Z. lia.
Qed.

Lemma py_trunc_eq x y : (x == y)%Q -> py_trunc x = py_trunc y.
Proof.
  intro E. unfold py_trunc. assert (F : Qle_bool 0 x = Qle_bool 0 y) by (rewrite E; reflexivity).
  rewrite F. destruct (Qle_bool 0 y); [|f_equal]; apply Qfloor_comp; rewrite E; reflexivity.
Qed.
Lemma floor_is x i : (inject_Z i <= x)%Q -> (x < inject_Z i + 1)%Q -> Qfloor x = i.
Proof.
  intros L U. pose proof (Qfloor_le x) as A. pose proof (Qlt_floor x) as B.
  assert (C : (inject_Z i < inject_Z (Qfloor x + 1))%Q) by (eapply Qle_lt_trans; [exact L|exact B]). rewrite <- Zlt_Qlt in C.
  assert (D : (inject_Z (Qfloor x) < inject_Z (i + 1))%Q) by (rewrite inject_Z_plus; eapply Qle_lt_trans; [exact A|exact U]).
  rewrite <- Zlt_Qlt in D. lia.
Qed.
Lemma trunc_whole d i : whole d i -> py_trunc d = i.
Proof.
  intros (P & L & U & _). unfold py_trunc. assert (Z : Qle_bool 0 d = true).
  { apply Qle_bool_iff. apply Qle_trans with (inject_Z i); [|exact L]. change 0%Q with (inject_Z 0). rewrite <- Zle_Qle. lia. }
  rewrite Z. apply floor_is; assumption.
Qed.
Lemma trunc_int z : py_trunc (inject_Z z) = z.
Proof.
  unfold py_trunc. destruct (Qle_bool 0 (inject_Z z)); [apply Qfloor_Z|].
  assert (E : (- inject_Z z == inject_Z (- z))%Q) by (rewrite inject_Z_opp; reflexivity).
  rewrite (Qfloor_comp _ _ E), Qfloor_Z. lia.
Qed.

(** The row nearest to a time. *)
Lemma argmin_from_spec (l : list Q) : forall k best v,
  (argmin_from (map Some l) k best (Some v) = best /\ forall u, In u l -> (v <= u)%Q) \/
  exists i u, argmin_from (map Some l) k best (Some v) = k + Z.of_nat i /\ nth_error l i = Some u /\ (u < v)%Q /\
    forall i' u', nth_error l i' = Some u' -> (u <= u')%Q /\ ((i' < i)%nat -> (u < u')%Q).
Proof.
  induction l as [|x l IH]; intros k best v.
  - left. split; [reflexivity|]. intros u [].
  - cbn [map argmin_from]. destruct (Qltb x v) eqn:E.
    + apply Qltb_lt in E. right. destruct (IH (k + 1) k x) as [[F A]|(i & u & F & N & L & A)].
      * exists 0%nat, x. split; [rewrite F; lia|]. split; [reflexivity|]. split; [exact E|]. intros i' u' N. split; [|lia].
        destruct i' as [|i']; [injection N as <-; apply Qle_refl|]. apply A. exact (nth_error_In l i' N).
      * exists (S i), u. split; [rewrite F; lia|]. split; [exact N|]. split; [lra|]. intros i' u' N'.
        destruct i' as [|i']; [injection N' as <-; split; [lra|intros _; exact L]|]. destruct (A i' u' N') as [A1 A2].
        split; [exact A1|]. intro H. apply A2. lia.
    + apply Qltb_ge in E. destruct (IH (k + 1) best v) as [[F A]|(i & u & F & N & L & A)].
      * left. split; [exact F|]. intros u [<-|I]; [exact E|apply A, I].
      * right. exists (S i), u. split; [rewrite F; lia|]. split; [exact N|]. split; [exact L|]. intros i' u' N'.
        destruct i' as [|i']; [injection N' as <-; split; [lra|intros _; lra]|]. destruct (A i' u' N') as [A1 A2].
        split; [exact A1|]. intro H. apply A2. lia.
Qed.
Lemma argmin_spec (l : list Q) : l <> [] -> exists j u, argmin (map Some l) = Some (Z.of_nat j) /\ nth_error l j = Some u /\
  forall k u', nth_error l k = Some u' -> (u <= u')%Q /\ ((k < j)%nat -> (u < u')%Q).
Proof.
  destruct l as [|x l]; [contradiction|]. intros _. cbn [map argmin].
  destruct (argmin_from_spec l 1 0 x) as [[F A]|(i & u & F & N & L & A)].
  - exists 0%nat, x. split; [rewrite F; reflexivity|]. split; [reflexivity|]. intros k u' N. split; [|lia].
    destruct k as [|k]; [injection N as <-; apply Qle_refl|]. apply A. exact (nth_error_In l k N).
  - exists (S i), u. split; [rewrite F; f_equal; lia|]. split; [exact N|]. intros k u' N'.
    destruct k as [|k]; [injection N' as <-; split; [lra|intros _; exact L]|]. destruct (A k u' N') as [A1 A2].
    split; [exact A1|]. intro H. apply A2. lia.
Qed.
Lemma nearest_spec rows t : timed rows -> rows <> [] -> exists j r u, nearest rows t = Some (Z.of_nat j) /\
  nth_error rows j = Some r /\ h_t r = Some u /\
  forall k r' u', nth_error rows k = Some r' -> h_t r' = Some u' -> (Qabs (t - u) <= Qabs (t - u'))%Q /\ ((k < j)%nat -> (Qabs (t - u) < Qabs (t - u'))%Q).
Proof.
  intros T N. destruct (timed_map _ T) as (l & E). unfold nearest.
  assert (F : map (fun r => match h_t r with Some u => Some (Qabs (t - u)) | None => None end) rows = map Some (map (fun u => Qabs (t - u)) l)).
  { clear N T. revert l E. induction rows as [|r rows IH]; intros [|u l] E; try discriminate; [reflexivity|].
    injection E as E1 E2. cbn. rewrite E1. f_equal. apply IH, E2. }
  rewrite F. destruct (argmin_spec (map (fun u => Qabs (t - u)) l)) as (j & x & A & Nx & H).
  { destruct rows; [contradiction|]. destruct l; discriminate. }
  assert (G : forall k u', nth_error l k = Some u' <-> exists r', nth_error rows k = Some r' /\ h_t r' = Some u').
  { intros k u'. assert (M : nth_error (map h_t rows) k = nth_error (map Some l) k) by (rewrite E; reflexivity).
    split.
    - intro K. rewrite (map_nth_error Some _ _ K) in M. destruct (nth_error rows k) as [r'|] eqn:R.
      + rewrite (map_nth_error h_t _ _ R) in M. injection M as M. exists r'. auto.
      + apply nth_error_None in R. rewrite (proj2 (nth_error_None _ _)) in M; [discriminate|]. rewrite map_length. exact R.
    - intros (r' & R & Hr). rewrite (map_nth_error h_t _ _ R), Hr in M. destruct (nth_error l k) as [u|] eqn:K.
      + rewrite (map_nth_error Some _ _ K) in M. congruence.
      + apply nth_error_None in K. symmetry in M. rewrite (proj2 (nth_error_None _ _)) in M; [discriminate|]. rewrite map_length. exact K. }
  destruct (nth_error l j) as [u|] eqn:U.
  2:{ apply nth_error_None in U. assert (V : nth_error (map (fun u => Qabs (t - u)) l) j = None) by (apply nth_error_None; rewrite map_length; exact U). congruence. }
  rewrite (map_nth_error (fun u => Qabs (t - u)) _ _ U) in Nx. injection Nx as <-.
  destruct (proj1 (G j u) U) as (r & R & Hr). exists j, r, u. split; [exact A|]. split; [exact R|]. split; [exact Hr|].
  intros k r' u' R' Hr'. apply (H k (Qabs (t - u'))). apply (map_nth_error (fun u => Qabs (t - u))). apply G. exists r'. auto.
Qed.

(** Regular rows. *)
Lemma regular_timed rows s d : regular rows s d -> timed rows.
Proof. intros [_ R] r I. destruct (In_nth_error _ _ I) as (k & N). destruct (R k r N) as (t & E & _). exists t. exact E. Qed.
Lemma regular_times rows s d : regular rows s d -> exists a l, map h_t rows = map Some (a :: l) /\ l <> [] /\ (a == s)%Q /\
  (last l a == s + d * inject_Z (Z.of_nat (length l)))%Q.
Proof.
  intro R. destruct (timed_map _ (regular_timed _ _ _ R)) as (m & E). destruct R as [L R].
  assert (Lm : length m = length rows) by (rewrite <- (map_length Some m), <- E, map_length; reflexivity).
  destruct m as [|a l]; [cbn in Lm; lia|]. exists a, l. split; [exact E|]. split; [intros ->; cbn in Lm; lia|].
  assert (G : forall k u, nth_error (a :: l) k = Some u -> (u == s + d * inject_Z (Z.of_nat k))%Q).
  { intros k u N. assert (M : nth_error (map h_t rows) k = nth_error (map Some (a :: l)) k) by (rewrite E; reflexivity).
    rewrite (map_nth_error Some _ _ N) in M. destruct (nth_error rows k) as [r|] eqn:K.
    - rewrite (map_nth_error h_t _ _ K) in M. injection M as M. destruct (R k r K) as (t & Et & Q). congruence.
    - apply nth_error_None in K. rewrite (proj2 (nth_error_None _ _)) in M; [discriminate|]. rewrite map_length. exact K. }
  split.
  - pose proof (G 0%nat a eq_refl) as G0. change (inject_Z (Z.of_nat 0)) with 0%Q in G0. lra.
  - apply (G (length l)). clear. revert a. induction l as [|x l IH]; intro a; [reflexivity|].
    change (nth_error (a :: x :: l) (length (x :: l))) with (nth_error (x :: l) (length l)). rewrite IH.
    f_equal. symmetry. revert x. induction l as [|y l IH']; intro x; [reflexivity|].
    change (last (y :: l) a = last (y :: l) x). clear. revert y. induction l as [|z l IH]; intro y; [reflexivity|]. apply IH.
Qed.
Lemma regular_interval rows s d : regular rows s d -> exists v, interval rows = Some v /\ (v == d)%Q.
Proof.
  intro R. destruct (regular_times _ _ _ R) as (a & l & E & N & A & L). destruct (interval_spec _ _ _ E N) as (v & F & V).
  exists v. split; [exact F|]. assert (NZ : ~ (inject_Z (Z.of_nat (length l)) == 0)%Q).
  { intro Z. unfold Qeq, inject_Z in Z. cbn in Z. destruct l; [contradiction|]. cbn in Z. lia. }
  apply (Qmult_inj_r _ _ (inject_Z (Z.of_nat (length l)))); [exact NZ|]. rewrite V, L, A. lra.
Qed.

Ltac qabs := repeat match goal with
  | H : context [Qabs ?x] |- _ => destruct (Qlt_le_dec x 0); [rewrite (Qabs_neg x) in * by lra|rewrite (Qabs_pos x) in * by lra]
  | |- context [Qabs ?x] => destruct (Qlt_le_dec x 0); [rewrite (Qabs_neg x) in * by lra|rewrite (Qabs_pos x) in * by lra]
  end.
Lemma inject_succ k : (inject_Z (Z.of_nat (S k)) == inject_Z (Z.of_nat k) + 1)%Q.
Proof. rewrite Nat2Z.inj_succ, <- Z.add_1_r, inject_Z_plus. reflexivity. Qed.
Lemma mono_steps d j k : (0 < d)%Q -> (j <= k)%nat -> (d * inject_Z (Z.of_nat j) <= d * inject_Z (Z.of_nat k))%Q.
Proof. intros D L. rewrite !(Qmult_comm d). apply Qmult_le_compat_r; [|lra]. rewrite <- Zle_Qle. lia. Qed.

Lemma nearest_first rows s d t : regular rows s d -> (0 < d)%Q -> (t <= s)%Q -> nearest rows t = Some 0.
Proof.
  intros R D L. assert (N : rows <> []) by (destruct R as [R _]; intros ->; cbn in R; lia).
  destruct (nearest_spec rows t (regular_timed _ _ _ R) N) as (j & r & u & E & Nj & Hu & H). rewrite E. f_equal.
  destruct j as [|j]; [reflexivity|]. exfalso. destruct R as [_ R]. destruct rows as [|r0 rows]; [contradiction|].
  destruct (R 0%nat r0 eq_refl) as (t0 & E0 & Q0). destruct (H 0%nat r0 t0 eq_refl E0) as [_ H0].
  assert (H1 : (Qabs (t - u) < Qabs (t - t0))%Q) by (apply H0; lia). clear H0.
  destruct (R (S j) r Nj) as (t' & E' & Q'). assert (t' = u) by congruence. subst t'.
  pose proof (mono_steps d 0 (S j) D ltac:(lia)) as M. change (inject_Z (Z.of_nat 0)) with 0%Q in M, Q0. qabs; lra.
Qed.
Lemma nearest_end rows s d t : regular rows s d -> (0 < d)%Q -> exists j, nearest rows t = Some (Z.of_nat j) /\ (j < length rows)%nat /\
  forall k, (k < j)%nat <-> (S k < length rows)%nat /\ (s + d * inject_Z (Z.of_nat k) + d * (1 # 2) < t)%Q.
Proof.
  intros R D. assert (N : rows <> []) by (destruct R as [R _]; intros ->; cbn in R; lia).
  destruct (nearest_spec rows t (regular_timed _ _ _ R) N) as (j & r & u & E & Nj & Hu & H).
  assert (Lj : (j < length rows)%nat) by (apply nth_error_Some; congruence).
  exists j. split; [exact E|]. split; [exact Lj|]. destruct R as [_ R].
  assert (G : forall k, (k < length rows)%nat -> exists r' u', nth_error rows k = Some r' /\ h_t r' = Some u' /\ (u' == s + d * inject_Z (Z.of_nat k))%Q).
  { intros k L. destruct (nth_error rows k) as [r'|] eqn:K; [|apply nth_error_None in K; lia].
    destruct (R k r' K) as (u' & Eu & Q). exists r', u'. auto. }
  destruct (G j Lj) as (rj & uj & Nj' & Euj & Quj). assert (rj = r) by congruence. subst rj. assert (uj = u) by congruence. subst uj.
  intro k. split.
  - intro L. split; [lia|]. destruct j as [|j]; [lia|]. destruct (G j ltac:(lia)) as (r' & u' & K & Eu & Qu).
    destruct (H j r' u' K Eu) as [_ H1]. specialize (H1 ltac:(lia)).
    pose proof (mono_steps d k j D ltac:(lia)) as M. pose proof (inject_succ j) as S1.
    assert (S2 : (d * inject_Z (Z.of_nat (S j)) == d * inject_Z (Z.of_nat j) + d)%Q) by (rewrite S1; ring). qabs; lra.
  - intros [L T]. destruct (le_lt_dec j k) as [Lk|Lk]; [exfalso|exact Lk].
    destruct (G (S k) L) as (r' & u' & K & Eu & Qu). destruct (H _ r' u' K Eu) as [H1 _].
    pose proof (mono_steps d j k D Lk) as M.
    assert (S2 : (d * inject_Z (Z.of_nat (S k)) == d * inject_Z (Z.of_nat k) + d)%Q) by (rewrite inject_succ; ring). qabs; lra.
Qed.

Lemma lt_ceiling c x : c < Qceiling x <-> (inject_Z c < x)%Q.
Proof.
  split; intro H.
  - apply Qnot_le_lt. intro L. assert (C : Qceiling x <= c) by (rewrite <- (Qceiling_Z c); apply Qceiling_resp_le, L). lia.
  - rewrite Zlt_Qlt. eapply Qlt_le_trans; [exact H|apply Qle_ceiling].
Qed.
Lemma range_in n c : In c (range n) <-> 0 <= c < n.
Proof.
  unfold range. rewrite in_map_iff. split.
  - intros (k & <- & I). apply in_seq in I. lia.
  - intro L. exists (Z.to_nat c). split; [lia|]. apply in_seq. lia.
Qed.
Lemma range_nth n c : (c < Z.to_nat n)%nat -> nth_error (range n) c = Some (Z.of_nat c).
Proof.
  intro L. unfold range. rewrite (map_nth_error Z.of_nat c (seq 0 (Z.to_nat n)) (d := c)); [reflexivity|].
  rewrite (nth_error_nth' _ 0%nat) by (rewrite seq_length; exact L). rewrite seq_nth by exact L. reflexivity.
Qed.
Lemma all_some_map {A B} (f : A -> option B) (g : A -> B) l : (forall x, In x l -> f x = Some (g x)) -> all_some (map f l) = Some (map g l).
Proof.
  induction l as [|x l IH]; intro H; [reflexivity|]. cbn [map all_some]. rewrite (H x (or_introl eq_refl)).
  rewrite IH; [reflexivity|]. intros y I. apply H. right. exact I.
Qed.

Lemma whole_pos d i : whole d i -> (0 < d)%Q.
Proof. intros (P & L & _). eapply Qlt_le_trans; [|exact L]. change 0%Q with (inject_Z 0). rewrite <- Zlt_Qlt. lia. Qed.
Lemma width_regular rows s d i : regular rows s d -> whole d i -> width (interval rows) = Some (check_interval / inject_Z i)%Q.
Proof.
  intros R W. destruct (regular_interval _ _ _ R) as (v & -> & V). unfold width. rewrite (py_trunc_eq _ _ V), (trunc_whole _ _ W).
  destruct (i =? 0) eqn:E; [|reflexivity]. apply Z.eqb_eq in E. destruct W as (W & _). lia.
Qed.
Lemma step_eq i q : 60 = i * q -> 0 < i -> (check_interval / inject_Z i == inject_Z q)%Q.
Proof.
  intros E P. unfold check_interval. change 60%Q with (inject_Z 60). rewrite E, inject_Z_mult. field.
  intro Z. unfold Qeq, inject_Z in Z. cbn in Z. lia.
Qed.

(** The temperatures of a regular logger that are compared: every [q]-th, while before row [j]. *)
Lemma sampled_regular rows s d i q t1 t2 n : regular rows s d -> whole d i -> 60 = i * q -> (t1 <= s)%Q ->
  (forall j, nearest rows t2 = Some (Z.of_nat j) -> Z.of_nat j <= q * n) ->
  exists j m, nearest rows t2 = Some (Z.of_nat j) /\ 0 <= m <= Z.max 0 n /\ (forall c, 0 <= c -> (c < m <-> c * q < Z.of_nat j)) /\
    sampled t1 t2 n rows = Some (map (fun c => nth (Z.to_nat (c * q)) (map h_temp rows) None) (range m)).
Proof.
  intros R W E L B. pose proof (whole_pos _ _ W) as D. destruct (nearest_end rows s d t2 R D) as (j & Ej & Lj & Hj).
  specialize (B j Ej). assert (P : 0 < i) by (destruct W; lia). assert (Pq : 0 < q) by nia.
  set (m := arange_len (inject_Z 0) (inject_Z (Z.of_nat j)) (check_interval / inject_Z i)).
  assert (Hm : forall c, 0 <= c -> (c < m <-> c * q < Z.of_nat j)).
  { intros c Hc. unfold m, arange_len.
    assert (X : ((inject_Z (Z.of_nat j) - inject_Z 0) / (check_interval / inject_Z i) == inject_Z (Z.of_nat j) / inject_Z q)%Q).
    { rewrite (step_eq _ _ E P). change (inject_Z 0) with 0%Q. field. intro Z. unfold Qeq, inject_Z in Z. cbn in Z. lia. }
    rewrite (Qceiling_comp _ _ X). rewrite Z.max_lt_iff, lt_ceiling.
    assert (Pq' : (0 < inject_Z q)%Q) by (change 0%Q with (inject_Z 0); rewrite <- Zlt_Qlt; exact Pq).
    assert (Y : (inject_Z c < inject_Z (Z.of_nat j) / inject_Z q)%Q <-> c * q < Z.of_nat j).
    { rewrite Zlt_Qlt, inject_Z_mult. split; intro H.
      - apply (Qmult_lt_compat_r _ _ (inject_Z q)) in H; [|exact Pq']. unfold Qdiv in H. rewrite <- Qmult_assoc, (Qmult_comm (/ _)), Qmult_inv_r, Qmult_1_r in H; [exact H|lra].
      - apply Qlt_shift_div_l; assumption. }
    rewrite Y. lia. }
  assert (M0 : 0 <= m) by (unfold m, arange_len; lia).
  assert (Mn : m <= Z.max 0 n).
  { destruct (Z.le_gt_cases m (Z.max 0 n)) as [G|G]; [exact G|]. apply Hm in G; [|lia]. destruct (Z.max_spec 0 n) as [[? X]|[? X]]; rewrite X in G; nia. }
  exists j, m. split; [exact Ej|]. split; [lia|]. split; [exact Hm|].
  unfold sampled. rewrite (width_regular _ _ _ _ R W), (nearest_first _ _ _ _ R D L), Ej. fold m.
  destruct (n <? m) eqn:C.
  { apply Z.ltb_lt in C. assert (m = 0) by nia. assert (n < 0) by lia. nia. }
  apply all_some_map. intros c I. apply range_in in I. unfold label.
  assert (X : (inject_Z 0 + inject_Z c * (check_interval / inject_Z i) == inject_Z (c * q))%Q).
  { rewrite (step_eq _ _ E P), inject_Z_mult. change (inject_Z 0) with 0%Q. ring. }
  assert (F : Qfloor (inject_Z 0 + inject_Z c * (check_interval / inject_Z i)) = c * q) by (rewrite (Qfloor_comp _ _ X); apply Qfloor_Z).
  rewrite F. assert (T : Qeq_bool (inject_Z 0 + inject_Z c * (check_interval / inject_Z i)) (inject_Z (c * q)) = true) by (apply Qeq_bool_iff, X).
  rewrite T. assert (T' : 0 <=? c * q = true) by (apply Z.leb_le; nia). rewrite T'. cbn [andb].
  destruct I as [I0 Im]. apply Hm in Im; [|exact I0]. apply nth_error_nth'. rewrite map_length. lia.
Qed.

(** First and last times. *)
Lemma spans_spec loggers sp : spans loggers = Some sp ->
  Forall2 (fun x y => fst x = fst (fst y) /\ py_min (map h_t (snd x)) = Some (snd (fst y)) /\ py_max (map h_t (snd x)) = Some (snd y)) loggers sp.
Proof.
  revert sp. induction loggers as [|[sn rows] l IH]; intros sp E; cbn [spans] in E.
  - injection E as <-. constructor.
  - destruct (py_min (map h_t rows)) as [a|] eqn:A; [|discriminate]. destruct (py_max (map h_t rows)) as [e|] eqn:M; [|discriminate].
    destruct (spans l) as [m|]; [|discriminate]. injection E as <-. constructor; [|apply IH; reflexivity].
    cbn [fst snd]. auto.
Qed.
Lemma spans_some loggers : (forall x, In x loggers -> snd x <> []) -> exists sp, spans loggers = Some sp.
Proof.
  induction loggers as [|[sn rows] l IH]; intro H; [eexists; reflexivity|]. cbn [spans].
  assert (N : map h_t rows <> []) by (intro E; apply map_eq_nil in E; exact (H (sn, rows) (or_introl eq_refl) E)).
  destruct (py_min_some _ N) as [a ->]. destruct (py_max_some _ N) as [e ->].
  destruct IH as [sp ->]; [intros x I; apply H; right; exact I|]. eexists. reflexivity.
Qed.
Lemma timed_min rows x : timed rows -> py_min (map h_t rows) = Some x -> exists a, x = Some a /\ earliest rows a.
Proof.
  intros T P. apply py_min_spec in P. destruct x as [a|].
  - exists a. split; [reflexivity|]. destruct P as (I & _ & A). destruct (value_in _ _ _ I) as (r & Ir & E). split.
    + exists r, a. split; [exact Ir|]. split; [exact E|reflexivity].
    + intros r' u I' E'. apply A. rewrite <- E'. apply in_map, I'.
  - exfalso. destruct P as (l & E). destruct rows as [|r rows]; [discriminate|]. injection E as E _.
    destruct (T r (or_introl eq_refl)) as (t & F). congruence.
Qed.
Lemma timed_max rows x : timed rows -> py_max (map h_t rows) = Some x -> exists a, x = Some a /\ latest rows a.
Proof.
  intros T P. apply py_max_spec in P. destruct x as [a|].
  - exists a. split; [reflexivity|]. destruct P as (I & _ & A). destruct (value_in _ _ _ I) as (r & Ir & E). split.
    + exists r, a. split; [exact Ir|]. split; [exact E|reflexivity].
    + intros r' u I' E'. apply A. rewrite <- E'. apply in_map, I'.
  - exfalso. destruct P as (l & E). destruct rows as [|r rows]; [discriminate|]. injection E as E _.
    destruct (T r (or_introl eq_refl)) as (t & F). congruence.
Qed.
Lemma earliest_fun rows a a' : earliest rows a -> earliest rows a' -> (a == a')%Q.
Proof. intros [(r & u & I & E & Q) A] [(r' & u' & I' & E' & Q') A']. specialize (A _ _ I' E'). specialize (A' _ _ I E). lra. Qed.
Lemma latest_fun rows a a' : latest rows a -> latest rows a' -> (a == a')%Q.
Proof. intros [(r & u & I & E & Q) A] [(r' & u' & I' & E' & Q') A']. specialize (A _ _ I' E'). specialize (A' _ _ I E). lra. Qed.
Lemma regular_earliest rows s d : regular rows s d -> (0 < d)%Q -> earliest rows s.
Proof.
  intros [L R] D. split.
  - destruct rows as [|r rows]; [cbn in L; lia|]. destruct (R 0%nat r eq_refl) as (t & E & Q). change (inject_Z (Z.of_nat 0)) with 0%Q in Q.
    exists r, t. split; [left; reflexivity|]. split; [exact E|]. lra.
  - intros r u I E. destruct (In_nth_error _ _ I) as (k & N). destruct (R k r N) as (t & E' & Q). assert (t = u) by congruence. subst t.
    pose proof (mono_steps d 0 k D ltac:(lia)) as M. change (inject_Z (Z.of_nat 0)) with 0%Q in M. lra.
Qed.
Lemma regular_latest rows s d : regular rows s d -> (0 < d)%Q -> latest rows (s + d * inject_Z (Z.of_nat (length rows) - 1)).
Proof.
  intros [L R] D. assert (X : Z.of_nat (length rows) - 1 = Z.of_nat (length rows - 1)) by lia. rewrite X. split.
  - destruct (nth_error rows (length rows - 1)) as [r|] eqn:K; [|apply nth_error_None in K; lia].
    destruct (R _ r K) as (t & E & Q). exists r, t. split; [exact (nth_error_In _ _ K)|]. auto.
  - intros r u I E. destruct (In_nth_error _ _ I) as (k & N). destruct (R k r N) as (t & E' & Q). assert (t = u) by congruence. subst t.
    assert (K : (k < length rows)%nat) by (apply nth_error_Some; congruence).
    pose proof (mono_steps d k (length rows - 1) D ltac:(lia)) as M. lra.
Qed.

Lemma series_min_spec l m : series_min l = Some m -> In (Some m) l /\ forall v, In (Some v) l -> (m <= v)%Q.
Proof.
  unfold series_min. destruct (numbers l) as [|x r] eqn:E; [discriminate|]. intro F. injection F as F.
  assert (G : forall r x, exists m, fold_left (fun m y => if Qltb y m then y else m) r x = m /\ In m (x :: r) /\ forall v, In v (x :: r) -> (m <= v)%Q).
  { clear. induction r as [|y r IH]; intro x.
    - exists x. split; [reflexivity|]. split; [left; reflexivity|]. intros v [<-|[]]. apply Qle_refl.
    - cbn [fold_left]. destruct (Qltb y x) eqn:E.
      + apply Qltb_lt in E. destruct (IH y) as (m & F & I & A). exists m. split; [exact F|]. split; [right; exact I|].
        intros v [<-|J]; [|apply A, J]. specialize (A y (or_introl eq_refl)). lra.
      + apply Qltb_ge in E. destruct (IH x) as (m & F & I & A). exists m. split; [exact F|].
        split; [destruct I as [I|I]; [left; exact I|right; right; exact I]|].
        intros v [<-|[<-|J]]; [apply A; left; reflexivity| |apply A; right; exact J]. specialize (A x (or_introl eq_refl)). lra. }
  destruct (G r x) as (m' & F' & I & A). rewrite F in F'. subst m'. rewrite <- E in I, A.
  split; [apply numbers_in, I|]. intros v J. apply A, numbers_in, J.
Qed.
Lemma series_max_spec l m : series_max l = Some m -> In (Some m) l /\ forall v, In (Some v) l -> (v <= m)%Q.
Proof.
  unfold series_max. destruct (numbers l) as [|x r] eqn:E; [discriminate|]. intro F. injection F as F.
  assert (G : forall r x, exists m, fold_left (fun m y => if Qltb m y then y else m) r x = m /\ In m (x :: r) /\ forall v, In v (x :: r) -> (v <= m)%Q).
  { clear. induction r as [|y r IH]; intro x.
    - exists x. split; [reflexivity|]. split; [left; reflexivity|]. intros v [<-|[]]. apply Qle_refl.
    - cbn [fold_left]. destruct (Qltb x y) eqn:E.
      + apply Qltb_lt in E. destruct (IH y) as (m & F & I & A). exists m. split; [exact F|]. split; [right; exact I|].
        intros v [<-|J]; [|apply A, J]. specialize (A y (or_introl eq_refl)). lra.
      + apply Qltb_ge in E. destruct (IH x) as (m & F & I & A). exists m. split; [exact F|].
        split; [destruct I as [I|I]; [left; exact I|right; right; exact I]|].
        intros v [<-|[<-|J]]; [apply A; left; reflexivity| |apply A; right; exact J]. specialize (A x (or_introl eq_refl)). lra. }
  destruct (G r x) as (m' & F' & I & A). rewrite F in F'. subst m'. rewrite <- E in I, A.
  split; [apply numbers_in, I|]. intros v J. apply A, numbers_in, J.
Qed.
Lemma series_min_some l v : In (Some v) l -> exists m, series_min l = Some m.
Proof. intro I. unfold series_min. apply numbers_in in I. destruct (numbers l); [destruct I|]. eexists. reflexivity. Qed.
Lemma series_max_some l v : In (Some v) l -> exists m, series_max l = Some m.
Proof. intro I. unfold series_max. apply numbers_in in I. destruct (numbers l); [destruct I|]. eexists. reflexivity. Qed.

(** All loggers together: first and last times. *)
Lemma group_times loggers sp : loggers <> [] -> (forall x, In x loggers -> timed (snd x)) -> spans loggers = Some sp ->
  exists lo hi, series_min (map (fun x => snd (fst x)) sp) = Some lo /\ series_max (map snd sp) = Some hi /\
  (exists x, In x loggers /\ earliest (snd x) lo) /\ (forall x a, In x loggers -> earliest (snd x) a -> (lo <= a)%Q) /\
  (exists x, In x loggers /\ latest (snd x) hi) /\ (forall x e, In x loggers -> latest (snd x) e -> (e <= hi)%Q) /\
  (forall y, In y sp -> exists x a e, In x loggers /\ y = (fst x, Some a, Some e) /\ earliest (snd x) a /\ latest (snd x) e) /\
  (forall x, In x loggers -> exists a e, In (fst x, Some a, Some e) sp /\ earliest (snd x) a /\ latest (snd x) e).
Proof.
  intros N T E. apply spans_spec in E.
  assert (F1 : forall y, In y sp -> exists x a e, In x loggers /\ y = (fst x, Some a, Some e) /\ earliest (snd x) a /\ latest (snd x) e).
  { clear N. induction E as [|x [[sn a] e] l m (En & Ea & Ee) E IH]; [intros y []|]. cbn [fst snd] in *. intros y [<-|I].
    - destruct (timed_min _ _ (T x (or_introl eq_refl)) Ea) as (a' & -> & Ha). destruct (timed_max _ _ (T x (or_introl eq_refl)) Ee) as (e' & -> & He).
      exists x, a', e'. split; [left; reflexivity|]. rewrite En. auto.
    - destruct (IH (fun z J => T z (or_intror J)) y I) as (x' & a' & e' & J & H). exists x', a', e'. split; [right; exact J|exact H]. }
  assert (F2 : forall x, In x loggers -> exists a e, In (fst x, Some a, Some e) sp /\ earliest (snd x) a /\ latest (snd x) e).
  { clear N F1. induction E as [|x [[sn a] e] l m (En & Ea & Ee) E IH]; [intros y []|]. cbn [fst snd] in *. intros y [<-|I].
    - destruct (timed_min _ _ (T x (or_introl eq_refl)) Ea) as (a' & -> & Ha). destruct (timed_max _ _ (T x (or_introl eq_refl)) Ee) as (e' & -> & He).
      exists a', e'. split; [left; rewrite En; reflexivity|]. auto.
    - destruct (IH (fun z J => T z (or_intror J)) y I) as (a' & e' & J & H). exists a', e'. split; [right; exact J|exact H]. }
  destruct loggers as [|x0 l]; [contradiction|]. destruct (F2 x0 (or_introl eq_refl)) as (a0 & e0 & I0 & _).
  destruct (series_min_some (map (fun x : bytes * option Q * option Q => snd (fst x)) sp) a0) as (lo & El).
  { apply in_map_iff. exists (fst x0, Some a0, Some e0). auto. }
  destruct (series_max_some (map snd sp) e0) as (hi & Eh).
  { apply in_map_iff. exists (fst x0, Some a0, Some e0). auto. }
  exists lo, hi. split; [exact El|]. split; [exact Eh|]. apply series_min_spec in El. apply series_max_spec in Eh.
  destruct El as [Il Al]. destruct Eh as [Ih Ah].
  split. { apply in_map_iff in Il. destruct Il as (y & Ey & Iy). destruct (F1 y Iy) as (x & a & e & Ix & -> & Ha & He). cbn [fst snd] in Ey. injection Ey as <-. exists x. auto. }
  split. { intros x a Ix Ha. destruct (F2 x Ix) as (a' & e' & J & Ha' & _). rewrite (earliest_fun _ _ _ Ha Ha'). apply Al. apply in_map_iff. eexists. split; [|exact J]. reflexivity. }
  split. { apply in_map_iff in Ih. destruct Ih as (y & Ey & Iy). destruct (F1 y Iy) as (x & a & e & Ix & -> & Ha & He). cbn [fst snd] in Ey. injection Ey as <-. exists x. auto. }
  split. { intros x e Ix He. destruct (F2 x Ix) as (a' & e' & J & _ & He'). rewrite (latest_fun _ _ _ He He'). apply Ah. apply in_map_iff. eexists. split; [|exact J]. reflexivity. }
  split; [exact F1|exact F2].
Qed.

Lemma times_in lo hi sp sn : In (StartsLate sn) (times_messages (Some lo) (Some hi) sp) <->
  exists a e, In (sn, a, e) sp /\ le_nan a (Some (lo + max_secs)%Q) = false.
Proof.
  unfold times_messages. rewrite in_flat_map. split.
  - intros ([[sn' a] e] & I & J). apply in_app_or in J. cbn [plus] in J. destruct J as [J|J].
    + destruct (le_nan a _) eqn:E; [destruct J|]. destruct J as [J|[]]. injection J as ->. exists a, e. auto.
    + destruct (le_nan _ e); [destruct J|]. destruct J as [J|[]]. discriminate.
  - intros (a & e & I & E). exists (sn, a, e). split; [exact I|]. apply in_or_app. left. cbn [plus]. rewrite E. left. reflexivity.
Qed.
Lemma times_in' lo hi sp sn : In (StopsEarly sn) (times_messages (Some lo) (Some hi) sp) <->
  exists a e, In (sn, a, e) sp /\ le_nan (Some (hi + - max_secs)%Q) e = false.
Proof.
  unfold times_messages. rewrite in_flat_map. split.
  - intros ([[sn' a] e] & I & J). apply in_app_or in J. cbn [plus] in J. destruct J as [J|J].
    + destruct (le_nan a _) eqn:E; [destruct J|]. destruct J as [J|[]]. discriminate.
    + destruct (le_nan _ e) eqn:E; [destruct J|]. destruct J as [J|[]]. injection J as ->. exists a, e. auto.
  - intros (a & e & I & E). exists (sn, a, e). split; [exact I|]. apply in_or_app. right. cbn [plus]. rewrite E. left. reflexivity.
Qed.
Lemma times_kind lo hi sp m : In m (times_messages lo hi sp) -> (exists sn, m = StartsLate sn) \/ exists sn, m = StopsEarly sn.
Proof.
  unfold times_messages. rewrite in_flat_map. intros ([[sn a] e] & _ & J). apply in_app_or in J. destruct J as [J|J].
  - destruct (le_nan a _); [destruct J|]. destruct J as [<-|[]]. left. exists sn. reflexivity.
  - destruct (le_nan _ e); [destruct J|]. destruct J as [<-|[]]. right. exists sn. reflexivity.
Qed.
Lemma temperature_kind t temps cols l m : temperature_messages t temps cols = Some l -> In m l -> exists x c, m = Temperatures x c.
Proof.
  revert l. induction cols as [|c cols IH]; intros l E I; cbn [temperature_messages] in E; [injection E as <-; destruct I|].
  destruct (far_from_median c temps) as [|x xs].
  - exact (IH _ E I).
  - destruct (temperature_messages t temps cols) as [k|] eqn:F; [|discriminate]. destruct (t <=? c); [discriminate|]. injection E as <-.
    destruct I as [<-|I]; [exists (x :: xs), c; reflexivity|exact (IH _ eq_refl I)].
Qed.
