(** Proofs about streams and the merging of short gaps. *)
From Coq Require Import ZArith QArith Qround List Bool Lia Lqa.
From Verif Require Import Lib Base UnwrapSpec UnwrapProofs ReadSeveralProofs Stream StreamSpec.
Import ListNotations.
Open Scope Z_scope.

(** * Samples of one trace and of a list *)

Definition tsample (tr : gtrace) (k v : Z) : Prop := exists i, nth_error (gd tr) i = Some v /\ k = gs tr + Z.of_nat i.

Lemma sample_cons tr st k v : sample (tr :: st) k v <-> tsample tr k v \/ sample st k v.
Proof.
  split.
  - intros (t & i & [->|I] & N & E); [left; exists i; auto|right; exists t, i; auto].
  - intros [(i & N & E)|(t & i & I & N & E)]; [exists tr, i|exists t, i]; cbn; auto.
Qed.
Lemma sample_nil k v : ~ sample [] k v.
Proof. intros (t & i & [] & _). Qed.
Lemma sample_app s t k v : sample (s ++ t) k v <-> sample s k v \/ sample t k v.
Proof.
  induction s as [|x s IH]; cbn [app].
  - split; [auto|]. intros [H|H]; [destruct (sample_nil _ _ H)|exact H].
  - rewrite !sample_cons, IH. tauto.
Qed.

Lemma tsample_range tr k v : tsample tr k v -> gs tr <= k <= gend tr.
Proof.
  intros (i & N & ->). assert (i < length (gd tr))%nat by (apply nth_error_Some; congruence). unfold gend. lia.
Qed.
Lemma tsample_at tr k : gs tr <= k <= gend tr -> exists v, tsample tr k v.
Proof.
  unfold gend. intros H. destruct (nth_error (gd tr) (Z.to_nat (k - gs tr))) as [v|] eqn:E.
  - exists v. exists (Z.to_nat (k - gs tr)). split; [exact E|lia].
  - apply nth_error_None in E. lia.
Qed.
Lemma tsample_unique tr k v w : tsample tr k v -> tsample tr k w -> v = w.
Proof.
  intros (i & N & E) (j & M & F). assert (i = j) as -> by lia. congruence.
Qed.
Lemma gd_length_pos tr : gd tr <> [] -> gs tr <= gend tr.
Proof. unfold gend. destruct (gd tr); [congruence|cbn [length]; lia]. Qed.

Lemma order_tail x st : in_order (x :: st) -> in_order st.
Proof. intros [F C]. split; [inversion F; assumption|]. eapply chain_tail; exact C. Qed.
Lemma order_head x st : in_order (x :: st) -> gd x <> [].
Proof. intros [F _]. inversion F; assumption. Qed.
Lemma order_next x y st : in_order (x :: y :: st) -> gend x < gs y.
Proof. intros [_ C]. apply C. Qed.

Lemma after_head x st k v : in_order (x :: st) -> sample st k v -> gend x < k.
Proof.
  revert x. induction st as [|y st IH]; intros x O H; [destruct (sample_nil _ _ H)|].
  pose proof (order_next _ _ _ O). pose proof (gd_length_pos _ (order_head _ _ (order_tail _ _ O))).
  apply sample_cons in H as [H|H]; [apply tsample_range in H; lia|].
  specialize (IH y (order_tail _ _ O) H). lia.
Qed.
Lemma from_head x st k v : in_order (x :: st) -> sample (x :: st) k v -> gs x <= k.
Proof.
  intros O H. pose proof (gd_length_pos _ (order_head _ _ O)).
  apply sample_cons in H as [H|H]; [apply tsample_range in H; lia|]. apply (after_head _ _ _ _ O) in H. lia.
Qed.
Lemma sample_unique st k v w : in_order st -> sample st k v -> sample st k w -> v = w.
Proof.
  induction st as [|x st IH]; intros O H H'; [destruct (sample_nil _ _ H)|].
  apply sample_cons in H as [H|H], H' as [H'|H'].
  - exact (tsample_unique _ _ _ _ H H').
  - apply (after_head _ _ _ _ O) in H'. apply tsample_range in H. lia.
  - apply (after_head _ _ _ _ O) in H. apply tsample_range in H'. lia.
  - exact (IH (order_tail _ _ O) H H').
Qed.

(** * What the loop does with ordered traces *)

Definition gap_size (x y : gtrace) : nat := Z.to_nat (gs y - gend x - 1).
Definition glue (x y : gtrace) : gtrace :=
  mkg (gs x) (gd x ++ map (interpolated (last (gd x) 0) (hd 0 (gd y)) (gap_size x y)) (seq 1 (gap_size x y)) ++ gd y).

Fixpoint joins (cur : gtrace) (rest : stream) : stream :=
  match rest with
  | [] => [cur]
  | y :: r => if gs y - gend cur <=? 3 then joins (glue cur y) r else cur :: joins y r
  end.
Fixpoint trail (cur : gtrace) (rest : stream) : list mtrace :=
  match rest with
  | [] => []
  | y :: r => if gs y - gend cur <=? 3 then unmasked (glue cur y) :: trail (glue cur y) r else unmasked y :: trail y r
  end.

Lemma mend_unmasked tr : mend (unmasked tr) = gend tr.
Proof. unfold mend, gend. cbn. rewrite map_length. reflexivity. Qed.

Lemma last_map_some l : l <> [] -> last (map (@Some Z) l) None = Some (last l 0).
Proof.
  induction l as [|x [|y l] IH]; intros N; [congruence|reflexivity|]. change (last (map Some (y :: l)) None = Some (last (y :: l) 0)).
  apply IH. discriminate.
Qed.

Lemma glue_end x y : gend x < gs y -> gend (glue x y) = gend y.
Proof.
  unfold gend, glue. cbn. rewrite !app_length, map_length, seq_length. unfold gap_size, gend. lia.
Qed.

Lemma merge_pair x y : gd x <> [] -> gd y <> [] -> gend x < gs y ->
  merge Interpolate [unmasked x; unmasked y] = [unmasked (glue x y)].
Proof.
  intros Nx Ny L. pose proof (gd_length_pos _ Nx). pose proof (gd_length_pos _ Ny). unfold merge, sort. cbn [fold_right insert].
  assert (before (unmasked x) (unmasked y) = true) as ->.
  { unfold before. cbn [ms unmasked]. rewrite (proj2 (Z.ltb_lt _ _)) by lia. reflexivity. }
  cbn [fold_left]. f_equal. unfold add. rewrite mend_unmasked. cbn [ms md unmasked].
  rewrite (proj2 (Z.leb_le _ _)) by lia. unfold unmasked, glue. cbn [gs gd]. f_equal.
  rewrite !map_app. f_equal. f_equal. rewrite last_map_some by exact Nx.
  assert (hd None (map Some (gd y)) = Some (hd 0 (gd y))) as -> by (destruct (gd y); [congruence|reflexivity]).
  unfold fill. rewrite map_map. reflexivity.
Qed.

Lemma glue_nonempty x y : gd x <> [] -> gd (glue x y) <> [].
Proof. unfold glue. cbn. destruct (gd x); [congruence|discriminate]. Qed.

Lemma glue_order x y st : in_order (x :: y :: st) -> in_order (glue x y :: st).
Proof.
  intros O. pose proof (order_next _ _ _ O) as L. destruct O as [F C]. inversion F as [|? ? Nx F']; inversion F' as [|? ? Ny F'']; subst. split.
  - constructor; [apply glue_nonempty; exact Nx|assumption].
  - destruct C as [_ C]. destruct st as [|z st]; [exact I|]. destruct C as [C1 C]. split; [|exact C]. rewrite glue_end by exact L. exact C1.
Qed.

Lemma loop_trail r : forall cur out, in_order (cur :: r) ->
  fold_left merge_step r (unmasked cur :: out) = rev (trail cur r) ++ unmasked cur :: out.
Proof.
  induction r as [|y r IH]; intros cur out O; [reflexivity|]. cbn [fold_left trail merge_step].
  pose proof (order_next _ _ _ O) as L. pose proof (order_head _ _ O) as N. pose proof (order_head _ _ (order_tail _ _ O)) as N'.
  rewrite mend_unmasked. destruct (gs y - gend cur <=? 3).
  - rewrite merge_pair by assumption. cbn [rev app]. rewrite IH by (apply glue_order; exact O). cbn [rev]. rewrite <- app_assoc. reflexivity.
  - rewrite IH by (eapply order_tail; exact O). cbn [rev]. rewrite <- app_assoc. reflexivity.
Qed.

(** The data of a stream with masked gaps. *)
Fixpoint layout (l : stream) : list (option Z) :=
  match l with
  | [] => []
  | x :: r => map Some (gd x) ++ match r with [] => [] | y :: _ => repeat None (gap_size x y) end ++ layout r
  end.

Lemma eq_data_refl l : eq_data l l = true.
Proof. induction l as [|[x|] l IH]; cbn; [reflexivity| |exact IH]. rewrite Z.eqb_refl. exact IH. Qed.

Lemma joins_head cur r : exists h t, joins cur r = h :: t /\ gs h = gs cur.
Proof.
  revert cur. induction r as [|y r IH]; intros cur; [exists cur, []; auto|]. cbn [joins].
  destruct (gs y - gend cur <=? 3); [destruct (IH (glue cur y)) as (h & t & E & G); exists h, t; auto|].
  exists cur. eexists. split; reflexivity.
Qed.

Lemma add_trail r : forall cur s P, in_order (cur :: r) -> s + Z.of_nat (length P) = gs cur ->
  fold_left (add Masked) (trail cur r) (mkm s (P ++ map Some (gd cur))) = mkm s (P ++ layout (joins cur r)).
Proof.
  induction r as [|y r IH]; intros cur s P O E; [cbn; rewrite app_nil_r; reflexivity|].
  pose proof (order_next _ _ _ O) as L. pose proof (order_head _ _ O) as N. pose proof (order_head _ _ (order_tail _ _ O)) as N'.
  pose proof (gd_length_pos _ N) as Lc. pose proof (gd_length_pos _ N') as Ly.
  assert (Me : mend (mkm s (P ++ map Some (gd cur))) = gend cur).
  { unfold mend, gend. cbn [ms md]. rewrite app_length, map_length. lia. }
  cbn [trail joins]. destruct (gs y - gend cur <=? 3) eqn:G; cbn [fold_left].
  - assert (add Masked (mkm s (P ++ map Some (gd cur))) (unmasked (glue cur y)) = mkm s (P ++ map Some (gd (glue cur y)))) as ->.
    { unfold add. rewrite Me. cbn [ms md unmasked]. rewrite mend_unmasked.
      assert (gs (glue cur y) = gs cur) as -> by reflexivity. rewrite (glue_end _ _ L).
      rewrite (proj2 (Z.leb_gt _ _)) by lia. rewrite (proj2 (Z.ltb_lt _ _)) by lia.
      assert (Z.to_nat (- (gs cur - gend cur - 1)) = length (gd cur)) as -> by (unfold gend; lia).
      rewrite app_length, map_length. replace (length P + length (gd cur) - length (gd cur))%nat with (length P + 0)%nat by lia.
      rewrite firstn_app_2, firstn_O, app_nil_r, Nat.add_0_r.
      rewrite skipn_app, Nat.sub_diag, skipn_all. cbn [app skipn].
      assert (firstn (length (gd cur)) (map Some (gd (glue cur y))) = map Some (gd cur)) as ->.
      { unfold glue. cbn [gd]. rewrite map_app. replace (length (gd cur)) with (length (map (@Some Z) (gd cur)) + 0)%nat by (rewrite map_length; lia).
        rewrite firstn_app_2, firstn_O, app_nil_r. reflexivity. }
      rewrite eq_data_refl. reflexivity. }
    apply IH; [apply glue_order; exact O|exact E].
  - apply Z.leb_gt in G.
    assert (add Masked (mkm s (P ++ map Some (gd cur))) (unmasked y) = mkm s ((P ++ map Some (gd cur) ++ repeat None (gap_size cur y)) ++ map Some (gd y))) as ->.
    { unfold add. rewrite Me. cbn [ms md unmasked]. rewrite (proj2 (Z.leb_le _ _)) by lia. rewrite <- !app_assoc. reflexivity. }
    rewrite IH; [|eapply order_tail; exact O|].
    + f_equal. rewrite <- !app_assoc. f_equal. destruct (joins_head y r) as (h & t & Eh & Gh).
      change (map Some (gd cur) ++ repeat None (gap_size cur y) ++ layout (joins y r) = layout (cur :: joins y r)).
      rewrite Eh. cbn [layout]. unfold gap_size. rewrite Gh. reflexivity.
    + rewrite !app_length, map_length, repeat_length. unfold gap_size, gend in *. lia.
Qed.

(** Sorting an ordered list changes nothing. *)
Lemma sort_sorted l : chain (fun x y => before x y = true) l -> sort l = l.
Proof.
  induction l as [|x l IH]; intros C; [reflexivity|]. cbn. fold (sort l). rewrite (IH (chain_tail _ _ _ C)).
  destruct l as [|y l]; [reflexivity|]. destruct C as [C _]. cbn. rewrite C. reflexivity.
Qed.

Lemma trail_sorted r : forall cur, in_order (cur :: r) -> chain (fun x y => before x y = true) (unmasked cur :: trail cur r).
Proof.
  induction r as [|y r IH]; intros cur O; [exact I|]. pose proof (order_next _ _ _ O) as L.
  pose proof (gd_length_pos _ (order_head _ _ O)) as Lc. pose proof (gd_length_pos _ (order_head _ _ (order_tail _ _ O))) as Ly.
  cbn [trail]. destruct (gs y - gend cur <=? 3).
  - split; [|apply IH, glue_order, O]. unfold before. rewrite !mend_unmasked, (glue_end _ _ L). cbn [ms unmasked glue gs].
    rewrite Z.eqb_refl, (proj2 (Z.leb_le _ _)) by lia. apply orb_true_r.
  - split; [|apply IH; eapply order_tail; exact O]. unfold before. cbn [ms unmasked]. rewrite (proj2 (Z.ltb_lt _ _)) by lia. reflexivity.
Qed.

Lemma split_some s cur D rest : split_from s cur (map Some D ++ rest) = split_from (s + Z.of_nat (length D)) (rev D ++ cur) rest.
Proof.
  revert s cur. induction D as [|x D IH]; intros s cur; cbn [map app length rev].
  - f_equal. lia.
  - cbn [split_from]. rewrite IH. f_equal; [lia|]. rewrite <- app_assoc. reflexivity.
Qed.
Lemma split_none n s rest : split_from s [] (repeat None n ++ rest) = split_from (s + Z.of_nat n) [] rest.
Proof.
  revert s. induction n as [|n IH]; intros s; cbn [repeat app]; [f_equal; lia|]. cbn [split_from app]. rewrite IH. f_equal. lia.
Qed.

Lemma split_layout l s : Forall (fun tr => gd tr <> []) l -> chain (fun x y => gend x + 1 < gs y) l ->
  s = gs (hd (mkg s []) l) -> split_from s [] (layout l) = l.
Proof.
  revert s. induction l as [|x r IH]; intros s F C E; [reflexivity|]. cbn [hd] in E. subst s. cbn [layout].
  inversion F as [|? ? N F']; subst. rewrite split_some, app_nil_r.
  assert (Em : forall m, match rev (gd x) with [] => [] | _ :: _ => [mkg (gs x + Z.of_nat (length (gd x)) - Z.of_nat (length (rev (gd x)))) (rev (rev (gd x)))] end ++ m = x :: m).
  { intros m. destruct (rev (gd x)) eqn:R; [apply (f_equal (@rev Z)) in R; rewrite rev_involutive in R; contradiction|].
    rewrite <- R, rev_length, rev_involutive. replace (gs x + Z.of_nat (length (gd x)) - Z.of_nat (length (gd x))) with (gs x) by lia.
    destruct x; reflexivity. }
  destruct r as [|y r].
  - cbn [app layout split_from]. rewrite <- (app_nil_r (match rev (gd x) with [] => _ | _ => _ end)). apply Em.
  - destruct C as [C1 C]. assert (gap_size x y = S (gap_size x y - 1))%nat as -> by (unfold gap_size; lia).
    cbn [repeat app split_from]. rewrite Em. f_equal. rewrite split_none.
    rewrite IH; [reflexivity|exact F'|exact C|]. cbn [hd]. unfold gap_size, gend in *. lia.
Qed.

Lemma joins_order r : forall cur, in_order (cur :: r) ->
  Forall (fun tr => gd tr <> []) (joins cur r) /\ chain (fun x y => gend x + 3 < gs y) (joins cur r).
Proof.
  induction r as [|y r IH]; intros cur O; [split; [constructor; [eapply order_head; exact O|constructor]|exact I]|].
  cbn [joins]. destruct (gs y - gend cur <=? 3) eqn:G; [apply IH, glue_order, O|].
  destruct (IH y (order_tail _ _ O)) as [F C]. split; [constructor; [eapply order_head; exact O|exact F]|].
  destruct (joins_head y r) as (h & t & E & Gh). rewrite E in *. split; [apply Z.leb_gt in G; lia|exact C].
Qed.

Lemma merge_gaps_joins tr r : in_order (tr :: r) -> merge_gaps (tr :: r) = joins tr r.
Proof.
  intros O. unfold merge_gaps. rewrite loop_trail by exact O. rewrite rev_app_distr, rev_involutive. cbn [rev app].
  unfold merge. rewrite sort_sorted by (apply trail_sorted, O). pose proof (add_trail r tr (gs tr) [] O) as A. cbn [app length] in A.
  unfold unmasked. rewrite A by lia. cbn [flat_map]. rewrite app_nil_r. unfold split_one. cbn [ms md].
  destruct (joins_order r tr O) as [F C]. apply split_layout; [exact F| |].
  - eapply chain_imp; [|exact C]. cbn. intros; lia.
  - destruct (joins_head tr r) as (h & t & E & G). rewrite E. cbn. lia.
Qed.

(** * Samples after merging *)

Lemma tsample_glue x y k v : gd x <> [] -> gd y <> [] -> gend x < gs y ->
  (tsample (glue x y) k v <-> tsample x k v \/ tsample y k v \/
     (gend x < k < gs y /\ v = interpolated (last (gd x) 0) (hd 0 (gd y)) (gap_size x y) (Z.to_nat (k - gend x)))).
Proof.
  intros Nx Ny L. unfold tsample, glue. cbn [gs gd]. set (M := map _ _).
  assert (LM : length M = gap_size x y) by (unfold M; rewrite map_length, seq_length; reflexivity).
  assert (Lx : Z.of_nat (length (gd x)) = gend x - gs x + 1) by (unfold gend; lia).
  assert (Lg : Z.of_nat (gap_size x y) = gs y - gend x - 1) by (unfold gap_size; lia). split.
  - intros (i & N & ->). destruct (Nat.lt_ge_cases i (length (gd x))) as [A|A]; [rewrite nth_error_app1 in N by exact A; left; exists i; auto|].
    rewrite nth_error_app2 in N by exact A. destruct (Nat.lt_ge_cases (i - length (gd x)) (length M)) as [B|B].
    + rewrite nth_error_app1 in N by exact B. right. right. split; [lia|]. unfold M in N. rewrite nth_error_map in N.
      rewrite (nth_error_nth' _ 0%nat) in N by (rewrite seq_length; lia). rewrite seq_nth in N by lia. injection N as <-. f_equal. lia.
    + rewrite nth_error_app2 in N by exact B. right. left. exists (i - length (gd x) - length M)%nat. split; [exact N|lia].
  - intros [(i & N & ->)|[(i & N & ->)|[R ->]]].
    + exists i. split; [|reflexivity]. rewrite nth_error_app1; [exact N|]. apply nth_error_Some. congruence.
    + exists (length (gd x) + (length M + i))%nat. split; [|lia]. rewrite nth_error_app2 by lia.
      replace (length (gd x) + (length M + i) - length (gd x))%nat with (length M + i)%nat by lia.
      rewrite nth_error_app2 by lia. replace (length M + i - length M)%nat with i by lia. exact N.
    + exists (length (gd x) + (Z.to_nat (k - gend x) - 1))%nat. split; [|lia]. rewrite nth_error_app2 by lia.
      rewrite nth_error_app1 by lia. unfold M. rewrite nth_error_map.
      rewrite (nth_error_nth' _ 0%nat) by (rewrite seq_length; lia). rewrite seq_nth by lia. cbn. do 2 f_equal. lia.
Qed.

Lemma last_sample x : gd x <> [] -> tsample x (gend x) (last (gd x) 0).
Proof.
  intros N. exists (length (gd x) - 1)%nat. assert (0 < length (gd x))%nat by (destruct (gd x); [congruence|cbn; lia]). split; [|unfold gend; lia].
  rewrite (app_removelast_last 0 N) at 1. pose proof (app_removelast_last 0 N) as E. apply (f_equal (@length Z)) in E. rewrite app_length in E. cbn in E.
  rewrite nth_error_app2 by lia. replace (length (gd x) - 1 - length (removelast (gd x)))%nat with 0%nat by lia. reflexivity.
Qed.
Lemma first_sample x : gd x <> [] -> tsample x (gs x) (hd 0 (gd x)).
Proof. intros N. exists 0%nat. split; [destruct (gd x); [congruence|reflexivity]|lia]. Qed.

(** The gap between consecutive traces seen pointwise. *)
Lemma gap_fills x y st k v : in_order (x :: y :: st) -> gs y - gend x <= 3 ->
  gend x < k < gs y -> v = interpolated (last (gd x) 0) (hd 0 (gd y)) (gap_size x y) (Z.to_nat (k - gend x)) ->
  fills (sample (x :: y :: st)) k v.
Proof.
  intros O G R ->. pose proof (order_next _ _ _ O) as L. pose proof (order_head _ _ O) as N. pose proof (order_head _ _ (order_tail _ _ O)) as N'.
  exists (gend x), (gs y), (last (gd x) 0), (hd 0 (gd y)).
  split; [apply sample_cons; left; apply last_sample, N|]. split; [apply sample_cons; right; apply sample_cons; left; apply first_sample, N'|].
  split; [exact R|]. split; [lia|]. split.
  - intros m w Hm S. apply sample_cons in S as [S|S]; [apply tsample_range in S; lia|]. apply (from_head _ _ _ _ (order_tail _ _ O)) in S. lia.
  - unfold interpolated, gap_size. f_equal; lia.
Qed.

Lemma first_gap x y st i j k v : in_order (x :: y :: st) ->
  sample (x :: y :: st) i v -> (exists w, sample (x :: y :: st) j w) -> i < k < j -> (forall m w, i < m < j -> ~ sample (x :: y :: st) m w) ->
  (i = gend x /\ j = gs y) \/ (gs y <= i /\ sample (y :: st) i v).
Proof.
  intros O Si (w & Sj) R Nb. pose proof (order_next _ _ _ O) as L. pose proof (order_head _ _ O) as N. pose proof (order_head _ _ (order_tail _ _ O)) as N'.
  apply sample_cons in Si as [Si|Si].
  - apply tsample_range in Si as Ri. left. assert (i = gend x) as ->.
    { destruct (Z.eq_dec i (gend x)) as [|D]; [assumption|]. destruct (tsample_at x (i + 1)) as (u & U); [lia|].
      exfalso. apply (Nb (i + 1) u); [lia|]. apply sample_cons. left. exact U. }
    split; [reflexivity|]. apply sample_cons in Sj as [Sj|Sj]; [apply tsample_range in Sj; lia|].
    pose proof (from_head _ _ _ _ (order_tail _ _ O) Sj). destruct (Z.eq_dec j (gs y)) as [|D]; [assumption|].
    exfalso. apply (Nb (gs y) (hd 0 (gd y))); [lia|]. apply sample_cons. right. apply sample_cons. left. apply first_sample, N'.
  - right. split; [|exact Si]. exact (from_head _ _ _ _ (order_tail _ _ O) Si).
Qed.

Lemma joins_samples r : forall cur, in_order (cur :: r) -> forall k v,
  sample (joins cur r) k v <-> sample (cur :: r) k v \/ fills (sample (cur :: r)) k v.
Proof.
  induction r as [|y r IH]; intros cur O k v; cbn [joins].
  - split; [auto|]. intros [H|(i & j & a & z & Si & Sj & R & _ & Nb & _)]; [exact H|exfalso].
    apply sample_cons in Si as [Si|Si]; [|destruct (sample_nil _ _ Si)]. apply sample_cons in Sj as [Sj|Sj]; [|destruct (sample_nil _ _ Sj)].
    apply tsample_range in Si, Sj. destruct (tsample_at cur k) as (u & U); [lia|]. apply (Nb k u); [lia|]. apply sample_cons. left. exact U.
  - pose proof (order_next _ _ _ O) as L. pose proof (order_head _ _ O) as N. pose proof (order_head _ _ (order_tail _ _ O)) as N'.
    pose proof (gd_length_pos _ N') as Py. pose proof (gd_length_pos _ N) as Pc.
    destruct (gs y - gend cur <=? 3) eqn:G.
    + apply Z.leb_le in G. rewrite IH by (apply glue_order; exact O).
      assert (S1 : forall k v, sample (glue cur y :: r) k v <-> sample (cur :: y :: r) k v \/
         (gend cur < k < gs y /\ v = interpolated (last (gd cur) 0) (hd 0 (gd y)) (gap_size cur y) (Z.to_nat (k - gend cur)))).
      { intros k' v'. rewrite !sample_cons, tsample_glue by assumption. tauto. }
      split.
      * intros [H|(i & j & a & z & Si & Sj & R & D & Nb & E)].
        -- apply S1 in H as [H|[A B]]; [left; exact H|right; eapply gap_fills; eassumption].
        -- right. assert (Gi : gs y <= i).
           { destruct (Z.le_gt_cases (gs y) i); [assumption|exfalso]. pose proof (from_head _ _ _ _ (glue_order _ _ _ O) Si) as Fi. cbn [glue gs] in Fi.
             destruct (tsample_at (glue cur y) (i + 1)) as (u & U); [rewrite glue_end by exact L; cbn [glue gs]; lia|].
             apply (Nb (i + 1) u); [lia|]. apply sample_cons. left. exact U. }
           exists i, j, a, z. apply S1 in Si as [Si|[Ri _]]; [|lia]. apply S1 in Sj as [Sj|[Rj _]]; [|lia].
           split; [exact Si|]. split; [exact Sj|]. split; [exact R|]. split; [exact D|]. split; [|exact E].
           intros m w Hm Sm. apply (Nb m w Hm). apply S1. left. exact Sm.
      * intros [H|(i & j & a & z & Si & Sj & R & D & Nb & E)]; [left; apply S1; left; exact H|].
        destruct (first_gap _ _ _ i j k a O Si (ex_intro _ _ Sj) R Nb) as [[-> ->]|[Gi Si']].
        -- left. apply S1. right. split; [exact R|]. rewrite E.
           rewrite (sample_unique _ _ _ (last (gd cur) 0) O Si) by (apply sample_cons; left; apply last_sample, N).
           rewrite (sample_unique _ _ _ (hd 0 (gd y)) O Sj) by (apply sample_cons; right; apply sample_cons; left; apply first_sample, N').
           unfold interpolated, gap_size. f_equal; lia.
        -- right. exists i, j, a, z. split; [apply S1; left; exact Si|]. split; [apply S1; left; exact Sj|]. split; [exact R|]. split; [exact D|]. split; [|exact E].
           intros m w Hm Sm. apply S1 in Sm as [Sm|[Rm _]]; [exact (Nb m w Hm Sm)|lia].
    + apply Z.leb_gt in G. rewrite sample_cons, IH by (eapply order_tail; exact O). rewrite (sample_cons cur (y :: r)). split.
      * intros [H1|[H1|(i & j & a & z & Si & Sj & R & D & Nb & E)]]; [auto|auto|]. right.
        exists i, j, a, z. split; [apply sample_cons; right; exact Si|]. split; [apply sample_cons; right; exact Sj|]. split; [exact R|]. split; [exact D|]. split; [|exact E].
        intros m w Hm Sm. apply sample_cons in Sm as [Sm|Sm]; [|exact (Nb m w Hm Sm)]. apply tsample_range in Sm.
        pose proof (from_head _ _ _ _ (order_tail _ _ O) Si). lia.
      * intros [[H1|H1]|(i & j & a & z & Si & Sj & R & D & Nb & E)]; [auto|auto|]. right. right.
        destruct (first_gap _ _ _ i j k a O Si (ex_intro _ _ Sj) R Nb) as [[-> ->]|[Gi Si']]; [lia|].
        exists i, j, a, z. split; [exact Si'|]. split.
        { apply sample_cons in Sj as [Sj|Sj]; [apply tsample_range in Sj; lia|exact Sj]. }
        split; [exact R|]. split; [exact D|]. split; [|exact E]. intros m w Hm Sm. apply (Nb m w Hm). apply sample_cons. right. exact Sm.
Qed.
