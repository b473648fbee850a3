From Coq Require Import ZArith QArith Qabs List Bool Lia Lqa Permutation Setoid Arith.
From Verif Require Import Lib Base Outliers OutliersSpec UnwrapProofs.
Import ListNotations.
Open Scope Q_scope.

(** * Sums *)

Lemma sumQ_total l : sumQ l = total l.
Proof. induction l as [|x l IH]; [reflexivity|]. cbn. rewrite IH. reflexivity. Qed.

Definition cnt {A} (l : list A) : Q := inject_Z (Z.of_nat (length l)).

Lemma cnt_cons {A} (x : A) l : cnt (x :: l) == 1 + cnt l.
Proof.
  unfold cnt. cbn [length]. rewrite Nat2Z.inj_succ. unfold Z.succ. rewrite inject_Z_plus. ring.
Qed.
Lemma cnt_pos {A} (x : A) l : 0 < cnt (x :: l).
Proof. unfold cnt. rewrite <- (Zlt_Qlt 0). cbn [length]. lia. Qed.
Lemma cnt_nonneg {A} (l : list A) : 0 <= cnt l.
Proof. unfold cnt. rewrite <- (Zle_Qle 0). lia. Qed.
Lemma cnt_nz {A} (l : list A) : l <> [] -> ~ cnt l == 0.
Proof. destruct l as [|x l]; [congruence|]. intros _ E. pose proof (cnt_pos x l). lra. Qed.
Lemma cnt_map {A B} (f : A -> B) l : cnt (map f l) = cnt l.
Proof. unfold cnt. rewrite map_length. reflexivity. Qed.
Lemma cnt_le {A B} (l : list A) (m : list B) : (length l <= length m)%nat -> cnt l <= cnt m.
Proof. intros H. unfold cnt. rewrite <- Zle_Qle. lia. Qed.

Lemma sum_ext f g (l : list Q) : (forall x, f x == g x) -> sumQ (map f l) == sumQ (map g l).
Proof. intros E. induction l as [|x l IH]; cbn; [reflexivity|]. rewrite IH, E. reflexivity. Qed.
Lemma sum_plus f g (l : list Q) : sumQ (map (fun x => f x + g x) l) == sumQ (map f l) + sumQ (map g l).
Proof. induction l as [|x l IH]; cbn; [lra|]. rewrite IH. ring. Qed.
Lemma sum_scale c f (l : list Q) : sumQ (map (fun x => c * f x) l) == c * sumQ (map f l).
Proof. induction l as [|x l IH]; cbn; [ring|]. rewrite IH. ring. Qed.
Lemma sum_const c (l : list Q) : sumQ (map (fun _ => c) l) == c * cnt l.
Proof. induction l as [|x l IH]; [cbn; unfold cnt; cbn; ring|]. cbn [map sumQ]. rewrite IH, cnt_cons. ring. Qed.
Lemma sum_id (l : list Q) : sumQ (map (fun x => x) l) = sumQ l.
Proof. rewrite map_id. reflexivity. Qed.
Lemma sum_perm l m : Permutation l m -> sumQ l == sumQ m.
Proof.
  intros P. induction P as [|x l l' P IH|x y l|l l' l'' P1 IH1 P2 IH2]; cbn.
  - reflexivity.
  - rewrite IH. reflexivity.
  - ring.
  - rewrite IH1. exact IH2.
Qed.
Lemma sum_map_perm (f : Q -> Q) (l m : list Q) : Permutation l m -> sumQ (map f l) == sumQ (map f m).
Proof. intros P. apply sum_perm. apply Permutation_map. exact P. Qed.
Lemma sum_nonneg f (l : list Q) : (forall x, 0 <= f x) -> 0 <= sumQ (map f l).
Proof. intros P. induction l as [|x l IH]; cbn; [lra|]. pose proof (P x). lra. Qed.

(** The values picked by [p] all have [f] at least [c]: the sum is at least [c] times their number. *)
Lemma sum_picked f (p : Q -> bool) c (l : list Q) :
  (forall x, 0 <= f x) -> (forall x, In x l -> p x = true -> c <= f x) ->
  c * cnt (filter p l) <= sumQ (map f l).
Proof.
  intros P C. induction l as [|x l IH].
  - cbn [filter map sumQ]. change (cnt []) with 0. lra.
  - cbn [map sumQ]. assert (IH' : c * cnt (filter p l) <= sumQ (map f l)).
    { apply IH. intros y Y. apply C. right. exact Y. }
    cbn [filter]. destruct (p x) eqn:E.
    + rewrite cnt_cons. pose proof (C x (or_introl eq_refl) E).
      assert (X : c * (1 + cnt (filter p l)) == c + c * cnt (filter p l)) by ring. rewrite X. lra.
    + pose proof (P x). lra.
Qed.
Lemma sum_picked_strict f (p : Q -> bool) c (l : list Q) :
  (forall x, 0 <= f x) -> (forall x, In x l -> p x = true -> c < f x) -> filter p l <> [] ->
  c * cnt (filter p l) < sumQ (map f l).
Proof.
  intros P C. induction l as [|x l IH]; [cbn; congruence|]. intros N.
  cbn [map sumQ]. cbn [filter] in N |- *.
  assert (Cl : forall y, In y l -> p y = true -> c < f y) by (intros y Y; apply C; right; exact Y).
  destruct (p x) eqn:E.
  - rewrite cnt_cons. pose proof (C x (or_introl eq_refl) E).
    assert (L : c * cnt (filter p l) <= sumQ (map f l)).
    { apply sum_picked; [exact P|]. intros y Y Z. apply Qlt_le_weak. apply Cl; assumption. }
    assert (X : c * (1 + cnt (filter p l)) == c + c * cnt (filter p l)) by ring. rewrite X. lra.
  - pose proof (P x). specialize (IH Cl N). lra.
Qed.

(** * Mean and variance *)

Lemma mean_spec l : l <> [] -> mean l * cnt l == sumQ l.
Proof. intros N. unfold mean. change (count l) with (cnt l). field. apply cnt_nz. exact N. Qed.

Definition dev2 (m : Q) (l : list Q) : Q := sumQ (map (fun x => (x - m) * (x - m)) l).

Lemma variance_spec l : l <> [] -> variance l * cnt l == dev2 (mean l) l.
Proof.
  intros N. unfold variance.
  assert (E := mean_spec (map (fun x => (x - mean l) * (x - mean l)) l)).
  rewrite cnt_map in E. apply E. destruct l; [congruence|discriminate].
Qed.

Lemma mean_is l : l <> [] -> is_mean l (mean l).
Proof. intros N. unfold is_mean. rewrite <- sumQ_total. apply mean_spec. exact N. Qed.
Lemma is_mean_mean l m : l <> [] -> is_mean l m -> m == mean l.
Proof.
  intros N M. unfold is_mean in M. rewrite <- sumQ_total in M. rewrite <- (mean_spec l N) in M.
  change (size l) with (cnt l) in M. apply Qmult_inj_r in M; [exact M|apply cnt_nz; exact N].
Qed.
Lemma dev2_ext m m' l : m == m' -> dev2 m l == dev2 m' l.
Proof. intros E. unfold dev2. apply sum_ext. intros x. rewrite E. reflexivity. Qed.
Lemma variance_is l : l <> [] -> is_variance l (variance l).
Proof.
  intros N. exists (mean l). split; [apply mean_is; exact N|].
  rewrite <- sumQ_total. apply variance_spec. exact N.
Qed.
Lemma is_variance_variance l v : l <> [] -> is_variance l v -> v == variance l.
Proof.
  intros N (m & M & V). apply (is_mean_mean l m N) in M. rewrite <- sumQ_total in V.
  assert (E : dev2 m l == dev2 (mean l) l) by (apply dev2_ext; exact M).
  unfold dev2 at 1 in E. rewrite E in V. rewrite <- (variance_spec l N) in V.
  change (size l) with (cnt l) in V. apply Qmult_inj_r in V; [exact V|apply cnt_nz; exact N].
Qed.
Lemma sq_nonneg a : 0 <= a * a.
Proof. nra. Qed.
Lemma variance_nonneg l : l <> [] -> 0 <= variance l.
Proof.
  intros N. assert (E := variance_spec l N). assert (P : 0 <= dev2 (mean l) l).
  { apply sum_nonneg. intros x. apply sq_nonneg. }
  destruct l as [|x l]; [congruence|]. pose proof (cnt_pos x l).
  destruct (Qlt_le_dec (variance (x :: l)) 0) as [L|L]; [|exact L]. exfalso. nra.
Qed.

(** Sum of squares about another point. *)
Lemma dev2_shift l a : l <> [] ->
  sumQ (map (fun x => ((x - mean l) + a) * ((x - mean l) + a)) l) ==
  (variance l + a * a) * cnt l.
Proof.
  intros N.
  transitivity (sumQ (map (fun x => (x - mean l) * (x - mean l) + (2 * a * x + (a * a - 2 * a * mean l))) l)).
  { apply sum_ext. intros x. ring. }
  rewrite (sum_plus (fun x => (x - mean l) * (x - mean l))), (sum_plus (fun x => 2 * a * x)),
    sum_const, (sum_scale (2 * a)), sum_id.
  fold (dev2 (mean l) l). rewrite <- (variance_spec l N), <- (mean_spec l N). ring.
Qed.

(** If at least half of the values are at least [a] above the mean, then [a * a] is at most the
    variance; likewise below. *)
Lemma half_above l a (p : Q -> bool) : l <> [] -> 0 <= a ->
  (forall x, In x l -> p x = true -> mean l + a <= x) -> cnt l <= 2 * cnt (filter p l) ->
  a * a <= variance l.
Proof.
  intros N A P H. assert (E := dev2_shift l a N).
  assert (L : 4 * (a * a) * cnt (filter p l) <=
    sumQ (map (fun x => ((x - mean l) + a) * ((x - mean l) + a)) l)).
  { apply sum_picked; [intros x; apply sq_nonneg|].
    intros x X T. specialize (P x X T). nra. }
  rewrite E in L. destruct l as [|y l]; [congruence|]. pose proof (cnt_pos y l) as C.
  set (n := cnt (y :: l)) in *. set (k := cnt (filter p (y :: l))) in *. set (v := variance (y :: l)) in *.
  clearbody n k v. assert (A2 := sq_nonneg a).
  destruct (Qlt_le_dec v (a * a)) as [V|V]; [|exact V]. exfalso.
  set (s := a * a) in *. clearbody s. assert (X : 2 * s * n <= 4 * s * k) by nra. nra.
Qed.
Lemma half_below l a (p : Q -> bool) : l <> [] -> 0 <= a ->
  (forall x, In x l -> p x = true -> x <= mean l - a) -> cnt l <= 2 * cnt (filter p l) ->
  a * a <= variance l.
Proof.
  intros N A P H. assert (E := dev2_shift l (- a) N).
  assert (L : 4 * (a * a) * cnt (filter p l) <=
    sumQ (map (fun x => ((x - mean l) + - a) * ((x - mean l) + - a)) l)).
  { apply sum_picked; [intros x; apply sq_nonneg|].
    intros x X T. specialize (P x X T). nra. }
  rewrite E in L. destruct l as [|y l]; [congruence|]. pose proof (cnt_pos y l) as C.
  set (n := cnt (y :: l)) in *. set (k := cnt (filter p (y :: l))) in *. set (v := variance (y :: l)) in *.
  clearbody n k v. assert (A2 := sq_nonneg a).
  assert (S2 : - a * - a == a * a) by ring. rewrite S2 in L.
  destruct (Qlt_le_dec v (a * a)) as [V|V]; [|exact V]. exfalso.
  set (s := a * a) in *. clearbody s. assert (X : 2 * s * n <= 4 * s * k) by nra. nra.
Qed.

(** * Sorting and the median *)

Lemma insert_perm x l : Permutation (insert x l) (x :: l).
Proof.
  induction l as [|y l IH]; cbn; [reflexivity|].
  destruct (Qle_bool x y); [reflexivity|]. rewrite IH. apply perm_swap.
Qed.
Lemma sort_perm l : Permutation (sort l) l.
Proof. induction l as [|x l IH]; cbn; [reflexivity|]. rewrite insert_perm. apply perm_skip. exact IH. Qed.
Lemma insert_asc x l : ascending l -> ascending (insert x l).
Proof.
  intros A. induction A as [|y|y z l L A IH].
  - cbn. constructor.
  - cbn. destruct (Qle_bool x y) eqn:E.
    + constructor; [apply Qle_bool_iff; exact E|constructor].
    + constructor; [|constructor]. apply Qltb_lt in E || idtac.
      destruct (Qlt_le_dec x y) as [H|H]; [|exact H].
      exfalso. assert (X : x <= y) by lra. apply Qle_bool_iff in X. congruence.
  - cbn [insert]. destruct (Qle_bool x y) eqn:E.
    + constructor; [apply Qle_bool_iff; exact E|]. constructor; assumption.
    + cbn [insert] in IH. destruct (Qle_bool x z) eqn:F.
      * constructor; [|exact IH].
        destruct (Qlt_le_dec x y) as [H|H]; [|exact H].
        exfalso. assert (X : x <= y) by lra. apply Qle_bool_iff in X. congruence.
      * constructor; [exact L|]. exact IH.
Qed.
Lemma sort_asc l : ascending (sort l).
Proof. induction l as [|x l IH]; cbn; [constructor|]. apply insert_asc. exact IH. Qed.
Lemma sort_length l : length (sort l) = length l.
Proof. apply Permutation_length. apply sort_perm. Qed.

Lemma asc_tail x l : ascending (x :: l) -> ascending l.
Proof. intros A. inversion A; subst; [constructor|assumption]. Qed.
Lemma asc_head x l : ascending (x :: l) -> forall y, In y l -> x <= y.
Proof.
  revert x. induction l as [|z l IH]; intros x A y Y; [destruct Y|].
  inversion A; subst. destruct Y as [->|Y]; [assumption|].
  apply Qle_trans with z; [assumption|]. apply IH; assumption.
Qed.
Lemma asc_app l m : ascending (l ++ m) -> forall x y, In x l -> In y m -> x <= y.
Proof.
  induction l as [|z l IH]; intros A x y X Y; [destruct X|].
  destruct X as [->|X].
  - apply (asc_head x (l ++ m)); [exact A|]. apply in_or_app. right. exact Y.
  - apply IH; [apply (asc_tail z); exact A|exact X|exact Y].
Qed.
Lemma asc_app_r l m : ascending (l ++ m) -> ascending m.
Proof. induction l as [|z l IH]; intros A; [exact A|]. apply IH. apply (asc_tail z). exact A. Qed.

(** Splitting a list around its middle. *)
Lemma split_at (s : list Q) i : (i < length s)%nat ->
  s = firstn i s ++ [nth i s 0] ++ skipn (S i) s.
Proof.
  revert i. induction s as [|x s IH]; intros i L; [cbn in L; lia|].
  destruct i; [reflexivity|]. cbn [firstn app nth skipn]. f_equal. apply IH. cbn in L. lia.
Qed.

Lemma median_is l : l <> [] -> is_median l (median l).
Proof.
  intros N. unfold median. set (s := sort l). assert (L : (0 < length s)%nat).
  { unfold s. rewrite sort_length. destruct l; [congruence|cbn; lia]. }
  assert (P : Permutation l s) by (unfold s; symmetry; apply sort_perm).
  assert (A : ascending s) by apply sort_asc.
  clearbody s. cbn zeta. set (n := length s) in *. destruct (Nat.even n) eqn:E.
  - apply Nat.even_spec in E. destruct E as [h E].
    assert (H : (n / 2 = h)%nat) by (rewrite E; rewrite Nat.mul_comm; apply Nat.div_mul; lia).
    rewrite H. assert (h1 : (h - 1 < length s)%nat) by (fold n; lia).
    assert (S1 := split_at s (h - 1) h1).
    replace (S (h - 1)) with h in S1 by lia.
    assert (Lr : length (skipn h s) = h) by (rewrite skipn_length; fold n; lia).
    destruct (skipn h s) as [|c' r]; [cbn in Lr; lia|].
    assert (Nh : nth h s 0 = c').
    { rewrite S1. rewrite app_nth2; rewrite firstn_length; fold n; [|lia].
      replace (h - Nat.min (h - 1) n)%nat with 1%nat by lia. reflexivity. }
    exists (firstn (h - 1) s), [nth (h - 1) s 0; c'], (nth (h - 1) s 0), r.
    cbn [app] in S1 |- *. rewrite <- S1. split; [exact P|]. split; [exact A|]. split.
    + rewrite firstn_length. fold n. cbn in Lr. lia.
    + right. exists c'. split; [reflexivity|]. rewrite Nh. field.
  - assert (O : Nat.odd n = true) by (unfold Nat.odd; rewrite E; reflexivity).
    apply Nat.odd_spec in O. destruct O as [h O].
    assert (H : (n / 2 = h)%nat).
    { rewrite O. replace (2 * h + 1)%nat with (1 + h * 2)%nat by lia.
      rewrite Nat.div_add by lia. reflexivity. }
    rewrite H. assert (h1 : (h < length s)%nat) by (fold n; lia).
    assert (S1 := split_at s h h1).
    exists (firstn h s), [nth h s 0], (nth h s 0), (skipn (S h) s).
    rewrite <- S1. split; [exact P|]. split; [exact A|]. split.
    + rewrite firstn_length, skipn_length. fold n. lia.
    + left. split; reflexivity.
Qed.

(** Half of the values are on either side. *)
Lemma filter_perm_length (p : Q -> bool) l m :
  Permutation l m -> length (filter p l) = length (filter p m).
Proof.
  intros P. induction P as [|x l l' P IH|x y l|l l' l'' P1 IH1 P2 IH2]; cbn.
  - reflexivity.
  - destruct (p x); cbn; rewrite IH; reflexivity.
  - destruct (p x), (p y); reflexivity.
  - rewrite IH1. exact IH2.
Qed.
Lemma filter_app_length (p : Q -> bool) l m :
  length (filter p (l ++ m)) = (length (filter p l) + length (filter p m))%nat.
Proof. rewrite filter_app, app_length. reflexivity. Qed.
Lemma filter_all (p : Q -> bool) l : (forall x, In x l -> p x = true) -> length (filter p l) = length l.
Proof.
  induction l as [|x l IH]; intros H; [reflexivity|]. cbn. rewrite (H x (or_introl eq_refl)). cbn.
  rewrite IH; [reflexivity|]. intros y Y. apply H. right. exact Y.
Qed.

Lemma median_between l d : is_median l d -> exists s a s',
  Permutation l (s ++ a ++ s') /\ length s = length s' /\ (length a <= 2)%nat /\
  (forall x, In x s -> x <= d) /\ (forall x, In x s' -> d <= x) /\
  (length a = 1%nat /\ (exists c, a = [c] /\ d == c) \/
   exists c c', a = [c; c'] /\ c <= d /\ d <= c').
Proof.
  intros (s & a & c & s' & P & A & L & H). exists s, a, s'.
  split; [exact P|]. split; [exact L|].
  destruct H as [[-> D]|(c' & -> & D)].
  - split; [cbn; lia|]. split; [|split].
    + intros x X. rewrite D. apply (asc_app s ([c] ++ s') A); [exact X|left; reflexivity].
    + intros x X. rewrite D. apply asc_app_r in A. apply (asc_head c s' A x X).
    + left. split; [reflexivity|]. exists c. split; [reflexivity|exact D].
  - assert (A' := asc_app_r _ _ A). cbn [app] in A'. assert (CC : c <= c') by (apply (asc_head _ _ A'); left; reflexivity).
    split; [cbn; lia|]. split; [|split].
    + intros x X. apply Qle_trans with c; [|lra].
      apply (asc_app s ([c; c'] ++ s') A); [exact X|left; reflexivity].
    + intros x X. apply Qle_trans with c'; [lra|]. apply asc_tail in A'. apply (asc_head c' s' A' x X).
    + right. exists c, c'. split; [reflexivity|]. split; lra.
Qed.

Lemma median_half_above l d : is_median l d -> cnt l <= 2 * cnt (filter (Qle_bool d) l).
Proof.
  intros M. destruct (median_between l d M) as (s & a & s' & P & L & _ & _ & U & H).
  assert (E : (length l <= 2 * length (filter (Qle_bool d) l))%nat).
  { rewrite (filter_perm_length _ _ _ P), (Permutation_length P), !filter_app_length, !app_length.
    assert (X : length (filter (Qle_bool d) s') = length s').
    { apply filter_all. intros x I'. apply Qle_bool_iff. apply U. exact I'. }
    assert (Y : (length a <= 2 * length (filter (Qle_bool d) a))%nat).
    { destruct H as [[_ (c & -> & D)]|(c & c' & -> & D1 & D2)].
      - cbn. assert (Z : Qle_bool d c = true) by (apply Qle_bool_iff; rewrite D; apply Qle_refl). rewrite Z. cbn. lia.
      - cbn. assert (Z : Qle_bool d c' = true) by (apply Qle_bool_iff; exact D2).
        destruct (Qle_bool d c); rewrite Z; cbn; lia. }
    lia. }
  unfold cnt. rewrite <- (inject_Z_mult 2), <- Zle_Qle. lia.
Qed.
Lemma median_half_below l d : is_median l d -> cnt l <= 2 * cnt (filter (fun x => Qle_bool x d) l).
Proof.
  intros M. destruct (median_between l d M) as (s & a & s' & P & L & _ & U & _ & H).
  assert (E : (length l <= 2 * length (filter (fun x => Qle_bool x d) l))%nat).
  { rewrite (filter_perm_length _ _ _ P), (Permutation_length P), !filter_app_length, !app_length.
    assert (X : length (filter (fun x => Qle_bool x d) s) = length s).
    { apply filter_all. intros x I'. apply Qle_bool_iff. apply U. exact I'. }
    assert (Y : (length a <= 2 * length (filter (fun x => Qle_bool x d) a))%nat).
    { destruct H as [[_ (c & -> & D)]|(c & c' & -> & D1 & D2)].
      - cbn. assert (Z : Qle_bool c d = true) by (apply Qle_bool_iff; rewrite D; apply Qle_refl). rewrite Z. cbn. lia.
      - cbn. assert (Z : Qle_bool c d = true) by (apply Qle_bool_iff; exact D1).
        rewrite Z. destruct (Qle_bool c' d); cbn; lia. }
    lia. }
  unfold cnt. rewrite <- (inject_Z_mult 2), <- Zle_Qle. lia.
Qed.

(** The mean and the median differ by at most one standard deviation. *)
Lemma mean_median l d : l <> [] -> is_median l d ->
  (d - mean l) * (d - mean l) <= variance l.
Proof.
  intros N M. destruct (Qlt_le_dec d (mean l)) as [H|H].
  - assert (X : (mean l - d) * (mean l - d) <= variance l).
    { apply (half_below l (mean l - d) (fun x => Qle_bool x d) N); [lra| |].
      - intros x _ T. apply Qle_bool_iff in T. lra.
      - apply median_half_below. exact M. }
    assert (E : (d - mean l) * (d - mean l) == (mean l - d) * (mean l - d)) by ring.
    rewrite E. exact X.
  - apply (half_above l (d - mean l) (Qle_bool d) N); [lra| |].
    + intros x _ T. apply Qle_bool_iff in T. lra.
    + apply median_half_above. exact M.
Qed.

(** Any two medians agree. *)
Lemma asc_perm_nth l m : ascending l -> ascending m -> Permutation l m ->
  forall i, nth i l 0 == nth i m 0.
Proof.
  revert m. induction l as [|x l IH]; intros m A B P i.
  - apply Permutation_nil in P. subst. destruct i; reflexivity.
  - destruct m as [|y m]; [apply Permutation_sym, Permutation_nil in P; discriminate|].
    assert (XY : x == y).
    { apply Qle_antisym.
      - assert (Y : In y (x :: l)) by (apply (Permutation_in y (Permutation_sym P)); left; reflexivity).
        destruct Y as [->|Y]; [apply Qle_refl|]. apply (asc_head x l A y Y).
      - assert (X : In x (y :: m)) by (apply (Permutation_in x P); left; reflexivity).
        destruct X as [->|X]; [apply Qle_refl|]. apply (asc_head y m B x X). }
    (* both lists, with the entry for x removed *)
    assert (X : In x (y :: m)) by (apply (Permutation_in x P); left; reflexivity).
    destruct X as [->|X].
    + apply Permutation_cons_inv in P. destruct i; [reflexivity|]. cbn.
      apply IH; [apply (asc_tail x l A)|apply (asc_tail x m B)|exact P].
    + (* x occurs further down in m: every entry of m before it equals x *)
      destruct (in_split x m X) as (m1 & m2 & ->).
      assert (Q1 : Permutation l (y :: m1 ++ m2)).
      { apply (Permutation_cons_inv (a := x)). rewrite P. rewrite (perm_swap y x (m1 ++ m2)).
        apply perm_skip. symmetry. apply Permutation_middle. }
      assert (C : ascending (y :: m1 ++ m2)).
      { clear - B. revert y B. induction m1 as [|z m1 IHm]; intros y B.
        - cbn in B |- *. inversion B as [| |? ? ? L B']; subst.
          inversion B' as [| |? ? ? L' B'']; subst; [constructor|].
          constructor; [apply Qle_trans with x; assumption|assumption].
        - cbn in B |- *. inversion B as [| |? ? ? L B']; subst.
          constructor; [exact L|]. apply IHm. exact B'. }
      assert (K := IH (y :: m1 ++ m2) (asc_tail x l A) C Q1).
      (* values of y :: m1 are all == x *)
      assert (V : forall z, In z (y :: m1) -> z == x).
      { intros z Z. apply Qle_antisym.
        - assert (B2 : ascending ((y :: m1) ++ x :: m2)) by exact B.
          apply (asc_app _ _ B2); [exact Z|left; reflexivity].
        - rewrite XY. destruct Z as [->|Z]; [apply Qle_refl|].
          apply (asc_head y _ B). apply in_or_app. left. exact Z. }
      destruct i; [exact XY|]. cbn [nth]. rewrite (K i).
      clear - V. revert i. assert (G : forall y, (forall z, In z (y :: m1) -> z == x) ->
        forall i, nth i (y :: m1 ++ m2) 0 == nth i (m1 ++ x :: m2) 0).
      { clear. induction m1 as [|w m1 IH]; intros y V i.
        - destruct i; [cbn; apply V; left; reflexivity|reflexivity].
        - destruct i; cbn [nth app].
          + rewrite (V y), (V w); [reflexivity|right; left; reflexivity|left; reflexivity].
          + apply IH. intros z Z. apply V. right. exact Z. }
      intros i. apply G. exact V.
Qed.

Lemma asc_congr l m : ascending l -> ascending m -> Permutation l m -> length l = length m.
Proof. intros _ _ P. apply Permutation_length. exact P. Qed.

Lemma median_unique l d d' : is_median l d -> is_median l d' -> d == d'.
Proof.
  intros (s & a & c & s' & P & A & L & H) (t & e & g & t' & P' & A' & L' & H').
  assert (K := asc_perm_nth _ _ A A' (Permutation_trans (Permutation_sym P) P')).
  assert (Len : length (s ++ a ++ s') = length (t ++ e ++ t')).
  { apply Permutation_length. apply (Permutation_trans (Permutation_sym P) P'). }
  rewrite !app_length in Len.
  destruct H as [[-> D]|(c' & -> & D)]; destruct H' as [[-> D']|(g' & -> & D')]; cbn [length] in Len; try lia.
  - assert (E : length s = length t) by lia.
    specialize (K (length s)). rewrite (app_nth2 s) in K by lia.
    rewrite (app_nth2 t) in K by lia. rewrite E, Nat.sub_diag in K. cbn [nth app] in K. lra.
  - assert (E : length s = length t) by lia.
    assert (K1 := K (length s)). rewrite (app_nth2 s) in K1 by lia.
    rewrite (app_nth2 t) in K1 by lia. rewrite E, Nat.sub_diag in K1. cbn [nth app] in K1.
    assert (K2 := K (S (length s))).
    rewrite (app_nth2 s) in K2 by lia. rewrite (app_nth2 t) in K2 by lia. rewrite E in K2.
    replace (S (length t) - length t)%nat with 1%nat in K2 by lia.
    cbn [nth app] in K2. lra.
Qed.

(** * The comparison *)

Lemma Qabs_ge_l a b : Qabs a - Qabs b <= Qabs (a - b).
Proof. apply Qabs_triangle_reverse. Qed.

Lemma close_near N l x : 0 < N -> l <> [] -> (close N l x = true <-> near N l x).
Proof.
  intros NP NE. unfold close. set (t := Qabs (x - median l) / N - (1 # 100000)).
  assert (TE : Qabs (x - median l) == N * ((1 # 100000) + t)).
  { unfold t. field. lra. }
  assert (VP := variance_nonneg l NE).
  assert (MI := median_is l NE). assert (VI := variance_is l NE).
  clearbody t. cbn zeta. rewrite orb_true_iff, !Qltb_lt. split.
  - intros [T|T].
    + exists (median l), (variance l), 0. split; [exact MI|]. split; [exact VI|]. split; [lra|]. split; [lra|].
      rewrite TE. apply Qmult_lt_l; [exact NP|lra].
    + destruct (Qlt_le_dec t 0) as [T0|T0].
      { exists (median l), (variance l), 0. split; [exact MI|]. split; [exact VI|]. split; [lra|]. split; [lra|].
        rewrite TE. apply Qmult_lt_l; [exact NP|lra]. }
      set (v := variance l) in *. clearbody v.
      assert (S0 : exists e, 0 < e /\ e <= 1 /\ e * (2 * t + 1) <= v - t * t).
      { set (q := (v - t * t) / (2 * t + 1)).
        assert (QP : 0 < q). { unfold q. apply Qlt_shift_div_l; lra. }
        assert (QE : q * (2 * t + 1) == v - t * t). { unfold q. field. lra. }
        clearbody q. destruct (Qlt_le_dec q 1) as [C|C].
        - exists q. split; [exact QP|]. split; [lra|]. rewrite QE. lra.
        - exists 1. split; [lra|]. split; [lra|]. nra. }
      destruct S0 as (e & E0 & E1 & E2).
      exists (median l), v, (t + e). split; [exact MI|]. split; [exact VI|]. split; [lra|]. split; [nra|].
      rewrite TE. apply Qmult_lt_l; [exact NP|lra].
  - intros (d & v & s & D & V & S0 & S2 & H).
    assert (DE := median_unique l d (median l) D MI).
    assert (VE := is_variance_variance l v NE V).
    rewrite DE, TE in H. apply Qmult_lt_l in H; [|exact NP]. rewrite VE in S2.
    destruct (Qlt_le_dec t 0) as [T|T]; [left; exact T|right]. nra.
Qed.

(** * How many rows a pass removes *)

Lemma far_sq N l x : 1 < N -> l <> [] -> close N l x = false ->
  (N - 1) * (N - 1) * variance l < (x - mean l) * (x - mean l).
Proof.
  intros NP NE H. unfold close in H. set (t := Qabs (x - median l) / N - (1 # 100000)) in H.
  assert (TE : Qabs (x - median l) == N * ((1 # 100000) + t)).
  { unfold t. field. lra. }
  clearbody t. cbn zeta in H. apply orb_false_iff in H. destruct H as [T V].
  apply Qltb_ge in T. apply Qltb_ge in V.
  assert (VP := variance_nonneg l NE).
  assert (MM := mean_median l (median l) NE (median_is l NE)).
  set (v := variance l) in *. set (d := median l) in *. set (m := mean l) in *. clearbody v d m.
  (* |x - m| >= |x - d| - |d - m| and |d - m| <= t *)
  assert (D1 : - t <= d - m <= t).
  { assert (K : (d - m) * (d - m) <= t * t) by lra. revert K T. generalize (d - m). intros e K T. clear - K T.
    split; [destruct (Qlt_le_dec e (- t)) as [C|C]|destruct (Qlt_le_dec t e) as [C|C]]; try exact C; exfalso; nra. }
  assert (G : (N - 1) * t < Qabs (x - m)).
  { destruct (Qlt_le_dec (x - d) 0) as [C|C].
    - rewrite Qabs_neg in TE by lra. 
      assert (X : x - m < - ((N - 1) * t)) by nra.
      rewrite Qabs_neg by nra. lra.
    - rewrite Qabs_pos in TE by lra.
      assert (X : (N - 1) * t < x - m) by nra.
      rewrite Qabs_pos by nra. lra. }
  assert (SQ : (x - m) * (x - m) == Qabs (x - m) * Qabs (x - m)).
  { destruct (Qlt_le_dec (x - m) 0) as [C|C];
      [rewrite Qabs_neg by lra|rewrite Qabs_pos by lra]; ring. }
  rewrite SQ. set (a := Qabs (x - m)) in *. clearbody a.
  assert (P0 : 0 <= (N - 1) * t) by nra.
  assert (A1 : ((N - 1) * t) * ((N - 1) * t) < a * a) by nra.
  assert (A2 : (N - 1) * (N - 1) * v <= (N - 1) * (N - 1) * (t * t)).
  { apply Qmult_le_l with (z := (N - 1) * (N - 1)) in V; [exact V|nra]. }
  assert (A3 : (N - 1) * (N - 1) * (t * t) == ((N - 1) * t) * ((N - 1) * t)) by ring.
  lra.
Qed.

Definition far N l := filter (fun x => negb (close N l x)) l.

Lemma far_few N l : 1 < N -> far N l <> [] -> (N - 1) * (N - 1) * cnt (far N l) < cnt l.
Proof.
  intros NP F. assert (NE : l <> []) by (intros ->; apply F; reflexivity).
  assert (H : (N - 1) * (N - 1) * variance l * cnt (far N l) < dev2 (mean l) l).
  { unfold dev2. apply (sum_picked_strict (fun x => (x - mean l) * (x - mean l)) (fun x => negb (close N l x))).
    - intros x. apply sq_nonneg.
    - intros x _ T. apply far_sq; [exact NP|exact NE|]. destruct (close N l x); [discriminate|reflexivity].
    - exact F. }
  rewrite <- (variance_spec l NE) in H.
  assert (VP := variance_nonneg l NE).
  set (v := variance l) in *. set (k := cnt (far N l)) in *. set (n := cnt l) in *. clearbody v k n.
  set (q := (N - 1) * (N - 1)) in *. clearbody q.
  destruct (Qlt_le_dec (q * k) n) as [C|C]; [exact C|]. exfalso. nra.
Qed.

(** * Passes *)

Lemma pass_length N x : length (pass N x) = length (filter (fun p => close N (map fst x) (fst p) && close N (map snd x) (snd p)) x).
Proof. reflexivity. Qed.

Lemma filter_and_length {A} (p q : A -> bool) (l : list A) :
  (length l <= length (filter (fun x => p x && q x) l) +
     (length (filter (fun x => negb (p x)) l) + length (filter (fun x => negb (q x)) l)))%nat.
Proof. induction l as [|x l IH]; [cbn; lia|]. cbn. destruct (p x), (q x); cbn; lia. Qed.
Lemma filter_map_length {A B} (f : A -> B) (p : B -> bool) (l : list A) :
  length (filter (fun x => p (f x)) l) = length (filter p (map f l)).
Proof. induction l as [|x l IH]; [reflexivity|]. cbn. destruct (p (f x)); cbn; rewrite IH; reflexivity. Qed.

Lemma pass_split N x :
  (length x <= length (pass N x) + (length (far N (map fst x)) + length (far N (map snd x))))%nat.
Proof.
  unfold pass, far.
  rewrite <- (filter_map_length fst (fun y => negb (close N (map fst x) y))).
  rewrite <- (filter_map_length snd (fun y => negb (close N (map snd x) y))).
  apply (filter_and_length (fun p => close N (map fst x) (fst p)) (fun p => close N (map snd x) (snd p))).
Qed.

Lemma far_bound N l : 1 < N -> (N - 1) * (N - 1) * cnt (far N l) <= cnt l.
Proof.
  intros NP. destruct (far N l) as [|y r] eqn:E.
  - change (cnt []) with 0. pose proof (cnt_nonneg l). nra.
  - rewrite <- E. apply Qlt_le_weak. apply far_few; [exact NP|]. rewrite E. discriminate.
Qed.

Lemma pass_most N x : 1 < N ->
  ((N - 1) * (N - 1) - 2) * cnt x <= (N - 1) * (N - 1) * cnt (pass N x).
Proof.
  intros NP. assert (S0 := pass_split N x).
  assert (A := far_bound N (map fst x) NP). assert (B := far_bound N (map snd x) NP).
  rewrite cnt_map in A. rewrite cnt_map in B.
  assert (C : cnt x <= cnt (pass N x) + (cnt (far N (map fst x)) + cnt (far N (map snd x)))).
  { unfold cnt. rewrite <- !inject_Z_plus, <- Zle_Qle. lia. }
  set (a := cnt (far N (map fst x))) in *. set (c := cnt (far N (map snd x))) in *.
  set (n := cnt x) in *. set (k := cnt (pass N x)) in *. clearbody a c n k.
  assert (Q0 : 0 <= (N - 1) * (N - 1)) by nra. set (q := (N - 1) * (N - 1)) in *. clearbody q.
  assert (E : q * n <= q * (k + (a + c))) by nra.
  assert (E1 : q * (k + (a + c)) == q * k + (q * a + q * c)) by ring.
  assert (E2 : (q - 2) * n == q * n - 2 * n) by ring. rewrite E1 in E. rewrite E2. lra.
Qed.

Lemma pass_nonempty N x : (5 # 2) <= N -> x <> [] -> pass N x <> [].
Proof.
  intros NP NE E. assert (NP' : 1 < N) by lra. assert (M := pass_most N x NP'). rewrite E in M.
  change (cnt []) with 0 in M. destruct x as [|p x]; [congruence|]. pose proof (cnt_pos p x).
  assert (Q0 : 2 < (N - 1) * (N - 1)) by (clear - NP; nra). set (q := (N - 1) * (N - 1)) in *. clearbody q. nra.
Qed.

Lemma pass_sub N x : sublist (pass N x) x.
Proof.
  unfold pass. generalize (fun p : Q * Q => close N (map fst x) (fst p) && close N (map snd x) (snd p)).
  intros f. induction x as [|p x IH]; [constructor|]. cbn. destruct (f p); constructor; exact IH.
Qed.

Lemma pass_is N x : 0 < N -> one_pass N x (pass N x).
Proof.
  intros NP. unfold one_pass, pass.
  destruct x as [|p0 x0]; [constructor|].
  assert (N1 : map fst (p0 :: x0) <> []) by discriminate.
  assert (N2 : map snd (p0 :: x0) <> []) by discriminate.
  set (l1 := map fst (p0 :: x0)) in *. set (l2 := map snd (p0 :: x0)) in *. clearbody l1 l2.
  generalize (p0 :: x0). intros x. induction x as [|p x IH]; [constructor|].
  cbn [filter]. destruct (close N l1 (fst p) && close N l2 (snd p)) eqn:E.
  - apply andb_true_iff in E. destruct E as [E1 E2]. apply kept_yes; [|exact IH].
    split; [apply (close_near N l1 _ NP N1); exact E1|apply (close_near N l2 _ NP N2); exact E2].
  - apply kept_no; [|exact IH]. intros [C1 C2].
    apply (close_near N l1 _ NP N1) in C1. apply (close_near N l2 _ NP N2) in C2.
    rewrite C1, C2 in E. discriminate.
Qed.

(** * The whole recursion *)

Lemma sublist_refl {A} (l : list A) : sublist l l.
Proof. induction l; constructor; assumption. Qed.
Lemma sublist_trans {A} (l m n : list A) : sublist l m -> sublist m n -> sublist l n.
Proof.
  intros A1 A2. revert l A1. induction A2 as [|a m n A2 IH|a m n A2 IH]; intros l A1.
  - exact A1.
  - inversion A1; subst; [constructor; apply IH; assumption|constructor; apply IH; assumption].
  - constructor. apply IH. exact A1.
Qed.
Lemma sublist_length {A} (l m : list A) : sublist l m -> (length l <= length m)%nat.
Proof. intros H. induction H; cbn; lia. Qed.
Lemma sublist_same {A} (l m : list A) : sublist l m -> (length m <= length l)%nat -> l = m.
Proof.
  intros H. induction H as [|a l m H IH|a l m H IH]; intros L.
  - reflexivity.
  - cbn in L. rewrite IH; [reflexivity|lia].
  - pose proof (sublist_length _ _ H). cbn in L. lia.
Qed.

Lemma remove_fuel_spec fuel N x : (length x <= fuel)%nat -> 0 < N ->
  let y := remove_fuel fuel N x in
  sublist y x /\ passes N x y /\ pass N y = y.
Proof.
  revert x. induction fuel as [|f IH]; intros x L NP; cbn zeta.
  - destruct x; [|cbn in L; lia]. cbn. split; [constructor|]. split; [constructor|reflexivity].
  - cbn [remove_fuel]. destruct (length (pass N x) <? length x)%nat eqn:E.
    + apply Nat.ltb_lt in E. assert (Lf : (length (pass N x) <= f)%nat) by lia.
      destruct (IH (pass N x) Lf NP) as (A & B & C). split; [|split; [|exact C]].
      * apply sublist_trans with (pass N x); [exact A|apply pass_sub].
      * apply passes_more with (pass N x); [apply pass_is; exact NP|exact B].
    + apply Nat.ltb_ge in E. split; [apply sublist_refl|]. split; [constructor|].
      apply sublist_same; [apply pass_sub|exact E].
Qed.

Lemma remove_fuel_nonempty fuel N x : (5 # 2) <= N -> x <> [] -> remove_fuel fuel N x <> [].
Proof.
  intros NP. revert x. induction fuel as [|f IH]; intros x NE; cbn [remove_fuel].
  - destruct (length (pass N x) <? length x)%nat; exact NE.
  - destruct (length (pass N x) <? length x)%nat; [|exact NE]. apply IH. apply pass_nonempty; assumption.
Qed.

(** More fuel changes nothing: the recursion of the code ends. *)
Lemma remove_fuel_enough f g N x : (length x <= f)%nat -> (length x <= g)%nat ->
  remove_fuel f N x = remove_fuel g N x.
Proof.
  revert g x. induction f as [|f IH]; intros g x F G.
  - destruct x; [|cbn in F; lia]. destruct g; reflexivity.
  - destruct g as [|g]; [destruct x; [reflexivity|cbn in G; lia]|].
    cbn [remove_fuel]. destruct (length (pass N x) <? length x)%nat eqn:E; [|reflexivity].
    apply Nat.ltb_lt in E. apply IH; lia.
Qed.

Lemma remove_equation N x :
  remove_outliers N x =
  if (length (pass N x) <? length x)%nat then remove_outliers N (pass N x) else x.
Proof.
  unfold remove_outliers. destruct x as [|p x]; [reflexivity|].
  cbn [length remove_fuel].
  destruct (length (pass N (p :: x)) <? S (length x))%nat eqn:E; [|reflexivity].
  apply Nat.ltb_lt in E. apply remove_fuel_enough; lia.
Qed.

(** * Uniqueness and order *)

Lemma kept_unique P x y z : kept P x y -> kept P x z -> y = z.
Proof.
  intros A. revert z. induction A as [|p x y H A IH|p x y H A IH]; intros z B; inversion B; subst; try contradiction.
  - reflexivity.
  - f_equal. apply IH. assumption.
  - apply IH. assumption.
Qed.

Lemma one_pass_pass N x y : 0 < N -> one_pass N x y -> y = pass N x.
Proof. intros NP A. apply (kept_unique _ _ _ _ A). apply pass_is. exact NP. Qed.

Lemma is_median_perm l m d : Permutation l m -> is_median l d -> is_median m d.
Proof.
  intros P (s & a & c & s' & Q1 & R). exists s, a, c, s'. split; [|exact R].
  apply Permutation_trans with l; [apply Permutation_sym; exact P|exact Q1].
Qed.
Lemma median_perm l m : l <> [] -> Permutation l m -> median l == median m.
Proof.
  intros N P. apply (median_unique m).
  - apply (is_median_perm l m _ P). apply median_is. exact N.
  - apply median_is. intros E. subst. apply N. apply Permutation_nil. apply Permutation_sym. exact P.
Qed.
Lemma near_perm N l m x : Permutation l m -> near N l x -> near N m x.
Proof.
  intros P (d & v & s & D & (mu & M & V) & R). exists d, v, s.
  split; [apply (is_median_perm l m d P D)|]. split; [|exact R].
  exists mu. unfold is_mean in *. unfold size in *. rewrite <- (Permutation_length P).
  rewrite <- sumQ_total in *. rewrite <- (sum_perm _ _ P). split; [exact M|].
  rewrite <- sumQ_total in *. rewrite <- (sum_map_perm _ _ _ P). exact V.
Qed.
Lemma close_perm N l m x : 0 < N -> Permutation l m -> close N l x = close N m x.
Proof.
  intros NP P. destruct l as [|y l].
  - apply Permutation_nil in P. subst. reflexivity.
  - assert (N1 : y :: l <> []) by discriminate.
    assert (N2 : m <> []) by (intros ->; apply Permutation_sym, Permutation_nil in P; discriminate).
    destruct (close N m x) eqn:E.
    + apply (close_near N _ x NP N1). apply (near_perm N m); [apply Permutation_sym; exact P|].
      apply (close_near N _ x NP N2). exact E.
    + destruct (close N (y :: l) x) eqn:F; [|reflexivity].
      apply (close_near N _ x NP N1) in F. apply (near_perm N _ m x P) in F.
      apply (close_near N _ x NP N2) in F. congruence.
Qed.
Lemma filter_perm {A} (p : A -> bool) l m : Permutation l m -> Permutation (filter p l) (filter p m).
Proof.
  intros P. induction P as [|x l l' P IH|x y l|l l' l'' P1 IH1 P2 IH2]; cbn.
  - constructor.
  - destruct (p x); [apply perm_skip|]; exact IH.
  - destruct (p x), (p y); try apply perm_swap; apply Permutation_refl.
  - apply Permutation_trans with (filter p l'); assumption.
Qed.
Lemma pass_perm N x y : 0 < N -> Permutation x y -> Permutation (pass N x) (pass N y).
Proof.
  intros NP P. unfold pass.
  rewrite (filter_ext (fun p => close N (map fst x) (fst p) && close N (map snd x) (snd p))
    (fun p => close N (map fst y) (fst p) && close N (map snd y) (snd p))).
  - apply filter_perm. exact P.
  - intros p. rewrite (close_perm N (map fst x) (map fst y)), (close_perm N (map snd x) (map snd y));
      [reflexivity|exact NP|apply Permutation_map; exact P|exact NP|apply Permutation_map; exact P].
Qed.
Lemma remove_perm N x y : 0 < N -> Permutation x y ->
  Permutation (remove_outliers N x) (remove_outliers N y).
Proof.
  intros NP P. unfold remove_outliers. rewrite (Permutation_length P).
  generalize (length y). intros f. revert x y P. induction f as [|f IH]; intros x y P; cbn [remove_fuel].
  - destruct (length (pass N x) <? length x)%nat, (length (pass N y) <? length y)%nat; exact P.
  - rewrite (Permutation_length (pass_perm N x y NP P)), (Permutation_length P).
    destruct (length (pass N y) <? length y)%nat; [|exact P]. apply IH. apply pass_perm; assumption.
Qed.

(** A small table loses nothing. *)
Lemma pass_small x : (length x <= 16)%nat -> pass 5 x = x.
Proof.
  intros L. apply sublist_same; [apply pass_sub|].
  assert (S0 := pass_split 5 x).
  assert (G : forall l, (length l <= 16)%nat -> length (far 5 l) = 0%nat).
  { intros l Ll. destruct (far 5 l) as [|y r] eqn:E; [reflexivity|]. exfalso.
    assert (F : far 5 l <> []) by (rewrite E; discriminate).
    assert (NP : 1 < 5) by lra. assert (K := far_few 5 l NP F). rewrite E in K.
    assert (C1 : 1 <= cnt (y :: r)) by (rewrite cnt_cons; pose proof (cnt_nonneg r); lra).
    assert (C2 : cnt l <= 16). { unfold cnt. rewrite <- (Zle_Qle _ 16). lia. }
    assert (Q16 : (5 - 1) * (5 - 1) * cnt (y :: r) == 16 * cnt (y :: r)) by ring. rewrite Q16 in K. lra. }
  rewrite (G (map fst x)), (G (map snd x)) in S0 by (rewrite map_length; exact L). lia.
Qed.
