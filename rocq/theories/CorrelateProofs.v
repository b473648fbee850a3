(** Lemmas for C80. *)
From Coq Require Import ZArith QArith List Bool Lia Lqa.
From Verif Require Import Base Correlate CorrelateSpec.
Import ListNotations.
Open Scope Q_scope.

(** ** Sums *)
Lemma total_S f n : total f (S n) == total f n + f n.
Proof.
  unfold total. rewrite seq_S, map_app, fold_right_app. cbn [map fold_right Nat.add].
  generalize (map f (seq 0 n)). intros l. induction l as [|x l IH]; cbn [fold_right]; [ring|]. rewrite IH. ring.
Qed.
Lemma total_ext f g n : (forall i, (i < n)%nat -> f i == g i) -> total f n == total g n.
Proof. induction n as [|n IH]; intros H; [reflexivity|]. rewrite !total_S, IH, (H n) by (intros; try apply H; lia). reflexivity. Qed.
Lemma total_zero f n : (forall i, (i < n)%nat -> f i == 0) -> total f n == 0.
Proof. intros H. induction n as [|n IH]; [reflexivity|]. rewrite total_S, IH, (H n) by (intros; try apply H; lia). ring. Qed.
Lemma total_scale c f n : total (fun i => c * f i) n == c * total f n.
Proof. induction n as [|n IH]; [unfold total; cbn; ring|]. rewrite !total_S, IH. ring. Qed.
Lemma total_plus f g n : total (fun i => f i + g i) n == total f n + total g n.
Proof. induction n as [|n IH]; [unfold total; cbn; ring|]. rewrite !total_S, IH. ring. Qed.
Lemma total_add f m n : total f (m + n) == total f m + total (fun i => f (m + i)%nat) n.
Proof.
  induction n as [|n IH]; [rewrite Nat.add_0_r; unfold total at 3; cbn; ring|].
  rewrite Nat.add_succ_r, !total_S, IH. ring.
Qed.
Lemma total_head f n : total f (S n) == f 0%nat + total (fun i => f (S i)) n.
Proof. pose proof (total_add f 1 n) as H. cbn [Nat.add] in H. rewrite H, total_S. unfold total at 1. cbn. ring. Qed.
Lemma total_nonneg f n : (forall i, 0 <= f i) -> 0 <= total f n.
Proof. intros H. induction n as [|n IH]; [unfold total; cbn; lra|]. rewrite total_S. specialize (H n). lra. Qed.
Lemma total_sq_zero f n : (forall i, 0 <= f i) -> total f n <= 0 -> forall i, (i < n)%nat -> f i == 0.
Proof.
  intros H. induction n as [|n IH]; intros L i Li; [lia|]. rewrite total_S in L. pose proof (total_nonneg f n H). pose proof (H n).
  destruct (Nat.eq_dec i n) as [->|N]; [lra|]. apply IH; [lra|lia].
Qed.

Definition zsum (lo : Z) (n : nat) (f : Z -> Q) : Q := total (fun i => f (lo + Z.of_nat i)%Z) n.
Lemma zsum_shift lo n f k : zsum lo n (fun i => f (i + k)%Z) == zsum (lo + k) n f.
Proof. apply total_ext. intros i _. replace (lo + Z.of_nat i + k)%Z with (lo + k + Z.of_nat i)%Z by ring. reflexivity. Qed.
Lemma zsum_cover lo n a l f : (lo <= a)%Z -> (a + Z.of_nat l <= lo + Z.of_nat n)%Z ->
  (forall i, (i < a \/ a + Z.of_nat l <= i)%Z -> f i == 0) -> zsum lo n f == zsum a l f.
Proof.
  intros H1 H2 H3. unfold zsum. set (p := Z.to_nat (a - lo)). set (q := (n - p - l)%nat).
  assert (E : n = (p + (l + q))%nat) by (unfold q, p; lia). rewrite E, total_add, total_add.
  rewrite (total_zero _ p), (total_zero _ q).
  - rewrite Qplus_0_l, Qplus_0_r. apply total_ext. intros i _. replace (lo + Z.of_nat (p + i))%Z with (a + Z.of_nat i)%Z by (unfold p; lia). reflexivity.
  - intros i L. apply H3. right. unfold p. lia.
  - intros i L. apply H3. left. unfold p in L. lia.
Qed.
Lemma zsum_ext lo n f g : (forall i, (lo <= i < lo + Z.of_nat n)%Z -> f i == g i) -> zsum lo n f == zsum lo n g.
Proof. intros H. apply total_ext. intros i L. apply H. lia. Qed.

(** ** Lists as signals *)
Lemma value_nat w (i : nat) : value_at w (Z.of_nat i) = nth i w 0.
Proof. unfold value_at. destruct (Z.ltb_spec (Z.of_nat i) 0); [lia|]. rewrite Nat2Z.id. reflexivity. Qed.
Lemma value_out w i : (i < 0 \/ Z.of_nat (length w) <= i)%Z -> value_at w i = 0.
Proof. intros H. unfold value_at. destruct (Z.ltb_spec i 0); [reflexivity|]. apply nth_overflow. lia. Qed.
Lemma nth_some (x : list Q) i : (i < length x)%nat -> nth_error x i = Some (nth i x 0).
Proof. apply nth_error_nth'. Qed.
Lemma qadd_total x : qadd x == total (fun i => nth i x 0) (length x).
Proof. induction x as [|v x IH]; [reflexivity|]. cbn [qadd fold_right length]. rewrite total_head. cbn [nth]. fold (qadd x). rewrite IH. reflexivity. Qed.
Lemma qadd_map {A} (d : A) (f : A -> Q) l : qadd (map f l) == total (fun i => f (nth i l d)) (length l).
Proof. induction l as [|v l IH]; [reflexivity|]. cbn [map qadd fold_right length]. rewrite total_head. cbn [nth]. fold (qadd (map f l)). rewrite IH. reflexivity. Qed.
Lemma dot_total x : forall y, (length y <= length x)%nat -> dot x y == total (fun i => nth i x 0 * nth i y 0) (length y).
Proof.
  induction x as [|u x IH]; intros [|v y] L; try (cbn in L; lia); try reflexivity.
  unfold dot. cbn [combine map qadd fold_right fst snd length]. rewrite total_head. cbn [nth].
  fold (qadd (map (fun p : Q * Q => fst p * snd p) (combine x y))). fold (dot x y). rewrite IH by (cbn in L; lia). reflexivity.
Qed.
Lemma positions_nth {A} (l : list A) i : (i < length l)%nat -> nth_error (positions l) i = Some (inject_Z (Z.of_nat i)).
Proof.
  intros L. unfold positions. erewrite map_nth_error; [reflexivity|]. rewrite (nth_error_nth' _ 0%nat) by (rewrite seq_length; exact L).
  rewrite seq_nth by exact L. reflexivity.
Qed.
Lemma positions_length {A} (l : list A) : length (positions l) = length l.
Proof. unfold positions. rewrite map_length, seq_length. reflexivity. Qed.
Lemma combine_nth_error {A B} (l : list A) : forall (r : list B) i u v, nth_error l i = Some u -> nth_error r i = Some v -> nth_error (combine l r) i = Some (u, v).
Proof.
  induction l as [|a l IH]; intros r i u v H1 H2; [destruct i; discriminate H1|]. destruct r as [|c r]; [destruct i; discriminate H2|].
  destruct i as [|i]; cbn in *; [congruence|]. apply IH; assumption.
Qed.

(** ** A signal recorded by a sensor *)
Lemma sees_nth w g d x i : sees w g d x -> (i < length x)%nat -> nth i x 0 == g * value_at w (Z.of_nat i - d).
Proof. intros S L. apply S, nth_some, L. Qed.
Lemma inside_contained w d x : inside w d x -> contained w d x.
Proof. intros [H1 H2]. split; lia. Qed.
Lemma sees_sum w g d x (f : Z -> Q) : sees w g d x -> contained w d x ->
  total (fun i => f (Z.of_nat i) * nth i x 0) (length x) == g * total (fun j => f (Z.of_nat j + d)%Z * nth j w 0) (length w).
Proof.
  intros S B. destruct B as [B1 B2].
  transitivity (total (fun i => g * (f (Z.of_nat i) * value_at w (Z.of_nat i - d))) (length x)).
  { apply total_ext. intros i L. rewrite (sees_nth _ _ _ _ _ S L). ring. }
  rewrite total_scale. apply Qmult_comp; [reflexivity|].
  transitivity (zsum 0 (length x) (fun i => f i * value_at w (i - d))); [apply total_ext; intros i L; rewrite Z.add_0_l; reflexivity|].
  rewrite (zsum_cover 0 (length x) d (length w)); [|lia|lia|].
  - apply total_ext. intros i L. replace (d + Z.of_nat i - d)%Z with (Z.of_nat i) by ring. rewrite value_nat, Z.add_comm. reflexivity.
  - intros i H. rewrite value_out by lia. ring.
Qed.
Lemma sees_total w g d x : sees w g d x -> contained w d x -> level w -> total (fun i => nth i x 0) (length x) == 0.
Proof.
  intros S B B1. unfold level in B1. transitivity (total (fun i => 1 * nth i x 0) (length x)); [apply total_ext; intros; ring|].
  rewrite (sees_sum w g d x (fun _ => 1) S B). transitivity (g * total (fun i => nth i w 0) (length w)); [|rewrite B1; ring].
  apply Qmult_comp; [reflexivity|]. apply total_ext. intros; ring.
Qed.
Lemma sees_moment w g d x : sees w g d x -> contained w d x -> balanced w -> total (fun i => inject_Z (Z.of_nat i) * nth i x 0) (length x) == 0.
Proof.
  intros S B [B1 B2]. rewrite (sees_sum w g d x inject_Z S B).
  transitivity (g * (total (fun i => inject_Z (Z.of_nat i) * nth i w 0) (length w) + inject_Z d * total (fun i => nth i w 0) (length w))); [|rewrite B1, B2; ring].
  apply Qmult_comp; [reflexivity|]. rewrite <- total_scale, <- total_plus. apply total_ext. intros i _. rewrite inject_Z_plus. ring.
Qed.

(** ** Removing a line *)
Definition line_of (x : list Q) : Q * Q * Q :=
  let n := qlen x in
  let middle := qadd (positions x) / n in
  let spread := qadd (map (fun i => (i - middle) * (i - middle)) (positions x)) in
  (qadd x / n, qadd (map (fun iv => (fst iv - middle) * snd iv) (combine (positions x) x)) / spread, middle).
Lemma detrend_length x : length (detrend x) = length x.
Proof. unfold detrend. rewrite map_length, combine_length, positions_length. lia. Qed.
Lemma detrend_nth x i v : nth_error x i = Some v ->
  nth_error (detrend x) i = Some (v - (fst (fst (line_of x)) + snd (fst (line_of x)) * (inject_Z (Z.of_nat i) - snd (line_of x)))).
Proof.
  intros E. assert (L : (i < length x)%nat) by (apply nth_error_Some; congruence).
  unfold detrend. erewrite map_nth_error; [|apply combine_nth_error; [apply positions_nth, L|exact E]]. reflexivity.
Qed.
Lemma combine_total (x : list Q) (f : Q -> Q -> Q) :
  qadd (map (fun iv => f (fst iv) (snd iv)) (combine (positions x) x)) == total (fun i => f (inject_Z (Z.of_nat i)) (nth i x 0)) (length x).
Proof.
  rewrite (qadd_map (0, 0)), combine_length, positions_length, Nat.min_id. apply total_ext. intros i L.
  assert (E : nth_error (combine (positions x) x) i = Some (inject_Z (Z.of_nat i), nth i x 0)) by (apply combine_nth_error; [apply positions_nth, L|apply nth_some, L]).
  rewrite (nth_error_nth _ _ _ E). reflexivity.
Qed.
Lemma line_slope x : snd (fst (line_of x)) == total (fun i => (inject_Z (Z.of_nat i) - snd (line_of x)) * nth i x 0) (length x) /
  qadd (map (fun i => (i - snd (line_of x)) * (i - snd (line_of x))) (positions x)).
Proof. cbn [line_of fst snd]. apply Qmult_comp; [|reflexivity]. exact (combine_total x (fun i v => (i - qadd (positions x) / qlen x) * v)). Qed.
Lemma detrend_sees w g d x : sees w g d x -> inside w d x -> balanced w -> sees w g d (detrend x).
Proof.
  intros S B W i v E. apply inside_contained in B. assert (L : (i < length x)%nat) by (rewrite <- detrend_length; apply nth_error_Some; congruence).
  pose proof (detrend_nth x i _ (nth_some x i L)) as D. rewrite D in E. injection E as <-.
  assert (A : fst (fst (line_of x)) == 0).
  { cbn [line_of fst]. rewrite qadd_total, (sees_total w g d x S B (proj1 W)). unfold Qdiv. ring. }
  assert (SL : snd (fst (line_of x)) == 0).
  { rewrite line_slope. set (m := snd (line_of x)). transitivity (0 / qadd (map (fun i0 => (i0 - m) * (i0 - m)) (positions x))); [|unfold Qdiv; ring].
    apply Qmult_comp; [|reflexivity].
    transitivity (total (fun i => inject_Z (Z.of_nat i) * nth i x 0) (length x) + - m * total (fun i => nth i x 0) (length x)).
    - rewrite <- total_scale, <- total_plus. apply total_ext. intros; ring.
    - rewrite (sees_total w g d x S B (proj1 W)), (sees_moment w g d x S B W). ring. }
  rewrite A, SL, (sees_nth _ _ _ _ _ S L). ring.
Qed.

(** ** The taper *)
Section taper.
Variable side : nat -> nat -> Q.
Lemma factors_length n : length (factors side n) = n.
Proof. unfold factors. rewrite !app_length, !map_length, rev_length, seq_length, repeat_length. pose proof (Nat.div_mod n 20). lia. Qed.
Lemma taper_length x : length (taper side x) = length x.
Proof. unfold taper. rewrite map_length, combine_length, factors_length. lia. Qed.
Lemma taper_nth x i v : nth_error x i = Some v -> exists f, nth_error (factors side (length x)) i = Some f /\ nth_error (taper side x) i = Some (f * v).
Proof.
  intros E. assert (L : (i < length x)%nat) by (apply nth_error_Some; congruence).
  destruct (nth_error (factors side (length x)) i) as [f|] eqn:F; [|apply nth_error_None in F; rewrite factors_length in F; lia].
  exists f. split; [reflexivity|]. unfold taper. erewrite map_nth_error; [|apply combine_nth_error; eassumption]. reflexivity.
Qed.
Lemma factors_middle n i : (n / 20 <= i < n - n / 20)%nat -> nth_error (factors side n) i = Some 1.
Proof.
  intros [L1 L2]. unfold factors. set (k := (n / 20)%nat) in *. rewrite nth_error_app2 by (rewrite map_length, seq_length; exact L1).
  rewrite map_length, seq_length, nth_error_app1 by (rewrite repeat_length; lia).
  rewrite (nth_error_nth' _ 1) by (rewrite repeat_length; lia). f_equal. apply nth_repeat.
Qed.
Lemma taper_sees w g d x : sees w g d x -> inside w d x -> sees w g d (taper side x).
Proof.
  intros S [B1 B2] i v E. assert (L : (i < length x)%nat) by (rewrite <- taper_length; apply nth_error_Some; congruence).
  destruct (taper_nth x i _ (nth_some x i L)) as (f & F & T). rewrite T in E. injection E as <-. rewrite (sees_nth _ _ _ _ _ S L).
  pose proof (Nat.div_mod (length x) 20) as DM. pose proof (Nat.mod_upper_bound (length x) 20) as MU.
  destruct (Z_lt_ge_dec (Z.of_nat i) d) as [H|H]; [rewrite value_out by lia; ring|].
  destruct (Z_lt_ge_dec (Z.of_nat i) (d + Z.of_nat (length w))) as [H'|H']; [|rewrite value_out by lia; ring].
  rewrite factors_middle in F by lia. injection F as <-. ring.
Qed.
Lemma prepared_length x : length (prepared side x) = length x.
Proof. unfold prepared. rewrite taper_length. apply detrend_length. Qed.
Lemma prepared_sees w g d x : sees w g d x -> inside w d x -> balanced w -> sees w g d (prepared side x).
Proof. intros S B W. apply taper_sees; [apply detrend_sees; assumption|]. unfold inside. rewrite detrend_length. exact B. Qed.
End taper.

(** ** The mean *)
Lemma demean_length x : length (demean x) = length x.
Proof. apply map_length. Qed.
Lemma demean_nth x i : (i < length x)%nat -> nth i (demean x) 0 == nth i x 0 - mean x.
Proof.
  intros L. assert (E : nth_error (demean x) i = Some (nth i x 0 - qadd x / qlen x)).
  { unfold demean. rewrite (map_nth_error _ i x (nth_some x i L)). reflexivity. }
  rewrite (nth_error_nth _ _ _ E). unfold mean. rewrite qadd_total. reflexivity.
Qed.
Lemma centred_nth x i : (i < length x)%nat -> nth i (centred x) 0 == nth i x 0 - mean x.
Proof.
  intros L. assert (E : nth_error (centred x) i = Some (nth i x 0 - mean x)) by (unfold centred; rewrite (map_nth_error _ i x (nth_some x i L)); reflexivity).
  rewrite (nth_error_nth _ _ _ E). reflexivity.
Qed.
Lemma demean_sees w g d x : sees w g d x -> contained w d x -> level w -> sees w g d (centred x).
Proof.
  intros S B W i v E. assert (L : (i < length x)%nat) by (rewrite <- (map_length (fun v => v - mean x)); apply nth_error_Some; unfold centred in E; congruence).
  rewrite <- (nth_error_nth _ _ 0 E), centred_nth by exact L. unfold mean. rewrite (sees_total w g d x S B W), (sees_nth _ _ _ _ _ S L). unfold Qdiv. ring.
Qed.

(** ** Correlation *)
Lemma value_ext a a' k : length a = length a' -> (forall i, (i < length a)%nat -> nth i a 0 == nth i a' 0) -> value_at a k == value_at a' k.
Proof.
  intros L H. unfold value_at. destruct (k <? 0)%Z; [reflexivity|]. destruct (Nat.lt_ge_cases (Z.to_nat k) (length a)) as [B|B]; [apply H, B|].
  rewrite !nth_overflow by lia. reflexivity.
Qed.
Lemma lagged_ext a a' c c' k : length a = length a' -> length c = length c' ->
  (forall i, (i < length a)%nat -> nth i a 0 == nth i a' 0) -> (forall i, (i < length c)%nat -> nth i c 0 == nth i c' 0) -> lagged a c k == lagged a' c' k.
Proof.
  intros L1 L2 H1 H2. unfold lagged. rewrite <- L2. apply total_ext. intros i B. rewrite (value_ext a a' _ L1 H1), (H2 i B). reflexivity.
Qed.
Lemma pad_nth m a j : nth j (pad m a) 0 = value_at a (Z.of_nat j - Z.of_nat m).
Proof.
  unfold pad, value_at. destruct (Z.ltb_spec (Z.of_nat j - Z.of_nat m) 0) as [H|H].
  - rewrite app_nth1 by (rewrite repeat_length; lia). apply nth_repeat.
  - rewrite app_nth2 by (rewrite repeat_length; lia). rewrite repeat_length. replace (Z.to_nat (Z.of_nat j - Z.of_nat m)) with (j - m)%nat by lia.
    destruct (Nat.lt_ge_cases (j - m) (length a)) as [B|B]; [apply app_nth1, B|]. rewrite app_nth2 by exact B. rewrite nth_repeat, nth_overflow by exact B. reflexivity.
Qed.
Lemma pad_length m a : length (pad m a) = (m + (length a + m))%nat.
Proof. unfold pad. rewrite !app_length, !repeat_length. reflexivity. Qed.
Lemma nth_skip (l : list Q) k i : nth i (skipn k l) 0 = nth (k + i) l 0.
Proof. revert l. induction k as [|k IH]; intros l; [reflexivity|]. destruct l as [|x l]; [destruct i; reflexivity|]. exact (IH l). Qed.
Lemma dot_lagged a c m k : length a = length c -> (k <= 2 * m)%nat ->
  dot (skipn k (pad m a)) c == lagged a c (Z.of_nat k - Z.of_nat m).
Proof.
  intros L K. rewrite dot_total by (rewrite skipn_length, pad_length; lia). apply total_ext. intros i _.
  rewrite nth_skip, pad_nth. replace (Z.of_nat (k + i) - Z.of_nat m)%Z with (Z.of_nat i + (Z.of_nat k - Z.of_nat m))%Z by lia. reflexivity.
Qed.
Lemma dot_self a : dot a a == lagged a a 0.
Proof. rewrite dot_total by lia. apply total_ext. intros i _. rewrite Z.add_0_r, value_nat. reflexivity. Qed.
Lemma centre_lagged a c k : lagged (demean a) (demean c) k == lagged (centred a) (centred c) k.
Proof.
  apply lagged_ext; try (unfold demean, centred; rewrite !map_length; reflexivity); intros i L; rewrite demean_length in L; rewrite demean_nth, centred_nth by exact L; reflexivity.
Qed.

(** ** The first largest value *)
Definition is_first_max (l : list Q) (k : nat) (v : Q) : Prop :=
  nth_error l k = Some v /\ forall i u, nth_error l i = Some u -> u <= v /\ ((i < k)%nat -> u < v).
Lemma first_max_ok l : forall p best at_, is_first_max p at_ best ->
  is_first_max (p ++ l) (fst (first_max best at_ (length p) l)) (snd (first_max best at_ (length p) l)).
Proof.
  induction l as [|x l IH]; intros p best at_ [H1 H2]; [rewrite app_nil_r; split; assumption|].
  cbn [first_max]. assert (LA : (at_ < length p)%nat) by (apply nth_error_Some; congruence).
  replace (p ++ x :: l) with ((p ++ [x]) ++ l) by (rewrite <- app_assoc; reflexivity).
  replace (S (length p)) with (length (p ++ [x])) by (rewrite app_length; cbn; lia).
  assert (SN : forall i u, nth_error (p ++ [x]) i = Some u -> ((i < length p)%nat /\ nth_error p i = Some u) \/ (i = length p /\ u = x)).
  { intros i u E. destruct (Nat.lt_ge_cases i (length p)) as [B|B]; [left; rewrite nth_error_app1 in E by exact B; auto|].
    right. rewrite nth_error_app2 in E by exact B. destruct (i - length p)%nat as [|j] eqn:J; cbn in E; [split; [lia|congruence]|destruct j; discriminate E]. }
  unfold Qltb. destruct (Qle_bool x best) eqn:Q; cbn [negb]; apply IH; split.
  - rewrite nth_error_app1 by exact LA. exact H1.
  - apply Qle_bool_iff in Q. intros i u E. destruct (SN i u E) as [[B E']|[-> ->]]; [apply H2, E'|]. split; [exact Q|lia].
  - rewrite nth_error_app2, Nat.sub_diag by lia. reflexivity.
  - assert (best < x) by (apply Qnot_le_lt; intros C; apply Qle_bool_iff in C; congruence).
    intros i u E. destruct (SN i u E) as [[B E']|[-> ->]]; [|split; [lra|lia]]. destruct (H2 i u E'). split; [lra|intros; lra].
Qed.
Lemma xcorr_max_ok cc m : length cc = (2 * m + 1)%nat -> exists k v, is_first_max cc k v /\ xcorr_max cc = ((Z.of_nat k - Z.of_nat m)%Z, v).
Proof.
  intros L. destruct cc as [|x r]; [cbn in L; lia|]. assert (F : is_first_max [x] 0 x).
  { split; [reflexivity|]. intros [|i] u E; [injection E as ->; split; [lra|lia]|destruct i; discriminate E]. }
  pose proof (first_max_ok r [x] x 0 F) as H. cbn [app length] in H. unfold xcorr_max. destruct (first_max x 0 1 r) as [k v]. exists k, v. split; [exact H|].
  rewrite L. do 2 f_equal. replace (Z.of_nat (2 * m + 1) - 1)%Z with (Z.of_nat m * 2)%Z by lia. apply Z.div_mul. lia.
Qed.

Section corr.
Variable root : Q -> Q.
Lemma correlation_length a c m : length (correlation root a c m) = (2 * m + 1)%nat.
Proof. unfold correlation. destruct (Qle_bool _ _); rewrite !map_length, seq_length; reflexivity. Qed.
Definition size (a c : list Q) : Q := root (dot (demean a) (demean a) * dot (demean c) (demean c)).
Lemma correlation_nth a c m k : (k < 2 * m + 1)%nat -> length a = length c ->
  exists u, nth_error (correlation root a c m) k = Some u /\
    (size a c <= eps -> u == 0) /\ (eps < size a c -> u * size a c == lagged (centred a) (centred c) (Z.of_nat k - Z.of_nat m)).
Proof.
  intros K L. unfold correlation. fold (size a c). set (cc := map _ (seq 0 (2 * m + 1))).
  assert (E : nth_error cc k = Some (dot (skipn k (pad m (demean a))) (demean c))).
  { unfold cc. erewrite map_nth_error; [reflexivity|]. rewrite (nth_error_nth' _ 0%nat) by (rewrite seq_length; exact K). rewrite seq_nth by exact K. reflexivity. }
  destruct (Qle_bool (size a c) eps) eqn:N.
  - exists 0. split; [rewrite (map_nth_error _ _ _ E); reflexivity|]. apply Qle_bool_iff in N. split; [reflexivity|intros; lra].
  - eexists. split; [rewrite (map_nth_error _ _ _ E); reflexivity|].
    assert (P : eps < size a c) by (apply Qnot_le_lt; intros C; apply Qle_bool_iff in C; congruence).
    split; [intros; lra|]. intros _. rewrite <- centre_lagged, <- dot_lagged by (rewrite ?demean_length; lia).
    assert (0 < eps) by reflexivity. field. lra.
Qed.
Lemma size_lagged a c : (forall p q, p == q -> root p == root q) -> size a c == root (lagged (centred a) (centred a) 0 * lagged (centred c) (centred c) 0).
Proof. intros H. apply H. rewrite !dot_self, !centre_lagged. reflexivity. Qed.
Lemma correlation_out a c m k u : nth_error (correlation root a c m) k = Some u -> (k < 2 * m + 1)%nat.
Proof. intros E. rewrite <- (correlation_length a c m). apply nth_error_Some. congruence. Qed.

Lemma best_shift a c m : length a = length c -> eps < size a c ->
  exists k v, find_shift root a c (Z.of_nat m) = (k, v) /\ (- Z.of_nat m <= k <= Z.of_nat m)%Z /\
    v * size a c == lagged (centred a) (centred c) k /\
    forall j, (- Z.of_nat m <= j <= Z.of_nat m)%Z -> lagged (centred a) (centred c) j <= lagged (centred a) (centred c) k /\
      ((j < k)%Z -> lagged (centred a) (centred c) j < lagged (centred a) (centred c) k).
Proof.
  intros L N. unfold find_shift. rewrite Nat2Z.id.
  destruct (xcorr_max_ok (correlation root a c m) m (correlation_length a c m)) as (k & v & [H1 H2] & ->).
  pose proof (correlation_out _ _ _ _ _ H1) as K. destruct (correlation_nth a c m k K L) as (u & E & _ & U). rewrite H1 in E. injection E as <-. specialize (U N).
  exists (Z.of_nat k - Z.of_nat m)%Z, v. split; [reflexivity|]. split; [lia|]. split; [exact U|]. intros j J.
  set (i := Z.to_nat (j + Z.of_nat m)). destruct (correlation_nth a c m i ltac:(unfold i; lia) L) as (w & W & _ & X). specialize (X N).
  replace (Z.of_nat i - Z.of_nat m)%Z with j in X by (unfold i; lia). destruct (H2 i w W) as [LE LT].
  rewrite <- X, <- U. assert (P : 0 < size a c) by (assert (0 < eps) by reflexivity; lra). split; [apply Qmult_le_compat_r; lra|].
  intros J'. apply Qmult_lt_compat_r; [exact P|]. apply LT. unfold i. lia.
Qed.
Lemma silent_shift a c m : length a = length c -> size a c <= eps -> exists v, find_shift root a c (Z.of_nat m) = ((- Z.of_nat m)%Z, v) /\ v == 0.
Proof.
  intros L N. unfold find_shift. rewrite Nat2Z.id.
  destruct (xcorr_max_ok (correlation root a c m) m (correlation_length a c m)) as (k & v & [H1 H2] & ->).
  pose proof (correlation_out _ _ _ _ _ H1) as K. destruct (correlation_nth a c m k K L) as (u & E & U & _). rewrite H1 in E. injection E as <-. specialize (U N).
  exists v. split; [|exact U]. f_equal. destruct k as [|k]; [lia|]. exfalso.
  destruct (correlation_nth a c m 0 ltac:(lia) L) as (w & W & X & _). specialize (X N). destruct (H2 0%nat w W) as [_ LT]. specialize (LT ltac:(lia)). lra.
Qed.
End corr.

(** ** A signal and its copies *)
Definition auto (w : list Q) (k : Z) : Q := zsum 0 (length w) (fun j => value_at w (j + k) * value_at w j).
Lemma auto_zero w : auto w 0 == power w.
Proof. apply total_ext. intros i _. rewrite Z.add_0_l, Z.add_0_r, value_nat. reflexivity. Qed.
Lemma auto_less w k : 0 < power w -> k <> 0%Z -> auto w k < power w.
Proof.
  intros P K. apply Qnot_le_lt. intros LE. set (r := Z.abs_nat k). set (lo := (- Z.of_nat r)%Z). set (n := (length w + 2 * r)%nat).
  set (f := fun j => (value_at w (j + k) - value_at w j) * (value_at w (j + k) - value_at w j)).
  assert (S1 : zsum lo n (fun j => value_at w j * value_at w j) == power w).
  { rewrite (zsum_cover lo n 0 (length w)); [|unfold lo; lia|unfold lo, n; lia|intros i H; rewrite value_out by lia; ring].
    apply total_ext. intros i _. rewrite Z.add_0_l, value_nat. reflexivity. }
  assert (S2 : zsum lo n (fun j => value_at w (j + k) * value_at w (j + k)) == power w).
  { rewrite (zsum_shift lo n (fun j => value_at w j * value_at w j) k).
    rewrite (zsum_cover _ n 0 (length w)); [|unfold lo, r; lia|unfold lo, n, r; lia|intros i H; rewrite value_out by lia; ring].
    apply total_ext. intros i _. rewrite Z.add_0_l, value_nat. reflexivity. }
  assert (S3 : zsum lo n (fun j => value_at w (j + k) * value_at w j) == auto w k).
  { unfold auto. apply zsum_cover; [unfold lo; lia|unfold lo, n; lia|]. intros i H. rewrite (value_out w i) by lia. ring. }
  assert (S4 : zsum lo n f == power w + power w - 2 * auto w k).
  { rewrite <- S3. rewrite <- S1 at 2. rewrite <- S2. unfold zsum, f.
    transitivity (total (fun i => value_at w (lo + Z.of_nat i + k) * value_at w (lo + Z.of_nat i + k) + value_at w (lo + Z.of_nat i) * value_at w (lo + Z.of_nat i)
      + (-(2)) * (value_at w (lo + Z.of_nat i + k) * value_at w (lo + Z.of_nat i))) n).
    - apply total_ext. intros; ring.
    - rewrite !total_plus, total_scale. ring. }
  assert (Z0 : forall j, value_at w (j + k) == value_at w j).
  { intros j. destruct (Z_lt_ge_dec j lo) as [H|H]; [rewrite !value_out by (unfold lo, r in H; lia); reflexivity|].
    destruct (Z_lt_ge_dec j (lo + Z.of_nat n)) as [H'|H']; [|rewrite !value_out by (unfold lo, n, r in H'; lia); reflexivity].
    assert (NN : forall i : nat, 0 <= f (lo + Z.of_nat i)%Z) by (intros i; unfold f; set (z := value_at w (lo + Z.of_nat i + k) - value_at w (lo + Z.of_nat i)); nra).
    pose proof (total_sq_zero (fun i => f (lo + Z.of_nat i)%Z) n NN) as T. unfold zsum in S4. rewrite S4 in T.
    specialize (T ltac:(lra) (Z.to_nat (j - lo)) ltac:(lia)). cbv beta in T. replace (lo + Z.of_nat (Z.to_nat (j - lo)))%Z with j in T by lia. unfold f in T.
    apply Qmult_integral in T. destruct T; lra. }
  assert (ZT : forall t j, value_at w (j + Z.of_nat t * k) == value_at w j).
  { induction t as [|t IH]; intros j; [rewrite Z.add_0_r; reflexivity|]. rewrite Nat2Z.inj_succ. unfold Z.succ.
    replace (j + (Z.of_nat t + 1) * k)%Z with (j + Z.of_nat t * k + k)%Z by ring. rewrite Z0. apply IH. }
  assert (W0 : forall i, (i < length w)%nat -> nth i w 0 == 0).
  { intros i L. rewrite <- value_nat. rewrite <- (ZT (length w) (Z.of_nat i)). rewrite value_out; [reflexivity|]. nia. }
  assert (P0 : power w == 0) by (apply total_zero; intros i L; rewrite W0 by exact L; ring). lra.
Qed.
Lemma sees_value w g d x k : sees w g d x -> contained w d x -> value_at x k == g * value_at w (k - d).
Proof.
  intros S B. destruct B as [B1 B2]. destruct (Z_lt_ge_dec k 0) as [H|H]; [rewrite !value_out by lia; ring|].
  destruct (Z_lt_ge_dec k (Z.of_nat (length x))) as [H'|H']; [|rewrite !value_out by lia; ring].
  replace k with (Z.of_nat (Z.to_nat k)) by lia. rewrite value_nat. apply sees_nth; [exact S|lia].
Qed.
Lemma sees_lagged w g h d e x y k : sees w g d x -> contained w d x -> sees w h e y -> contained w e y ->
  lagged x y k == g * h * auto w (k - d + e).
Proof.
  intros S1 B1 S2 B2. unfold lagged.
  transitivity (total (fun i => g * h * (value_at w (Z.of_nat i + k - d) * value_at w (Z.of_nat i - e))) (length y)).
  { apply total_ext. intros i L. rewrite (sees_value _ _ _ _ _ S1 B1), (sees_nth _ _ _ _ _ S2 L). ring. }
  rewrite total_scale. apply Qmult_comp; [reflexivity|]. destruct B2 as [E1 E2].
  transitivity (zsum 0 (length y) (fun i => value_at w (i + k - d) * value_at w (i - e))); [reflexivity|].
  rewrite (zsum_cover _ _ e (length w)); [|lia|lia|intros i H; rewrite (value_out w (i - e)) by lia; ring].
  unfold auto, zsum. apply total_ext. intros i _. replace (e + Z.of_nat i + k - d)%Z with (0 + Z.of_nat i + (k - d + e))%Z by ring.
  replace (e + Z.of_nat i - e)%Z with (0 + Z.of_nat i)%Z by ring. reflexivity.
Qed.
