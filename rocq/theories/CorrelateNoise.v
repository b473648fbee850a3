(** C80: the lag found is right in spite of noise. *)
From Coq Require Import String.
From Coq Require Import ZArith QArith Qabs List Bool Lia Lqa.
From Verif Require Import Lib Base Correlate CorrelateSpec CorrelateProofs CorrelateProps.
Import ListNotations.
Open Scope Q_scope.

Lemma total_abs f n : Qabs (total f n) <= total (fun i => Qabs (f i)) n.
Proof.
  induction n as [|n IH]; [apply Qle_refl|]. rewrite (Qabs_wd _ _ (total_S f n)), total_S. eapply Qle_trans; [apply Qabs_triangle|]. lra.
Qed.
Lemma total_le f g n : (forall i, (i < n)%nat -> f i <= g i) -> total f n <= total g n.
Proof.
  induction n as [|n IH]; intros H; [apply Qle_refl|]. rewrite !total_S. apply Qplus_le_compat; [apply IH; intros; apply H; lia|apply H; lia].
Qed.
Lemma total_const c n : total (fun _ => c) n == inject_Z (Z.of_nat n) * c.
Proof. induction n as [|n IH]; [reflexivity|]. rewrite total_S, IH, Nat2Z.inj_succ. unfold Z.succ. rewrite inject_Z_plus. change (inject_Z 1) with 1. ring. Qed.

(** Any stretch of the signal is no louder than the whole. *)
Lemma stretch w s n : total (fun i => Qabs (value_at w (Z.of_nat i + s))) n <= loudness w.
Proof.
  set (f := fun j => Qabs (value_at w j)). set (lo := Z.min s 0). set (n' := Z.to_nat (Z.max (s + Z.of_nat n) (Z.of_nat (length w)) - lo)).
  assert (N0 : forall j, 0 <= f j) by (intros; apply Qabs_nonneg).
  assert (A : loudness w == zsum lo n' f).
  { rewrite (zsum_cover lo n' 0 (length w) f); [|unfold lo; lia|unfold n', lo; lia|intros i H; unfold f; rewrite value_out by lia; reflexivity].
    apply total_ext. intros i L. unfold f. rewrite Z.add_0_l, value_nat. reflexivity. }
  rewrite A. set (p := Z.to_nat (s - lo)). set (q := (n' - p - n)%nat).
  assert (E : n' = (p + (n + q))%nat) by (unfold q, n', p, lo; lia). unfold zsum. rewrite E, total_add, total_add.
  assert (M : total (fun i => Qabs (value_at w (Z.of_nat i + s))) n == total (fun i => f (lo + Z.of_nat (p + i))%Z) n).
  { apply total_ext. intros i _. unfold f. replace (lo + Z.of_nat (p + i))%Z with (Z.of_nat i + s)%Z by (unfold p, lo; lia). reflexivity. }
  rewrite M. pose proof (total_nonneg (fun i => f (lo + Z.of_nat i)%Z) p (fun i => N0 _)). pose proof (total_nonneg (fun i => f (lo + Z.of_nat (p + (n + i)))%Z) q (fun i => N0 _)).
  lra.
Qed.
Lemma loudness_nonneg w : 0 <= loudness w.
Proof. apply total_nonneg. intros. apply Qabs_nonneg. Qed.

(** The record without its noise. *)
Definition clean (w : list Q) (g : Q) (d : Z) (n : nat) : list Q := map (fun i => g * value_at w (Z.of_nat i - d)) (seq 0 n).
Lemma clean_length w g d n : length (clean w g d n) = n.
Proof. unfold clean. rewrite map_length, seq_length. reflexivity. Qed.
Lemma clean_nth w g d n i : (i < n)%nat -> nth i (clean w g d n) 0 = g * value_at w (Z.of_nat i - d).
Proof.
  intros H. assert (E : nth_error (clean w g d n) i = Some (g * value_at w (Z.of_nat i - d))).
  { unfold clean. rewrite nth_error_map, (nth_error_nth' _ 0%nat) by (rewrite seq_length; exact H). rewrite seq_nth by exact H. reflexivity. }
  exact (nth_error_nth _ _ _ E).
Qed.
Lemma clean_sees w g d n : sees w g d (clean w g d n).
Proof.
  intros i v E. assert (L : (i < n)%nat) by (rewrite <- (clean_length w g d n); apply nth_error_Some; congruence).
  rewrite <- (nth_error_nth _ _ 0 E), clean_nth by exact L. reflexivity.
Qed.
Lemma near_nth w g d eta x i : near w g d eta x -> (i < length x)%nat -> Qabs (nth i x 0 - g * value_at w (Z.of_nat i - d)) <= eta.
Proof. intros N L. apply N, nth_some, L. Qed.
Lemma near_nonneg w g d eta x : near w g d eta x -> (0 < length x)%nat -> 0 <= eta.
Proof. intros N L. eapply Qle_trans; [apply Qabs_nonneg|exact (near_nth _ _ _ _ _ _ N L)]. Qed.
Lemma near_value w g d eta x k : 0 <= eta -> near w g d eta x -> contained w d x -> Qabs (value_at x k - g * value_at w (k - d)) <= eta.
Proof.
  intros E0 N [C1 C2]. destruct (Z_lt_ge_dec k 0) as [H|H].
  { rewrite !value_out by lia. assert (Z : 0 - g * 0 == 0) by ring. rewrite (Qabs_wd _ _ Z). exact E0. }
  destruct (Z_lt_ge_dec k (Z.of_nat (length x))) as [H'|H'].
  - replace k with (Z.of_nat (Z.to_nat k)) by lia. rewrite value_nat. apply near_nth; [exact N|lia].
  - rewrite !value_out by lia. assert (Z : 0 - g * 0 == 0) by ring. rewrite (Qabs_wd _ _ Z). exact E0.
Qed.

Lemma auto_lagged w k : auto w k == lagged w w k.
Proof. unfold auto, lagged, zsum. apply total_ext. intros i L. rewrite Z.add_0_l, value_nat. reflexivity. Qed.

Lemma product_near a u c v : Qabs (a * c - u * v) <= Qabs u * Qabs (c - v) + Qabs v * Qabs (a - u) + Qabs (a - u) * Qabs (c - v).
Proof.
  assert (E : a * c - u * v == u * (c - v) + v * (a - u) + (a - u) * (c - v)) by ring. rewrite (Qabs_wd _ _ E).
  eapply Qle_trans; [apply Qabs_triangle|]. rewrite (Qabs_Qmult (a - u)). apply Qplus_le_compat; [|apply Qle_refl].
  eapply Qle_trans; [apply Qabs_triangle|]. rewrite !Qabs_Qmult. apply Qle_refl.
Qed.

(** Noise changes the product of two records by no more than the disturbance. *)
Lemma near_lagged w g h d e eta theta a c k : length a = length c -> 0 <= eta -> 0 <= theta ->
  near w g d eta a -> contained w d a -> near w h e theta c -> contained w e c ->
  Qabs (lagged a c k - g * h * lagged w w (k - d + e)) <= disturbance w (length c) g h eta theta.
Proof.
  intros L E0 T0 N1 C1 N2 C2. set (n := length c). set (A := clean w g d (length a)). set (C := clean w h e n).
  assert (X : lagged A C k == g * h * lagged w w (k - d + e)).
  { rewrite <- auto_lagged. apply sees_lagged; [apply clean_sees| |apply clean_sees|]; unfold contained, A, C; rewrite clean_length; assumption. }
  assert (D : lagged a c k - g * h * lagged w w (k - d + e) ==
    total (fun i => value_at a (Z.of_nat i + k) * nth i c 0 - g * value_at w (Z.of_nat i + k - d) * (h * value_at w (Z.of_nat i - e))) n).
  { rewrite <- X. unfold lagged. unfold C at 2. rewrite clean_length. fold n.
    transitivity (total (fun i => value_at a (Z.of_nat i + k) * nth i c 0) n + (-(1)) * total (fun i => value_at A (Z.of_nat i + k) * nth i C 0) n); [ring|].
    rewrite <- total_scale, <- total_plus. apply total_ext. intros i I.
    assert (VA : value_at A (Z.of_nat i + k) == g * value_at w (Z.of_nat i + k - d)) by (apply sees_value; [apply clean_sees|unfold contained, A; rewrite clean_length; exact C1]).
    rewrite VA. unfold C. rewrite clean_nth by exact I. ring. }
  rewrite (Qabs_wd _ _ D). eapply Qle_trans; [apply total_abs|].
  eapply Qle_trans; [apply (total_le _ (fun i => (Qabs g * theta) * Qabs (value_at w (Z.of_nat i + (k - d))) + (Qabs h * eta) * Qabs (value_at w (Z.of_nat i + - e)) + eta * theta))|].
  - intros i I. eapply Qle_trans; [apply product_near|]. rewrite !Qabs_Qmult.
    pose proof (near_value w g d eta a (Z.of_nat i + k) E0 N1 C1) as P. pose proof (near_nth w h e theta c i N2 I) as R.
    replace (Z.of_nat i + (k - d))%Z with (Z.of_nat i + k - d)%Z by ring. replace (Z.of_nat i + - e)%Z with (Z.of_nat i - e)%Z by ring.
    set (p := Qabs (value_at a (Z.of_nat i + k) - g * value_at w (Z.of_nat i + k - d))) in *. set (r := Qabs (nth i c 0 - h * value_at w (Z.of_nat i - e))) in *.
    pose proof (Qabs_nonneg (value_at a (Z.of_nat i + k) - g * value_at w (Z.of_nat i + k - d))) as P0. fold p in P0. pose proof (Qabs_nonneg (nth i c 0 - h * value_at w (Z.of_nat i - e))) as R0. fold r in R0.
    pose proof (Qabs_nonneg g) as G0. pose proof (Qabs_nonneg h) as H0. pose proof (Qabs_nonneg (value_at w (Z.of_nat i + k - d))) as V0. pose proof (Qabs_nonneg (value_at w (Z.of_nat i - e))) as W0.
    clearbody p r. set (vg := Qabs (value_at w (Z.of_nat i + k - d))) in *. set (vh := Qabs (value_at w (Z.of_nat i - e))) in *. set (G := Qabs g) in *. set (H := Qabs h) in *. clearbody vg vh G H.
    assert (Q1 : G * vg * r <= G * theta * vg) by (assert (0 <= G * vg) by (apply Qmult_le_0_compat; assumption); assert (G * vg * r <= G * vg * theta) by nra; lra).
    assert (Q2 : H * vh * p <= H * eta * vh) by (assert (0 <= H * vh) by (apply Qmult_le_0_compat; assumption); assert (H * vh * p <= H * vh * eta) by nra; lra).
    assert (Q3 : p * r <= eta * theta) by nra. lra.
  - rewrite !total_plus, !total_scale, total_const. unfold disturbance. fold n.
    pose proof (stretch w (k - d) n) as S1. pose proof (stretch w (- e) n) as S2. pose proof (Qabs_nonneg g) as G0. pose proof (Qabs_nonneg h) as H0.
    set (t1 := total (fun i => Qabs (value_at w (Z.of_nat i + (k - d)))) n) in *. set (t2 := total (fun i => Qabs (value_at w (Z.of_nat i + - e))) n) in *. set (l := loudness w) in *. clearbody t1 t2 l.
    set (G := Qabs g) in *. set (H := Qabs h) in *. clearbody G H. set (N := inject_Z (Z.of_nat n)). clearbody N.
    assert (Q1 : G * theta * t1 <= G * theta * l) by (assert (0 <= G * theta) by (apply Qmult_le_0_compat; assumption); nra).
    assert (Q2 : H * eta * t2 <= H * eta * l) by (assert (0 <= H * eta) by (apply Qmult_le_0_compat; assumption); nra). lra.
Qed.

Lemma mean_near w g d eta x : level w -> contained w d x -> near w g d eta x -> (0 < length x)%nat -> Qabs (mean x) <= eta.
Proof.
  intros W C N L. pose proof (near_nonneg _ _ _ _ _ N L) as E0. unfold mean. set (n := length x) in *.
  assert (LQ : 0 < inject_Z (Z.of_nat n)) by (change 0 with (inject_Z 0); rewrite <- Zlt_Qlt; lia).
  assert (S : total (fun i => g * value_at w (Z.of_nat i - d)) n == 0).
  { rewrite <- (sees_total w g d (clean w g d n) (clean_sees w g d n)); [|unfold contained; rewrite clean_length; exact C|exact W].
    rewrite clean_length. apply total_ext. intros i I. rewrite clean_nth by exact I. reflexivity. }
  assert (T : total (fun i => nth i x 0) n == total (fun i => nth i x 0 - g * value_at w (Z.of_nat i - d)) n).
  { transitivity (total (fun i => nth i x 0) n + (-(1)) * total (fun i => g * value_at w (Z.of_nat i - d)) n); [rewrite S; ring|].
    rewrite <- total_scale, <- total_plus. apply total_ext. intros; ring. }
  assert (B : Qabs (total (fun i => nth i x 0) n) <= inject_Z (Z.of_nat n) * eta).
  { rewrite (Qabs_wd _ _ T). eapply Qle_trans; [apply total_abs|]. rewrite <- total_const. apply total_le. intros i I. apply near_nth; assumption. }
  unfold Qdiv. rewrite Qabs_Qmult. rewrite (Qabs_pos (/ inject_Z (Z.of_nat n))) by (apply Qlt_le_weak, Qinv_lt_0_compat, LQ).
  apply Qle_shift_div_r; [exact LQ|]. lra.
Qed.
Lemma centred_near w g d eta x : level w -> contained w d x -> near w g d eta x -> near w g d (2 * eta) (centred x).
Proof.
  intros W C N i v E. assert (L : (i < length x)%nat) by (rewrite <- (map_length (fun v => v - mean x)); apply nth_error_Some; unfold centred in E; congruence).
  rewrite <- (nth_error_nth _ _ 0 E). assert (X : nth i (centred x) 0 - g * value_at w (Z.of_nat i - d) == (nth i x 0 - g * value_at w (Z.of_nat i - d)) + - mean x) by (rewrite centred_nth by exact L; ring).
  rewrite (Qabs_wd _ _ X). eapply Qle_trans; [apply Qabs_triangle|]. rewrite Qabs_opp. pose proof (near_nth _ _ _ _ _ _ N L). pose proof (mean_near w g d eta x W C N ltac:(lia)). lra.
Qed.
Lemma contained_length w d x y : length x = length y -> contained w d x -> contained w d y.
Proof. unfold contained. intros ->. auto. Qed.

Lemma lagged_far w j : (Z.of_nat (length w) <= j)%Z -> lagged w w j == 0.
Proof. intros H. apply total_zero. intros i I. rewrite value_out by lia. ring. Qed.
Lemma lagged_zero w : lagged w w 0 == power w.
Proof. rewrite <- auto_lagged. apply auto_zero. Qed.

(** C80.  With noise: if a signal reaches two sensors at any two samples of their records, and the noise on each sample is so
    small that twice the disturbance of the product is less than the distance of the signal's peak from its other products
    with itself, the lag found is exactly the difference of the two times, and the coefficient is positive. *)
Theorem C80_noise root w g h d e eta theta x y m : length x = length y -> (0 < length x)%nat -> level w ->
  near w g d eta x -> contained w d x -> near w h e theta y -> contained w e y -> (Z.abs (d - e) <= m)%Z ->
  (1 # 2 ^ 52) < root (dot (demean x) (demean x) * dot (demean y) (demean y)) ->
  (forall j, j <> 0%Z -> 2 * disturbance w (length x) g h (2 * eta) (2 * theta) < g * h * (power w - lagged w w j)) ->
  exists v, find_shift root x y m = ((d - e)%Z, v) /\ 0 < v.
Proof.
  intros L L0 W N1 C1 N2 C2 M NM GAP. set (B := disturbance w (length x) g h (2 * eta) (2 * theta)) in *.
  pose proof (near_nonneg _ _ _ _ _ N1 L0) as E0. pose proof (near_nonneg _ _ _ _ _ N2 ltac:(lia)) as T0.
  assert (Lx : length (centred x) = length x) by apply map_length. assert (Ly : length (centred y) = length y) by apply map_length.
  assert (LG : forall k, Qabs (lagged (centred x) (centred y) k - g * h * lagged w w (k - d + e)) <= B).
  { intros k. unfold B. rewrite L, <- Ly. apply near_lagged; [congruence|lra|lra|apply centred_near; assumption| |apply centred_near; assumption|].
    - apply (contained_length w d x); [symmetry; exact Lx|exact C1].
    - apply (contained_length w e y); [symmetry; exact Ly|exact C2]. }
  assert (PK : g * h * power w - B <= lagged (centred x) (centred y) (d - e)).
  { specialize (LG (d - e)%Z). replace (d - e - d + e)%Z with 0%Z in LG by ring. apply Qabs_Qle_condition in LG. rewrite lagged_zero in LG. lra. }
  destruct (C80_best root x y m ltac:(lia) L NM) as (k & v & F & K & V & BEST). exists v.
  assert (KD : k = (d - e)%Z).
  { destruct (Z.eq_dec k (d - e)) as [E|E]; [exact E|]. exfalso. destruct (BEST (d - e)%Z ltac:(lia)) as [LE _].
    specialize (LG k). apply Qabs_Qle_condition in LG. specialize (GAP (k - d + e)%Z ltac:(lia)). lra. }
  rewrite KD in *. split; [exact F|]. set (nm := root _) in *.
  assert (B0 : 0 <= B) by (eapply Qle_trans; [apply Qabs_nonneg|exact (LG 0%Z)]).
  specialize (GAP (Z.of_nat (length w) + 1)%Z ltac:(lia)). rewrite lagged_far in GAP by lia.
  assert (T : 0 < 1 # 2 ^ 52) by reflexivity. apply Qnot_le_lt. intros CN. assert (v * nm <= 0) by nra. lra.
Qed.

(** ** Noise and detrending *)
Lemma total_ids n : 2 * total (fun i => inject_Z (Z.of_nat i)) n == inject_Z (Z.of_nat n) * (inject_Z (Z.of_nat n) - 1).
Proof.
  induction n as [|n IH]; [reflexivity|]. rewrite total_S, Nat2Z.inj_succ. unfold Z.succ. rewrite inject_Z_plus. change (inject_Z 1) with 1.
  set (N := inject_Z (Z.of_nat n)) in *. set (t := total _ n) in *. lra.
Qed.
Lemma total_squares n : 6 * total (fun i => inject_Z (Z.of_nat i) * inject_Z (Z.of_nat i)) n == inject_Z (Z.of_nat n) * (inject_Z (Z.of_nat n) - 1) * (2 * inject_Z (Z.of_nat n) - 1).
Proof.
  induction n as [|n IH]; [reflexivity|]. rewrite total_S, Nat2Z.inj_succ. unfold Z.succ. rewrite inject_Z_plus. change (inject_Z 1) with 1.
  set (N := inject_Z (Z.of_nat n)) in *. set (t := total _ n) in *. transitivity (6 * t + 6 * (N * N)); [ring|]. rewrite IH. ring.
Qed.
Lemma middle_is (x : list Q) : (0 < length x)%nat -> snd (line_of x) == (inject_Z (Z.of_nat (length x)) - 1) / 2.
Proof.
  intros L. cbn [line_of snd]. unfold qlen. set (N := inject_Z (Z.of_nat (length x))).
  assert (LQ : 0 < N) by (unfold N; change 0 with (inject_Z 0); rewrite <- Zlt_Qlt; lia).
  assert (S : qadd (positions x) == N * (N - 1) / 2).
  { rewrite qadd_total, positions_length. assert (T : total (fun i => nth i (positions x) 0) (length x) == total (fun i => inject_Z (Z.of_nat i)) (length x)).
    { apply total_ext. intros i I. rewrite (nth_error_nth _ _ _ (positions_nth x i I)). reflexivity. }
    rewrite T. pose proof (total_ids (length x)) as H. fold N in H. apply (Qmult_inj_l _ _ 2); [discriminate|]. rewrite H. field. }
  rewrite S. field. lra.
Qed.
(** The spread of the places is at least a third of their number times the square of the largest distance from the middle. *)
Lemma spread_is (x : list Q) : (0 < length x)%nat ->
  12 * qadd (map (fun i => (i - snd (line_of x)) * (i - snd (line_of x))) (positions x)) == inject_Z (Z.of_nat (length x)) * (inject_Z (Z.of_nat (length x)) - 1) * (inject_Z (Z.of_nat (length x)) + 1).
Proof.
  intros L. pose proof (middle_is x L) as M. set (mid := snd (line_of x)) in *. set (n := length x) in *.
  rewrite (qadd_map 0), positions_length. fold n.
  assert (T : total (fun i => (nth i (positions x) 0 - mid) * (nth i (positions x) 0 - mid)) n ==
    total (fun i => inject_Z (Z.of_nat i) * inject_Z (Z.of_nat i)) n + (- (2) * mid) * total (fun i => inject_Z (Z.of_nat i)) n + total (fun _ => mid * mid) n).
  { rewrite <- total_scale, <- !total_plus. apply total_ext. intros i I. rewrite (nth_error_nth _ _ _ (positions_nth x i I)). ring. }
  rewrite T, total_const. pose proof (total_ids n) as H1. pose proof (total_squares n) as H2.
  set (N := inject_Z (Z.of_nat n)) in *. set (t1 := total (fun i => inject_Z (Z.of_nat i)) n) in *. set (t2 := total (fun i => inject_Z (Z.of_nat i) * inject_Z (Z.of_nat i)) n) in *.
  transitivity (2 * (6 * t2) - 12 * mid * (2 * t1) + 12 * N * (mid * mid)); [ring|]. rewrite H1, H2, M. field.
Qed.

Lemma slope_near w g d eta x i : balanced w -> contained w d x -> near w g d eta x -> (i < length x)%nat ->
  Qabs (snd (fst (line_of x)) * (inject_Z (Z.of_nat i) - snd (line_of x))) <= 3 * eta.
Proof.
  intros W C N I. assert (L0 : (0 < length x)%nat) by lia. pose proof (near_nonneg _ _ _ _ _ N L0) as E0. pose proof (middle_is x L0) as M. pose proof (spread_is x L0) as SP.
  rewrite (Qabs_wd _ _ (Qmult_comp _ _ (line_slope x) _ _ (Qeq_refl _))). set (mid := snd (line_of x)) in *. set (spread := qadd (map _ (positions x))) in *. set (n := length x) in *. set (NN := inject_Z (Z.of_nat n)) in *.
  assert (N1 : 1 <= NN) by (unfold NN; change 1 with (inject_Z 1); rewrite <- Zle_Qle; lia).
  assert (R : forall j, (j < n)%nat -> Qabs (inject_Z (Z.of_nat j) - mid) <= (NN - 1) / 2).
  { intros j J. assert (X : inject_Z (Z.of_nat j) - mid == inject_Z (Z.of_nat j) - (NN - 1) / 2) by (rewrite M; reflexivity). rewrite (Qabs_wd _ _ X). clear X. apply Qabs_Qle_condition.
    assert (J0 : 0 <= inject_Z (Z.of_nat j)) by (change 0 with (inject_Z 0); rewrite <- Zle_Qle; lia).
    assert (J1 : inject_Z (Z.of_nat j) <= NN - 1) by (unfold NN; assert (X : inject_Z (Z.of_nat j) + inject_Z 1 <= inject_Z (Z.of_nat n)) by (rewrite <- inject_Z_plus, <- Zle_Qle; lia); change (inject_Z 1) with 1 in X; lra).
    assert (D : (NN - 1) / 2 == (1 # 2) * (NN - 1)) by (field). rewrite D. split; lra. }
  set (r := (NN - 1) / 2) in *. assert (D : r == (1 # 2) * (NN - 1)) by (unfold r; field). assert (R0 : 0 <= r) by lra.
  destruct (Nat.eq_dec n 1) as [E1|E1].
  { assert (Z : inject_Z (Z.of_nat i) - mid == 0) by (rewrite M; unfold r, NN; rewrite E1; replace i with O by lia; reflexivity).
    rewrite Z. assert (Z' : total (fun i0 => (inject_Z (Z.of_nat i0) - mid) * nth i0 x 0) n / spread * 0 == 0) by ring. rewrite (Qabs_wd _ _ Z'). change (Qabs 0) with 0. lra. }
  assert (N2 : 2 <= NN) by (unfold NN; change 2 with (inject_Z 2); rewrite <- Zle_Qle; lia).
  assert (S0 : 0 < spread) by nra.
  assert (MOM : total (fun j => (inject_Z (Z.of_nat j) - mid) * (g * value_at w (Z.of_nat j - d))) n == 0).
  { assert (CL : contained w d (clean w g d n)) by (unfold contained; rewrite clean_length; exact C).
    pose proof (sees_moment w g d _ (clean_sees w g d n) CL W) as A1. pose proof (sees_total w g d _ (clean_sees w g d n) CL (proj1 W)) as A2. rewrite clean_length in A1, A2.
    transitivity (total (fun j => inject_Z (Z.of_nat j) * nth j (clean w g d n) 0) n + (- mid) * total (fun j => nth j (clean w g d n) 0) n); [|rewrite A1, A2; ring].
    rewrite <- total_scale, <- total_plus. apply total_ext. intros j J. rewrite clean_nth by exact J. ring. }
  assert (T : total (fun j => (inject_Z (Z.of_nat j) - mid) * nth j x 0) n == total (fun j => (inject_Z (Z.of_nat j) - mid) * (nth j x 0 - g * value_at w (Z.of_nat j - d))) n).
  { transitivity (total (fun j => (inject_Z (Z.of_nat j) - mid) * nth j x 0) n + (-(1)) * total (fun j => (inject_Z (Z.of_nat j) - mid) * (g * value_at w (Z.of_nat j - d))) n); [rewrite MOM; ring|].
    rewrite <- total_scale, <- total_plus. apply total_ext. intros; ring. }
  assert (B : Qabs (total (fun j => (inject_Z (Z.of_nat j) - mid) * nth j x 0) n) <= NN * (r * eta)).
  { rewrite (Qabs_wd _ _ T). eapply Qle_trans; [apply total_abs|]. unfold NN. rewrite <- total_const. apply total_le. intros j J. rewrite Qabs_Qmult.
    pose proof (R j J) as RJ. pose proof (near_nth _ _ _ _ _ _ N J) as NJ. pose proof (Qabs_nonneg (inject_Z (Z.of_nat j) - mid)) as P1. pose proof (Qabs_nonneg (nth j x 0 - g * value_at w (Z.of_nat j - d))) as P2.
    set (p := Qabs (inject_Z (Z.of_nat j) - mid)) in *. set (q := Qabs (nth j x 0 - g * value_at w (Z.of_nat j - d))) in *. clearbody p q. clear - RJ NJ P1 P2 R0 E0. nra. }
  unfold Qdiv. rewrite !Qabs_Qmult. rewrite (Qabs_pos (/ spread)) by (apply Qlt_le_weak, Qinv_lt_0_compat, S0). pose proof (R i I) as RI.
  set (t := Qabs (total _ n)) in *. set (q := Qabs (inject_Z (Z.of_nat i) - mid)) in *. pose proof (Qabs_nonneg (inject_Z (Z.of_nat i) - mid)) as Q0. fold q in Q0. clearbody t q.
  assert (E : t * / spread * q == t * q / spread) by (unfold Qdiv; ring). rewrite E. apply Qle_shift_div_r; [exact S0|].
  assert (X1 : t * q <= NN * (r * eta) * r).
  { assert (0 <= NN * (r * eta)) by (apply Qmult_le_0_compat; [lra|apply Qmult_le_0_compat; assumption]). assert (Y1 : t * q <= NN * (r * eta) * q) by (apply Qmult_le_compat_r; assumption).
    assert (Y2 : NN * (r * eta) * q <= NN * (r * eta) * r) by (rewrite !(Qmult_comm (NN * (r * eta))); apply Qmult_le_compat_r; assumption). lra. }
  eapply Qle_trans; [exact X1|].
  assert (X2 : 3 * eta * spread - NN * (r * eta) * r == (1 # 2) * eta * (NN * (NN - 1))).
  { assert (SE : spread == (1 # 12) * (NN * (NN - 1) * (NN + 1))) by lra. rewrite SE, D. ring. }
  assert (X3 : 0 <= (1 # 2) * eta * (NN * (NN - 1))) by (apply Qmult_le_0_compat; [lra|nra]). lra.
Qed.
Lemma detrend_near w g d eta x : balanced w -> contained w d x -> near w g d eta x -> near w g d (5 * eta) (detrend x).
Proof.
  intros W C N i v E. assert (L : (i < length x)%nat) by (rewrite <- detrend_length; apply nth_error_Some; congruence).
  pose proof (detrend_nth x i _ (nth_some x i L)) as D. rewrite D in E. assert (EV : forall u u' : Q, Some u = Some u' -> u = u') by congruence. apply EV in E. subst v. clear EV D.
  pose proof (near_nth _ _ _ _ _ _ N L) as P. pose proof (slope_near w g d eta x i W C N L) as S. pose proof (mean_near w g d eta x (proj1 W) C N ltac:(lia)) as A.
  assert (AV : fst (fst (line_of x)) == mean x) by (cbn [line_of fst]; unfold mean, qlen; rewrite qadd_total; reflexivity).
  set (s := snd (fst (line_of x)) * (inject_Z (Z.of_nat i) - snd (line_of x))) in *.
  assert (X : nth i x 0 - (fst (fst (line_of x)) + s) - g * value_at w (Z.of_nat i - d) == (nth i x 0 - g * value_at w (Z.of_nat i - d)) + (- mean x + - s)) by (rewrite AV; ring).
  rewrite (Qabs_wd _ _ X). eapply Qle_trans; [apply Qabs_triangle|].
  assert (Y : Qabs (- mean x + - s) <= Qabs (mean x) + Qabs s) by (eapply Qle_trans; [apply Qabs_triangle|]; rewrite !Qabs_opp; apply Qle_refl). lra.
Qed.
(** A taper that never amplifies. *)
Lemma taper_near side w g d eta x : (forall k i, (i < k)%nat -> 0 <= side k i <= 1) -> 0 <= eta -> inside w d x -> near w g d eta x -> near w g d eta (taper side x).
Proof.
  intros SD E0 B N i v E. assert (L : (i < length x)%nat) by (rewrite <- (taper_length side); apply nth_error_Some; congruence).
  destruct (taper_nth side x i _ (nth_some x i L)) as (f & F & T). rewrite T in E. injection E as <-. pose proof (near_nth _ _ _ _ _ _ N L) as P.
  pose proof (Nat.div_mod (length x) 20) as DM. pose proof (Nat.mod_upper_bound (length x) 20) as MU. destruct B as [B1 B2].
  assert (F01 : 0 <= f <= 1).
  { unfold factors in F. apply nth_error_In in F. apply in_app_iff in F as [F|F]; [apply in_map_iff in F as (k & <- & K); apply in_seq in K; apply SD; lia|].
    apply in_app_iff in F as [F|F]; [apply repeat_spec in F; subst f; split; discriminate|apply in_map_iff in F as (k & <- & K); apply in_rev, in_seq in K; apply SD; lia]. }
  assert (OUT : value_at w (Z.of_nat i - d) == 0 -> Qabs (f * nth i x 0 - g * value_at w (Z.of_nat i - d)) <= eta).
  { intros Z. assert (X : f * nth i x 0 - g * value_at w (Z.of_nat i - d) == f * (nth i x 0 - g * value_at w (Z.of_nat i - d))) by (rewrite Z; ring).
    rewrite (Qabs_wd _ _ X), Qabs_Qmult, (Qabs_pos f) by apply F01. pose proof (Qabs_nonneg (nth i x 0 - g * value_at w (Z.of_nat i - d))). nra. }
  destruct (Z_lt_ge_dec (Z.of_nat i) d) as [H|H]; [apply OUT; rewrite value_out by lia; reflexivity|].
  destruct (Z_lt_ge_dec (Z.of_nat i) (d + Z.of_nat (length w))) as [H'|H']; [|apply OUT; rewrite value_out by lia; reflexivity].
  rewrite factors_middle in F by lia. injection F as <-. assert (X : 1 * nth i x 0 - g * value_at w (Z.of_nat i - d) == nth i x 0 - g * value_at w (Z.of_nat i - d)) by ring.
  rewrite (Qabs_wd _ _ X). exact P.
Qed.

(** C80.  The same for records that are detrended and tapered first, as [xcorr_function] does: the noise may grow fivefold. *)
Theorem C80_noise_prepared root side w g h d e eta theta x y m : (forall k i, (i < k)%nat -> 0 <= side k i <= 1) ->
  length x = length y -> (0 < length x)%nat -> balanced w ->
  near w g d eta x -> inside w d x -> near w h e theta y -> inside w e y -> (Z.abs (d - e) <= m)%Z ->
  let a := prepared side x in let c := prepared side y in
  (1 # 2 ^ 52) < root (dot (demean a) (demean a) * dot (demean c) (demean c)) ->
  (forall j, j <> 0%Z -> 2 * disturbance w (length x) g h (10 * eta) (10 * theta) < g * h * (power w - lagged w w j)) ->
  exists v, find_shift root a c m = ((d - e)%Z, v) /\ 0 < v.
Proof.
  intros SD L L0 W N1 I1 N2 I2 M a c NM GAP.
  pose proof (near_nonneg _ _ _ _ _ N1 L0) as E0. pose proof (near_nonneg _ _ _ _ _ N2 ltac:(lia)) as T0.
  assert (LA : length a = length x) by apply prepared_length. assert (LC : length c = length y) by apply prepared_length.
  assert (PN : forall g d eta x, 0 <= eta -> near w g d eta x -> inside w d x -> near w g d (5 * eta) (prepared side x)).
  { intros g' d' eta' x' E N I. apply taper_near; [exact SD|lra|unfold inside; rewrite detrend_length; exact I|]. apply detrend_near; [exact W|apply inside_contained; exact I|exact N]. }
  apply (C80_noise root w g h d e (5 * eta) (5 * theta)); [congruence|lia|exact (proj1 W)|apply PN; assumption| |apply PN; assumption| |exact M|exact NM|].
  - apply (contained_length w d x); [symmetry; exact LA|apply inside_contained; exact I1].
  - apply (contained_length w e y); [symmetry; exact LC|apply inside_contained; exact I2].
  - intros j J. rewrite LA. specialize (GAP j J). unfold disturbance in *. lra.
Qed.

(** ** The lags of [check_lags] *)
Lemma best_abs root x y m : (0 <= m)%Z -> length x = length y -> eps < size root x y ->
  exists k v, find_shift_abs root x y m = (k, v) /\ (- m <= k <= m)%Z /\ v * size root x y == lagged (centred x) (centred y) k /\
    forall j, (- m <= j <= m)%Z -> Qabs (lagged (centred x) (centred y) j) <= Qabs (lagged (centred x) (centred y) k).
Proof.
  intros M L N. unfold find_shift_abs. set (n := Z.to_nat m). set (cc := correlation root x y n).
  assert (LC : length cc = (2 * n + 1)%nat) by apply correlation_length. assert (T0 : 0 < eps) by reflexivity. assert (SP : 0 < size root x y) by lra.
  destruct (xcorr_max_ok (map Qabs cc) n) as (k & u & [H1 H2] & E); [rewrite map_length; exact LC|].
  assert (KB : (k < 2 * n + 1)%nat) by (rewrite <- LC, <- (map_length Qabs cc); apply nth_error_Some; congruence).
  destruct (correlation_nth root x y n k KB L) as (v & V1 & _ & V2). specialize (V2 N). fold cc in V1.
  rewrite qabs_nth, V1 in H1. injection H1 as <-.
  exists (Z.of_nat k - Z.of_nat n)%Z, v. split; [|split; [lia|split; [exact V2|]]].
  - unfold xcorr_max in E. unfold xcorr_max_abs. destruct (map Qabs cc) as [|a0 r] eqn:MC; [apply (f_equal (@length Q)) in MC; rewrite map_length in MC; cbn in MC; lia|].
    destruct (first_max a0 0 1 r) as [k' v'] eqn:FM. pose proof (f_equal fst E) as E1. cbn [fst] in *.
    assert (LM : length (a0 :: r) = length cc) by (rewrite <- MC; apply map_length). rewrite LM in E1.
    assert (DV : ((Z.of_nat (length cc) - 1) / 2 = Z.of_nat n)%Z) by (rewrite LC; replace (Z.of_nat (2 * n + 1) - 1)%Z with (Z.of_nat n * 2)%Z by lia; apply Z.div_mul; lia).
    rewrite DV in *. assert (KK : k' = k) by lia. subst k'. rewrite (nth_error_nth _ _ _ V1). reflexivity.
  - intros j J. set (i := Z.to_nat (j + Z.of_nat n)). assert (EI : (Z.of_nat i - Z.of_nat n = j)%Z) by (unfold i, n; lia).
    destruct (correlation_nth root x y n i ltac:(unfold i, n; lia) L) as (q & Q1 & _ & Q2). specialize (Q2 N). fold cc in Q1. rewrite EI in Q2.
    destruct (H2 i (Qabs q)) as [LE _]; [rewrite qabs_nth, Q1; reflexivity|].
    rewrite <- (Qabs_wd _ _ V2), <- (Qabs_wd _ _ Q2), !Qabs_Qmult. apply Qmult_le_compat_r; [exact LE|apply Qabs_nonneg].
Qed.

(** As below, with bounds on the noise of the records without their means. *)
Lemma noise_centred root w g h d e eta theta x y m : length x = length y -> 0 <= eta -> 0 <= theta ->
  near w g d eta (centred x) -> contained w d x -> near w h e theta (centred y) -> contained w e y -> (Z.abs (d - e) <= m)%Z ->
  (1 # 2 ^ 52) < root (dot (demean x) (demean x) * dot (demean y) (demean y)) ->
  (forall j, j <> 0%Z -> 2 * disturbance w (length x) g h eta theta < Qabs (g * h) * (power w - Qabs (lagged w w j))) ->
  exists v, find_shift_abs root x y m = ((d - e)%Z, v) /\ (0 < g * h -> 0 < v) /\ (g * h < 0 -> v < 0).
Proof.
  intros L E0 T0 N1 C1 N2 C2 M NM GAP. set (B := disturbance w (length x) g h eta theta) in *.
  assert (Lx : length (centred x) = length x) by apply map_length. assert (Ly : length (centred y) = length y) by apply map_length.
  assert (LG : forall k, Qabs (lagged (centred x) (centred y) k - g * h * lagged w w (k - d + e)) <= B).
  { intros k. unfold B. rewrite L, <- Ly. apply near_lagged; [congruence|exact E0|exact T0|exact N1| |exact N2|].
    - apply (contained_length w d x); [symmetry; exact Lx|exact C1].
    - apply (contained_length w e y); [symmetry; exact Ly|exact C2]. }
  assert (B0 : 0 <= B) by (eapply Qle_trans; [apply Qabs_nonneg|exact (LG 0%Z)]).
  assert (PW : 0 <= power w) by (apply total_nonneg; intros i; set (z := nth i w 0); nra).
  assert (PK : Qabs (lagged (centred x) (centred y) (d - e) - g * h * power w) <= B).
  { specialize (LG (d - e)%Z). replace (d - e - d + e)%Z with 0%Z in LG by ring. assert (X : lagged (centred x) (centred y) (d - e) - g * h * power w == lagged (centred x) (centred y) (d - e) - g * h * lagged w w 0) by (rewrite lagged_zero; reflexivity).
    rewrite (Qabs_wd _ _ X). exact LG. }
  pose proof (GAP (Z.of_nat (length w) + 1)%Z ltac:(lia)) as G1. rewrite (Qabs_wd _ _ (lagged_far w (Z.of_nat (length w) + 1) ltac:(lia))) in G1. change (Qabs 0) with 0 in G1.
  destruct (best_abs root x y m ltac:(lia) L NM) as (k & v & F & K & V & BEST). exists v.
  assert (KD : k = (d - e)%Z).
  { destruct (Z.eq_dec k (d - e)) as [E|E]; [exact E|]. exfalso. pose proof (BEST (d - e)%Z ltac:(lia)) as LE.
    specialize (LG k). specialize (GAP (k - d + e)%Z ltac:(lia)).
    set (p := lagged (centred x) (centred y) (d - e)) in *. set (q := lagged (centred x) (centred y) k) in *. set (au := lagged w w (k - d + e)) in *.
    assert (A1 : Qabs (g * h) * power w <= Qabs p + B).
    { rewrite <- (Qabs_pos (power w) PW) at 1. rewrite <- Qabs_Qmult. assert (X : g * h * power w == p + - (p - g * h * power w)) by ring. rewrite (Qabs_wd _ _ X).
      eapply Qle_trans; [apply Qabs_triangle|]. rewrite Qabs_opp. lra. }
    assert (A2 : Qabs q <= Qabs (g * h) * Qabs au + B).
    { assert (X : q == g * h * au + (q - g * h * au)) by ring. rewrite (Qabs_wd _ _ X). eapply Qle_trans; [apply Qabs_triangle|]. rewrite (Qabs_Qmult (g * h) au). lra. }
    lra. }
  rewrite KD in *. split; [exact F|]. apply Qabs_Qle_condition in PK. unfold size in *. set (nm := root _) in *. assert (T : 0 < 1 # 2 ^ 52) by reflexivity.
  split; intros S; [rewrite (Qabs_pos (g * h)) in G1 by lra|rewrite (Qabs_neg (g * h)) in G1 by lra]; apply Qnot_le_lt; intros CN; [assert (v * nm <= 0) by nra; lra|assert (0 <= v * nm) by nra; lra].
Qed.

(** C80.  As C80_noise for [check_lags]: the sensors may be reversed, and the sign of the coefficient tells if one of them is. *)
Theorem C80_noise_either_sign root w g h d e eta theta x y m : length x = length y -> (0 < length x)%nat -> level w ->
  near w g d eta x -> contained w d x -> near w h e theta y -> contained w e y -> (Z.abs (d - e) <= m)%Z ->
  (1 # 2 ^ 52) < root (dot (demean x) (demean x) * dot (demean y) (demean y)) ->
  (forall j, j <> 0%Z -> 2 * disturbance w (length x) g h (2 * eta) (2 * theta) < Qabs (g * h) * (power w - Qabs (lagged w w j))) ->
  exists v, find_shift_abs root x y m = ((d - e)%Z, v) /\ (0 < g * h -> 0 < v) /\ (g * h < 0 -> v < 0).
Proof.
  intros L L0 W N1 C1 N2 C2 M NM GAP. pose proof (near_nonneg _ _ _ _ _ N1 L0) as E0. pose proof (near_nonneg _ _ _ _ _ N2 ltac:(lia)) as T0.
  apply (noise_centred root w g h d e (2 * eta) (2 * theta)); try assumption; [lra|lra|apply centred_near; assumption|apply centred_near; assumption].
Qed.
(** A record of 24 samples with noise on every one of them. *)
Definition noisy_record (g : Q) (d : nat) : list Q :=
  map (fun i => g * value_at case_signal (Z.of_nat i - Z.of_nat d) + (if Nat.eqb (i mod 3) 0 then 1 else -(1))) (seq 0 24).
Lemma noisy_near g d : near case_signal g (Z.of_nat d) 1 (noisy_record g d).
Proof.
  intros i v E. unfold noisy_record in E. rewrite nth_error_map in E. destruct (nth_error (seq 0 24) i) as [j|] eqn:J; [|discriminate]. cbn [option_map] in E. assert (EV : forall u u' : Q, Some u = Some u' -> u = u') by congruence. apply EV in E. subst v. clear EV.
  assert (L : (i < 24)%nat) by (rewrite <- (seq_length 24 0); apply nth_error_Some; congruence). rewrite (nth_error_nth' _ 0%nat) in J by (rewrite seq_length; exact L). rewrite seq_nth in J by exact L. injection J as <-. cbn [Nat.add].
  set (z := g * value_at case_signal (Z.of_nat i - Z.of_nat d)). clearbody z. apply Qabs_Qle_condition. destruct (Nat.eqb (i mod 3) 0); split; lra.
Qed.
Lemma case_products j : j <> 0%Z -> -(15) <= lagged case_signal case_signal j <= 6.
Proof.
  intros J. destruct (Z_lt_ge_dec j (-3)) as [H|H]; [|destruct (Z_lt_ge_dec 3 j) as [H'|H']].
  - assert (E : lagged case_signal case_signal j == 0) by (apply total_zero; intros i I; cbn in I; rewrite value_out by lia; ring). rewrite E. split; discriminate.
  - assert (E : lagged case_signal case_signal j == 0) by (apply total_zero; intros i I; cbn in I; rewrite value_out by (cbn [length case_signal]; lia); ring). rewrite E. split; discriminate.
  - assert (C : (j = -3 \/ j = -2 \/ j = -1 \/ j = 1 \/ j = 2 \/ j = 3)%Z) by lia. destruct C as [->|[->|[->|[->|[->| ->]]]]]; split; vm_compute; discriminate.
Qed.
Lemma case_power : power case_signal == 20.
Proof. reflexivity. Qed.
Example C80_noise_case : let x := noisy_record 10 5 in let y := noisy_record 30 12 in
  near case_signal 10 5 1 x /\ contained case_signal 5 x /\ near case_signal 30 12 1 y /\ contained case_signal 12 y /\
  (1 # 2 ^ 52) < case_root (dot (demean x) (demean x) * dot (demean y) (demean y)) /\
  (forall j, j <> 0%Z -> 2 * disturbance case_signal (length x) 10 30 (2 * 1) (2 * 1) < 10 * 30 * (power case_signal - lagged case_signal case_signal j)) /\
  fst (find_shift case_root x y 9) = (-7)%Z.
Proof.
  split; [exact (noisy_near 10 5)|]. split; [split; cbn; lia|]. split; [exact (noisy_near 30 12)|]. split; [split; cbn; lia|].
  split; [vm_compute; reflexivity|]. split; [|vm_compute; reflexivity]. intros j J. destruct (case_products j J) as [_ H].
  assert (X : 2 * disturbance case_signal (length (noisy_record 10 5)) 10 30 (2 * 1) (2 * 1) < 4200) by (vm_compute; reflexivity).
  set (D := disturbance _ _ _ _ _ _) in *. clearbody D. set (l := lagged case_signal case_signal j) in *. clearbody l. rewrite case_power. lra.
Qed.
Lemma case_side_ok : forall k i, (i < k)%nat -> 0 <= case_side k i <= 1.
Proof.
  intros k i I. unfold case_side. assert (K0 : 0 < inject_Z (Z.of_nat k)) by (change 0 with (inject_Z 0); rewrite <- Zlt_Qlt; lia).
    split; [apply Qle_shift_div_l; [exact K0|]; rewrite Qmult_0_l; change 0 with (inject_Z 0); rewrite <- Zle_Qle; lia|apply Qle_shift_div_r; [exact K0|]; rewrite Qmult_1_l, <- Zle_Qle; lia].
Qed.
(** Whatever the noise, the prepared record is not silent. *)
Lemma case_loud g d : Qle_bool 10 g = true -> inside case_signal (Z.of_nat d) (noisy_record g d) ->
  1 <= dot (demean (prepared case_side (noisy_record g d))) (demean (prepared case_side (noisy_record g d))).
Proof.
  intros G I. apply Qle_bool_iff in G. set (x := noisy_record g d) in *. set (a := prepared case_side x).
  assert (LA : length a = 24%nat) by (unfold a; rewrite prepared_length; reflexivity).
  assert (NA : near case_signal g (Z.of_nat d) (2 * (5 * 1)) (centred a)).
  { apply centred_near; [reflexivity|apply (contained_length _ _ x); [symmetry; apply prepared_length|apply inside_contained; exact I]|].
    apply taper_near; [exact case_side_ok|discriminate|unfold inside; rewrite detrend_length; exact I|]. apply detrend_near; [split; reflexivity|apply inside_contained; exact I|apply noisy_near]. }
  pose proof (inside_contained _ _ _ I) as [C1 C2]. change (length x) with 24%nat in C2. cbn [length case_signal] in C2.
  assert (B : (S d < length (centred a))%nat) by (unfold centred; rewrite map_length, LA; lia).
  pose proof (near_nth _ _ _ _ _ _ NA B) as P. replace (Z.of_nat (S d) - Z.of_nat d)%Z with 1%Z in P by lia. change (value_at case_signal 1) with (-(3)) in P. apply Qabs_Qle_condition in P.
  rewrite dot_self, centre_lagged. unfold lagged. set (n := length (centred a)) in *.
  assert (T : total (fun i => if Nat.eqb i (S d) then nth i (centred a) 0 * nth i (centred a) 0 else 0) n <= total (fun i => value_at (centred a) (Z.of_nat i + 0) * nth i (centred a) 0) n).
  { apply total_le. intros i _. rewrite Z.add_0_r, value_nat. set (z := nth i (centred a) 0). destruct (Nat.eqb i (S d)); nra. }
  assert (E : total (fun i => if Nat.eqb i (S d) then nth i (centred a) 0 * nth i (centred a) 0 else 0) n == nth (S d) (centred a) 0 * nth (S d) (centred a) 0).
  { set (f := fun i => nth i (centred a) 0 * nth i (centred a) 0). change (total (fun i => if Nat.eqb i (S d) then f i else 0) n == f (S d)). clearbody f. clear - B. induction n as [|n IH]; [lia|]. rewrite total_S.
    destruct (Nat.eq_dec n (S d)) as [->|H]; [rewrite Nat.eqb_refl, total_zero; [ring|]; intros i J; destruct (Nat.eqb_spec i (S d)); [lia|reflexivity]|].
    rewrite IH by lia. destruct (Nat.eqb_spec n (S d)); [lia|ring]. }
  set (z := nth (S d) (centred a) 0) in *. rewrite E in T. assert (1 <= z * z) by nra. lra.
Qed.
Example C80_noise_prepared_case : let x := noisy_record 100 5 in let y := noisy_record 300 12 in
  let a := prepared case_side x in let c := prepared case_side y in
  (forall k i, (i < k)%nat -> 0 <= case_side k i <= 1) /\ balanced case_signal /\
  near case_signal 100 5 1 x /\ inside case_signal 5 x /\ near case_signal 300 12 1 y /\ inside case_signal 12 y /\
  (forall root, (forall q, 1 <= q -> 1 <= root q) -> (1 # 2 ^ 52) < root (dot (demean a) (demean a) * dot (demean c) (demean c))) /\
  (forall j, j <> 0%Z -> 2 * disturbance case_signal (length x) 100 300 (10 * 1) (10 * 1) < 100 * 300 * (power case_signal - lagged case_signal case_signal j)).
Proof.
  split; [|split; [split; reflexivity|split; [exact (noisy_near 100 5)|split; [split; cbn; lia|split; [exact (noisy_near 300 12)|split; [split; cbn; lia|split]]]]]].
  - exact case_side_ok.
  - intros root R. assert (X : 1 <= root (dot (demean (prepared case_side (noisy_record 100 5))) (demean (prepared case_side (noisy_record 100 5))) * dot (demean (prepared case_side (noisy_record 300 12))) (demean (prepared case_side (noisy_record 300 12))))).
    { apply R. pose proof (case_loud 100 5 eq_refl ltac:(split; cbn; lia)) as A1. pose proof (case_loud 300 12 eq_refl ltac:(split; cbn; lia)) as A2. nra. }
    assert (T : 1 # 2 ^ 52 < 1) by reflexivity. lra.
  - intros j J. destruct (case_products j J) as [_ H].
    assert (X : 2 * disturbance case_signal (length (noisy_record 100 5)) 100 300 (10 * 1) (10 * 1) < 420000) by (vm_compute; reflexivity).
    set (D := disturbance _ _ _ _ _ _) in *. clearbody D. set (l := lagged case_signal case_signal j) in *. clearbody l. rewrite case_power. lra.
Qed.
Example C80_noise_either_sign_case : let x := noisy_record 20 5 in let y := noisy_record (-(60)) 12 in
  near case_signal 20 5 1 x /\ contained case_signal 5 x /\ near case_signal (-(60)) 12 1 y /\ contained case_signal 12 y /\
  (1 # 2 ^ 52) < case_root (dot (demean x) (demean x) * dot (demean y) (demean y)) /\
  (forall j, j <> 0%Z -> 2 * disturbance case_signal (length x) 20 (-(60)) (2 * 1) (2 * 1) < Qabs (20 * -(60)) * (power case_signal - Qabs (lagged case_signal case_signal j))) /\
  fst (find_shift_abs case_root x y 9) = (-7)%Z.
Proof.
  split; [exact (noisy_near 20 5)|]. split; [split; cbn; lia|]. split; [exact (noisy_near (-(60)) 12)|]. split; [split; cbn; lia|].
  split; [vm_compute; reflexivity|]. split; [|vm_compute; reflexivity]. intros j J. destruct (case_products j J) as [H1 H2].
  assert (X : 2 * disturbance case_signal (length (noisy_record 20 5)) 20 (-(60)) (2 * 1) (2 * 1) < 6000) by (vm_compute; reflexivity).
  assert (A : Qabs (lagged case_signal case_signal j) <= 15) by (apply Qabs_Qle_condition; split; lra). change (Qabs (20 * -(60))) with 1200.
  set (D := disturbance _ _ _ _ _ _) in *. clearbody D. set (l := Qabs (lagged case_signal case_signal j)) in *. clearbody l. rewrite case_power. lra.
Qed.

Print Assumptions C80_noise.
Print Assumptions C80_noise_prepared.
Print Assumptions C80_noise_either_sign.
