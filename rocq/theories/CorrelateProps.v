(** C80: lags found by correlation. *)
From Coq Require Import ZArith QArith Qabs Qcanon Znumtheory List Bool Lia Lqa.
From Verif Require Import Base Correlate CorrelateSpec CorrelateProofs.
Import ListNotations.
Open Scope Q_scope.

(** One signal that reaches two sensors after [d] and [e] samples: the shift found is [d - e], and the coefficient 1,
    whatever the gains, the shape of the taper and the signal, which only has to stand out from rounding. *)
Theorem C80_delayed root side w g h d e x y m :
  exact_root root -> length x = length y -> sees w g d x -> inside w d x -> sees w h e y -> inside w e y ->
  balanced w -> 0 < g -> 0 < h -> (1 # 2 ^ 52) < g * h * power w -> (Z.abs (d - e) <= m)%Z ->
  exists v, find_shift root (prepared side x) (prepared side y) m = ((d - e)%Z, v) /\ v == 1.
Proof.
  intros [RC RE] L S1 I1 S2 I2 W G H P M.
  set (a := prepared side x). set (c := prepared side y).
  assert (LA : length a = length x) by apply prepared_length. assert (LC : length c = length y) by apply prepared_length.
  assert (Ia : inside w d a) by (unfold inside; rewrite LA; exact I1). assert (Ic : inside w e c) by (unfold inside; rewrite LC; exact I2).
  pose proof (prepared_sees side w g d x S1 I1 W) as Sa. pose proof (prepared_sees side w h e y S2 I2 W) as Sc. fold a in Sa. fold c in Sc.
  pose proof (demean_sees w g d a Sa (inside_contained _ _ _ Ia) (proj1 W)) as Ca. pose proof (demean_sees w h e c Sc (inside_contained _ _ _ Ic) (proj1 W)) as Cc.
  assert (Ia' : contained w d (centred a)) by (apply inside_contained; unfold inside, centred; rewrite map_length; exact Ia).
  assert (Ic' : contained w e (centred c)) by (apply inside_contained; unfold inside, centred; rewrite map_length; exact Ic).
  assert (K : forall k, lagged (centred a) (centred c) k == g * h * auto w (k - d + e)) by (intros k; apply sees_lagged; assumption).
  assert (GH : 0 < g * h) by nra. assert (PP : 0 < power w).
  { apply Qnot_le_lt. intros C. assert (0 < 1 # 2 ^ 52) by reflexivity. assert (g * h * power w <= 0) by nra. lra. }
  assert (SZ : size root a c == g * h * power w).
  { rewrite size_lagged by exact RC. rewrite <- (RE (g * h * power w)) by nra. apply RC.
    rewrite (sees_lagged w g g d d _ _ 0 Ca Ia' Ca Ia'), (sees_lagged w h h e e _ _ 0 Cc Ic' Cc Ic').
    replace (0 - d + d)%Z with 0%Z by ring. replace (0 - e + e)%Z with 0%Z by ring. rewrite auto_zero. ring. }
  replace m with (Z.of_nat (Z.to_nat m)) in * by lia. set (n := Z.to_nat m) in *.
  destruct (best_shift root a c n) as (k & v & F & B & V & BEST); [congruence|unfold eps; rewrite SZ; exact P|].
  destruct (BEST (d - e)%Z ltac:(lia)) as [LE _]. rewrite !K in LE. replace (d - e - d + e)%Z with 0%Z in LE by ring. rewrite auto_zero in LE.
  assert (E : k = (d - e)%Z).
  { destruct (Z.eq_dec (k - d + e) 0) as [Z|Z]; [lia|]. pose proof (auto_less w _ PP Z). nra. }
  subst k. exists v. split; [exact F|]. rewrite SZ, K in V. replace (d - e - d + e)%Z with 0%Z in V by ring. rewrite auto_zero in V.
  assert (N : ~ g * h * power w == 0) by nra. apply (Qmult_inj_r _ _ _ N). rewrite V. ring.
Qed.

(** [check_lags] looks for the largest coefficient of either sign: also a signal seen with opposite polarity by one of
    the sensors is found where it is, with coefficient -1. *)
Lemma auto_more w k : 0 < power w -> k <> 0%Z -> - power w < auto w k.
Proof.
  intros P K. apply Qnot_le_lt. intros LE. set (r := Z.abs_nat k). set (lo := (- Z.of_nat r)%Z). set (n := (length w + 2 * r)%nat).
  set (f := fun j => (value_at w (j + k) + value_at w j) * (value_at w (j + k) + value_at w j)).
  assert (S1 : zsum lo n (fun j => value_at w j * value_at w j) == power w).
  { rewrite (zsum_cover lo n 0 (length w)); [|unfold lo; lia|unfold lo, n; lia|intros i H; rewrite value_out by lia; ring].
    apply total_ext. intros i _. rewrite Z.add_0_l, value_nat. reflexivity. }
  assert (S2 : zsum lo n (fun j => value_at w (j + k) * value_at w (j + k)) == power w).
  { rewrite (zsum_shift lo n (fun j => value_at w j * value_at w j) k).
    rewrite (zsum_cover _ n 0 (length w)); [|unfold lo, r; lia|unfold lo, n, r; lia|intros i H; rewrite value_out by lia; ring].
    apply total_ext. intros i _. rewrite Z.add_0_l, value_nat. reflexivity. }
  assert (S3 : zsum lo n (fun j => value_at w (j + k) * value_at w j) == auto w k).
  { unfold auto. apply zsum_cover; [unfold lo; lia|unfold lo, n; lia|]. intros i H. rewrite (value_out w i) by lia. ring. }
  assert (S4 : zsum lo n f == power w + power w + 2 * auto w k).
  { rewrite <- S3. rewrite <- S1 at 2. rewrite <- S2. unfold zsum, f.
    transitivity (total (fun i => value_at w (lo + Z.of_nat i + k) * value_at w (lo + Z.of_nat i + k) + value_at w (lo + Z.of_nat i) * value_at w (lo + Z.of_nat i)
      + 2 * (value_at w (lo + Z.of_nat i + k) * value_at w (lo + Z.of_nat i))) n).
    - apply total_ext. intros; ring.
    - rewrite !total_plus, total_scale. ring. }
  assert (Z0 : forall j, value_at w (j + k) == - value_at w j).
  { intros j. destruct (Z_lt_ge_dec j lo) as [H|H]; [rewrite !value_out by (unfold lo, r in H; lia); reflexivity|].
    destruct (Z_lt_ge_dec j (lo + Z.of_nat n)) as [H'|H']; [|rewrite !value_out by (unfold lo, n, r in H'; lia); reflexivity].
    assert (NN : forall i : nat, 0 <= f (lo + Z.of_nat i)%Z) by (intros i; unfold f; set (z := value_at w (lo + Z.of_nat i + k) + value_at w (lo + Z.of_nat i)); nra).
    pose proof (total_sq_zero (fun i => f (lo + Z.of_nat i)%Z) n NN) as T. unfold zsum in S4. rewrite S4 in T.
    specialize (T ltac:(lra) (Z.to_nat (j - lo)) ltac:(lia)). cbv beta in T. replace (lo + Z.of_nat (Z.to_nat (j - lo)))%Z with j in T by lia. unfold f in T.
    apply Qmult_integral in T. destruct T; lra. }
  assert (ZT : forall t j, value_at w (j + Z.of_nat t * k) == 0 -> value_at w j == 0).
  { induction t as [|t IH]; intros j; [rewrite Z.add_0_r; auto|]. rewrite Nat2Z.inj_succ. unfold Z.succ.
    replace (j + (Z.of_nat t + 1) * k)%Z with (j + Z.of_nat t * k + k)%Z by ring. rewrite Z0. intros H. apply IH. lra. }
  assert (W0 : forall i, (i < length w)%nat -> nth i w 0 == 0).
  { intros i L. rewrite <- value_nat. apply (ZT (length w)). rewrite value_out; [reflexivity|]. nia. }
  assert (P0 : power w == 0) by (apply total_zero; intros i L; rewrite W0 by exact L; ring). lra.
Qed.
Lemma abs_product v G q p au : 0 <= G -> 0 <= p -> Qabs q == G -> v * (G * p) == q * au -> Qabs v * (G * p) == G * Qabs au.
Proof.
  intros H1 H2 H3 E. apply Qabs_wd in E. rewrite !Qabs_Qmult, (Qabs_pos G H1), (Qabs_pos p H2), H3 in E. exact E.
Qed.
Lemma qabs_nth cc k : nth_error (map Qabs cc) k = option_map Qabs (nth_error cc k).
Proof. apply nth_error_map. Qed.
Theorem C80_either_sign root w g h d e x y m :
  exact_root root -> length x = length y -> sees w g d x -> contained w d x -> sees w h e y -> contained w e y ->
  level w -> (1 # 2 ^ 52) < Qabs (g * h) * power w -> (Z.abs (d - e) <= m)%Z ->
  exists v, find_shift_abs root x y m = ((d - e)%Z, v) /\ (0 < g * h -> v == 1) /\ (g * h < 0 -> v == -(1)).
Proof.
  intros [RC RE] L S1 I1 S2 I2 W P M.
  pose proof (demean_sees w g d x S1 I1 W) as Ca. pose proof (demean_sees w h e y S2 I2 W) as Cc.
  assert (Ia' : contained w d (centred x)) by (unfold contained, centred; rewrite map_length; exact I1).
  assert (Ic' : contained w e (centred y)) by (unfold contained, centred; rewrite map_length; exact I2).
  assert (K : forall k, lagged (centred x) (centred y) k == g * h * auto w (k - d + e)) by (intros k; apply sees_lagged; assumption).
  pose proof (Qabs_nonneg (g * h)) as A0. assert (T0 : 0 < 1 # 2 ^ 52) by reflexivity. assert (PW : 0 <= power w) by (apply total_nonneg; intros i; set (z := nth i w 0); nra).
  assert (PP : 0 < power w) by (apply Qnot_le_lt; intros C; assert (E : power w == 0) by lra; rewrite E in P; lra).
  assert (GA : 0 < Qabs (g * h)) by (apply Qnot_le_lt; intros C; assert (E : Qabs (g * h) == 0) by lra; rewrite E in P; lra).
  assert (AA : Qabs (g * h) * Qabs (g * h) == g * h * (g * h)) by (destruct (Qlt_le_dec (g * h) 0) as [C|C]; [rewrite (Qabs_neg (g * h)) by lra|rewrite (Qabs_pos (g * h)) by lra]; ring).
  assert (SZ : size root x y == Qabs (g * h) * power w).
  { rewrite size_lagged by exact RC. rewrite <- (RE (Qabs (g * h) * power w)) by nra. apply RC.
    rewrite (sees_lagged w g g d d _ _ 0 Ca Ia' Ca Ia'), (sees_lagged w h h e e _ _ 0 Cc Ic' Cc Ic').
    replace (0 - d + d)%Z with 0%Z by ring. replace (0 - e + e)%Z with 0%Z by ring. rewrite auto_zero.
    transitivity (g * h * (g * h) * (power w * power w)); [ring|]. rewrite <- AA. ring. }
  assert (N : eps < size root x y) by (unfold eps; rewrite SZ; exact P). assert (SP : 0 < size root x y) by (unfold eps in N; lra).
  unfold find_shift_abs. set (n := Z.to_nat m). set (cc := correlation root x y n).
  assert (LC : length cc = (2 * n + 1)%nat) by apply correlation_length.
  destruct (xcorr_max_ok (map Qabs cc) n) as (k & u & [H1 H2] & E); [rewrite map_length; exact LC|].
  assert (VAL : forall i, (i < 2 * n + 1)%nat -> exists v, nth_error cc i = Some v /\ v * size root x y == g * h * auto w (Z.of_nat i - Z.of_nat n - d + e)).
  { intros i I. destruct (correlation_nth root x y n i I L) as (v & V1 & _ & V2). exists v. split; [exact V1|]. rewrite (V2 N), K. reflexivity. }
  set (i0 := Z.to_nat (d - e + Z.of_nat n)). assert (EI : (Z.of_nat i0 - Z.of_nat n - d + e = 0)%Z) by (unfold i0, n; lia).
  destruct (VAL i0 ltac:(unfold i0, n; lia)) as (v0 & V0 & W0). rewrite EI, auto_zero, SZ in W0.
  assert (Av0 : Qabs v0 == 1).
  { assert (X : Qabs v0 * (Qabs (g * h) * power w) == Qabs (g * h) * power w).
    { rewrite <- (Qabs_pos (power w)) at 2 by lra. apply (abs_product v0 _ (g * h)); [lra|lra|reflexivity|exact W0]. }
    assert (NZ : ~ Qabs (g * h) * power w == 0) by nra. apply (Qmult_inj_r _ _ _ NZ). rewrite X. ring. }
  assert (KI : k = i0).
  { assert (KB : (k < 2 * n + 1)%nat) by (rewrite <- LC, <- (map_length Qabs cc); apply nth_error_Some; congruence).
    destruct (VAL k KB) as (v & V1 & V2). rewrite qabs_nth, V1 in H1. injection H1 as <-.
    destruct (H2 i0 (Qabs v0)) as [LE _]; [rewrite qabs_nth, V0; reflexivity|]. rewrite Av0 in LE.
    destruct (Z.eq_dec (Z.of_nat k - Z.of_nat n - d + e) 0) as [Z|Z]; [lia|]. exfalso.
    pose proof (auto_less w _ PP Z) as B1. pose proof (auto_more w _ PP Z) as B2. set (au := auto w (Z.of_nat k - Z.of_nat n - d + e)) in *. rewrite SZ in V2.
    assert (X : Qabs v * (Qabs (g * h) * power w) == Qabs (g * h) * Qabs au).
    { apply (abs_product v _ (g * h)); [lra|lra|reflexivity|exact V2]. }
    assert (BA : Qabs au < power w) by (apply Qabs_Qlt_condition; split; lra). nra. }
  unfold xcorr_max in E. unfold xcorr_max_abs. destruct (map Qabs cc) as [|a0 r] eqn:MC; [apply (f_equal (@length Q)) in MC; rewrite map_length in MC; cbn in MC; lia|].
  destruct (first_max a0 0 1 r) as [k' v'] eqn:FM. pose proof (f_equal fst E) as E1. cbn [fst] in *.
  assert (LM : length (a0 :: r) = length cc) by (rewrite <- MC; apply map_length). rewrite LM in E1. exists (nth k' cc 0).
  assert (DV : ((Z.of_nat (length cc) - 1) / 2 = Z.of_nat n)%Z) by (rewrite LC; replace (Z.of_nat (2 * n + 1) - 1)%Z with (Z.of_nat n * 2)%Z by lia; apply Z.div_mul; lia).
  rewrite DV in *.
  assert (KK : k' = k) by lia. subst k' k. split; [f_equal; lia|]. rewrite (nth_error_nth _ _ _ V0).
  assert (NZ : ~ Qabs (g * h) * power w == 0) by nra.
  split; intros G; apply (Qmult_inj_r _ _ _ NZ); rewrite W0; [rewrite (Qabs_pos (g * h)) by lra|rewrite (Qabs_neg (g * h)) by lra]; ring.
Qed.

(** In general: of all shifts looked at, the one found has the largest product of the two records, the earliest one of
    several; the coefficient is that product over the norm. *)
Theorem C80_best root a c m : (0 <= m)%Z -> length a = length c ->
  let norm := root (dot (demean a) (demean a) * dot (demean c) (demean c)) in
  (1 # 2 ^ 52) < norm ->
  exists k v, find_shift root a c m = (k, v) /\ (- m <= k <= m)%Z /\ v * norm == lagged (centred a) (centred c) k /\
    forall j, (- m <= j <= m)%Z -> lagged (centred a) (centred c) j <= lagged (centred a) (centred c) k /\
      ((j < k)%Z -> lagged (centred a) (centred c) j < lagged (centred a) (centred c) k).
Proof.
  intros M L norm P. destruct (best_shift root a c (Z.to_nat m) L P) as (k & v & H). rewrite Z2Nat.id in H by exact M. exists k, v. exact H.
Qed.

(** A silent sensor: the coefficient is 0, but the lag reported is the largest negative one, not 0. *)
Lemma dot_zero a : Forall (fun v => v == 0) a -> forall c, dot a c == 0.
Proof. induction 1 as [|v a H F IH]; intros [|u c]; try reflexivity. unfold dot. cbn [combine map fst snd qadd fold_right]. fold (qadd (map (fun p : Q * Q => fst p * snd p) (combine a c))). fold (dot a c). rewrite H, IH. ring. Qed.
Theorem C80_silent root a c m : (0 <= m)%Z -> length a = length c -> exact_root root -> (exists q, Forall (fun v => v == q) a) ->
  exists v, find_shift root a c m = ((- m)%Z, v) /\ v == 0.
Proof.
  intros M L [RC RE] (q & F). pose proof (silent_shift root a c (Z.to_nat m) L) as H. rewrite Z2Nat.id in H by exact M. apply H.
  unfold size. rewrite (RC _ (0 * 0)); [rewrite RE by lra; discriminate|]. rewrite (dot_zero (demean a)); [ring|].
  rewrite Forall_forall in F. unfold demean. rewrite Forall_map, Forall_forall. intros v I. rewrite (F v I). clear RC RE.
  assert (S : qadd a == q * qlen a).
  { clear L I H. induction a as [|u a IH]; [unfold qlen; cbn; ring|]. cbn [qadd fold_right]. fold (qadd a). rewrite IH by (intros z Z; apply F; right; exact Z).
    assert (U : u == q) by (apply F; left; reflexivity). unfold qlen. cbn [length]. rewrite U, Nat2Z.inj_succ. unfold Z.succ. rewrite inject_Z_plus. ring. }
  rewrite S. assert (N : ~ qlen a == 0). { destruct a as [|u a]; [destruct I|]. unfold qlen, inject_Z, Qeq. cbn. lia. }
  field. exact N.
Qed.

(** ** The coefficient *)
Lemma cauchy f g n : total (fun i => f i * g i) n * total (fun i => f i * g i) n <= total (fun i => f i * f i) n * total (fun i => g i * g i) n.
Proof.
  set (A := total (fun i => f i * f i) n). set (B := total (fun i => g i * g i) n). set (C := total (fun i => f i * g i) n).
  assert (SQ : forall s t, 0 <= s * s * A + 2 * s * t * C + t * t * B).
  { intros s t. assert (E : total (fun i => (s * f i + t * g i) * (s * f i + t * g i)) n == s * s * A + 2 * s * t * C + t * t * B).
    { unfold A, B, C. rewrite <- !total_scale, <- !total_plus. apply total_ext. intros; ring. }
    rewrite <- E. apply total_nonneg. intros i. set (z := s * f i + t * g i). nra. }
  assert (A0 : 0 <= A) by (specialize (SQ 1 0); lra). assert (B0 : 0 <= B) by (specialize (SQ 0 1); lra).
  destruct (Qlt_le_dec 0 A) as [P|P].
  - specialize (SQ (- C) A). apply Qnot_lt_le. intros K. assert (A * (A * B) < A * (C * C)) by (apply Qmult_lt_l; assumption).
    assert (E : - C * - C * A + 2 * - C * A * C + A * A * B == A * (A * B) - A * (C * C)) by ring. rewrite E in SQ. lra.
  - assert (Z : A == 0) by lra. rewrite Z. destruct (Qeq_dec C 0) as [H|H]; [rewrite H; lra|]. exfalso.
    specialize (SQ (- (B + 1) / (2 * C)) 1). rewrite Z in SQ.
    assert (E : - (B + 1) / (2 * C) * (- (B + 1) / (2 * C)) * 0 + 2 * (- (B + 1) / (2 * C)) * 1 * C + 1 * 1 * B == -(1)) by (field; exact H).
    rewrite E in SQ. lra.
Qed.
Lemma window_le (f : Z -> Q) lo n L M : (forall i, 0 <= f i) -> (forall i, (i < L \/ L + Z.of_nat M <= i)%Z -> f i == 0) -> zsum lo n f <= zsum L M f.
Proof.
  intros P Z. set (l := Z.min lo L). set (h := Z.max (lo + Z.of_nat n) (L + Z.of_nat M)). set (N := Z.to_nat (h - l)).
  rewrite <- (zsum_cover l N L M f) by (unfold l, h, N; try exact Z; lia).
  set (p := Z.to_nat (lo - l)). set (q := (N - p - n)%nat). assert (E : N = (p + (n + q))%nat) by (unfold q, p, N, l, h; lia).
  unfold zsum at 2. rewrite E, total_add, total_add. assert (X : zsum lo n f == total (fun i => f (l + Z.of_nat (p + i))%Z) n).
  { apply total_ext. intros i _. replace (l + Z.of_nat (p + i))%Z with (lo + Z.of_nat i)%Z by (unfold p, l; lia). reflexivity. }
  rewrite X. assert (0 <= total (fun i => f (l + Z.of_nat i)%Z) p) by (apply total_nonneg; intros; apply P).
  assert (0 <= total (fun i => f (l + Z.of_nat (p + (n + i)))%Z) q) by (apply total_nonneg; intros; apply P). lra.
Qed.
Lemma lagged_cauchy a c k : lagged a c k * lagged a c k <= lagged a a 0 * lagged c c 0.
Proof.
  unfold lagged at 1 2. pose proof (cauchy (fun i => value_at a (Z.of_nat i + k)) (fun i => nth i c 0) (length c)) as H. cbv beta in H.
  assert (A : total (fun i => value_at a (Z.of_nat i + k) * value_at a (Z.of_nat i + k)) (length c) <= lagged a a 0).
  { set (f := fun i => value_at a i * value_at a i). apply (Qle_trans _ (zsum k (length c) f)).
    - apply Qle_lteq. right. apply total_ext. intros i _. unfold f. rewrite Z.add_comm. reflexivity.
    - apply (Qle_trans _ (zsum 0 (length a) f)); [apply window_le|].
      + intros i. unfold f. set (z := value_at a i). nra.
      + intros i O. unfold f. rewrite value_out by lia. ring.
      + apply Qle_lteq. right. apply total_ext. intros i _. unfold f. rewrite Z.add_0_l, Z.add_0_r, value_nat. reflexivity. }
  assert (B : lagged c c 0 == total (fun i => nth i c 0 * nth i c 0) (length c)).
  { apply total_ext. intros i _. rewrite Z.add_0_r, value_nat. reflexivity. }
  rewrite B. assert (0 <= total (fun i => nth i c 0 * nth i c 0) (length c)) by (apply total_nonneg; intros i; set (z := nth i c 0); nra). nra.
Qed.

(** The coefficient is at most 1 in size, up to the accuracy of the square root. *)
Theorem C80_coefficient root r a c m k v : (0 <= m)%Z -> length a = length c -> 0 <= r ->
  (forall q, 0 <= q -> q <= r * (root q * root q)) ->
  find_shift root a c m = (k, v) -> (- m <= k <= m)%Z /\ v * v <= r.
Proof.
  intros M L R H F. replace m with (Z.of_nat (Z.to_nat m)) in * by lia. set (n := Z.to_nat m) in *.
  destruct (Qlt_le_dec eps (size root a c)) as [P|P].
  - destruct (best_shift root a c n L P) as (k' & v' & F' & B & V & _). rewrite F in F'. injection F' as <- <-. split; [exact B|].
    pose proof (lagged_cauchy (demean a) (demean c) k) as C. rewrite !centre_lagged in C at 1 2. rewrite <- V in C.
    rewrite <- !dot_self in C. set (pr := dot (demean a) (demean a) * dot (demean c) (demean c)) in *.
    assert (PR : 0 <= pr).
    { unfold pr. rewrite !dot_total by lia. apply Qmult_le_0_compat; apply total_nonneg; intros i; [set (z := nth i (demean a) 0)|set (z := nth i (demean c) 0)]; nra. }
    specialize (H pr PR). unfold size in *. fold pr in V, C, P. set (t := root pr) in *. assert (T : 0 < t) by (assert (0 < eps) by reflexivity; lra).
    assert (T2 : 0 < t * t) by nra. apply (Qmult_le_r _ _ (t * t) T2). lra.
  - destruct (silent_shift root a c n L P) as (v' & F' & V). rewrite F in F'. injection F' as -> <-. split; [lia|]. rewrite V. lra.
Qed.

(** ** Gain, offset and drift of the sensors *)
Lemma total_line n c s : total (fun i => c + s * inject_Z (Z.of_nat i)) n == c * inject_Z (Z.of_nat n) + s * total (fun i => inject_Z (Z.of_nat i)) n.
Proof.
  rewrite total_plus, total_scale. apply Qplus_comp; [|reflexivity]. induction n as [|n IH]; [unfold total; cbn; ring|].
  rewrite total_S, IH, Nat2Z.inj_succ. unfold Z.succ. rewrite inject_Z_plus. ring.
Qed.
Lemma positions_total {A} (x : list A) (f : Q -> Q) : qadd (map f (positions x)) == total (fun i => f (inject_Z (Z.of_nat i))) (length x).
Proof.
  rewrite (qadd_map 0), positions_length. apply total_ext. intros i L. rewrite (nth_error_nth _ _ _ (positions_nth x i L)). reflexivity.
Qed.
Lemma rescaled_nth g c s x y i : rescaled g c s x y -> (i < length x)%nat -> nth i y 0 == g * nth i x 0 + c + s * inject_Z (Z.of_nat i).
Proof. intros [L H] I. destruct (H i _ (nth_some x i I)) as (u & E & U). rewrite (nth_error_nth _ _ _ E). exact U. Qed.
Lemma detrend_rescaled g c s x y : rescaled g c s x y -> forall i, (i < length x)%nat -> nth i (detrend y) 0 == g * nth i (detrend x) 0.
Proof.
  intros R i I. pose proof (proj1 R) as L.
  rewrite (nth_error_nth _ _ _ (detrend_nth x i _ (nth_some x i I))), (nth_error_nth _ _ _ (detrend_nth y i _ (nth_some y i ltac:(lia)))), (rescaled_nth _ _ _ _ _ _ R I).
  assert (PE : positions y = positions x) by (unfold positions; rewrite L; reflexivity).
  assert (ME : snd (line_of y) = snd (line_of x)) by (cbn [line_of snd]; unfold qlen; rewrite PE, L; reflexivity).
  set (m := snd (line_of x)) in *. set (n := inject_Z (Z.of_nat (length x))).
  assert (N0 : ~ n == 0) by (unfold n, inject_Z, Qeq; cbn; lia).
  assert (PT : total (fun i => inject_Z (Z.of_nat i)) (length x) == n * m).
  { unfold m. cbn [line_of snd]. rewrite <- (map_id (positions x)), (positions_total x (fun q => q)). unfold qlen. fold n. field. exact N0. }
  assert (AV : fst (fst (line_of y)) == g * fst (fst (line_of x)) + c + s * m).
  { cbn [line_of fst]. rewrite !qadd_total. unfold qlen. rewrite L. fold n.
    assert (T : total (fun i => nth i y 0) (length x) == g * total (fun i => nth i x 0) (length x) + (c * n + s * (n * m))).
    { rewrite <- PT. unfold n. rewrite <- total_line, <- total_scale, <- total_plus. apply total_ext. intros j J. rewrite (rescaled_nth _ _ _ _ _ _ R J). ring. }
    rewrite T. field. exact N0. }
  rewrite ME, AV. set (sp := qadd (map (fun q => (q - m) * (q - m)) (positions x))).
  assert (SX : snd (fst (line_of x)) == total (fun i => (inject_Z (Z.of_nat i) - m) * nth i x 0) (length x) / sp) by exact (line_slope x).
  assert (SY : snd (fst (line_of y)) == total (fun i => (inject_Z (Z.of_nat i) - m) * nth i y 0) (length x) / sp).
  { rewrite line_slope, ME, PE, L. reflexivity. }
  assert (SP : sp == total (fun i => (inject_Z (Z.of_nat i) - m) * (inject_Z (Z.of_nat i) - m)) (length x)) by exact (positions_total x (fun q => (q - m) * (q - m))).
  assert (ZM : total (fun i => inject_Z (Z.of_nat i) - m) (length x) == 0).
  { transitivity (total (fun i => - m + 1 * inject_Z (Z.of_nat i)) (length x)); [apply total_ext; intros; ring|]. rewrite total_line, PT. fold n. ring. }
  assert (T : total (fun i => (inject_Z (Z.of_nat i) - m) * nth i y 0) (length x) == g * total (fun i => (inject_Z (Z.of_nat i) - m) * nth i x 0) (length x) + s * sp).
  { transitivity (g * total (fun i => (inject_Z (Z.of_nat i) - m) * nth i x 0) (length x) + (c + s * m) * total (fun i => inject_Z (Z.of_nat i) - m) (length x)
      + s * total (fun i => (inject_Z (Z.of_nat i) - m) * (inject_Z (Z.of_nat i) - m)) (length x)).
    - rewrite <- !total_scale, <- !total_plus. apply total_ext. intros j J. rewrite (rescaled_nth _ _ _ _ _ _ R J). ring.
    - rewrite ZM, <- SP. ring. }
  rewrite SX, SY, T. destruct (Qeq_dec sp 0) as [Z|Z].
  - assert (IM : inject_Z (Z.of_nat i) - m == 0).
    { assert (Q0 : (inject_Z (Z.of_nat i) - m) * (inject_Z (Z.of_nat i) - m) == 0).
      { apply (total_sq_zero (fun i => (inject_Z (Z.of_nat i) - m) * (inject_Z (Z.of_nat i) - m)) (length x)); [|rewrite <- SP, Z; lra|exact I].
        intros j. cbv beta. set (z := inject_Z (Z.of_nat j) - m). nra. }
      apply Qmult_integral in Q0. destruct Q0; assumption. }
    assert (I2 : inject_Z (Z.of_nat i) == m) by lra. rewrite I2. ring.
  - field. exact Z.
Qed.
Lemma prepared_rescaled side g c s x y : rescaled g c s x y -> forall i, (i < length x)%nat -> nth i (prepared side y) 0 == g * nth i (prepared side x) 0.
Proof.
  intros R i I. pose proof (detrend_rescaled _ _ _ _ _ R i I) as D. pose proof (proj1 R) as L. unfold prepared.
  assert (I1 : (i < length (detrend x))%nat) by (rewrite detrend_length; exact I). assert (I2 : (i < length (detrend y))%nat) by (rewrite detrend_length; lia).
  destruct (taper_nth side _ i _ (nth_some _ i I1)) as (f & F & T). destruct (taper_nth side _ i _ (nth_some _ i I2)) as (f' & F' & T').
  rewrite (nth_error_nth _ _ _ T), (nth_error_nth _ _ _ T'). rewrite detrend_length, L in F'. rewrite detrend_length, F' in F. injection F as <-. rewrite D. ring.
Qed.
Lemma centred_scaled g a a' : length a' = length a -> (forall i, (i < length a)%nat -> nth i a' 0 == g * nth i a 0) ->
  forall i, (i < length a)%nat -> nth i (centred a') 0 == g * nth i (centred a) 0.
Proof.
  intros L H i I. rewrite !centred_nth by lia. rewrite H by exact I. unfold mean. rewrite L.
  rewrite (total_ext (fun i => nth i a' 0) (fun i => g * nth i a 0) (length a) H), total_scale. field. unfold inject_Z, Qeq. cbn. lia.
Qed.
Lemma value_scaled g a a' k : length a' = length a -> (forall i, (i < length a)%nat -> nth i a' 0 == g * nth i a 0) -> value_at a' k == g * value_at a k.
Proof.
  intros L H. destruct (Z_lt_ge_dec k 0) as [B|B]; [rewrite !value_out by lia; ring|]. destruct (Z_lt_ge_dec k (Z.of_nat (length a))) as [B'|B']; [|rewrite !value_out by lia; ring].
  replace k with (Z.of_nat (Z.to_nat k)) by lia. rewrite !value_nat. apply H. lia.
Qed.
Lemma centred_length x : length (centred x) = length x.
Proof. apply map_length. Qed.
Lemma lagged_scaled g h a a' c c' k : length a' = length a -> length c' = length c ->
  (forall i, (i < length a)%nat -> nth i a' 0 == g * nth i a 0) -> (forall i, (i < length c)%nat -> nth i c' 0 == h * nth i c 0) ->
  lagged (centred a') (centred c') k == g * h * lagged (centred a) (centred c) k.
Proof.
  intros L1 L2 H1 H2. unfold lagged. rewrite <- total_scale, !centred_length, L2. apply total_ext. intros i I.
  rewrite (value_scaled g (centred a) (centred a')), (centred_scaled h c c' L2 H2 i I); [ring|rewrite !centred_length; exact L1|].
  rewrite centred_length. apply centred_scaled; assumption.
Qed.

(** Sensors with other gains, offsets and linear drifts: the same lag is found, and the same coefficient. *)
Theorem C80_gain root side g1 c1 s1 g2 c2 s2 x x' y y' m k v k' v' :
  (forall p q, p == q -> root p == root q) -> (forall q p, 0 <= q -> 0 <= p -> root (q * q * p) == q * root p) ->
  (0 <= m)%Z -> length x = length y -> rescaled g1 c1 s1 x x' -> rescaled g2 c2 s2 y y' -> 0 < g1 -> 0 < g2 ->
  let a := prepared side x in let c := prepared side y in
  let norm := root (dot (demean a) (demean a) * dot (demean c) (demean c)) in
  (1 # 2 ^ 52) < norm -> (1 # 2 ^ 52) < g1 * g2 * norm ->
  find_shift root a c m = (k, v) -> find_shift root (prepared side x') (prepared side y') m = (k', v') -> k' = k /\ v' == v.
Proof.
  intros RC RH M L R1 R2 G1 G2 a c norm P1 P2 F F'. set (a' := prepared side x') in *. set (c' := prepared side y') in *.
  pose proof (proj1 R1) as L1. pose proof (proj1 R2) as L2.
  assert (LA : length a = length x) by apply prepared_length. assert (LC : length c = length y) by apply prepared_length.
  assert (LA' : length a' = length a) by (unfold a', a; rewrite !prepared_length; exact L1). assert (LC' : length c' = length c) by (unfold c', c; rewrite !prepared_length; exact L2).
  assert (H1 : forall i, (i < length a)%nat -> nth i a' 0 == g1 * nth i a 0) by (rewrite LA; apply prepared_rescaled with (1 := R1)).
  assert (H2 : forall i, (i < length c)%nat -> nth i c' 0 == g2 * nth i c 0) by (rewrite LC; apply prepared_rescaled with (1 := R2)).
  pose proof (fun j => lagged_scaled g1 g2 a a' c c' j LA' LC' H1 H2) as K. assert (GG : 0 < g1 * g2) by nra.
  assert (SZ : size root a' c' == g1 * g2 * norm).
  { unfold norm. rewrite size_lagged by exact RC. fold (size root a c). rewrite (size_lagged root a c RC).
    rewrite <- RH; [apply RC; rewrite (lagged_scaled g1 g1 a a' a a' 0 LA' LA' H1 H1), (lagged_scaled g2 g2 c c' c c' 0 LC' LC' H2 H2); ring|lra|].
    rewrite <- !centre_lagged, <- !dot_self, !dot_total by lia. apply Qmult_le_0_compat; apply total_nonneg; intros i; [set (z := nth i (demean a) 0)|set (z := nth i (demean c) 0)]; nra. }
  replace m with (Z.of_nat (Z.to_nat m)) in * by lia. set (n := Z.to_nat m) in *.
  destruct (best_shift root a c n) as (k0 & v0 & F0 & B & V & BE); [congruence|exact P1|]. rewrite F in F0. injection F0 as <- <-.
  destruct (best_shift root a' c' n) as (k1 & v1 & F1 & B' & V' & BE'); [congruence|unfold eps; rewrite SZ; exact P2|]. rewrite F' in F1. injection F1 as <- <-.
  assert (E : k' = k).
  { destruct (BE k' B') as [X1 X2]. destruct (BE' k B) as [Y1 Y2]. rewrite !K in Y1, Y2. destruct (Z_lt_ge_dec k k') as [H|H]; [specialize (Y2 H); nra|].
    destruct (Z_lt_ge_dec k' k) as [H'|H']; [specialize (X2 H'); nra|lia]. }
  split; [exact E|]. subst k'. rewrite SZ, K, <- V in V'. fold (size root a c) in norm. unfold size in V'. fold norm in V'.
  assert (N : ~ g1 * g2 * norm == 0) by (assert (0 < 1 # 2 ^ 52) by reflexivity; lra). apply (Qmult_inj_r _ _ _ N). rewrite V'. unfold norm, size. ring.
Qed.

(** ** Exchanging the sensors *)
Lemma lagged_swap a c k : length a = length c -> lagged a c k == lagged c a (- k).
Proof.
  intros L. unfold lagged. set (f := fun i => value_at a (i + k) * value_at c i). set (f' := fun i => value_at c (i + - k) * value_at a i).
  transitivity (zsum 0 (length c) f); [apply total_ext; intros i _; unfold f; rewrite Z.add_0_l, value_nat; reflexivity|].
  symmetry. transitivity (zsum 0 (length a) f'); [apply total_ext; intros i _; unfold f'; rewrite Z.add_0_l, value_nat; reflexivity|].
  set (r := Z.abs k). set (n := (length a + 4 * Z.to_nat r)%nat).
  rewrite <- (zsum_cover (-2 * r) n 0 (length a) f'), <- (zsum_cover (- 2 * r - k) n 0 (length c) f);
    try (unfold n, r; lia); try (intros i H; unfold f, f'; rewrite (value_out _ i) by lia; ring).
  transitivity (zsum (- 2 * r - k + k) n f'); [replace (- 2 * r - k + k)%Z with (-2 * r)%Z by ring; reflexivity|]. rewrite <- zsum_shift. apply zsum_ext. intros i _. unfold f, f'.
  replace (i + k + - k)%Z with i by ring. ring.
Qed.
(** The coefficient is the same, and the lag the opposite one unless several are equally good. *)
Theorem C80_exchanged root a c m k v k' v' : (forall p q, p == q -> root p == root q) -> (0 <= m)%Z -> length a = length c ->
  (1 # 2 ^ 52) < root (dot (demean a) (demean a) * dot (demean c) (demean c)) ->
  find_shift root a c m = (k, v) -> find_shift root c a m = (k', v') ->
  v' == v /\ ((forall j, (- m <= j <= m)%Z -> j <> k -> lagged (centred a) (centred c) j < lagged (centred a) (centred c) k) -> k' = (- k)%Z).
Proof.
  intros RC M L P F F'. fold (size root a c) in P. assert (SZ : size root c a == size root a c) by (apply RC; ring).
  replace m with (Z.of_nat (Z.to_nat m)) in * by lia. set (n := Z.to_nat m) in *.
  destruct (best_shift root a c n L P) as (k0 & v0 & F0 & B & V & BE). rewrite F in F0. injection F0 as <- <-.
  destruct (best_shift root c a n (eq_sym L)) as (k1 & v1 & F1 & B' & V' & BE'); [unfold eps; rewrite SZ; exact P|]. rewrite F' in F1. injection F1 as <- <-.
  assert (S : forall j, lagged (centred c) (centred a) j == lagged (centred a) (centred c) (- j)) by (intros j; apply lagged_swap; unfold centred; rewrite !map_length; congruence).
  rewrite S, SZ in V'. destruct (BE (- k')%Z ltac:(lia)) as [X _]. destruct (BE' (- k)%Z ltac:(lia)) as [Y _]. rewrite !S, Z.opp_involutive in Y. split.
  - assert (N : ~ size root a c == 0) by (assert (0 < 1 # 2 ^ 52) by reflexivity; lra). apply (Qmult_inj_r _ _ _ N). rewrite V, V'. lra.
  - intros U. destruct (Z.eq_dec (- k') k) as [E|E]; [lia|]. specialize (U (- k')%Z ltac:(lia) E). lra.
Qed.

(** ** Cases *)
(** An exact square root of squares. *)
Definition case_root (q : Q) : Q := Z.sqrt (Qnum (Qred q)) # Pos.sqrt (Qden (Qred q)).
Lemma case_root_ok : exact_root case_root.
Proof.
  split; [intros p q E; unfold case_root; rewrite (Qred_complete _ _ E); reflexivity|]. intros q H.
  set (r := Qred q). assert (E : q == r) by (symmetry; apply Qred_correct). assert (G : Z.gcd (Qnum r) (Zpos (Qden r)) = 1%Z).
  { apply Qred_identity2. unfold r. apply Qred_complete, Qred_correct. }
  assert (R : Qred (q * q) = r * r).
  { rewrite (Qred_complete (q * q) (r * r)) by (rewrite E; reflexivity). apply Qred_identity. destruct r as [a p]. cbn [Qmult Qnum Qden] in *. rewrite Pos2Z.inj_mul.
    apply Zgcd_1_rel_prime. apply Zgcd_1_rel_prime in G. apply rel_prime_mult; apply rel_prime_sym, rel_prime_mult; apply rel_prime_sym; exact G. }
  unfold case_root. rewrite R. destruct r as [a p] eqn:RR. assert (A : (0 <= a)%Z) by (rewrite E in H; unfold Qle in H; cbn in H; lia).
  cbn [Qmult Qnum Qden]. rewrite Z.sqrt_square by exact A. rewrite E.
  assert (SP : Pos.sqrt (p * p) = p) by (pose proof (Z.sqrt_square (Zpos p) ltac:(lia)) as X; cbn in X; injection X as X; exact X). rewrite SP. reflexivity.
Qed.
Definition case_side (n i : nat) : Q := inject_Z (Z.of_nat i) / inject_Z (Z.of_nat n).
Definition case_signal : list Q := [1; -(3); 3; -(1)].
Definition case_record (g : Q) (d n : nat) : list Q := repeat 0 d ++ map (Qmult g) case_signal ++ repeat 0 (n - d - 4).
(** Two records of 60 samples, with gains 1 and 3, the second one 7 samples later. *)
Example C80_case : exact_root case_root /\ balanced case_signal /\
  sees case_signal 1 10 (case_record 1 10 60) /\ inside case_signal 10 (case_record 1 10 60) /\
  sees case_signal 3 17 (case_record 3 17 60) /\ inside case_signal 17 (case_record 3 17 60) /\
  (1 # 2 ^ 52) < 1 * 3 * power case_signal /\ (Z.abs (10 - 17) <= 20)%Z /\
  exists v, find_shift case_root (prepared case_side (case_record 1 10 60)) (prepared case_side (case_record 3 17 60)) 20 = ((-7)%Z, v) /\ v == 1.
Proof.
  split; [exact case_root_ok|]. split; [split; reflexivity|].
  assert (S : forall g d x, forallb (fun i => Qeq_bool (nth i x 0) (g * value_at case_signal (Z.of_nat i - d))) (seq 0 (length x)) = true -> sees case_signal g d x).
  { intros g d x H i v E. rewrite forallb_forall in H. assert (I : (i < length x)%nat) by (apply nth_error_Some; congruence).
    specialize (H i ltac:(apply in_seq; lia)). apply Qeq_bool_iff in H. rewrite (nth_error_nth _ _ _ E) in H. exact H. }
  assert (S1 : sees case_signal 1 10 (case_record 1 10 60)) by (apply S; reflexivity). assert (I1 : inside case_signal 10 (case_record 1 10 60)) by (split; cbn; lia).
  assert (S2 : sees case_signal 3 17 (case_record 3 17 60)) by (apply S; reflexivity). assert (I2 : inside case_signal 17 (case_record 3 17 60)) by (split; cbn; lia).
  split; [exact S1|]. split; [exact I1|]. split; [exact S2|]. split; [exact I2|]. split; [reflexivity|]. split; [lia|].
  apply (C80_delayed case_root case_side case_signal 1 3 10 17 (case_record 1 10 60) (case_record 3 17 60) 20 case_root_ok eq_refl S1 I1 S2 I2); [split; reflexivity|reflexivity|reflexivity|reflexivity|lia].
Qed.
(** A silent record (every sample is 2) of 40 samples, shifts of up to 5 samples. *)
Example C80_silent_case : exists v, find_shift case_root (repeat 2 40) (case_record 3 17 40) 5 = ((-5)%Z, v) /\ v == 0.
Proof. apply C80_silent; [lia|reflexivity|exact case_root_ok|]. exists 2. apply Forall_forall. intros v I. apply repeat_spec in I. rewrite I. reflexivity. Qed.

(** The square root of squares, 0 elsewhere: exact multiples. *)
Definition case_squares (q : Q) : Q := if Qeq_bool (case_root q * case_root q) q then case_root q else 0.
Lemma case_squares_ok : (forall p q, p == q -> case_squares p == case_squares q) /\
  forall q p, 0 <= q -> 0 <= p -> case_squares (q * q * p) == q * case_squares p.
Proof.
  destruct case_root_ok as [RC RE].
  assert (C : forall p q, p == q -> case_squares p == case_squares q).
  { intros p q E. unfold case_squares. pose proof (RC p q E) as R.
    destruct (Qeq_bool (case_root p * case_root p) p) eqn:A, (Qeq_bool (case_root q * case_root q) q) eqn:B; try reflexivity; try exact R.
    - apply Qeq_bool_iff in A. rewrite R, E in A. apply Qeq_bool_iff in A. congruence.
    - apply Qeq_bool_iff in B. rewrite <- R, <- E in B. apply Qeq_bool_iff in B. congruence. }
  assert (SQ : forall r, 0 <= r -> case_squares (r * r) == r).
  { intros r P. unfold case_squares. pose proof (RE r P) as R. replace (Qeq_bool _ _) with true; [exact R|]. symmetry. apply Qeq_bool_iff. rewrite R. reflexivity. }
  assert (NN : forall q, 0 <= case_root q).
  { intros q. unfold case_root, Qle. cbn [Qnum Qden]. pose proof (Z.sqrt_nonneg (Qnum (Qred q))). lia. }
  split; [exact C|]. intros q p P Pp. destruct (Qeq_dec q 0) as [Z|Z].
  - rewrite (C _ (0 * 0)) by (rewrite Z; ring). rewrite SQ by lra. rewrite Z. ring.
  - unfold case_squares at 2. destruct (Qeq_bool (case_root p * case_root p) p) eqn:A.
    + apply Qeq_bool_iff in A. rewrite (C _ (q * case_root p * (q * case_root p))) by (rewrite <- A at 1; ring). apply SQ. specialize (NN p). nra.
    + unfold case_squares. destruct (Qeq_bool _ (q * q * p)) eqn:B; [|ring]. exfalso. apply Qeq_bool_iff in B. set (r := case_root (q * q * p)) in *.
      assert (E : p == r / q * (r / q)) by (transitivity (r * r / (q * q)); [rewrite B|]; field; exact Z).
      assert (X : case_root p == r / q) by (rewrite (RC _ _ E); apply RE; apply Qle_shift_div_l; [lra|specialize (NN (q * q * p)); fold r in NN; lra]).
      assert (case_root p * case_root p == p) by (rewrite X; symmetry; exact E). apply Qeq_bool_iff in H. congruence.
Qed.
(** A short record through a sensor that amplifies 2 times, with an offset and a drift. *)
Example C80_gain_case : rescaled 2 5 (1 # 10) [1; -(2); 1] (map (fun iv => 2 * snd iv + 5 + (1 # 10) * fst iv) (combine (positions [1; -(2); 1]) [1; -(2); 1])) /\
  rescaled 1 0 0 [2; -(4); 2] [2; -(4); 2] /\
  let a := prepared case_side [1; -(2); 1] in let c := prepared case_side [2; -(4); 2] in
  let norm := case_squares (dot (demean a) (demean a) * dot (demean c) (demean c)) in
  Qltb (1 # 2 ^ 52) norm = true /\ Qltb (1 # 2 ^ 52) (2 * 1 * norm) = true.
Proof.
  split; [|split; [|vm_compute; split; reflexivity]]; (split; [reflexivity|]); intros i v E.
  - assert (I : (i < length [1; -(2); 1]%Q)%nat) by (apply nth_error_Some; congruence).
    eexists. split; [apply map_nth_error, combine_nth_error; [apply positions_nth, I|exact E]|]. cbn [fst snd]. reflexivity.
  - exists v. split; [exact E|ring].
Qed.
(** A square root rounded up. *)
Example C80_coefficient_case : let root q := (Z.sqrt (Qnum q * QDen q) + 1) # Qden q in
  (forall q, 0 <= q -> q <= 1 * (root q * root q)) /\ root 2 == 2 /\ root (200 # 100) == 142 # 100.
Proof.
  split; [|split; reflexivity]. intros [n d] H. unfold Qle in *. cbn [Qnum Qden Qmult] in *.
  set (s := Z.sqrt (n * Zpos d)). assert (P : (0 <= n * Zpos d)%Z) by nia. pose proof (Z.sqrt_spec _ P) as [S1 S2]. fold s in S1, S2.
  unfold Z.succ in S2. rewrite !Pos2Z.inj_mul. destruct (s + 1)%Z eqn:K; rewrite <- ?K; try nia.
Qed.
Example C80_exchanged_case : Qltb (1 # 2 ^ 52) (case_root (dot (demean (case_record 1 2 10)) (demean (case_record 1 2 10)) * dot (demean (case_record 3 4 10)) (demean (case_record 3 4 10)))) = true /\
  forallb (fun j => Z.eqb j (-2) || Qltb (lagged (centred (case_record 1 2 10)) (centred (case_record 3 4 10)) j) (lagged (centred (case_record 1 2 10)) (centred (case_record 3 4 10)) (-2)))
    (map (fun i => Z.of_nat i - 4)%Z (seq 0 9)) = true.
Proof. split; vm_compute; reflexivity. Qed.

(** Without silence around the signal the lag may be wrong: of a tone of 2 samples that goes on all the time, the copy seen
    2 samples later is taken for one that is not delayed. *)
Theorem C80_continuing_refuted : exists a c d, length a = length c /\
  (forall i u, nth_error a i = Some u -> nth_error c (i + d) = Some u \/ (length a <= i + d)%nat) /\ (d <= 2)%nat /\
  fst (find_shift case_root (prepared case_side a) (prepared case_side c) 2) <> (- Z.of_nat d)%Z.
Proof.
  exists [1; -(1); 1; -(1)], [1; -(1); 1; -(1)], 2%nat. split; [reflexivity|]. split; [|split; [lia|vm_compute; discriminate]].
  intros i u E. destruct i as [|[|i]]; [left; exact E|left; exact E|right; cbn [length]; lia].
Qed.

(** A signal with opposite polarity at the second sensor. *)
Example C80_either_sign_case : sees case_signal (-(3)) 17 (case_record (-(3)) 17 60) /\ contained case_signal 17 (case_record (-(3)) 17 60) /\
  (1 # 2 ^ 52) < Qabs (1 * -(3)) * power case_signal.
Proof.
  split; [|split; [split; cbn; lia|reflexivity]]. intros i v E.
  assert (H : forallb (fun i => Qeq_bool (nth i (case_record (-(3)) 17 60) 0) (-(3) * value_at case_signal (Z.of_nat i - 17))) (seq 0 60) = true) by reflexivity.
  rewrite forallb_forall in H. assert (I : (i < length (case_record (-(3)) 17 60))%nat) by (apply nth_error_Some; congruence). change (length _) with 60%nat in I.
  specialize (H i ltac:(apply in_seq; lia)). apply Qeq_bool_iff in H. rewrite (nth_error_nth _ _ _ E) in H. exact H.
Qed.
(** Not so for the lags of [xcorr_function]: there an inverted copy is not found at its delay (here 0). *)
Theorem C80_polarity_refuted : exists w d x y, balanced w /\ sees w 1 d x /\ sees w (-(1)) d y /\ inside w d x /\ inside w d y /\ length x = length y /\
  fst (find_shift case_root (prepared case_side x) (prepared case_side y) 2) <> (d - d)%Z.
Proof.
  exists [1; -(2); 1], 0%Z, [1; -(2); 1; 0], [-(1); 2; -(1); 0].
  assert (S : forall g d x, forallb (fun i => Qeq_bool (nth i x 0) (g * value_at [1; -(2); 1] (Z.of_nat i - d))) (seq 0 (length x)) = true -> sees [1; -(2); 1] g d x).
  { intros g d x H i v E. rewrite forallb_forall in H. assert (I : (i < length x)%nat) by (apply nth_error_Some; congruence).
    specialize (H i ltac:(apply in_seq; lia)). apply Qeq_bool_iff in H. rewrite (nth_error_nth _ _ _ E) in H. exact H. }
  split; [split; reflexivity|]. split; [apply S; reflexivity|]. split; [apply S; reflexivity|]. split; [split; cbn; lia|]. split; [split; cbn; lia|]. split; [reflexivity|]. vm_compute. discriminate.
Qed.

Print Assumptions C80_delayed.
Print Assumptions C80_best.
Print Assumptions C80_silent.
Print Assumptions C80_coefficient.
Print Assumptions C80_gain.
Print Assumptions C80_exchanged.
Print Assumptions C80_continuing_refuted.
Print Assumptions C80_either_sign.
Print Assumptions C80_polarity_refuted.
