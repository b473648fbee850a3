From Coq Require Import String.
From Coq Require Import Reals List Bool Lia Lra.
From Verif Require Import Lib Base Scan Names NamesProofs Stations StationsProofs Gps GpsProofs Slowness SlownessProofs Bearing BearingSpec.
Import ListNotations.
Open Scope R_scope.

Local Arguments b : simpl never.

(** * Angles *)

Lemma arctan2_polar south still y x : south = PI \/ south = - PI ->
  let rho := sqrt (y * y + x * x) in
  y = rho * sin (arctan2 south still y x) /\ x = rho * cos (arctan2 south still y x).
Proof.
  intros SO rho.
  assert (RHO : x <> 0 -> rho = Rabs x * sqrt (1 + Rsqr (y / x))).
  { intros X. unfold rho. replace (y * y + x * x) with (Rsqr x * (1 + Rsqr (y / x))) by (unfold Rsqr; field; exact X).
    rewrite sqrt_mult_alt by apply Rle_0_sqr. rewrite sqrt_Rsqr_abs. reflexivity. }
  assert (SQ : 0 < sqrt (1 + Rsqr (y / x))) by (apply sqrt_lt_R0; pose proof (Rle_0_sqr (y / x)); lra).
  unfold arctan2. destruct (Rlt_dec 0 x) as [X|X].
  { rewrite sin_atan, cos_atan, RHO by lra. rewrite Rabs_pos_eq by lra. split; field; lra. }
  destruct (Rlt_dec 0 y) as [Y|Y].
  { destruct (Req_EM_T x 0) as [E|E].
    - rewrite sin_PI2, cos_PI2. unfold rho. rewrite E. split; [|ring]. replace (y * y + 0 * 0) with (y * y) by ring. rewrite sqrt_square; lra.
    - rewrite neg_sin, neg_cos, sin_atan, cos_atan, RHO by exact E. rewrite Rabs_left by lra. split; field; lra. }
  destruct (Rlt_dec y 0) as [Y'|Y'].
  { destruct (Req_EM_T x 0) as [E|E].
    - rewrite sin_neg, cos_neg, sin_PI2, cos_PI2. unfold rho. rewrite E. split; [|ring].
      replace (y * y + 0 * 0) with ((- y) * (- y)) by ring. rewrite sqrt_square; lra.
    - replace (atan (y / x) - PI) with (- (- atan (y / x) + PI)) by ring.
      rewrite sin_neg, cos_neg, neg_sin, neg_cos, sin_neg, cos_neg, sin_atan, cos_atan, RHO by exact E. rewrite Rabs_left by lra. split; field; lra. }
  assert (Y0 : y = 0) by lra. subst y. destruct (Req_EM_T x 0) as [E|E].
  { subst x. unfold rho. replace (0 * 0 + 0 * 0) with 0 by ring. rewrite sqrt_0. split; ring. }
  assert (R : rho = - x). { unfold rho. replace (0 * 0 + x * x) with ((- x) * (- x)) by ring. apply sqrt_square. lra. }
  rewrite R. destruct SO as [->| ->]; rewrite ?sin_neg, ?cos_neg, sin_PI, cos_PI; split; ring.
Qed.

Lemma abs_between x a : Rabs x <= a <-> - a <= x <= a.
Proof. unfold Rabs. destruct (Rcase_abs x); lra. Qed.

Lemma arctan2_range south still y x : Rabs south <= PI -> Rabs still <= PI -> Rabs (arctan2 south still y x) <= PI.
Proof.
  intros SO ST. pose proof PI_RGT_0 as P. pose proof (atan_bound (y / x)) as [A1 A2].
  unfold arctan2.
  destruct (Rlt_dec 0 x) as [X|X]; [apply Rabs_le; lra|].
  assert (D : x <> 0 -> / x < 0) by (intros; apply Rinv_lt_0_compat; lra).
  destruct (Rlt_dec 0 y) as [Y|Y]; [destruct (Req_EM_T x 0) as [E|E]; [apply Rabs_le; lra|]|].
  { specialize (D E). assert (atan (y / x) < atan 0) by (apply atan_increasing; unfold Rdiv; nra). rewrite atan_0 in *. apply Rabs_le; lra. }
  destruct (Rlt_dec y 0) as [Y'|Y']; [destruct (Req_EM_T x 0) as [E|E]; [apply Rabs_le; lra|]|].
  { specialize (D E). assert (atan 0 < atan (y / x)) by (apply atan_increasing; unfold Rdiv; nra). rewrite atan_0 in *. apply Rabs_le; lra. }
  destruct (Req_EM_T x 0); assumption.
Qed.

Lemma tan_shift t : cos t <> 0 -> tan (t - PI) = tan t.
Proof.
  intros C. unfold tan. replace (sin (t - PI)) with (- sin t) by (rewrite sin_minus, sin_PI, cos_PI; ring).
  replace (cos (t - PI)) with (- cos t) by (rewrite cos_minus, sin_PI, cos_PI; ring). field. exact C.
Qed.

Lemma arctan2_angle south still r t : 0 < r -> - PI < t < PI -> arctan2 south still (r * sin t) (r * cos t) = t.
Proof.
  intros R [T1 T2]. pose proof PI_RGT_0 as P. unfold arctan2.
  destruct (Rlt_dec 0 (r * cos t)) as [X|X].
  { assert (C : 0 < cos t) by nra. replace (r * sin t / (r * cos t)) with (tan t) by (unfold tan; field; lra).
    apply atan_tan. split; apply Rnot_le_lt; intros H.
    - pose proof (cos_le_0 (- t)) as L. rewrite cos_neg in L. lra.
    - pose proof (cos_le_0 t). lra. }
  assert (C : cos t <= 0) by nra.
  assert (O : PI / 2 <= t \/ t <= - (PI / 2)).
  { destruct (Rle_lt_dec (PI / 2) t); [left; assumption|]. destruct (Rle_lt_dec t (- (PI / 2))); [right; assumption|].
    pose proof (cos_gt_0 t). lra. }
  destruct O as [O|O].
  - assert (SI : 0 < sin t) by (apply sin_gt_0; lra).
    destruct (Rlt_dec 0 (r * sin t)) as [Y|Y]; [|exfalso; apply Y; nra].
    destruct (Req_EM_T (r * cos t) 0) as [E|E].
    + assert (Z : cos t = 0) by nra. destruct (Rle_lt_or_eq_dec _ _ O) as [L|L]; [|lra].
      pose proof (cos_lt_0 t). lra.
    + assert (N : cos t <> 0) by (intros H; apply E; rewrite H; ring).
      replace (r * sin t / (r * cos t)) with (tan t) by (unfold tan; field; lra).
      destruct (Rle_lt_or_eq_dec _ _ O) as [L|L]; [|rewrite <- L, cos_PI2 in N; lra].
      rewrite <- (tan_shift t N), atan_tan by lra. ring.
  - assert (SI : sin t < 0).
    { pose proof (sin_gt_0 (- t)) as H. rewrite sin_neg in H. lra. }
    destruct (Rlt_dec 0 (r * sin t)) as [Y|Y]; [exfalso; nra|].
    destruct (Rlt_dec (r * sin t) 0) as [Y'|Y']; [|exfalso; apply Y'; nra].
    destruct (Req_EM_T (r * cos t) 0) as [E|E].
    + assert (Z : cos t = 0) by nra. destruct (Rle_lt_or_eq_dec _ _ O) as [L|L]; [|lra].
      pose proof (cos_lt_0 (- t)) as H. rewrite cos_neg in H. lra.
    + assert (N : cos t <> 0) by (intros H; apply E; rewrite H; ring).
      replace (r * sin t / (r * cos t)) with (tan t) by (unfold tan; field; lra).
      destruct (Rle_lt_or_eq_dec _ _ O) as [L|L]; [|rewrite L, cos_neg, cos_PI2 in N; lra].
      replace (tan t) with (tan (t + PI)).
      * rewrite atan_tan by lra. ring.
      * rewrite <- (tan_shift (t + PI)); [f_equal; ring|]. rewrite neg_cos. lra.
Qed.

(** The slowness vector of a wave. *)
Definition vector (az s : R) : R * R := (- (s * sin (radians az)), - (s * cos (radians az))).

Lemma bearing_vector south still v az s : south = PI \/ south = - PI -> bearing_of south still v = (az, s) -> v = vector az s /\ 0 <= s.
Proof.
  intros SO H. unfold bearing_of in H. injection H as <- <-. destruct v as [x y]. cbn [fst snd].
  pose proof PI_RGT_0 as P. destruct (arctan2_polar south still (- x) (- y) SO) as [E1 E2].
  replace (- x * - x + - y * - y) with (x * x + y * y) in E1, E2 by ring.
  split; [|apply sqrt_pos]. unfold vector, radians.
  replace (arctan2 south still (- x) (- y) * 180 / PI * PI / 180) with (arctan2 south still (- x) (- y)) by (field; lra).
  f_equal; lra.
Qed.

Lemma bearing_range south still v : Rabs south <= PI -> Rabs still <= PI -> Rabs (fst (bearing_of south still v)) <= 180.
Proof.
  intros SO ST. pose proof PI_RGT_0 as P. cbn [bearing_of fst]. pose proof (arctan2_range south still (- fst v) (- snd v) SO ST) as A.
  apply abs_between in A. apply abs_between.
  assert (Q : forall t, t * 180 / PI = t * (180 / PI)) by (intros; field; lra). rewrite Q.
  assert (K : 0 < 180 / PI) by (apply Rdiv_lt_0_compat; lra). assert (KP : PI * (180 / PI) = 180) by (field; lra). nra.
Qed.

Lemma bearing_exact south still az s : 0 < s -> -180 < az < 180 -> bearing_of south still (vector az s) = (az, s).
Proof.
  intros SP AZ. pose proof PI_RGT_0 as P. unfold bearing_of, vector. cbn [fst snd]. rewrite !Ropp_involutive.
  rewrite arctan2_angle; [|exact SP|].
  - f_equal; [unfold radians; field; lra|].
    replace (- (s * sin (radians az)) * - (s * sin (radians az)) + - (s * cos (radians az)) * - (s * cos (radians az)))
      with (s * s * (Rsqr (sin (radians az)) + Rsqr (cos (radians az)))) by (unfold Rsqr; ring).
    rewrite sin2_cos2, Rmult_1_r. apply sqrt_square. lra.
  - unfold radians. assert (K : az * PI / 180 = PI * (az / 180)) by field. rewrite K. nra.
Qed.

Lemma bearing_south south still az s : south = PI \/ south = - PI -> 0 < s -> az = 180 \/ az = -180 ->
  (fst (bearing_of south still (vector az s)) = 180 \/ fst (bearing_of south still (vector az s)) = -180) /\
  snd (bearing_of south still (vector az s)) = s.
Proof.
  intros SO SP AZ. pose proof PI_RGT_0 as P.
  assert (V : vector az s = (0, s)).
  { unfold vector, radians. destruct AZ as [->| ->].
    - replace (180 * PI / 180) with PI by field. rewrite sin_PI, cos_PI. f_equal; ring.
    - replace (-180 * PI / 180) with (- PI) by field. rewrite sin_neg, cos_neg, sin_PI, cos_PI. f_equal; ring. }
  rewrite V. unfold bearing_of. cbn [fst snd]. split.
  - unfold arctan2. destruct (Rlt_dec 0 (- s)); [lra|]. destruct (Rlt_dec 0 (- 0)); [lra|]. destruct (Rlt_dec (- 0) 0); [lra|].
    destruct (Req_EM_T (- s) 0); [lra|]. destruct SO as [->| ->]; [left|right]; field; lra.
  - replace (0 * 0 + s * s) with (s * s) by ring. apply sqrt_square. lra.
Qed.

(** * Sums *)

Lemma rsum_sq {A} (f : A -> R) l : 0 <= rsum (map (fun x => f x * f x) l).
Proof. induction l as [|x l IH]; cbn; [lra|]. unfold rsum in IH. assert (P : 0 <= f x * f x) by nra. lra. Qed.
Lemma rsum_sq_zero {A} (f : A -> R) l : rsum (map (fun x => f x * f x) l) = 0 -> Forall (fun x => f x = 0) l.
Proof.
  induction l as [|x l IH]; intros H; [constructor|]. cbn in H. pose proof (rsum_sq f l) as S. unfold rsum in S.
  assert (P : 0 <= f x * f x) by nra.
  constructor.
  - assert (Z : f x * f x = 0) by lra. destruct (Rmult_integral _ _ Z); assumption.
  - apply IH. unfold rsum. lra.
Qed.

Definition ra (g : list (R * R)) := rsum (map (fun r => fst r * fst r) g).
Definition rh (g : list (R * R)) := rsum (map (fun r => fst r * snd r) g).
Definition rc (g : list (R * R)) := rsum (map (fun r => snd r * snd r) g).
Definition rdet (g : list (R * R)) := ra g * rc g - rh g * rh g.
Definition ru (g : list (R * R)) (t : list R) := rsum (map (fun rt => fst (fst rt) * snd rt) (combine g t)).
Definition rv (g : list (R * R)) (t : list R) := rsum (map (fun rt => snd (fst rt) * snd rt) (combine g t)).

Lemma rsolve_eq g t : rsolve g t = if Req_EM_T (rdet g) 0 then None
  else Some ((rc g * ru g t - rh g * rv g t) / rdet g, (ra g * rv g t - rh g * ru g t) / rdet g).
Proof. reflexivity. Qed.
Lemma rsolve_none g t : rsolve g t = None <-> rdet g = 0.
Proof. rewrite rsolve_eq. destruct (Req_EM_T (rdet g) 0) as [E|E]; split; auto; [discriminate|contradiction]. Qed.
Lemma rsolve_some g t : (exists s, rsolve g t = Some s) <-> rdet g <> 0.
Proof.
  rewrite rsolve_eq. destruct (Req_EM_T (rdet g) 0) as [E|E]; split; auto; [intros [s H]; discriminate|contradiction|].
  intros _. eexists; reflexivity.
Qed.

Lemma rsolve_normal g t x y : rsolve g t = Some (x, y) ->
  rdet g <> 0 /\ ra g * x + rh g * y = ru g t /\ rh g * x + rc g * y = rv g t.
Proof.
  rewrite rsolve_eq. destruct (Req_EM_T (rdet g) 0) as [E|E]; [discriminate|]. intros H. injection H as <- <-.
  split; [exact E|]. unfold rdet in *. split; field; exact E.
Qed.
Lemma rnormal_unique g x y x' y' : rdet g <> 0 ->
  ra g * x + rh g * y = ra g * x' + rh g * y' -> rh g * x + rc g * y = rh g * x' + rc g * y' -> x = x' /\ y = y'.
Proof.
  intros N H1 H2. unfold rdet in N.
  assert (E1 : (ra g * rc g - rh g * rh g) * (x - x') = 0).
  { replace ((ra g * rc g - rh g * rh g) * (x - x')) with
      (rc g * (ra g * x + rh g * y - (ra g * x' + rh g * y')) - rh g * (rh g * x + rc g * y - (rh g * x' + rc g * y'))) by ring.
    rewrite H1, H2. ring. }
  assert (E2 : (ra g * rc g - rh g * rh g) * (y - y') = 0).
  { replace ((ra g * rc g - rh g * rh g) * (y - y')) with
      (ra g * (rh g * x + rc g * y - (rh g * x' + rc g * y')) - rh g * (ra g * x + rh g * y - (ra g * x' + rh g * y'))) by ring.
    rewrite H1, H2. ring. }
  split.
  - destruct (Rmult_integral _ _ E1); [contradiction|]. lra.
  - destruct (Rmult_integral _ _ E2); [contradiction|]. lra.
Qed.

Lemma rexact_sums g t x y : Forall2 (fun r v => v = x * fst r + y * snd r) g t ->
  ru g t = ra g * x + rh g * y /\ rv g t = rh g * x + rc g * y.
Proof.
  intros F. unfold ru, rv, ra, rh, rc. induction F as [|r v g t E F [I1 I2]]; [split; cbn; ring|].
  cbn [combine map fold_right rsum fst snd]. unfold rsum in *. rewrite I1, I2, E. split; ring.
Qed.

Lemma rquad g p q : rsum (map (fun r : R * R => (p * fst r + q * snd r) * (p * fst r + q * snd r)) g) =
  ra g * p * p + 2 * rh g * p * q + rc g * q * q.
Proof. unfold ra, rh, rc. induction g as [|r g IH]; cbn; [ring|]. unfold rsum in IH. rewrite IH. ring. Qed.

Lemma rdet_zero g : rdet g = 0 <-> exists p q, ~ (p = 0 /\ q = 0) /\ Forall (fun r => p * fst r + q * snd r = 0) g.
Proof.
  split.
  - intros D. unfold rdet in D.
    assert (X : exists p q, ~ (p = 0 /\ q = 0) /\ p * ra g + q * rh g = 0 /\ p * rh g + q * rc g = 0).
    { destruct (Req_EM_T (ra g) 0) as [A|A]; [destruct (Req_EM_T (rh g) 0) as [B|B]|].
      - exists 1, 0. split; [intros [H _]; lra|]. rewrite A, B. split; ring.
      - exists (rh g), (- ra g). split; [intros [H _]; contradiction|]. split; [ring|lra].
      - exists (rh g), (- ra g). split; [intros [_ H]; apply A; lra|]. split; [ring|lra]. }
    destruct X as (p & q & N & E1 & E2). exists p, q. split; [exact N|]. apply (rsum_sq_zero (fun r : R * R => p * fst r + q * snd r)).
    rewrite rquad. replace (ra g * p * p + 2 * rh g * p * q + rc g * q * q) with (p * (p * ra g + q * rh g) + q * (p * rh g + q * rc g)) by ring.
    rewrite E1, E2. ring.
  - intros (p & q & N & F).
    assert (E1 : p * ra g + q * rh g = 0).
    { unfold ra, rh. clear N. induction F as [|r g H F IH]; cbn; [ring|]. unfold rsum in IH.
      replace (p * (fst r * fst r + fold_right Rplus 0 (map (fun r0 => fst r0 * fst r0) g)) + q * (fst r * snd r + fold_right Rplus 0 (map (fun r0 => fst r0 * snd r0) g)))
        with (fst r * (p * fst r + q * snd r) + (p * fold_right Rplus 0 (map (fun r0 => fst r0 * fst r0) g) + q * fold_right Rplus 0 (map (fun r0 => fst r0 * snd r0) g))) by ring.
      rewrite IH, H. ring. }
    assert (E2 : p * rh g + q * rc g = 0).
    { unfold rc, rh. clear N E1. induction F as [|r g H F IH]; cbn; [ring|]. unfold rsum in IH.
      replace (p * (fst r * snd r + fold_right Rplus 0 (map (fun r0 => fst r0 * snd r0) g)) + q * (snd r * snd r + fold_right Rplus 0 (map (fun r0 => snd r0 * snd r0) g)))
        with (snd r * (p * fst r + q * snd r) + (p * fold_right Rplus 0 (map (fun r0 => fst r0 * snd r0) g) + q * fold_right Rplus 0 (map (fun r0 => snd r0 * snd r0) g))) by ring.
      rewrite IH, H. ring. }
    unfold rdet.
    assert (P1 : p * (ra g * rc g - rh g * rh g) = 0).
    { replace (p * (ra g * rc g - rh g * rh g)) with (rc g * (p * ra g + q * rh g) - rh g * (p * rh g + q * rc g)) by ring. rewrite E1, E2. ring. }
    assert (P2 : q * (ra g * rc g - rh g * rh g) = 0).
    { replace (q * (ra g * rc g - rh g * rh g)) with (ra g * (p * rh g + q * rc g) - rh g * (p * ra g + q * rh g)) by ring. rewrite E1, E2. ring. }
    destruct (Rmult_integral _ _ P1) as [Z1|Z1]; [|exact Z1]. destruct (Rmult_integral _ _ P2) as [Z2|Z2]; [|exact Z2].
    exfalso. apply N. auto.
Qed.

Lemma rrows_cons p q r : rrows (p :: q :: r) = (fst p - fst q, snd p - snd q) :: rrows (q :: r).
Proof. reflexivity. Qed.

Lemma line_rows ps : on_a_line ps <-> rdet (rrows ps) = 0.
Proof.
  rewrite rdet_zero. split.
  - intros (p & q & c & N & F). exists p, q. split; [exact N|]. induction F as [|x ps H F IH]; [constructor|].
    destruct ps as [|y ps]; [constructor|]. rewrite rrows_cons. constructor; [|exact IH]. inversion F; subst. cbn [fst snd]. lra.
  - intros (p & q & N & F). destruct ps as [|x ps]; [exists p, q, 0; split; [exact N|constructor]|].
    exists p, q, (p * fst x + q * snd x). split; [exact N|]. constructor; [reflexivity|].
    revert x F. induction ps as [|y ps IH]; intros x F; [constructor|]. rewrite rrows_cons in F. inversion F as [|? ? H F']; subst. cbn [fst snd] in H.
    constructor; [lra|]. specialize (IH y F'). rewrite Forall_forall in IH |- *. intros z Z. specialize (IH z Z). lra.
Qed.

(** Lags of a wave are G times its vector. *)
Lemma wave_rows az s ps lags : lags_of_wave az s ps lags ->
  Forall2 (fun r v => v = fst (vector az s) * fst r + snd (vector az s) * snd r) (rrows ps) lags.
Proof.
  intros H. induction H as [|x|x y r t l E H IH]; [constructor|constructor|]. rewrite rrows_cons. constructor; [|exact IH].
  cbn [fst snd vector]. rewrite E. unfold reaches. ring.
Qed.
Lemma wave_exists az s ps : exists lags, lags_of_wave az s ps lags /\ length lags = length (rrows ps).
Proof.
  induction ps as [|x ps (l & H & L)]; [exists []; split; [constructor|reflexivity]|].
  destruct ps as [|y ps]; [exists []; split; [constructor|reflexivity]|].
  eexists (_ :: l). split; [constructor; [reflexivity|exact H]|]. rewrite rrows_cons. cbn [length]. rewrite L. reflexivity.
Qed.

Definition rrss (v : R * R) (g : list (R * R)) (t : list R) : R :=
  rsum (map (fun rt : (R * R) * R => (fst v * fst (fst rt) + snd v * snd (fst rt) - snd rt) * (fst v * fst (fst rt) + snd v * snd (fst rt) - snd rt)) (combine g t)).
Lemma rrss_expand s g t : length g = length t ->
  rrss s g t = ra g * fst s * fst s + 2 * rh g * fst s * snd s + rc g * snd s * snd s
    - 2 * ru g t * fst s - 2 * rv g t * snd s + rsum (map (fun x => x * x) t).
Proof.
  unfold rrss, ra, rh, rc, ru, rv. revert t. induction g as [|r g IH]; intros [|v t] L; cbn in L; try discriminate; [cbn; ring|].
  specialize (IH t ltac:(lia)). cbn [combine map rsum fold_right fst snd] in IH |- *. unfold rsum in IH. cbn [fst snd] in IH. rewrite IH. ring.
Qed.
Lemma rrss_pos s g t : 0 <= rrss s g t.
Proof. unfold rrss. apply (rsum_sq (fun rt : (R * R) * R => fst s * fst (fst rt) + snd s * snd (fst rt) - snd rt)). Qed.

(** Pythagoras. *)
Lemma rsolve_splits g t v s : length g = length t -> rsolve g t = Some v ->
  rrss s g t = rrss v g t + (ra g * (fst s - fst v) * (fst s - fst v) + 2 * rh g * (fst s - fst v) * (snd s - snd v) + rc g * (snd s - snd v) * (snd s - snd v)).
Proof.
  intros L E. destruct v as [x y], s as [x' y']. destruct (rsolve_normal g t x y E) as (_ & N1 & N2).
  rewrite !(rrss_expand _ _ _ L). cbn [fst snd]. rewrite <- N1, <- N2. ring.
Qed.

Lemma squares_rrss az s ps lags exact m : lags_of_wave az s ps exact -> squares_between lags exact m ->
  m = rrss (vector az s) (rrows ps) lags /\ length (rrows ps) = length lags.
Proof.
  intros W SQ. apply wave_rows in W. revert lags m SQ. induction W as [|r e g ex E W IH]; intros lags m SQ.
  - inversion SQ; subst. split; reflexivity.
  - inversion SQ as [|t e' l r' m' SQ']; subst. destruct (IH l m' SQ') as [-> L]. split; [|cbn [length]; rewrite L; reflexivity].
    unfold rrss. cbn [combine map rsum fold_right fst snd]. fold (rsum). unfold rsum. ring.
Qed.

(** * Tables *)
Lemma table_names ids first rest l : ids = first :: rest -> station_columns first ids l -> l = pair_items first ids.
Proof.
  intros _ H. induction H as [i|i j r l H IH]; [reflexivity|]. rewrite IH. reflexivity.
Qed.
Lemma table_ids ids d : xcorr_table ids d -> Forall simple_id ids -> ids <> [] /\ short_ids (map fst d) = Some ids /\ map fst d = b "t_mid" :: item_names ids.
Proof.
  intros (_ & first & rest & l & E & SC & K) F. rewrite (table_names _ _ _ _ E SC) in K.
  assert (K' : map fst d = b "t_mid" :: item_names ids).
  { rewrite K. unfold item_names. rewrite E. reflexivity. }
  split; [rewrite E; discriminate|]. split; [|exact K']. rewrite K'. apply short_ids_table; [rewrite E; discriminate|exact F].
Qed.

Lemma rcol_in d k c : NoDup (map fst d) -> In (k, c) d -> rcol d k = Some c.
Proof.
  induction d as [|[n x] d IH]; intros ND H; [destruct H|]. cbn in ND. inversion ND as [|? ? N ND']; subst. cbn [rcol].
  destruct H as [H|H].
  - injection H as -> ->. rewrite (proj2 (eqb_bytes_iff k k) eq_refl). reflexivity.
  - destruct (eqb_bytes n k) eqn:E; [|apply IH; assumption]. apply eqb_bytes_iff in E. subst. exfalso. apply N.
    apply (in_map fst) in H. exact H.
Qed.
Lemma rlocate_in ls i p : NoDup (map fst ls) -> In (i, p) ls -> rlocate ls i = Some p.
Proof.
  induction ls as [|[n x] ls IH]; intros ND H; [destruct H|]. cbn in ND. inversion ND as [|? ? N ND']; subst. cbn [rlocate].
  destruct H as [H|H].
  - injection H as -> ->. rewrite (proj2 (eqb_bytes_iff i i) eq_refl). reflexivity.
  - destruct (eqb_bytes n i) eqn:E; [|apply IH; assumption]. apply eqb_bytes_iff in E. subst. exfalso. apply N.
    apply (in_map fst) in H. exact H.
Qed.
Lemma rlocate_all_in ls ids ps : NoDup (map fst ls) -> Forall2 (fun i p => In (i, p) ls) ids ps -> rlocate_all ls ids = Some ps.
Proof. intros ND F. induction F as [|i p ids ps H F IH]; [reflexivity|]. cbn. rewrite (rlocate_in ls i p ND H), IH. reflexivity. Qed.
Lemma rlocate_some ls i p : rlocate ls i = Some p -> In (i, p) ls.
Proof.
  induction ls as [|[n x] ls IH]; [discriminate|]. cbn [rlocate]. destruct (eqb_bytes n i) eqn:E.
  - intros H. injection H as ->. apply eqb_bytes_iff in E. subst. left. reflexivity.
  - intros H. right. apply IH. exact H.
Qed.
Lemma rlocate_all_some ls ids ps : rlocate_all ls ids = Some ps -> Forall2 (fun i p => In (i, p) ls) ids ps.
Proof.
  revert ps. induction ids as [|i ids IH]; intros ps H; cbn in H; [injection H as <-; constructor|].
  destruct (rlocate ls i) as [p|] eqn:E; [|discriminate H]. destruct (rlocate_all ls ids) as [l|]; [|discriminate H].
  injection H as <-. constructor; [apply rlocate_some; exact E|apply IH; reflexivity].
Qed.
Lemma rcol_exists d k : In k (map fst d) -> exists c, rcol d k = Some c.
Proof.
  induction d as [|[n x] d IH]; intros H; [destruct H|]. cbn [rcol]. destruct (eqb_bytes n k) eqn:E; [eexists; reflexivity|].
  destruct H as [H|H]; [cbn in H; subst; rewrite (proj2 (eqb_bytes_iff k k) eq_refl) in E; discriminate E|]. apply IH. exact H.
Qed.
Lemma rcolumns_exist d ids : map fst d = b "t_mid" :: item_names ids -> exists cs, rlag_columns d (lag_keys ids) = Some cs.
Proof.
  intros K. assert (F : forall k, In k (lag_keys ids) -> In k (map fst d)).
  { intros k H. rewrite K. right. right. apply in_or_app. left. apply lag_keys_in. exact H. }
  induction (lag_keys ids) as [|k ks IH]; [eexists; reflexivity|]. cbn.
  destruct (rcol_exists d k (F k (or_introl eq_refl))) as (c & ->). destruct IH as (cs & ->); [|eexists; reflexivity].
  intros k' H. apply F. right. exact H.
Qed.
Lemma lags_line d w ids ps lags : NoDup (map fst d) -> length ids = length ps ->
  adjacent (lag_in d w) (combine ids ps) lags ->
  exists cs, rlag_columns d (lag_keys ids) = Some cs /\ rline cs w = Some lags /\ length (rrows ps) = length lags.
Proof.
  intros ND. revert ps lags. induction ids as [|i ids IH]; intros [|p ps] lags L H; try discriminate L.
  - inversion H; subst. exists []. auto.
  - destruct ids as [|j ids], ps as [|q ps]; try discriminate L.
    + inversion H; subst. exists []. auto.
    + cbn [combine] in H. inversion H as [| |? ? ? t l (c & C1 & C2) H']; subst. cbn [fst] in C1.
      destruct (IH (q :: ps) l ltac:(cbn in L |- *; lia) H') as (cs & E1 & E2 & E3). exists (c :: cs).
      change (lag_keys (i :: j :: ids)) with ((b "lag_" ++ i ++ b "_" ++ j) :: lag_keys (j :: ids)).
      cbn [rlag_columns rline]. rewrite (rcol_in d _ c ND C1), E1, C2, E2. split; [reflexivity|]. split; [reflexivity|].
      rewrite rrows_cons. cbn [length]. rewrite E3. reflexivity.
Qed.

(** The result for a line with its lags. *)
Lemma directions_line south still d n ls ids ps w lags :
  xcorr_table ids d -> Forall simple_id ids -> NoDup (map fst ls) -> Forall2 (fun i p => In (i, p) ls) ids ps ->
  ~ on_a_line ps -> (w < n)%nat -> adjacent (lag_in d w) (combine ids ps) lags ->
  exists res v, find_directions south still d n ls = Some res /\ length res = n /\
    nth_error res w = Some (Some (bearing_of south still v)) /\ rsolve (rrows ps) lags = Some v /\ length (rrows ps) = length lags.
Proof.
  intros T F L P C W NB. pose proof (Forall2_length_eq _ _ _ P) as LEN.
  destruct (table_ids ids d T F) as (N & E1 & _). destruct T as (ND & _).
  destruct (lags_line d w ids ps lags ND LEN NB) as (cs & E3 & E4 & E5).
  unfold find_directions. rewrite E1, (rlocate_all_in ls ids ps L P), E3. destruct ids as [|i0 ids]; [congruence|].
  rewrite line_rows in C.
  destruct (proj2 (rsolve_some (rrows ps) (map (fun _ => 0) (rrows ps))) C) as (s0 & ->).
  destruct (proj2 (rsolve_some (rrows ps) lags) C) as (v & V).
  eexists. exists v. split; [reflexivity|]. split; [rewrite map_length, seq_length; reflexivity|].
  split; [|split; [exact V|exact E5]].
  erewrite map_nth_error; [|apply (nth_error_nth' _ 0%nat); rewrite seq_length; exact W].
  rewrite seq_nth by exact W. cbn [plus]. rewrite E4, V. reflexivity.
Qed.
