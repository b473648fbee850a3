(** The slopes solve the equations, and the equations have no other solution. *)
From Coq Require Import ZArith QArith Qreduction List Bool Lia Lqa.
From Verif Require Import Base UnwrapSpec Process Spline SplineSpec.
Import ListNotations.
Open Scope Q_scope.

(** ** Elimination *)
Fixpoint solves (prev : Q) (rows : list row) (ss : list Q) : Prop :=
  match rows, ss with
  | [], [] => True
  | r :: rows', s :: ss' => r_before r * prev + r_here r * s + r_after r * hd 0 ss' == r_right r /\ solves s rows' ss'
  | _, _ => False
  end.
Fixpoint regular (c : Q) (rows : list row) : Prop :=
  match rows with
  | [] => True
  | r :: rows' => ~ r_here r - r_before r * c == 0 /\ regular (Qred (r_after r / (r_here r - r_before r * c))) rows'
  end.
Lemma solves_compat rows : forall prev prev' ss ss', prev == prev' -> Forall2 Qeq ss ss' -> solves prev rows ss -> solves prev' rows ss'.
Proof.
  induction rows as [|r rows IH]; intros prev prev' ss ss' E F S; destruct F as [|s s' ss ss' Es F]; cbn [solves] in *; try contradiction; [exact I|].
  destruct S as [S1 S2]. split; [|apply (IH _ _ _ _ Es F S2)].
  assert (H : hd 0 ss == hd 0 ss') by (destruct F; [reflexivity|assumption]). rewrite <- E, <- Es, <- H. exact S1.
Qed.
Lemma eliminate_solves rows : forall c d, regular c rows -> solves (d - c * hd 0 (eliminate c d rows)) rows (eliminate c d rows).
Proof.
  induction rows as [|r rows IH]; intros c d R; [exact I|]. destruct R as [N R]. cbn [eliminate solves hd].
  set (p := r_here r - r_before r * c) in *. set (c' := Qred (r_after r / p)) in *. set (d' := Qred ((r_right r - r_before r * d) / p)).
  set (ss := eliminate c' d' rows). pose proof (IH c' d' R) as S. fold ss in S.
  assert (E : Qred (d' - c' * hd 0 ss) == d' - c' * hd 0 ss) by apply Qred_correct. split.
  - rewrite E. unfold d', c'. rewrite !Qred_correct. set (h := hd 0 ss). unfold p in *. field. exact N.
  - apply (solves_compat rows (d' - c' * hd 0 ss) _ ss ss); [symmetry; exact E| |exact S]. clear. induction ss; constructor; [reflexivity|assumption].
Qed.
Lemma eliminate_only rows : forall c d prev ss, regular c rows -> solves prev rows ss -> prev == d - c * hd 0 ss -> Forall2 Qeq (eliminate c d rows) ss.
Proof.
  induction rows as [|r rows IH]; intros c d prev [|s ss] R S E; cbn [solves] in S; try contradiction; [constructor|].
  destruct R as [N R]. destruct S as [S1 S2]. cbn [eliminate]. cbn [hd] in E.
  set (p := r_here r - r_before r * c) in *. set (c' := Qred (r_after r / p)) in *. set (d' := Qred ((r_right r - r_before r * d) / p)).
  assert (Es : s == d' - c' * hd 0 ss).
  { unfold d', c'. rewrite !Qred_correct. rewrite <- S1, E. set (h := hd 0 ss). unfold p in *. field. exact N. }
  pose proof (IH c' d' s ss R S2 Es) as F. constructor; [|exact F].
  rewrite Qred_correct, Es. assert (H : hd 0 (eliminate c' d' rows) == hd 0 ss) by (destruct F; [reflexivity|assumption]). rewrite H. reflexivity.
Qed.
Lemma eliminate_length rows : forall c d, length (eliminate c d rows) = length rows.
Proof. induction rows as [|r rows IH]; intros c d; [reflexivity|]. cbn [eliminate length]. rewrite IH. reflexivity. Qed.

Lemma Forall2_refl_Qeq l : Forall2 Qeq l l.
Proof. induction l; constructor; [reflexivity|assumption]. Qed.

(** ** The equations are regular *)
Lemma gap_pos p q : fst p < fst q -> 0 < gap p q.
Proof. unfold gap. lra. Qed.
Lemma gap_sum p q r : gap p r == gap p q + gap q r.
Proof. unfold gap. ring. Qed.
Lemma div_bounds a p : 0 <= a -> a < p -> 0 <= a / p /\ a / p < 1.
Proof. intros A P. split; [apply Qle_shift_div_l; lra|apply Qlt_shift_div_r; lra]. Qed.
Lemma div_pos a p : 0 < a -> 0 < p -> 0 < a / p.
Proof. intros A P. apply Qlt_shift_div_l; lra. Qed.
Lemma inner_regular l : forall p q c, l <> [] -> chain Qlt (map fst (p :: q :: l)) -> 0 <= c <= 1 -> regular c (inner_rows p q l).
Proof.
  induction l as [|r l IH]; intros p q c Ne C B; [contradiction Ne; reflexivity|]. cbn [map fst chain] in C. destruct C as (C1 & C2 & C3).
  pose proof (gap_pos _ _ C1) as G1. pose proof (gap_pos _ _ C2) as G2.
  cbn [inner_rows]. cbn [regular inner_row r_here r_before r_after].
  assert (P0 : gap p q + gap q r <= 2 * (gap p q + gap q r) - gap q r * c) by nra.
  set (pv := 2 * (gap p q + gap q r) - gap q r * c) in *. split; [lra|].
  destruct (div_bounds (gap p q) pv) as [D0 D1]; [lra|lra|]. destruct l as [|r' l].
  - cbn [regular last_row r_here r_before r_after]. split; [|exact I]. rewrite Qred_correct. rewrite (gap_sum p q r).
    assert (E : gap p q - (gap p q + gap q r) * (gap p q / pv) == gap p q * (pv - (gap p q + gap q r)) / pv) by (field; lra).
    rewrite E. assert (Ps : gap p q + gap q r < pv) by (unfold pv; nra). pose proof (div_pos (gap p q * (pv - (gap p q + gap q r))) pv ltac:(nra) ltac:(lra)). lra.
  - apply IH; [discriminate|exact (conj C2 C3)|]; rewrite Qred_correct; lra.
Qed.

Lemma equations_regular pts : (3 <= length pts)%nat -> chain Qlt (map fst pts) -> regular 0 (equations pts).
Proof.
  intros L C. destruct pts as [|p [|q [|r l]]]; cbn [length] in L; try lia. cbn [map fst chain] in C. destruct C as (C1 & C2 & C3).
  pose proof (gap_pos _ _ C1) as G1. pose proof (gap_pos _ _ C2) as G2. destruct l as [|r' l].
  - cbn [equations regular inner_row r_here r_before r_after]. split; [lra|]. split; [rewrite Qred_correct; setoid_replace (1 / (1 - 0 * 0)) with 1 by reflexivity; lra|].
    split; [|exact I]. rewrite !Qred_correct. setoid_replace (1 / (1 - 0 * 0)) with 1 by reflexivity.
    assert (D : 0 < 2 * (gap p q + gap q r) - gap q r * 1) by lra. pose proof (div_bounds (gap p q) _ ltac:(lra) ltac:(eapply Qlt_le_trans; [|apply (Qle_refl (2 * (gap p q + gap q r) - gap q r * 1))]; lra)). lra.
  - change (equations (p :: q :: r :: r' :: l)) with (first_row p q r :: inner_row p q r :: inner_rows q r (r' :: l)).
    cbn [regular first_row inner_row r_here r_before r_after]. split; [lra|].
    assert (E : Qred (gap p r / (gap q r - 0 * 0)) == (gap p q + gap q r) / gap q r) by (rewrite Qred_correct, (gap_sum p q r); field; lra).
    assert (E2 : 2 * (gap p q + gap q r) - gap q r * Qred (gap p r / (gap q r - 0 * 0)) == gap p q + gap q r) by (rewrite E; field; lra).
    split; [lra|]. apply inner_regular; [discriminate|exact (conj C2 C3)|]. rewrite Qred_correct, E2.
    pose proof (div_bounds (gap p q) (gap p q + gap q r) ltac:(lra) ltac:(lra)). lra.
Qed.

Lemma inner_rows_length l : forall p q, l <> [] -> length (inner_rows p q l) = S (length l).
Proof.
  induction l as [|r l IH]; intros p q Ne; [contradiction Ne; reflexivity|]. destruct l as [|r' l]; [reflexivity|].
  change (inner_rows p q (r :: r' :: l)) with (inner_row p q r :: inner_rows q r (r' :: l)). cbn [length]. rewrite (IH q r) by discriminate. reflexivity.
Qed.
Lemma slopes_length pts : (2 <= length pts)%nat -> length (slopes pts) = length pts.
Proof.
  intros L. destruct pts as [|p [|q [|r [|r' l]]]]; cbn [length] in L; try lia; [reflexivity|reflexivity|].
  unfold slopes. rewrite eliminate_length. change (equations (p :: q :: r :: r' :: l)) with (first_row p q r :: inner_rows p q (r :: r' :: l)).
  cbn [length]. rewrite inner_rows_length by discriminate. reflexivity.
Qed.

(** ** Curves and slopes *)
Lemma scale_iff k x y u v : ~ k == 0 -> x - y == k * (u - v) -> (x == y <-> u == v).
Proof.
  intros N E. split; intros H.
  - assert (Z : k * (u - v) == 0) by (rewrite <- E, H; ring). destruct (Qmult_integral _ _ Z); [contradiction|lra].
  - assert (Z : x - y == 0) by (rewrite E, H; ring). lra.
Qed.
Lemma curve_ends p (a z : knot) : fst a < fst z -> value p (fst a) == snd a -> value p (fst z) == snd z ->
  bend p (fst a) == (6 * rise a z - 4 * slope p (fst a) - 2 * slope p (fst z)) / gap a z /\
  bend p (fst z) == (2 * slope p (fst a) + 4 * slope p (fst z) - 6 * rise a z) / gap a z /\
  k3 p == (slope p (fst a) + slope p (fst z) - 2 * rise a z) / (gap a z * gap a z).
Proof.
  destruct a as [x y], z as [x' y']. cbn [fst snd]. intros L V V'. unfold rise, gap. cbn [fst snd]. rewrite <- V, <- V'.
  unfold bend, slope, value. repeat split; field; lra.
Qed.
Lemma hermite_unique p q (a z : knot) : fst a < fst z -> value p (fst a) == snd a -> value p (fst z) == snd z -> value q (fst a) == snd a -> value q (fst z) == snd z ->
  slope p (fst a) == slope q (fst a) -> slope p (fst z) == slope q (fst z) -> forall t, value p t == value q t.
Proof.
  intros L V V' W W' S S' t. destruct (curve_ends p a z L V V') as (B & _ & K). destruct (curve_ends q a z L W W') as (B' & _ & K').
  rewrite S, S' in B, K. rewrite <- B' in B. rewrite <- K' in K. rewrite <- W in V. clear B' K' W W' V' S' L z.
  set (x := fst a) in *. clearbody x. clear a. unfold value, slope, bend in *. rewrite K in *.
  assert (E2 : k2 p == k2 q) by lra. rewrite E2 in *. assert (E1 : k1 p == k1 q) by lra. rewrite E1 in *. lra.
Qed.

Definition glob (p : piece) : curve :=
  let x := p_from p in
  mkcurve (p_c0 p - p_c1 p * x + p_c2 p * (x * x) - p_c3 p * (x * x * x)) (p_c1 p - 2 * p_c2 p * x + 3 * p_c3 p * (x * x)) (p_c2 p - 3 * p_c3 p * x) (p_c3 p).
Lemma glob_value p t : value (glob p) t == piece_at p t.
Proof. unfold value, glob, piece_at. cbn [k0 k1 k2 k3]. ring. Qed.
Lemma between_ends a z s s' : fst a < fst z ->
  let p := glob (piece_between a z s s') in
  value p (fst a) == snd a /\ value p (fst z) == snd z /\ slope p (fst a) == s /\ slope p (fst z) == s'.
Proof.
  destruct a as [x y], z as [x' y']. cbn [fst snd]. intros L. cbv zeta. unfold value, slope, glob, piece_between, rise, gap. cbn [fst snd k0 k1 k2 k3 p_from p_c0 p_c1 p_c2 p_c3].
  rewrite !Qred_correct. repeat split; field; lra.
Qed.

Fixpoint passes (pts : list knot) (ps : list curve) : Prop :=
  match pts, ps with
  | a :: ((z :: _) as pts'), p :: ps' => value p (fst a) == snd a /\ value p (fst z) == snd z /\ passes pts' ps'
  | [_], [] => True
  | _, _ => False
  end.
Fixpoint tangent (pts : list knot) (ps : list curve) (ss : list Q) : Prop :=
  match pts, ps, ss with
  | a :: ((z :: _) as pts'), p :: ps', s :: ((s' :: _) as ss') => slope p (fst a) == s /\ slope p (fst z) == s' /\ tangent pts' ps' ss'
  | [_], [], [_] => True
  | _, _, _ => False
  end.
Fixpoint last_free (ps : list curve) : Prop :=
  match ps with
  | [] => True
  | a :: ps' => match ps' with [z] => k3 a == k3 z | _ => last_free ps' end
  end.

Lemma inner_iff p q r a z s0 s1 s2 : fst p < fst q -> fst q < fst r ->
  value a (fst p) == snd p -> value a (fst q) == snd q -> value z (fst q) == snd q -> value z (fst r) == snd r ->
  slope a (fst p) == s0 -> slope a (fst q) == s1 -> slope z (fst q) == s1 -> slope z (fst r) == s2 ->
  let w := inner_row p q r in
  (r_before w * s0 + r_here w * s1 + r_after w * s2 == r_right w <-> bend a (fst q) == bend z (fst q)).
Proof.
  intros L1 L2 V1 V2 V3 V4 S1 S2 S3 S4. cbv zeta. cbn [inner_row r_before r_here r_after r_right].
  destruct (curve_ends a p q L1 V1 V2) as (_ & B & _). destruct (curve_ends z q r L2 V3 V4) as (B' & _ & _). rewrite S1, S2 in B. rewrite S3, S4 in B'.
  pose proof (gap_pos _ _ L1) as G1. pose proof (gap_pos _ _ L2) as G2. apply (scale_iff (gap p q * gap q r / 2)).
  - assert (0 < gap p q * gap q r / 2) by (apply div_pos; nra). lra.
  - rewrite B, B'. field. lra.
Qed.
Lemma first_iff p q r a z s0 s1 s2 : fst p < fst q -> fst q < fst r ->
  value a (fst p) == snd p -> value a (fst q) == snd q -> value z (fst q) == snd q -> value z (fst r) == snd r ->
  slope a (fst p) == s0 -> slope a (fst q) == s1 -> slope z (fst q) == s1 -> slope z (fst r) == s2 ->
  bend a (fst q) == bend z (fst q) ->
  let w := first_row p q r in let w' := last_row p q r in
  (r_here w * s0 + r_after w * s1 == r_right w <-> k3 a == k3 z) /\
  (r_before w' * s1 + r_here w' * s2 == r_right w' <-> k3 a == k3 z).
Proof.
  intros L1 L2 V1 V2 V3 V4 S1 S2 S3 S4 Bq. cbv zeta. cbn [first_row last_row r_before r_here r_after r_right].
  destruct (curve_ends a p q L1 V1 V2) as (_ & B & K). destruct (curve_ends z q r L2 V3 V4) as (B' & _ & K'). rewrite S1, S2 in B, K. rewrite S3, S4 in B', K'.
  rewrite B, B' in Bq. clear B B'. pose proof (gap_pos _ _ L1) as G1. pose proof (gap_pos _ _ L2) as G2. rewrite (gap_sum p q r).
  set (h := gap p q) in *. set (h' := gap q r) in *. set (m := rise p q) in *. set (m' := rise q r) in *. clearbody h h' m m'.
  assert (P : 0 < h * h * (h' * h') / (h + h')) by (apply div_pos; [|lra]; assert (0 < h * h) by nra; assert (0 < h' * h') by nra; nra).
  assert (E : s2 == (6 * m' - 4 * s1 - h' * ((2 * s0 + 4 * s1 - 6 * m) / h)) / 2) by (rewrite Bq; field; lra). rewrite E in K'.
  split.
  - apply (scale_iff (h * h * (h' * h') / (h + h'))); [lra|]. rewrite K, K'. field. lra.
  - apply (scale_iff (- (h * h * (h' * h') / (h + h')))); [lra|]. rewrite K, K', E. field. lra.
Qed.

Lemma inner_joined l : forall p q ps s0 s1 ss, l <> [] -> chain Qlt (map fst (p :: q :: l)) -> passes (p :: q :: l) ps -> tangent (p :: q :: l) ps (s0 :: s1 :: ss) ->
  (solves s0 (inner_rows p q l) (s1 :: ss) <-> joined (p :: q :: l) ps /\ last_free ps).
Proof.
  induction l as [|r l IH]; intros p q ps s0 s1 ss Ne C P T; [contradiction Ne; reflexivity|].
  destruct ps as [|a [|z ps]]; [contradiction P|destruct p, q, r; cbn in P; tauto|]. destruct ss as [|s2 ss]; [cbn in T; tauto|].
  change (fst p < fst q /\ fst q < fst r /\ chain Qlt (map fst (r :: l))) in C. destruct C as (C1 & C2 & C3).
  change (value a (fst p) == snd p /\ value a (fst q) == snd q /\ value z (fst q) == snd q /\ value z (fst r) == snd r /\ passes (r :: l) ps) in P.
  destruct P as (V1 & V2 & V3 & V4 & P).
  change (slope a (fst p) == s0 /\ slope a (fst q) == s1 /\ slope z (fst q) == s1 /\ slope z (fst r) == s2 /\ tangent (r :: l) ps (s2 :: ss)) in T.
  destruct T as (S1 & S2 & S3 & S4 & T).
  pose proof (inner_iff p q r a z s0 s1 s2 C1 C2 V1 V2 V3 V4 S1 S2 S3 S4) as Ir. cbv zeta in Ir.
  pose proof (first_iff p q r a z s0 s1 s2 C1 C2 V1 V2 V3 V4 S1 S2 S3 S4) as Fr. cbv zeta in Fr.
  assert (J : joined (p :: q :: r :: l) (a :: z :: ps) <-> bend a (fst q) == bend z (fst q) /\ joined (q :: r :: l) (z :: ps)).
  { destruct p as [tp vp], q as [tq vq]. cbn [fst snd] in *.
    change (joined ((tp, vp) :: (tq, vq) :: r :: l) (a :: z :: ps)) with (value a tp == vp /\ value a tq == vq /\ (slope a tq == slope z tq /\ bend a tq == bend z tq) /\ joined ((tq, vq) :: r :: l) (z :: ps)).
    split; [tauto|]. intros [X Y]. repeat split; try assumption. rewrite S2, S3. reflexivity. }
  destruct l as [|r' l].
  - destruct ps as [|? ?]; [|cbn in P; contradiction]. destruct ss as [|? ?]; [|cbn in T; contradiction].
    change (inner_rows p q [r]) with [inner_row p q r; last_row p q r]. cbn [solves hd last_free]. rewrite Ir. rewrite J.
    assert (Z : r_before (last_row p q r) * s1 + r_here (last_row p q r) * s2 + r_after (last_row p q r) * 0 == r_before (last_row p q r) * s1 + r_here (last_row p q r) * s2) by ring.
    rewrite Z. assert (Jq : joined [q; r] [z]) by (destruct q, r; cbn [joined fst snd] in *; tauto).
    split; intros X; [destruct X as (X1 & X2 & _)|destruct X as ((X1 & _) & X2)]; apply Fr in X1 as F; destruct F as [_ F]; apply F in X2; tauto.
  - change (inner_rows p q (r :: r' :: l)) with (inner_row p q r :: inner_rows q r (r' :: l)).
    assert (Pq : passes (q :: r :: r' :: l) (z :: ps)) by (cbn [passes]; tauto).
    assert (Tq : tangent (q :: r :: r' :: l) (z :: ps) (s1 :: s2 :: ss)) by (cbn [tangent]; tauto).
    pose proof (IH q r (z :: ps) s1 s2 ss ltac:(discriminate) (conj C2 C3) Pq Tq) as IH'.
    destruct ps as [|y ps]; [cbn in P; contradiction|].
    change (solves s0 (inner_row p q r :: inner_rows q r (r' :: l)) (s1 :: s2 :: ss)) with
      ((r_before (inner_row p q r) * s0 + r_here (inner_row p q r) * s1 + r_after (inner_row p q r) * s2 == r_right (inner_row p q r)) /\ solves s1 (inner_rows q r (r' :: l)) (s2 :: ss)).
    change (last_free (a :: z :: y :: ps)) with (last_free (z :: y :: ps)). rewrite Ir, IH', J. tauto.
Qed.

(** ** The spline is determined by the slopes, and these by the equations *)
Definition slopes_ok (pts : list knot) (ss : list Q) : Prop :=
  match pts with
  | [p; q] => Forall2 Qeq [rise p q; rise p q] ss
  | _ => solves 0 (equations pts) ss
  end.
Lemma last_free_iff ps : (2 <= length ps)%nat -> (last_free ps <-> exists l a z, ps = l ++ [a; z] /\ k3 a == k3 z).
Proof.
  induction ps as [|a [|z [|y ps]] IH]; intros L; cbn [length] in L; try lia.
  - cbn [last_free]. split; [intros E; exists [], a, z; split; [reflexivity|exact E]|]. intros (l & a' & z' & E & K).
    destruct l as [|? [|? [|? ?]]]; cbn in E; inversion E; subst; exact K.
  - change (last_free (a :: z :: y :: ps)) with (last_free (z :: y :: ps)). rewrite IH by (cbn [length]; lia). split.
    + intros (l & a' & z' & E & K). exists (a :: l), a', z'. rewrite E. split; [reflexivity|exact K].
    + intros (l & a' & z' & E & K). destruct l as [|b l]; [cbn in E; inversion E|]. cbn in E. inversion E. exists l, a', z'. split; [assumption|exact K].
Qed.
Lemma joined_passes pts : forall ps, joined pts ps -> passes pts ps.
Proof.
  induction pts as [|[t v] [|[t' v'] pts] IH]; intros [|p ps] J; cbn [joined] in J; try contradiction; [exact I|].
  destruct J as (V & V' & _ & J). cbn [passes]. split; [exact V|]. split; [exact V'|]. apply IH. exact J.
Qed.
Theorem spline_iff pts ps ss : (2 <= length pts)%nat -> chain Qlt (map fst pts) -> passes pts ps -> tangent pts ps ss ->
  (slopes_ok pts ss <-> joined pts ps /\ ends_free ps).
Proof.
  intros L C P T. destruct pts as [|p [|q [|r l]]]; cbn [length] in L; try lia.
  - destruct ps as [|a [|? ?]]; [contradiction P| |destruct p, q; cbn in P; tauto]. destruct ss as [|s0 [|s1 [|? ?]]]; try (cbn in T; tauto).
    destruct P as (V1 & V2 & _). destruct T as (S1 & S2 & _). destruct C as [C1 _]. destruct (curve_ends a p q C1 V1 V2) as (B & _ & K). pose proof (gap_pos _ _ C1) as G.
    assert (J : joined [p; q] [a]) by (destruct p, q; cbn [joined fst snd] in *; tauto).
    cbn [slopes_ok ends_free]. rewrite S1, S2 in B, K. split.
    + intros F. inversion F as [|? ? ? ? E0 F']; subst. inversion F' as [|? ? ? ? E1 _]; subst. split; [exact J|]. rewrite <- E0, <- E1 in B, K.
      assert (K0 : k3 a == 0) by (rewrite K; field; lra). assert (B0 : bend a (fst p) == 0) by (rewrite B; field; lra). unfold bend in B0. rewrite K0 in B0. split; [lra|exact K0].
    + intros (_ & K2 & K3). assert (R : rise p q == k1 a).
      { unfold rise, gap. rewrite <- V1, <- V2. unfold value. rewrite K2, K3. unfold gap in G. field. lra. }
      unfold slope in S1, S2. rewrite K2, K3 in S1, S2. constructor; [rewrite R, <- S1; ring|]. constructor; [rewrite R, <- S2; ring|constructor].
  - destruct ps as [|a [|z ps]]; [contradiction P|destruct p, q, r; cbn in P; tauto|]. destruct ss as [|s0 [|s1 [|s2 ss]]]; try (cbn in T; tauto).
    change (fst p < fst q /\ fst q < fst r /\ chain Qlt (map fst (r :: l))) in C. pose proof C as (C1 & C2 & C3).
    change (value a (fst p) == snd p /\ value a (fst q) == snd q /\ value z (fst q) == snd q /\ value z (fst r) == snd r /\ passes (r :: l) ps) in P.
    pose proof P as (V1 & V2 & V3 & V4 & P').
    change (slope a (fst p) == s0 /\ slope a (fst q) == s1 /\ slope z (fst q) == s1 /\ slope z (fst r) == s2 /\ tangent (r :: l) ps (s2 :: ss)) in T.
    pose proof T as (S1 & S2 & S3 & S4 & T'). pose proof (gap_pos _ _ C1) as G1. pose proof (gap_pos _ _ C2) as G2.
    destruct l as [|r' l].
    + destruct ps as [|? ?]; [|cbn in P'; contradiction]. destruct ss as [|? ?]; [|cbn in T'; contradiction].
      pose proof (inner_iff p q r a z s0 s1 s2 C1 C2 V1 V2 V3 V4 S1 S2 S3 S4) as Ir. cbv zeta in Ir.
      destruct (curve_ends a p q C1 V1 V2) as (_ & _ & K). destruct (curve_ends z q r C2 V3 V4) as (_ & _ & K'). rewrite S1, S2 in K. rewrite S3, S4 in K'.
      assert (Ka : s0 + s1 == 2 * rise p q <-> k3 a == 0) by (apply (scale_iff (gap p q * gap p q)); [nra|rewrite K; field; lra]).
      assert (Kz : s1 + s2 == 2 * rise q r <-> k3 z == 0) by (apply (scale_iff (gap q r * gap q r)); [nra|rewrite K'; field; lra]).
      assert (J : joined [p; q; r] [a; z] <-> bend a (fst q) == bend z (fst q)).
      { destruct p, q, r. cbn [joined fst snd] in *. split; [tauto|]. intros X. repeat split; try assumption. rewrite S2, S3. reflexivity. }
      unfold slopes_ok. cbn [equations solves hd ends_free]. rewrite J. rewrite Ir. cbn [r_before r_here r_after r_right].
      assert (E1 : 0 * 0 + 1 * s0 + 1 * s1 == s0 + s1) by ring. assert (E2 : 1 * s1 + 1 * s2 + 0 * 0 == s1 + s2) by ring. rewrite E1, E2, Ka, Kz. tauto.
    + pose proof (inner_joined (r :: r' :: l) p q (a :: z :: ps) s0 s1 (s2 :: ss) ltac:(discriminate) C P T) as Ij.
      destruct ps as [|y ps]; [cbn in P'; contradiction|].
      change (slopes_ok (p :: q :: r :: r' :: l) (s0 :: s1 :: s2 :: ss)) with
        (r_before (first_row p q r) * 0 + r_here (first_row p q r) * s0 + r_after (first_row p q r) * s1 == r_right (first_row p q r) /\ solves s0 (inner_rows p q (r :: r' :: l)) (s1 :: s2 :: ss)).
      change (ends_free (a :: z :: y :: ps)) with (k3 a == k3 z /\ exists l0 a0 z0, a :: z :: y :: ps = l0 ++ [a0; z0] /\ k3 a0 == k3 z0).
      rewrite <- (last_free_iff (a :: z :: y :: ps)) by (cbn [length]; lia). rewrite Ij.
      assert (Z : r_before (first_row p q r) * 0 + r_here (first_row p q r) * s0 + r_after (first_row p q r) * s1 == r_here (first_row p q r) * s0 + r_after (first_row p q r) * s1) by ring.
      rewrite Z. assert (Jb : joined (p :: q :: r :: r' :: l) (a :: z :: y :: ps) -> bend a (fst q) == bend z (fst q)).
      { destruct p as [tp vp], q as [tq vq]. intros (_ & _ & (_ & X) & _). exact X. }
      split; intros (X & Y); [destruct Y as [Y1 Y2]|destruct Y as [Y1 Y2]];
        [pose proof (first_iff p q r a z s0 s1 s2 C1 C2 V1 V2 V3 V4 S1 S2 S3 S4 (Jb Y1)) as [F _]|pose proof (first_iff p q r a z s0 s1 s2 C1 C2 V1 V2 V3 V4 S1 S2 S3 S4 (Jb X)) as [F _]];
        cbv zeta in F; [apply F in X|apply F in Y1]; tauto.
Qed.

(** ** The model's spline *)
Lemma pieces_pass pts : forall ss, (1 <= length pts)%nat -> chain Qlt (map fst pts) -> length ss = length pts -> passes pts (map glob (pieces pts ss)) /\ tangent pts (map glob (pieces pts ss)) ss.
Proof.
  induction pts as [|a [|z pts] IH]; intros ss L C E; [cbn in L; lia|destruct ss as [|s [|? ?]]; try discriminate E; split; exact I|].
  destruct ss as [|s [|s' ss]]; try discriminate E. destruct C as [C1 C]. destruct (IH (s' :: ss) ltac:(cbn [length]; lia) C ltac:(cbn in *; lia)) as [P T].
  destruct (between_ends a z s s' C1) as (V & V' & S & S').
  change (map glob (pieces (a :: z :: pts) (s :: s' :: ss))) with (glob (piece_between a z s s') :: map glob (pieces (z :: pts) (s' :: ss))).
  split; [exact (conj V (conj V' P))|exact (conj S (conj S' T))].
Qed.
Lemma slopes_solve pts : (2 <= length pts)%nat -> chain Qlt (map fst pts) -> slopes_ok pts (slopes pts).
Proof.
  intros L C. destruct pts as [|p [|q [|r l]]]; cbn [length] in L; try lia; [constructor; [reflexivity|constructor; [reflexivity|constructor]]|].
  pose proof (equations_regular (p :: q :: r :: l) ltac:(cbn [length]; lia) C) as R. unfold slopes_ok, slopes.
  pose proof (eliminate_solves _ 0 0 R) as S. eapply solves_compat; [|apply (Forall2_refl_Qeq)|exact S]. ring.
Qed.
Lemma slopes_only pts ss : (2 <= length pts)%nat -> chain Qlt (map fst pts) -> slopes_ok pts ss -> Forall2 Qeq (slopes pts) ss.
Proof.
  intros L C S. destruct pts as [|p [|q [|r l]]]; cbn [length] in L; try lia; [exact S|].
  pose proof (equations_regular (p :: q :: r :: l) ltac:(cbn [length]; lia) C) as R. unfold slopes_ok in S. unfold slopes.
  apply (eliminate_only _ 0 0 0 ss R S). ring.
Qed.
(** The slopes of given curves. *)
Fixpoint tangents (pts : list knot) (ps : list curve) : list Q :=
  match pts, ps with
  | a :: ((z :: pts'') as pts'), p :: ps' => slope p (fst a) :: match pts'' with [] => [slope p (fst z)] | _ => tangents pts' ps' end
  | _, _ => []
  end.
Lemma joined_tangent pts : forall ps, (2 <= length pts)%nat -> joined pts ps -> tangent pts ps (tangents pts ps) /\ exists s ss, tangents pts ps = s :: ss /\ match pts, ps with a :: _, p :: _ => slope p (fst a) == s | _, _ => True end.
Proof.
  induction pts as [|[t v] [|[t' v'] pts] IH]; intros [|p ps] L J; cbn [length] in L; try lia; [contradiction J|].
  destruct J as (V & V' & M & J). destruct pts as [|a pts].
  - destruct ps; [|contradiction J]. cbn [tangents tangent]. split; [repeat split; reflexivity|]. eexists _, _. split; reflexivity.
  - change (tangents ((t, v) :: (t', v') :: a :: pts) (p :: ps)) with (slope p t :: tangents ((t', v') :: a :: pts) ps).
    destruct (IH ps ltac:(cbn [length]; lia) J) as (T & s & ss & E & H). destruct ps as [|q ps]; [destruct a; cbn in J; contradiction|]. cbn [fst] in H.
    split; [|eexists _, _; split; reflexivity]. rewrite E in *. change (slope p t == slope p t /\ slope p t' == s /\ tangent ((t', v') :: a :: pts) (q :: ps) (s :: ss)).
    split; [reflexivity|]. split; [rewrite <- H; apply M|exact T].
Qed.
Lemma curves_agree pts : forall ps qs ss ss', chain Qlt (map fst pts) -> passes pts ps -> passes pts qs -> tangent pts ps ss -> tangent pts qs ss' -> Forall2 Qeq ss ss' ->
  Forall2 (fun p q => forall t, value p t == value q t) ps qs.
Proof.
  induction pts as [|a [|z pts] IH]; intros ps qs ss ss' C P P' T T' F; [contradiction P| |].
  - destruct ps; [|contradiction P]. destruct qs; [|contradiction P']. constructor.
  - destruct ps as [|p ps]; [contradiction P|]. destruct qs as [|q qs]; [contradiction P'|]. destruct ss as [|s [|s1 ss]]; try contradiction T. destruct ss' as [|s' [|s1' ss']]; try contradiction T'.
    destruct P as (V & V1 & P). destruct P' as (W & W1 & P'). destruct T as (S & S1 & T). destruct T' as (S' & S1' & T'). destruct C as [C1 C].
    inversion F as [|? ? ? ? E F']; subst. inversion F' as [|? ? ? ? E1 _]; subst. constructor; [|apply (IH ps qs (s1 :: ss) (s1' :: ss')); assumption].
    apply (hermite_unique p q a z C1); try assumption; [rewrite S, S'; exact E|rewrite S1, S1'; exact E1].
Qed.

Lemma passes_length pts : forall (ps : list curve), passes pts ps -> length pts = S (length ps).
Proof. induction pts as [|a [|z pts] IH]; intros [|p ps] P; try contradiction P; [reflexivity|]. cbn [length]. f_equal. apply (IH ps). apply P. Qed.
(** Every time is on some curve. *)
Lemma located (pts : list knot) : forall (ps : list curve) t, (2 <= length pts)%nat -> length pts = S (length ps) ->
  exists i p a z, nth_error ps i = Some p /\ nth_error pts i = Some a /\ nth_error pts (S i) = Some z /\ (i = 0%nat \/ fst a <= t) /\ (S i = length ps \/ t <= fst z).
Proof.
  induction pts as [|a [|z pts] IH]; intros [|p ps] t L E; cbn [length] in L, E; try lia. destruct pts as [|y pts].
  - destruct ps; [|discriminate E]. exists 0%nat, p, a, z. repeat split; try reflexivity; left; reflexivity.
  - destruct (Qlt_le_dec (fst z) t) as [Lt|Le].
    + destruct (IH ps t ltac:(cbn [length]; lia) ltac:(cbn [length] in *; lia)) as (i & p' & a' & z' & Np & Na & Nz & A & B).
      exists (S i), p', a', z'. repeat split; try assumption.
      * right. destruct A as [->|A]; [|exact A]. cbn in Na. injection Na as <-. lra.
      * destruct B as [B|B]; [left; cbn [length]; lia|right; exact B].
    + exists 0%nat, p, a, z. repeat split; try reflexivity; [left; reflexivity|right; exact Le].
Qed.
Lemma Qltb_iff x y : Qltb x y = true <-> x < y.
Proof. unfold Qltb. rewrite negb_true_iff. split; intros H; [apply Qnot_le_lt; intros X; apply Qle_bool_iff in X; congruence|]. destruct (Qle_bool y x) eqn:E; [|reflexivity]. apply Qle_bool_iff in E. lra. Qed.
Lemma Qltb_not x y : Qltb x y = false <-> y <= x.
Proof. unfold Qltb. rewrite negb_false_iff. apply Qle_bool_iff. Qed.

Lemma chain_later pts : forall (a : knot) i z, chain Qlt (map fst (a :: pts)) -> nth_error pts i = Some z -> fst a < fst z.
Proof.
  induction pts as [|y pts IH]; intros a i z C N; [destruct i; discriminate N|]. destruct C as [C1 C]. destruct i as [|i]; [injection N as <-; exact C1|].
  specialize (IH y i z C N). cbn [map] in C1. apply (Qlt_trans _ (fst y)); assumption.
Qed.
Lemma pieces_follow pts : forall ss, (2 <= length pts)%nat -> chain Qlt (map fst pts) -> length ss = length pts -> follows pts (map glob (pieces pts ss)) (spline_at (pieces pts ss)).
Proof.
  induction pts as [|a [|z pts] IH]; intros ss L C E; cbn [length] in L; try lia. destruct ss as [|s [|s' ss]]; try discriminate E.
  pose proof (pieces_pass (a :: z :: pts) (s :: s' :: ss) ltac:(cbn [length]; lia) C E) as [P T].
  change (pieces (a :: z :: pts) (s :: s' :: ss)) with (piece_between a z s s' :: pieces (z :: pts) (s' :: ss)) in *.
  destruct pts as [|y pts].
  - destruct ss; [|discriminate E]. intros i p a' z' t Np Na Nz A B. destruct i as [|i]; [|destruct i; discriminate Np]. injection Np as <-. rewrite glob_value. reflexivity.
  - destruct ss as [|s1 ss]; [discriminate E|]. destruct C as [C1 C]. specialize (IH (s' :: s1 :: ss) ltac:(cbn [length]; lia) C ltac:(cbn [length] in *; lia)).
    change (pieces (z :: y :: pts) (s' :: s1 :: ss)) with (piece_between z y s' s1 :: pieces (y :: pts) (s1 :: ss)) in *.
    intros i p a' z' t Np Na Nz A B.
    change (spline_at (piece_between a z s s' :: piece_between z y s' s1 :: pieces (y :: pts) (s1 :: ss)) t) with
      (if Qltb t (fst z) then piece_at (piece_between a z s s') t else spline_at (piece_between z y s' s1 :: pieces (y :: pts) (s1 :: ss)) t).
    destruct i as [|i].
    + cbn in Np, Na, Nz. injection Np as <-. injection Na as <-. injection Nz as <-. rewrite glob_value. destruct (Qltb t (fst z)) eqn:Q; [reflexivity|].
      apply Qltb_not in Q. destruct B as [B|B]; [discriminate B|]. assert (Et : t == fst z) by lra.
      rewrite (IH 0%nat _ z y t ltac:(reflexivity) ltac:(reflexivity) ltac:(reflexivity) ltac:(left; reflexivity)).
      2:{ right. destruct C as [C2 _]. rewrite Et. apply Qlt_le_weak. exact C2. }
      destruct P as (_ & P1 & P2 & _). rewrite <- glob_value.
      assert (W : forall c, value c t == value c (fst z)) by (intros c; unfold value; rewrite Et; reflexivity). rewrite (W (glob (piece_between z y s' s1))), (W (glob (piece_between a z s s'))). rewrite P1, P2. reflexivity.
    + cbn [nth_error map] in Np, Na, Nz. destruct A as [A|A]; [discriminate A|].
      assert (Q : Qltb t (fst z) = false).
      { apply Qltb_not. destruct i as [|i]; [injection Na as <-; exact A|]. cbn [nth_error] in Na. pose proof (chain_later (y :: pts) z i a' C Na). lra. }
      rewrite Q. apply (IH i p a' z' t Np Na Nz); [right; exact A|]. destruct B as [B|B]; [left; cbn [length map] in *; lia|right; exact B].
Qed.

Theorem model_is_spline pts : (2 <= length pts)%nat -> chain Qlt (map fst pts) -> is_spline pts (spline_at (pieces pts (slopes pts))).
Proof.
  intros L C. pose proof (slopes_length pts L) as E. pose proof (pieces_pass pts (slopes pts) ltac:(lia) C E) as [P T].
  destruct (proj1 (spline_iff pts _ _ L C P T) (slopes_solve pts L C)) as [J F].
  exists (map glob (pieces pts (slopes pts))). split; [exact J|]. split; [exact F|]. apply pieces_follow; assumption.
Qed.
Theorem spline_unique pts f g : (2 <= length pts)%nat -> chain Qlt (map fst pts) -> is_spline pts f -> is_spline pts g -> forall t, f t == g t.
Proof.
  intros L C (ps & J & F & Fo) (qs & J' & F' & Fo') t.
  pose proof (joined_passes _ _ J) as P. pose proof (joined_passes _ _ J') as P'. destruct (joined_tangent _ _ L J) as (T & _). destruct (joined_tangent _ _ L J') as (T' & _).
  pose proof (slopes_only _ _ L C (proj2 (spline_iff _ _ _ L C P T) (conj J F))) as S. pose proof (slopes_only _ _ L C (proj2 (spline_iff _ _ _ L C P' T') (conj J' F'))) as S'.
  assert (E : Forall2 Qeq (tangents pts ps) (tangents pts qs)).
  { clear - S S'. revert S S'. generalize (slopes pts), (tangents pts ps), (tangents pts qs). intros l m n S. revert n. induction S as [|x y l m E S IH]; intros n S'; inversion S'; subst; constructor; [|auto].
    rewrite <- E. assumption. }
  pose proof (curves_agree _ _ _ _ _ C P P' T T' E) as A. destruct (located pts ps t L (passes_length _ _ P)) as (i & p & a & z & Np & Na & Nz & A1 & A2).
  rewrite (Fo i p a z t Np Na Nz A1 A2). destruct (nth_error qs i) as [q|] eqn:Nq.
  - rewrite (Fo' i q a z t Nq Na Nz A1). { clear - A Np Nq. revert i Np Nq. induction A as [|x y ps qs E A IH]; intros i Np Nq; [destruct i; discriminate Np|]. destruct i as [|i]; [injection Np as <-; injection Nq as <-; apply E|apply (IH i); assumption]. }
    assert (Le : length ps = length qs) by (clear - A; induction A; cbn; congruence). rewrite <- Le. exact A2.
  - exfalso. apply nth_error_None in Nq. assert (Le : length ps = length qs) by (clear - A; induction A; cbn; congruence). rewrite <- Le in Nq. apply nth_error_None in Nq. congruence.
Qed.
