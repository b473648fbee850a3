From Coq Require Import String.
From Coq Require Import ZArith QArith List Bool Lia Lqa.
From Verif Require Import Lib Base Scan Names NamesProofs Stations StationsProofs Gps GpsProofs Slowness SlownessSpec.
Import ListNotations.
Open Scope Q_scope.

Local Arguments b : simpl never.

(** * Sums *)

Lemma qsum_ext {A} (f g : A -> Q) l : (forall x, In x l -> f x == g x) -> qsum (map f l) == qsum (map g l).
Proof.
  induction l as [|x l IH]; intros H; [reflexivity|]. cbn. rewrite (H x (or_introl eq_refl)), IH; [reflexivity|].
  intros y Y. apply H. right. exact Y.
Qed.
Lemma qsum_lin {A} (f g : A -> Q) p q l : qsum (map (fun x => p * f x + q * g x) l) == p * qsum (map f l) + q * qsum (map g l).
Proof. induction l as [|x l IH]; cbn; [ring|]. unfold qsum in IH. rewrite IH. ring. Qed.
Lemma qsum_sq {A} (f : A -> Q) l : 0 <= qsum (map (fun x => f x * f x) l).
Proof. induction l as [|x l IH]; cbn; [apply Qle_refl|]. unfold qsum in IH. assert (P : 0 <= f x * f x) by nra. lra. Qed.
Lemma qsum_sq_zero {A} (f : A -> Q) l : qsum (map (fun x => f x * f x) l) == 0 -> Forall (fun x => f x == 0) l.
Proof.
  induction l as [|x l IH]; intros H; [constructor|]. cbn in H. pose proof (qsum_sq f l) as S. unfold qsum in S.
  assert (P : 0 <= f x * f x) by nra.
  constructor.
  - assert (Z : f x * f x == 0) by lra. destruct (Qmult_integral _ _ Z); assumption.
  - apply IH. unfold qsum. lra.
Qed.

Definition ga (g : list (Q * Q)) := qsum (map (fun r => fst r * fst r) g).
Definition gh (g : list (Q * Q)) := qsum (map (fun r => fst r * snd r) g).
Definition gc (g : list (Q * Q)) := qsum (map (fun r => snd r * snd r) g).
Definition det (g : list (Q * Q)) := ga g * gc g - gh g * gh g.
Definition gu (g : list (Q * Q)) (t : list Q) := qsum (map (fun rt => fst (fst rt) * snd rt) (combine g t)).
Definition gv (g : list (Q * Q)) (t : list Q) := qsum (map (fun rt => snd (fst rt) * snd rt) (combine g t)).

Lemma solve_eq g t : solve g t = if Qeq_bool (det g) 0 then None
  else Some ((gc g * gu g t - gh g * gv g t) / det g, (ga g * gv g t - gh g * gu g t) / det g).
Proof. reflexivity. Qed.

Lemma solve_none g t : solve g t = None <-> det g == 0.
Proof.
  rewrite solve_eq. destruct (Qeq_bool (det g) 0) eqn:E.
  - apply Qeq_bool_iff in E. split; auto.
  - split; [discriminate|]. intros H. apply Qeq_bool_iff in H. congruence.
Qed.

(** The normal equations. *)
Lemma solve_normal g t x y : solve g t = Some (x, y) ->
  ~ det g == 0 /\ ga g * x + gh g * y == gu g t /\ gh g * x + gc g * y == gv g t.
Proof.
  rewrite solve_eq. destruct (Qeq_bool (det g) 0) eqn:E; [discriminate|]. intros H. injection H as <- <-.
  assert (N : ~ det g == 0) by (intros X; apply Qeq_bool_iff in X; congruence).
  split; [exact N|]. unfold det in *. split; field; exact N.
Qed.
Lemma normal_unique g x y x' y' : ~ det g == 0 ->
  ga g * x + gh g * y == ga g * x' + gh g * y' -> gh g * x + gc g * y == gh g * x' + gc g * y' -> x == x' /\ y == y'.
Proof.
  intros N H1 H2. unfold det in N.
  assert (E1 : (ga g * gc g - gh g * gh g) * (x - x') == 0).
  { assert (X : (ga g * gc g - gh g * gh g) * (x - x') ==
      gc g * (ga g * x + gh g * y - (ga g * x' + gh g * y')) - gh g * (gh g * x + gc g * y - (gh g * x' + gc g * y'))) by ring.
    rewrite X, H1, H2. ring. }
  assert (E2 : (ga g * gc g - gh g * gh g) * (y - y') == 0).
  { assert (X : (ga g * gc g - gh g * gh g) * (y - y') ==
      ga g * (gh g * x + gc g * y - (gh g * x' + gc g * y')) - gh g * (ga g * x + gh g * y - (ga g * x' + gh g * y'))) by ring.
    rewrite X, H1, H2. ring. }
  split.
  - destruct (Qmult_integral _ _ E1); [contradiction|]. lra.
  - destruct (Qmult_integral _ _ E2); [contradiction|]. lra.
Qed.

(** Exact lags. *)
Lemma exact_sums g t x y : Forall2 (fun r v => v == x * fst r + y * snd r) g t ->
  gu g t == ga g * x + gh g * y /\ gv g t == gh g * x + gc g * y.
Proof.
  intros F. unfold gu, gv, ga, gh, gc. induction F as [|r v g t E F [I1 I2]]; [split; cbn; ring|].
  cbn [combine map fold_right qsum fst snd]. unfold qsum in *. rewrite I1, I2, E. split; ring.
Qed.

(** Zero determinant: all rows in one direction. *)
Lemma det_zero g : det g == 0 <-> exists p q, ~ (p == 0 /\ q == 0) /\ Forall (fun r => p * fst r + q * snd r == 0) g.
Proof.
  split.
  - intros D. unfold det in D.
    assert (X : exists p q, ~ (p == 0 /\ q == 0) /\ p * ga g + q * gh g == 0 /\ p * gh g + q * gc g == 0).
    { destruct (Qeq_dec (ga g) 0) as [A|A]; [destruct (Qeq_dec (gh g) 0) as [B|B]|].
      - exists 1, 0. split; [intros [H _]; discriminate H|]. rewrite A, B. split; ring.
      - exists (gh g), (- ga g). split; [intros [H _]; contradiction|]. split; [ring|lra].
      - exists (gh g), (- ga g). split; [intros [_ H]; apply A; lra|]. split; [ring|lra]. }
    destruct X as (p & q & N & E1 & E2). exists p, q. split; [exact N|]. apply qsum_sq_zero.
    assert (E : qsum (map (fun r : Q * Q => (p * fst r + q * snd r) * (p * fst r + q * snd r)) g) ==
      p * (p * ga g + q * gh g) + q * (p * gh g + q * gc g)).
    { unfold ga, gh, gc. clear. induction g as [|r g IH]; cbn; [ring|]. unfold qsum in IH. rewrite IH. ring. }
    rewrite E, E1, E2. ring.
  - intros (p & q & N & F).
    assert (E1 : p * ga g + q * gh g == 0).
    { unfold ga, gh. clear N. induction F as [|r g H F IH]; cbn; [ring|]. unfold qsum in IH.
      assert (X : p * (fst r * fst r + fold_right Qplus 0 (map (fun r0 => fst r0 * fst r0) g)) + q * (fst r * snd r + fold_right Qplus 0 (map (fun r0 => fst r0 * snd r0) g))
        == fst r * (p * fst r + q * snd r) + (p * fold_right Qplus 0 (map (fun r0 => fst r0 * fst r0) g) + q * fold_right Qplus 0 (map (fun r0 => fst r0 * snd r0) g))) by ring.
      rewrite X, IH, H. ring. }
    assert (E2 : p * gh g + q * gc g == 0).
    { unfold gc, gh. clear N E1. induction F as [|r g H F IH]; cbn; [ring|]. unfold qsum in IH.
      assert (X : p * (fst r * snd r + fold_right Qplus 0 (map (fun r0 => fst r0 * snd r0) g)) + q * (snd r * snd r + fold_right Qplus 0 (map (fun r0 => snd r0 * snd r0) g))
        == snd r * (p * fst r + q * snd r) + (p * fold_right Qplus 0 (map (fun r0 => fst r0 * snd r0) g) + q * fold_right Qplus 0 (map (fun r0 => snd r0 * snd r0) g))) by ring.
      rewrite X, IH, H. ring. }
    unfold det.
    assert (P1 : p * (ga g * gc g - gh g * gh g) == 0).
    { assert (X : p * (ga g * gc g - gh g * gh g) == gc g * (p * ga g + q * gh g) - gh g * (p * gh g + q * gc g)) by ring. rewrite X, E1, E2. ring. }
    assert (P2 : q * (ga g * gc g - gh g * gh g) == 0).
    { assert (X : q * (ga g * gc g - gh g * gh g) == ga g * (p * gh g + q * gc g) - gh g * (p * ga g + q * gh g)) by ring. rewrite X, E1, E2. ring. }
    destruct (Qmult_integral _ _ P1) as [Z1|Z1]; [|exact Z1]. destruct (Qmult_integral _ _ P2) as [Z2|Z2]; [|exact Z2].
    exfalso. apply N. auto.
Qed.

Lemma rows_cons p q r : rows (p :: q :: r) = (fst p - fst q, snd p - snd q) :: rows (q :: r).
Proof. reflexivity. Qed.

Lemma collinear_rows ps : collinear ps <-> exists p q, ~ (p == 0 /\ q == 0) /\ Forall (fun r => p * fst r + q * snd r == 0) (rows ps).
Proof.
  split.
  - intros (p & q & c & N & F). exists p, q. split; [exact N|]. induction F as [|x ps H F IH]; [constructor|].
    destruct ps as [|y ps]; [constructor|]. rewrite rows_cons. constructor; [|exact IH]. inversion F; subst. cbn. lra.
  - intros (p & q & N & F). destruct ps as [|x ps]; [exists p, q, 0; split; [exact N|constructor]|].
    exists p, q, (p * fst x + q * snd x). split; [exact N|]. constructor; [reflexivity|].
    revert x F. induction ps as [|y ps IH]; intros x F; [constructor|]. rewrite rows_cons in F. inversion F as [|? ? H F']; subst. cbn [fst snd] in H.
    constructor; [lra|]. specialize (IH y F'). rewrite Forall_forall in IH |- *. intros z Z. specialize (IH z Z). lra.
Qed.

Lemma plane_rows s ps lags : plane_wave s ps lags -> Forall2 (fun r v => v == fst s * fst r + snd s * snd r) (rows ps) lags.
Proof.
  intros H. induction H as [|x|x y r t l E H IH]; [constructor|constructor|]. rewrite rows_cons. constructor; [|exact IH].
  cbn [fst snd]. rewrite E. unfold arrival_time. ring.
Qed.

(** Misfit. *)
Definition rss (s : Q * Q) (g : list (Q * Q)) (t : list Q) : Q :=
  qsum (map (fun rt : (Q * Q) * Q => (fst s * fst (fst rt) + snd s * snd (fst rt) - snd rt) * (fst s * fst (fst rt) + snd s * snd (fst rt) - snd rt)) (combine g t)).
Lemma misfit_rss s ps lags m : misfit s ps lags m -> m == rss s (rows ps) lags /\ length (rows ps) = length lags.
Proof.
  intros H. induction H as [|x|x y r t l m H [IH L]]; [split; reflexivity|split; reflexivity|]. rewrite rows_cons. split; [|cbn [length]; rewrite L; reflexivity].
  unfold rss. cbn [combine map qsum fold_right fst snd]. fold (qsum (map (fun rt : (Q * Q) * Q => (fst s * fst (fst rt) + snd s * snd (fst rt) - snd rt) * (fst s * fst (fst rt) + snd s * snd (fst rt) - snd rt)) (combine (rows (y :: r)) l))).
  fold (rss s (rows (y :: r)) l). rewrite <- IH. unfold arrival_time. ring.
Qed.

Lemma rss_expand s g t : length g = length t ->
  rss s g t == ga g * fst s * fst s + 2 * gh g * fst s * snd s + gc g * snd s * snd s
    - 2 * gu g t * fst s - 2 * gv g t * snd s + qsum (map (fun x => x * x) t).
Proof.
  unfold rss, ga, gh, gc, gu, gv. revert t. induction g as [|r g IH]; intros [|v t] L; cbn in L; try discriminate; [cbn; ring|].
  specialize (IH t ltac:(lia)). cbn [combine map qsum fold_right fst snd] in IH |- *. unfold qsum in IH. cbn [fst snd] in IH. rewrite IH. ring.
Qed.

Lemma solve_least g t s s' : length g = length t -> solve g t = Some s -> rss s g t <= rss s' g t.
Proof.
  intros L E. destruct s as [x y], s' as [x' y']. destruct (solve_normal g t x y E) as (_ & N1 & N2).
  rewrite !(rss_expand _ _ _ L). cbn [fst snd].
  assert (P : 0 <= qsum (map (fun r : Q * Q => ((x' - x) * fst r + (y' - y) * snd r) * ((x' - x) * fst r + (y' - y) * snd r)) g)) by apply (qsum_sq (fun r : Q * Q => (x' - x) * fst r + (y' - y) * snd r)).
  assert (PE : qsum (map (fun r : Q * Q => ((x' - x) * fst r + (y' - y) * snd r) * ((x' - x) * fst r + (y' - y) * snd r)) g) ==
    ga g * (x' - x) * (x' - x) + 2 * gh g * (x' - x) * (y' - y) + gc g * (y' - y) * (y' - y)).
  { unfold ga, gh, gc. clear. induction g as [|r g IH]; cbn; [ring|]. unfold qsum in IH. rewrite IH. ring. }
  rewrite PE in P. rewrite <- N1, <- N2. clear - P.
  set (a := ga g) in *. set (h := gh g) in *. set (c := gc g) in *. set (k := qsum (map (fun x => x * x) t)).
  assert (X : (a * x' * x' + 2 * h * x' * y' + c * y' * y' - 2 * (a * x + h * y) * x' - 2 * (h * x + c * y) * y' + k) -
    (a * x * x + 2 * h * x * y + c * y * y - 2 * (a * x + h * y) * x - 2 * (h * x + c * y) * y + k) ==
    a * (x' - x) * (x' - x) + 2 * h * (x' - x) * (y' - y) + c * (y' - y) * (y' - y)) by ring.
  lra.
Qed.

Lemma solve_some g t : (exists s, solve g t = Some s) <-> ~ det g == 0.
Proof.
  split.
  - intros ([x y] & H). apply (solve_normal _ _ _ _ H).
  - intros H. destruct (solve g t) as [s|] eqn:E; [eauto|]. apply solve_none in E. contradiction.
Qed.

(** * Tables *)

Lemma part_chars p s c : part_of p s = true -> In c p -> In c s.
Proof. intros H X. apply part_of_iff in H. destruct H as (a & r & ->). apply in_or_app. right. apply in_or_app. left. exact X. Qed.

Lemma no_rms s : ~ In 109%Z s -> part_of (b "rms") s = false.
Proof. intros N. apply not_true_is_false. intros H. apply N. apply (part_chars _ _ 109%Z H). right. left. reflexivity. Qed.

Lemma not_in_app {A} (x : A) l r : ~ In x l -> ~ In x r -> ~ In x (l ++ r).
Proof. intros A1 A2 H. apply in_app_or in H. tauto. Qed.

Lemma short_ids_cons_no k r : part_of (b "rms") k = false -> short_ids (k :: r) = short_ids r.
Proof. intros H. cbn [short_ids]. rewrite H. reflexivity. Qed.
Lemma short_ids_cons_yes i r : plain i ->
  short_ids ((b "rms_" ++ i) :: r) = match short_ids r with Some l => Some (i :: l) | None => None end.
Proof.
  intros [P _]. cbn [short_ids].
  assert (E : part_of (b "rms") (b "rms_" ++ i) = true) by (apply part_of_iff; exists [], (b "_" ++ i); reflexivity).
  rewrite E. change (b "rms_" ++ i) with (b "rms" ++ [95%Z] ++ i).
  rewrite (split_on_app 95 (b "rms") i) by (vm_compute; intuition discriminate). rewrite (split_on_none 95 i P). reflexivity.
Qed.

Lemma short_ids_items first ids rest : plain first -> Forall plain ids ->
  short_ids (pair_items first ids ++ rest) = match short_ids rest with Some l => Some (ids ++ l) | None => None end.
Proof.
  intros PF F. induction F as [|i ids P F IH]; [cbn; destruct (short_ids rest); reflexivity|].
  cbn [pair_items]. set (j := match ids with [] => first | j :: _ => j end).
  assert (PJ : plain j) by (unfold j; destruct F; assumption). destruct P as [P1 P2], PJ as [Q1 Q2].
  cbn [app]. rewrite short_ids_cons_yes by (split; assumption).
  rewrite !short_ids_cons_no.
  - rewrite IH. destruct (short_ids rest); reflexivity.
  - apply no_rms. change (b "r_" ++ i ++ b "_" ++ j) with ([114%Z; 95%Z] ++ i ++ [95%Z] ++ j).
    repeat apply not_in_app; try assumption; cbn; intuition discriminate.
  - apply no_rms. change (b "lag_" ++ i ++ b "_" ++ j) with ([108%Z; 97%Z; 103%Z; 95%Z] ++ i ++ [95%Z] ++ j).
    repeat apply not_in_app; try assumption; cbn; intuition discriminate.
Qed.

Lemma short_ids_table ids : ids <> [] -> Forall plain ids -> short_ids (b "t_mid" :: item_names ids) = Some ids.
Proof.
  intros N F. unfold item_names. destruct ids as [|i ids]; [congruence|].
  rewrite short_ids_cons_no by (vm_compute; reflexivity).
  rewrite short_ids_cons_no by (vm_compute; reflexivity).
  rewrite short_ids_items; [|inversion F; assumption|exact F].
  change (short_ids [b "consistency"]) with (Some (@nil bytes)). cbv iota beta. f_equal. apply app_nil_r.
Qed.

Lemma col_in d k c : NoDup (keys d) -> In (k, c) d -> col d k = Some c.
Proof.
  induction d as [|[n x] d IH]; intros ND H; [destruct H|]. cbn in ND. inversion ND as [|? ? N ND']; subst. cbn [col].
  destruct H as [H|H].
  - injection H as -> ->. rewrite (proj2 (eqb_bytes_iff k k) eq_refl). reflexivity.
  - destruct (eqb_bytes n k) eqn:E; [|apply IH; assumption]. apply eqb_bytes_iff in E. subst. exfalso. apply N.
    apply (in_map fst) in H. exact H.
Qed.
Lemma locate_in ls i p : NoDup (map fst ls) -> In (i, p) ls -> locate ls i = Some p.
Proof.
  induction ls as [|[n x] ls IH]; intros ND H; [destruct H|]. cbn in ND. inversion ND as [|? ? N ND']; subst. cbn [locate].
  destruct H as [H|H].
  - injection H as -> ->. rewrite (proj2 (eqb_bytes_iff i i) eq_refl). reflexivity.
  - destruct (eqb_bytes n i) eqn:E; [|apply IH; assumption]. apply eqb_bytes_iff in E. subst. exfalso. apply N.
    apply (in_map fst) in H. exact H.
Qed.
Lemma locate_all_in ls ids ps : NoDup (map fst ls) -> Forall2 (fun i p => In (i, p) ls) ids ps -> locate_all ls ids = Some ps.
Proof. intros ND F. induction F as [|i p ids ps H F IH]; [reflexivity|]. cbn. rewrite (locate_in ls i p ND H), IH. reflexivity. Qed.

Lemma recorded_line d w ids ps lags : NoDup (keys d) -> length ids = length ps ->
  neighbours (recorded d w) (combine ids ps) lags ->
  exists cs, lag_columns d (lag_keys ids) = Some cs /\ line cs w = Some lags /\ length (rows ps) = length lags.
Proof.
  intros ND. revert ps lags. induction ids as [|i ids IH]; intros [|p ps] lags L H; try discriminate L.
  - inversion H; subst. exists []. auto.
  - destruct ids as [|j ids], ps as [|q ps]; try discriminate L.
    + inversion H; subst. exists []. auto.
    + cbn [combine] in H. inversion H as [| |? ? ? t l (c & C1 & C2) H']; subst. cbn [fst] in C1.
      destruct (IH (q :: ps) l ltac:(cbn in L |- *; lia) H') as (cs & E1 & E2 & E3). exists (c :: cs).
      change (lag_keys (i :: j :: ids)) with ((b "lag_" ++ i ++ b "_" ++ j) :: lag_keys (j :: ids)).
      cbn [lag_columns line]. rewrite (col_in d _ c ND C1), E1, C2, E2. split; [reflexivity|]. split; [reflexivity|].
      rewrite rows_cons. cbn [length]. rewrite E3. reflexivity.
Qed.

Lemma locate_some ls i p : locate ls i = Some p -> In (i, p) ls.
Proof.
  induction ls as [|[n x] ls IH]; [discriminate|]. cbn [locate]. destruct (eqb_bytes n i) eqn:E.
  - intros H. injection H as ->. apply eqb_bytes_iff in E. subst. left. reflexivity.
  - intros H. right. apply IH. exact H.
Qed.
Lemma locate_all_some ls ids ps : locate_all ls ids = Some ps -> Forall2 (fun i p => In (i, p) ls) ids ps.
Proof.
  revert ps. induction ids as [|i ids IH]; intros ps H; cbn in H; [injection H as <-; constructor|].
  destruct (locate ls i) as [p|] eqn:E; [|discriminate H]. destruct (locate_all ls ids) as [l|]; [|discriminate H].
  injection H as <-. constructor; [apply locate_some; exact E|apply IH; reflexivity].
Qed.

Lemma col_exists d k : In k (keys d) -> exists c, col d k = Some c.
Proof.
  induction d as [|[n x] d IH]; intros H; [destruct H|]. cbn [col]. destruct (eqb_bytes n k) eqn:E; [eexists; reflexivity|].
  destruct H as [H|H]; [cbn in H; subst; rewrite (proj2 (eqb_bytes_iff k k) eq_refl) in E; discriminate E|]. apply IH. exact H.
Qed.
Lemma lag_keys_in first ids k : In k (lag_keys ids) -> In k (pair_items first ids).
Proof.
  induction ids as [|i ids IH]; [intros []|]. destruct ids as [|j ids]; [intros []|].
  change (lag_keys (i :: j :: ids)) with ((b "lag_" ++ i ++ b "_" ++ j) :: lag_keys (j :: ids)).
  change (pair_items first (i :: j :: ids)) with
    ((b "rms_" ++ i) :: (b "lag_" ++ i ++ b "_" ++ j) :: (b "r_" ++ i ++ b "_" ++ j) :: pair_items first (j :: ids)).
  intros [H|H]; [right; left; exact H|]. right. right. right. apply IH. exact H.
Qed.
Lemma columns_exist d ids : map fst d = b "t_mid" :: item_names ids -> exists cs, lag_columns d (lag_keys ids) = Some cs.
Proof.
  intros K. assert (F : forall k, In k (lag_keys ids) -> In k (keys d)).
  { intros k H. unfold keys. rewrite K. right. right. apply in_or_app. left. apply lag_keys_in. exact H. }
  induction (lag_keys ids) as [|k ks IH]; [eexists; reflexivity|]. cbn.
  destruct (col_exists d k (F k (or_introl eq_refl))) as (c & ->). destruct IH as (cs & ->); [|eexists; reflexivity].
  intros k' H. apply F. right. exact H.
Qed.

Lemma two_collinear ps : (length ps < 3)%nat -> collinear ps.
Proof.
  intros L. apply collinear_rows. destruct ps as [|p [|q [|r ps]]]; [| | |cbn in L; lia].
  - exists 1, 1. split; [intros [X _]; discriminate X|constructor].
  - exists 1, 1. split; [intros [X _]; discriminate X|constructor].
  - rewrite rows_cons. destruct (Qeq_dec (fst p - fst q) 0) as [E|E].
    + destruct (Qeq_dec (snd p - snd q) 0) as [E'|E'].
      * exists 1, 1. split; [intros [X _]; discriminate X|]. constructor; [cbn [fst snd]; lra|constructor].
      * exists 1, 0. split; [intros [X _]; discriminate X|]. constructor; [cbn [fst snd]; lra|constructor].
    + exists (snd p - snd q), (- (fst p - fst q)). split; [intros [_ X]; apply E; lra|].
      constructor; [cbn [fst snd]; ring|constructor].
Qed.
