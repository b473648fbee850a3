(** Proofs about one wrong point among many. *)
From Coq Require Import ZArith QArith Qabs List Bool Lia Lqa.
From Verif Require Import Base Lib UnwrapSpec Process ReadSeveral Drift DriftSpec DriftProofs DriftProps Polyfit PolyfitSpec PolyfitProofs.
Import ListNotations.
Open Scope Q_scope.

Lemma sum_of_ip {A} (f : point -> A) (g : A -> Q) pts : sum_of (map (fun q => g (f q) * g (f q)) pts) == ip pts (fun q => g (f q)) (fun q => g (f q)).
Proof. induction pts as [|q r IH]; [reflexivity|]. cbn [map sum_of ip]. rewrite IH. reflexivity. Qed.
Lemma ip_app l l' u v : ip (l ++ l') u v == ip l u v + ip l' u v.
Proof. induction l as [|q l IH]; cbn [app ip]; [ring|]. rewrite IH. ring. Qed.
Lemma ip_one_le l u w : In w l -> u w * u w <= ip l u u.
Proof.
  induction l as [|q l IH]; intros Hi; [contradiction|]. cbn [ip]. pose proof (ip_square l u). destruct Hi as [->|Hi]; [lra|].
  specialize (IH Hi). assert (0 <= u q * u q) by nra. lra.
Qed.

Section Wrong.
  Variable P : Type.
  Variable eval : P -> Q -> Q.
  Hypothesis comb : forall p q k, exists r, forall x, eval r x == eval p x + k * eval q x.
  Hypothesis one : exists p, forall x, eval p x == 1.

  Notation ev p := (fun q : point => eval p (fst q)).
  Notation res := (residual P eval).

  Lemma sse_ip p pts : sse P eval p pts == ip pts (res p) (res p).
  Proof. unfold sse. induction pts as [|q r IH]; [reflexivity|]. cbn [map sum_of ip]. rewrite IH. reflexivity. Qed.

  (** The residuals of a least-squares fit are orthogonal to every model. *)
  Lemma normal p pts : best P eval p pts -> forall q, ip pts (res p) (ev q) == 0.
  Proof.
    intros B q. set (C := ip pts (ev q) (ev q)). destruct (Qeq_dec C 0) as [Z|Z].
    - rewrite ip_sym. apply ip_zero_l. exact (ip_null pts (ev q) Z).
    - set (R := ip pts (res p) (ev q)) in *. assert (Cp : 0 < C) by (pose proof (ip_square pts (ev q)) as N; fold C in N; apply Qle_lteq in N as [N|N]; [exact N|exfalso; apply Z; symmetry; exact N]).
      destruct (comb p q (R / C)) as (r & Er). specialize (B r). rewrite !sse_ip in B.
      rewrite (ip_ext pts (res r) (fun w => res p w + (- (R / C)) * ev q w) (res r) (fun w => res p w + (- (R / C)) * ev q w)) in B
        by (intros w _; unfold residual; rewrite Er; ring).
      rewrite ip_expand in B. fold R in B. fold C in B. set (t := R / C) in *. assert (Et : t * C == R) by (unfold t; field; exact Z).
      assert (Y : t * t * C <= 0) by (assert (t * R == t * t * C) by (rewrite <- Et; ring); lra).
      assert (T0 : t * t * C == 0) by (apply Qle_antisym; [exact Y|]; apply Qmult_le_0_compat; [nra|lra]).
      apply Qmult_integral in T0 as [T0|T0]; [|contradiction]. apply Qmult_integral in T0 as [T0|T0]; rewrite <- Et, T0; ring.
  Qed.

  (** A least-squares fit of points on a curve is exact. *)
  Lemma best_exact p c pts : best P eval p pts -> (forall x y, In (x, y) pts -> y == eval c x) -> forall x y, In (x, y) pts -> y == eval p x.
  Proof.
    intros B On x y Hi. specialize (B c). rewrite !sse_ip in B.
    rewrite (ip_zero_l pts (res c)) in B by (intros [u w] Iw; unfold residual; cbn [fst snd]; rewrite (On u w Iw); ring).
    pose proof (ip_square pts (res p)). assert (Z : ip pts (res p) (res p) == 0) by lra.
    pose proof (ip_null pts _ Z (x, y) Hi) as E. unfold residual in E. cbn [fst snd] in E. lra.
  Qed.

  Variable fit : list point -> option P.
  Variable need : nat.
  Hypothesis Fit : fits_least_squares eval need fit.
  Hypothesis few : (need <= 4)%nat.

  Lemma without_app Out l q0 l' : (forall q, In q (l ++ l') -> ~ Out q) -> Out q0 -> without Out (l ++ q0 :: l') (l ++ l').
  Proof.
    intros N O. assert (W : forall m, (forall q, In q m -> ~ Out q) -> without Out m m).
    { induction m as [|q m IH]; intros H; [constructor|]. apply wo_keep; [apply H; left; reflexivity|apply IH; intros w Iw; apply H; right; exact Iw]. }
    induction l as [|q l IH]; cbn [app].
    - apply wo_drop; [exact O|]. apply W. exact N.
    - apply wo_keep; [apply N; left; reflexivity|]. apply IH. intros w Iw. apply N. right. exact Iw.
  Qed.
  Lemma subsequence_middle {A} (l : list A) q l' : subsequence (l ++ l') (l ++ q :: l').
  Proof.
    assert (W : forall m : list A, subsequence m m) by (induction m; constructor; assumption).
    induction l as [|w l IH]; cbn [app]; constructor; [apply W|exact IH].
  Qed.
  Lemma chain_le_head (x : Q) l : chain Qlt (x :: l) -> Forall (fun y => x < y) l.
  Proof.
    revert x. induction l as [|y l IH]; intros x C; constructor; [apply C|]. destruct C as [A C]. eapply Forall_impl; [|exact (IH y C)]. cbn. intros; lra.
  Qed.
  Lemma chain_skip (l l' : list point) : subsequence l' l -> chain Qlt (map fst l) -> chain Qlt (map fst l').
  Proof.
    intros S. induction S as [|q l' l S IH|q l' l S IH]; intros C; cbn [map] in *; [exact C| |].
    - pose proof (chain_le_head _ _ C) as H. specialize (IH (match map fst l as m return chain Qlt (fst q :: m) -> chain Qlt m with [] => fun _ => Logic.I | _ :: _ => fun c => proj2 c end C)).
      destruct l' as [|w l']; [exact Logic.I|]. cbn [map] in *. split; [|exact IH]. rewrite Forall_forall in H. apply H.
      assert (X : In w l) by (clear - S; assert (Y : forall m' m : list point, subsequence m' m -> In w m' -> In w m) by (induction 1; cbn; intuition); apply (Y _ _ S); left; reflexivity).
      apply in_map. exact X.
    - apply IH. exact (match map fst l as m return chain Qlt (fst q :: m) -> chain Qlt m with [] => fun _ => Logic.I | _ :: _ => fun c => proj2 c end C).
  Qed.

  (** The one wrong point is left out. *)
  Lemma wrong_left_out z pts before q0 after c lim : z == 4 -> (33 <= length pts)%nat -> chain Qlt (map fst pts) -> one_wrong eval c pts before q0 after ->
    (forall p, number pts * (eval p (fst q0) * eval p (fst q0)) <= 16 * ip pts (ev p) (ev p)) -> (forall m, lim = Some m -> 0 <= m) ->
    exists p, pruned P fit eval z lim pts p (before ++ after) /\ forall x y, In (x, y) (before ++ after) -> y == eval p x.
  Proof.
    intros Ez Ln Ch (Ep & On & Wr) Or Lim.
    assert (Lk : (need <= length (before ++ after))%nat) by (rewrite Ep, app_length in Ln; rewrite app_length; cbn [length] in Ln; lia).
    assert (Ck : chain Qlt (map fst (before ++ after))) by (apply (chain_skip pts); [rewrite Ep; apply subsequence_middle|exact Ch]).
    destruct (Fit pts ltac:(lia) Ch) as (p & Fp & Bp). destruct (Fit (before ++ after) Lk Ck) as (p' & Fp' & Bp').
    exists p'. pose proof (best_exact p' c _ Bp' On) as On'. split; [|exact On'].
    apply (pruned_z P fit eval z lim pts p (before ++ after) p' (before ++ after) Fp).
    2:{ apply robust_iff. apply C18_exact_data_kept; [intros E; rewrite E in Lk; rewrite Ep, app_length in Ln; apply (f_equal (@length point)) in E; rewrite app_length in E; cbn [length] in Ln, E; lia|exact Fp'| |exact Lim].
        apply Forall_forall. intros [x y] Hi. symmetry. apply On'. exact Hi. }
    (* the numbers *)
    set (e := snd q0 - eval c (fst q0)). assert (Ne : ~ e == 0) by (unfold e; intros X; apply Wr; lra).
    destruct (comb p c (-(1))) as (g & Eg0). assert (Eg : forall x, eval g x == eval p x - eval c x) by (intros x; rewrite Eg0; ring). clear Eg0.
    set (d := fun q : point => snd q - eval c (fst q)).
    assert (D : forall v, ip pts d v == e * v q0).
    { intros v. rewrite Ep, ip_app. cbn [ip]. assert (Z : ip before d v == 0 /\ ip after d v == 0).
      { split; apply ip_zero_l; intros [x y] Hi; unfold d; cbn [fst snd]; rewrite (On x y) by (apply in_or_app; auto); ring. }
      destruct Z as [-> ->]. change (d q0) with e. ring. }
    assert (Rs : forall q, res p q == d q + (-(1)) * ev g q) by (intros q; unfold residual, d; cbn beta; rewrite Eg; ring).
    assert (Nm : forall q, e * eval q (fst q0) == ip pts (ev g) (ev q)).
    { intros q. pose proof (normal p pts Bp q) as E. rewrite (ip_ext pts (res p) (fun w => d w + (-(1)) * ev g w) (ev q) (ev q)) in E by (intros; try apply Rs; reflexivity).
      rewrite ip_lin, D in E. cbn beta in E. lra. }
    set (g0 := eval g (fst q0)) in *.
    set (n := number pts). assert (Hn : 33 <= n).
    { unfold n, number. change 33 with (inject_Z 33). rewrite <- Zle_Qle. lia. }
    assert (G1 : ip pts (ev g) (ev g) == e * g0) by (symmetry; apply Nm).
    pose proof (Or g) as Og. fold n g0 in Og. rewrite G1 in Og.
    (* the share of the error that the fit takes up *)
    set (h := g0 / e). assert (Hg : g0 == h * e) by (unfold h; field; exact Ne).
    assert (E2 : 0 < e * e) by (assert (0 <= e * e) by nra; destruct (Qeq_dec (e * e) 0) as [Z|Z]; [apply Qmult_integral in Z as [Z|Z]; contradiction|]; apply Qle_lteq in H as [H|H]; [exact H|exfalso; apply Z; symmetry; exact H]).
    assert (H1 : n * (h * h) <= 16 * h).
    { apply (Qmult_le_r _ _ (e * e) E2). rewrite Hg in Og. lra. }
    assert (Hh0 : 0 <= h) by nra.
    assert (H2 : n * h <= 16).
    { apply Qle_lteq in Hh0 as [Hp|Hz]; [|rewrite <- Hz; lra]. apply (Qmult_le_r _ _ h Hp). lra. }
    assert (H3 : 0 < 1 - h) by nra.
    (* the squares of the residuals, and their mean *)
    assert (S2 : ip pts (res p) (res p) == e * e * (1 - h)).
    { rewrite (ip_ext pts (res p) (fun w => d w + (-(1)) * ev g w) (res p) (fun w => d w + (-(1)) * ev g w)) by (intros; apply Rs).
      rewrite ip_expand, !D, G1. cbn beta. change (eval g (fst q0)) with g0. change (d q0) with e. rewrite Hg. ring. }
    assert (M0 : sum_of (residuals P eval p pts) == 0).
    { destruct one as (o & Eo). rewrite <- (normal p pts Bp o). clear - Eo. unfold residuals. induction pts as [|q r IH]; [reflexivity|]. cbn [map sum_of ip]. rewrite IH, Eo. ring. }
    assert (Va : is_variance (residuals P eval p pts) (e * e * (1 - h) / n)).
    { exists 0. split; [unfold is_mean; rewrite M0; ring|]. rewrite <- S2. unfold number, residuals. rewrite !map_length.
      change (inject_Z (Z.of_nat (length pts))) with n. transitivity (ip pts (res p) (res p)); [field; intros Z; rewrite Z in Hn; lra|].
      clear. induction pts as [|q r IH]; [reflexivity|]. cbn [map sum_of ip]. rewrite IH. ring. }
    assert (Np : pts <> []) by (intros Z; rewrite Z in Ln; cbn in Ln; lia).
    assert (Nr : residuals P eval p pts <> []) by (unfold residuals; destruct pts; [contradiction|discriminate]).
    assert (In0 : beyond_z P eval z p pts q0).
    { exists (e * e * (1 - h) / n). split; [exact Va|]. rewrite Ez.
      assert (R0 : res p q0 == e * (1 - h)) by (rewrite Rs; change (d q0) with e; cbn beta; change (eval g (fst q0)) with g0; rewrite Hg; ring).
      rewrite R0. apply (Qmult_lt_r _ _ n ltac:(lra)). setoid_replace (4 * 4 * (e * e * (1 - h) / n) * n) with (16 * (e * e * (1 - h))) by (field; intros Z; rewrite Z in Hn; lra).
      setoid_replace (e * (1 - h) * (e * (1 - h)) * n) with (n * (1 - h) * (e * e * (1 - h))) by ring. apply Qmult_lt_r; [apply Qmult_lt_0_compat; lra|]. lra. }
    split; [rewrite Ep; apply Exists_app; right; left; rewrite <- Ep; exact In0|]. rewrite Ep at 2. apply without_app; [|exact In0].
    intros w Iw (v & Vv & Lv). rewrite (variance_unique _ _ _ Nr Vv Va) in Lv. rewrite Ez in Lv.
    assert (Rw : res p w == - ev g w).
    { rewrite Rs. destruct w as [x y]. unfold d. cbn [fst snd]. rewrite (On x y Iw). ring. }
    assert (Gw : ev g w * ev g w <= e * e * h * (1 - h)).
    { assert (X : ev g w * ev g w <= ip (before ++ after) (ev g) (ev g)) by (apply (ip_one_le _ (ev g)); exact Iw).
      assert (Y : ip pts (ev g) (ev g) == ip (before ++ after) (ev g) (ev g) + g0 * g0) by (rewrite Ep, !ip_app; cbn [ip]; fold g0; ring).
      rewrite G1 in Y. rewrite Hg in Y. cbn beta in *. set (u := eval g (fst w)) in *. clearbody u. set (I2 := ip (before ++ after) _ _) in *. clearbody I2. clear - X Y. lra. }
    rewrite Rw in Lv. apply (Qmult_lt_r _ _ n ltac:(lra)) in Lv.
    setoid_replace (4 * 4 * (e * e * (1 - h) / n) * n) with (16 * (e * e * (1 - h))) in Lv by (field; intros Z; rewrite Z in Hn; lra).
    assert (Y : n * (ev g w * ev g w) <= n * (e * e * h * (1 - h))) by (rewrite !(Qmult_comm n); apply Qmult_le_compat_r; [exact Gw|lra]).
    assert (W : n * h * (e * e * (1 - h)) <= 16 * (e * e * (1 - h))) by (apply Qmult_le_compat_r; [exact H2|apply Qlt_le_weak, Qmult_lt_0_compat; lra]).
    cbn beta in *. lra.
  Qed.
End Wrong.

(** * Equally spaced points *)
(** Bounds on the orthogonal polynomials at the points. *)
Lemma bound2 n w : 33 <= n -> 0 <= w -> w <= (n - 1) * (n - 1) ->
  (3 * w - (n * n - 1)) * (3 * w - (n * n - 1)) <= 4 * (n * n - 1) * (n * n - 4).
Proof.
  intros N W0 W1. set (u := 3 * w - (n * n - 1)). assert (U0 : - (n * n - 1) <= u) by (unfold u; lra).
  assert (U1 : u <= 2 * (n - 1) * (n - 2)) by (unfold u; lra). clearbody u. clear W0 W1.
  assert (A : 0 <= (2 * (n - 1) * (n - 2) - u) * (u + (n * n - 1))) by (apply Qmult_le_0_compat; lra).
  assert (B : 0 <= (n - 33) * (n * n)) by (apply Qmult_le_0_compat; nra).
  assert (K : n * n >= 33 * n) by nra.
  destruct (Qlt_le_dec u 0) as [Lu|Lu].
  - assert (X : u * u <= (n * n - 1) * (n * n - 1)) by nra.
    assert (Y : 0 <= (n * n - 1) * (3 * (n * n) - 15)) by (apply Qmult_le_0_compat; nra). nra.
  - assert (X : u * u <= (2 * (n - 1) * (n - 2)) * (2 * (n - 1) * (n - 2))) by nra.
    assert (Y : 0 <= (n - 1) * (n - 2) * n) by (repeat apply Qmult_le_0_compat; lra). nra.
Qed.
Lemma sq_nonneg (x : Q) : 0 <= x * x.
Proof. nra. Qed.
Lemma cube_le a c : 0 <= a -> a <= c -> a * a * a <= c * c * c.
Proof. intros A L. assert (0 <= (c - a) * (c * c + c * a + a * a)) by (apply Qmult_le_0_compat; nra). lra. Qed.
Lemma bound3 n w : 33 <= n -> 0 <= w -> w <= (n - 1) * (n - 1) ->
  w * ((5 * w - (3 * (n * n) - 7)) * (5 * w - (3 * (n * n) - 7))) <= 4 * (n * n - 1) * (n * n - 4) * (n * n - 9).
Proof.
  intros N W0 W1. set (K := 3 * (n * n) - 7). assert (M : 1089 <= n * n) by nra.
  destruct (Qlt_le_dec (5 * w) K) as [L|L].
  - assert (X : 0 <= (K - 15 * w) * (K - 15 * w) * (4 * K - 15 * w)) by (apply Qmult_le_0_compat; [apply sq_nonneg|unfold K in *; lra]).
    assert (Y : 135 * (w * ((5 * w - K) * (5 * w - K))) <= 4 * (K * K * K)) by lra.
    assert (Z : K * K * K <= (5 * (n * n - 9)) * (5 * (n * n - 9)) * (5 * (n * n - 9))) by (apply cube_le; unfold K; lra).
    set (q := n * n) in *. assert (V : (q - 9) * (q - 9) * (q - 9) <= (q - 1) * (q - 4) * (q - 9)).
    { apply Qmult_le_compat_r; [|lra]. assert (0 <= (q - 9) * 5) by lra. assert (0 <= 8 * (q - 4)) by lra. lra. }
    assert (V0 : 0 <= (q - 9) * (q - 9) * (q - 9)) by (repeat apply Qmult_le_0_compat; lra). lra.
  - set (u := 5 * w - K) in *. assert (U0 : 0 <= u) by (unfold u; lra). assert (U1 : u <= 2 * (n - 2) * (n - 3)) by (unfold u, K; lra).
    assert (A : u * u <= (2 * (n - 2) * (n - 3)) * (2 * (n - 2) * (n - 3))) by (assert (0 <= (2 * (n - 2) * (n - 3) - u) * (2 * (n - 2) * (n - 3) + u)) by (apply Qmult_le_0_compat; lra); lra).
    assert (U2 : 0 <= u * u) by nra.
    apply (Qle_trans _ ((n - 1) * (n - 1) * (u * u))); [apply Qmult_le_compat_r; assumption|].
    apply (Qle_trans _ ((n - 1) * (n - 1) * ((2 * (n - 2) * (n - 3)) * (2 * (n - 2) * (n - 3))))); [rewrite !(Qmult_comm ((n - 1) * (n - 1))); apply Qmult_le_compat_r; [exact A|nra]|].
    set (s := (n - 1) * (n - 2) * (n - 3)). set (t := (n + 1) * (n + 2) * (n + 3)).
    assert (S0 : 0 <= s) by (unfold s; repeat apply Qmult_le_0_compat; lra).
    assert (St : s <= t) by (unfold s, t; nra).
    assert (F : 0 <= s * (t - s)) by (apply Qmult_le_0_compat; lra).
    setoid_replace ((n - 1) * (n - 1) * ((2 * (n - 2) * (n - 3)) * (2 * (n - 2) * (n - 3)))) with (4 * (s * s)) by (unfold s; ring).
    setoid_replace (4 * (n * n - 1) * (n * n - 4) * (n * n - 9)) with (4 * (s * t)) by (unfold s, t; ring). lra.
Qed.
(** Four terms: the squares of the terms bound the square of their sum. *)
Lemma four_terms t0 t1 t2 t3 : (t0 + t1 + t2 + t3) * (t0 + t1 + t2 + t3) <= 16 * (t0 * t0 + t1 * t1 / 3 + t2 * t2 / 5 + t3 * t3 / 7).
Proof.
  (* sum over pairs j < k of ((2k+1) t_j - (2j+1) t_k)^2 / ((2j+1) (2k+1)) *)
  assert (E : 16 * (t0 * t0 + t1 * t1 / 3 + t2 * t2 / 5 + t3 * t3 / 7) - (t0 + t1 + t2 + t3) * (t0 + t1 + t2 + t3) ==
    (1 # 3) * ((3 * t0 - t1) * (3 * t0 - t1)) + (1 # 5) * ((5 * t0 - t2) * (5 * t0 - t2)) + (1 # 7) * ((7 * t0 - t3) * (7 * t0 - t3)) +
    (1 # 15) * ((5 * t1 - 3 * t2) * (5 * t1 - 3 * t2)) + (1 # 21) * ((7 * t1 - 3 * t3) * (7 * t1 - 3 * t3)) + (1 # 35) * ((7 * t2 - 5 * t3) * (7 * t2 - 5 * t3))) by field.
  assert (Sq : forall x : Q, 0 <= x * x) by (intros; nra).
  pose proof (Sq (3 * t0 - t1)). pose proof (Sq (5 * t0 - t2)). pose proof (Sq (7 * t0 - t3)).
  pose proof (Sq (5 * t1 - 3 * t2)). pose proof (Sq (7 * t1 - 3 * t3)). pose proof (Sq (7 * t2 - 5 * t3)). lra.
Qed.

Section Even.
  Variables k0 k1 k2 k3 : Q.
  Definition curve_of (x : Q) := k0 + k1 * x + k2 * (x * x) + k3 * (x * x * x).
  (** The sum of the squares of [f] over the whole numbers below [n]. *)
  Definition squares_below (n : Q) : Q :=
    k0 * k0 * n + 2 * k0 * k1 * (n * (n - 1) / 2) + (k1 * k1 + 2 * k0 * k2) * (n * (n - 1) * (2 * n - 1) / 6)
    + (2 * k0 * k3 + 2 * k1 * k2) * (n * n * (n - 1) * (n - 1) / 4)
    + (k2 * k2 + 2 * k1 * k3) * (n * (n - 1) * (2 * n - 1) * (3 * n * n - 3 * n - 1) / 30)
    + 2 * k2 * k3 * (n * n * (n - 1) * (n - 1) * (2 * n * n - 2 * n - 1) / 12)
    + k3 * k3 * (n * (n - 1) * (2 * n - 1) * (3 * n * n * n * n - 6 * n * n * n + 3 * n + 1) / 42).
  Notation f := curve_of.
  Notation T := squares_below.
  Lemma T_step n : T (n + 1) == T n + f n * f n.
  Proof. unfold squares_below, curve_of. field. Qed.
  Lemma T_proper x y : x == y -> T x == T y.
  Proof. intros E. unfold squares_below. rewrite E. reflexivity. Qed.

  Variable n : Q.
  (** The coefficients in orthogonal polynomials of [2 x - (n - 1)]. *)
  Let b3 := k3 / 40.
  Let b2 := (k2 + 3 * k3 * ((n - 1) / 2)) / 12.
  Let m := (n - 1) / 2.
  Let b1 := (k1 + 2 * k2 * m + 3 * k3 * m * m) / 2 + b3 * (3 * n * n - 7).
  Let b0 := f m + b2 * (n * n - 1).
  Let P1 (v : Q) := v.
  Let P2 (v : Q) := 3 * (v * v) - (n * n - 1).
  Let P3 (v : Q) := 5 * (v * v * v) - (3 * (n * n) - 7) * v.
  Lemma f_split x : f x == b0 + b1 * P1 (2 * x - (n - 1)) + b2 * P2 (2 * x - (n - 1)) + b3 * P3 (2 * x - (n - 1)).
  Proof. unfold curve_of, b0, b1, b2, b3, P1, P2, P3, curve_of, m. field. Qed.
  Lemma T_split : T n == b0 * b0 * n + b1 * b1 * (n * (n * n - 1) / 3) + b2 * b2 * (4 * n * (n * n - 1) * (n * n - 4) / 5)
                         + b3 * b3 * (4 * n * (n * n - 1) * (n * n - 4) * (n * n - 9) / 7).
  Proof. unfold squares_below, b0, b1, b2, b3, curve_of, m. field. Qed.

  Lemma even_bound x : 33 <= n -> 0 <= x -> x <= n - 1 -> n * (f x * f x) <= 16 * T n.
  Proof.
    intros N X0 X1. rewrite f_split, T_split. generalize b0 b1 b2 b3. intros a0 a1 a2 a3. unfold P1, P2, P3. set (v := 2 * x - (n - 1)).
    assert (V : v * v <= (n - 1) * (n - 1)) by (unfold v; assert (0 <= x * (n - 1 - x)) by (apply Qmult_le_0_compat; lra); lra).
    assert (V0 : 0 <= v * v) by nra. clearbody v.
    pose proof (bound2 n (v * v) N V0 V) as B2. pose proof (bound3 n (v * v) N V0 V) as B3.
    set (p2 := 3 * (v * v) - (n * n - 1)) in *. set (p3 := 5 * (v * v * v) - (3 * (n * n) - 7) * v).
    assert (E3 : p3 * p3 == v * v * ((5 * (v * v) - (3 * (n * n) - 7)) * (5 * (v * v) - (3 * (n * n) - 7)))) by (unfold p3; ring).
    rewrite <- E3 in B3. clearbody p2 p3. clear E3.
    pose proof (four_terms a0 (a1 * v) (a2 * p2) (a3 * p3)) as F.
    assert (Q1 : 0 <= a1 * a1) by nra. assert (Q2 : 0 <= a2 * a2) by nra. assert (Q3 : 0 <= a3 * a3) by nra.
    assert (C1 : n * (a1 * v * (a1 * v)) <= 3 * (a1 * a1 * (n * (n * n - 1) / 3))).
    { setoid_replace (3 * (a1 * a1 * (n * (n * n - 1) / 3))) with ((n * n - 1) * (n * (a1 * a1))) by field.
      setoid_replace (n * (a1 * v * (a1 * v))) with (v * v * (n * (a1 * a1))) by ring. apply Qmult_le_compat_r; [lra|apply Qmult_le_0_compat; lra]. }
    assert (C2 : n * (a2 * p2 * (a2 * p2)) <= 5 * (a2 * a2 * (4 * n * (n * n - 1) * (n * n - 4) / 5))).
    { setoid_replace (5 * (a2 * a2 * (4 * n * (n * n - 1) * (n * n - 4) / 5))) with (4 * (n * n - 1) * (n * n - 4) * (n * (a2 * a2))) by field.
      setoid_replace (n * (a2 * p2 * (a2 * p2))) with (p2 * p2 * (n * (a2 * a2))) by ring. apply Qmult_le_compat_r; [exact B2|apply Qmult_le_0_compat; lra]. }
    assert (C3 : n * (a3 * p3 * (a3 * p3)) <= 7 * (a3 * a3 * (4 * n * (n * n - 1) * (n * n - 4) * (n * n - 9) / 7))).
    { setoid_replace (7 * (a3 * a3 * (4 * n * (n * n - 1) * (n * n - 4) * (n * n - 9) / 7))) with (4 * (n * n - 1) * (n * n - 4) * (n * n - 9) * (n * (a3 * a3))) by field.
      setoid_replace (n * (a3 * p3 * (a3 * p3))) with (p3 * p3 * (n * (a3 * a3))) by ring. apply Qmult_le_compat_r; [exact B3|apply Qmult_le_0_compat; lra]. }
    set (A1 := a1 * a1 * _) in *. set (A2 := a2 * a2 * _) in *. set (A3 := a3 * a3 * _) in *.
    set (t1 := a1 * v) in *. set (t2 := a2 * p2) in *. set (t3 := a3 * p3) in *. clearbody A1 A2 A3 t1 t2 t3.
    apply (Qle_trans _ (n * (16 * (a0 * a0 + t1 * t1 / 3 + t2 * t2 / 5 + t3 * t3 / 7)))).
    - rewrite !(Qmult_comm n). apply Qmult_le_compat_r; [exact F|lra].
    - setoid_replace (n * (16 * (a0 * a0 + t1 * t1 / 3 + t2 * t2 / 5 + t3 * t3 / 7))) with (16 * (a0 * a0 * n) + 16 * ((1 # 3) * (n * (t1 * t1)) + (1 # 5) * (n * (t2 * t2)) + (1 # 7) * (n * (t3 * t3)))) by field. lra.
  Qed.

  (** The sum over equally spaced points, with [f] at the number of each. *)
  Lemma even_sum (g : point -> Q) pts : forall K, (forall i q, nth_error pts i = Some q -> g q == f (K + inject_Z (Z.of_nat i))) ->
    ip pts g g == T (K + number pts) - T K.
  Proof.
    induction pts as [|q pts IH]; intros K H.
    - cbn [ip]. assert (E : T (K + number (@nil point)) == T K) by (apply T_proper; unfold number; cbn; ring). rewrite E. ring.
    - cbn [ip]. rewrite (IH (K + 1)).
      + pose proof (T_step K) as E. assert (Ef : g q == f K).
        { rewrite (H 0%nat q eq_refl). unfold curve_of. change (inject_Z (Z.of_nat 0)) with 0. ring. }
        rewrite Ef. assert (X : T (K + 1 + number pts) == T (K + number (q :: pts))).
        { apply T_proper. unfold number. cbn [length]. rewrite Nat2Z.inj_succ. unfold Z.succ. rewrite inject_Z_plus. ring. }
        rewrite X. lra.
      + intros i w E. rewrite (H (Datatypes.S i) w E). rewrite Nat2Z.inj_succ. unfold Z.succ. rewrite inject_Z_plus. unfold curve_of. ring.
  Qed.
  Lemma T_zero : T 0 == 0.
  Proof. unfold squares_below. field. Qed.
End Even.

Lemma comb3 : forall p q k, exists r, forall x, eval3 r x == eval3 p x + k * eval3 q x.
Proof.
  intros p q k. exists (mkcubic (c0 p + k * c0 q) (c1 p + k * c1 q) (c2 p + k * c2 q) (c3 p + k * c3 q)). intros x. unfold eval3. cbn [c0 c1 c2 c3]. ring.
Qed.
Lemma comb1 : forall p q k, exists r, forall x, eval1 r x == eval1 p x + k * eval1 q x.
Proof. intros p q k. exists (mklinear (l0 p + k * l0 q) (l1 p + k * l1 q)). intros x. unfold eval1. cbn [l0 l1]. ring. Qed.
Lemma one3 : exists p, forall x, eval3 p x == 1.
Proof. exists (mkcubic 1 0 0 0). intros x. unfold eval3. cbn [c0 c1 c2 c3]. ring. Qed.
Lemma one1 : exists p, forall x, eval1 p x == 1.
Proof. exists (mklinear 1 0). intros x. unfold eval1. cbn [l0 l1]. ring. Qed.
Lemma ordinary_ip pts x0 : ordinary pts x0 -> forall p, number pts * (eval3 p x0 * eval3 p x0) <= 16 * ip pts (fun q => eval3 p (fst q)) (fun q => eval3 p (fst q)).
Proof. intros O p. rewrite <- (sum_of_ip (fun q => fst q) (eval3 p)). apply O. Qed.
