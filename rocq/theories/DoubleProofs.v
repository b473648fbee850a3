(** Proofs for C74: whole numbers are computed exactly in doubles. *)
From Coq Require Import String.
From Coq Require Import ZArith QArith Qabs Qround Qpower List Bool Lia Lqa.
From Verif Require Import Lib Base Scan Parser Unwrap UnwrapProofs Process DoubleSpec Double.
Import ListNotations.
Open Scope Z_scope.

Lemma double_int z : Z.abs z < 2 ^ 53 -> double (inject_Z z).
Proof. intros H. exists z, 0. split; [exact H|]. split; [lia|]. rewrite Qmult_1_r. reflexivity. Qed.
Lemma double_eq x y : (x == y)%Q -> double x -> double y.
Proof. intros E (m & e & A & B & C). exists m, e. split; [exact A|]. split; [exact B|]. rewrite <- E. exact C. Qed.
Lemma int_below_largest z : Z.abs z < 2 ^ 53 -> (Qabs (inject_Z z) <= largest)%Q.
Proof.
  intros H. assert (E : (Qabs (inject_Z z) == inject_Z (Z.abs z))%Q) by reflexivity. rewrite E. unfold largest.
  apply Qle_trans with (inject_Z (2 ^ 53 - 1)); [rewrite <- Zle_Qle; lia|].
  setoid_replace (inject_Z (2 ^ 53 - 1)) with (inject_Z (2 ^ 53 - 1) * 1)%Q at 1 by (rewrite Qmult_1_r; reflexivity).
  apply Qmult_le_l; [reflexivity|]. apply Qle_bool_iff. vm_compute. reflexivity.
Qed.

Section Double.
  Variable rnd : Q -> Q.
  Hypothesis N : rounds_to_nearest rnd.

  Lemma rnd_int x z : (x == inject_Z z)%Q -> Z.abs z < 2 ^ 53 -> (rnd x == inject_Z z)%Q.
  Proof.
    intros E H. assert (L : (Qabs x <= largest)%Q) by (rewrite E; apply int_below_largest; exact H).
    destruct (N x L) as [_ A]. specialize (A x (double_eq _ _ (Qeq_sym _ _ E) (double_int z H))).
    assert (Z0 : (Qabs (x - x) == 0)%Q) by (setoid_replace (x - x)%Q with 0%Q by ring; reflexivity). rewrite Z0 in A.
    apply Qabs_Qle_condition in A as [A B]. rewrite <- E. lra.
  Qed.
  Lemma rnd_add x y a c : (x == inject_Z a)%Q -> (y == inject_Z c)%Q -> Z.abs (a + c) < 2 ^ 53 -> (rnd (x + y) == inject_Z (a + c))%Q.
  Proof. intros A B H. apply rnd_int; [rewrite A, B, inject_Z_plus; reflexivity|exact H]. Qed.
  Lemma rnd_sub x y a c : (x == inject_Z a)%Q -> (y == inject_Z c)%Q -> Z.abs (a - c) < 2 ^ 53 -> (rnd (x - y) == inject_Z (a - c))%Q.
  Proof. intros A B H. apply rnd_int; [rewrite A, B; unfold Z.sub, Qminus; rewrite inject_Z_plus, inject_Z_opp; reflexivity|exact H]. Qed.
  Lemma rnd_mul x y a c : (x == inject_Z a)%Q -> (y == inject_Z c)%Q -> Z.abs (a * c) < 2 ^ 53 -> (rnd (x * y) == inject_Z (a * c))%Q.
  Proof. intros A B H. apply rnd_int; [rewrite A, B, inject_Z_mult; reflexivity|exact H]. Qed.
End Double.

Lemma floor_int x z n : (x == inject_Z z)%Q -> 0 < n -> Qfloor (x / inject_Z n) = z / n.
Proof. intros E H. rewrite (Zdiv_Qdiv z n). apply Qfloor_comp. rewrite E. reflexivity. Qed.
Lemma Qmod_int x z n : (x == inject_Z z)%Q -> 0 < n -> (Qmod x (inject_Z n) == inject_Z (z mod n))%Q.
Proof.
  intros E H. unfold Qmod. rewrite (floor_int x z n E H), E, <- inject_Z_mult. unfold Qminus. rewrite <- inject_Z_opp, <- inject_Z_plus.
  apply inject_Z_injective. rewrite Z.mod_eq by lia. lia.
Qed.
Lemma Qltb_comp x y a c : (x == y)%Q -> (a == c)%Q -> Qltb x a = Qltb y c.
Proof.
  intros E F. destruct (Qltb y c) eqn:G; [apply Qltb_lt in G; apply Qltb_lt|apply Qltb_ge in G; apply Qltb_ge]; rewrite E, F; exact G.
Qed.
Lemma Qltb_int x y z w : (x == inject_Z z)%Q -> (y == inject_Z w)%Q -> Qltb x y = (z <? w).
Proof.
  intros E F. rewrite (Qltb_comp _ _ _ _ E F). destruct (z <? w) eqn:G; [apply Qltb_lt; rewrite <- Zlt_Qlt; lia|apply Qltb_ge; rewrite <- Zle_Qle; lia].
Qed.
Lemma trunc_int x z n : (x == inject_Z z)%Q -> 0 < n -> py_trunc (x / inject_Z n) = Z.quot z n.
Proof.
  intros E H. unfold py_trunc. assert (P : (0 < inject_Z n)%Q) by (change 0%Q with (inject_Z 0); rewrite <- Zlt_Qlt; exact H).
  destruct (Qle_bool 0 (x / inject_Z n)) eqn:G.
  - apply Qle_bool_iff in G. assert (0 <= z).
    { rewrite Zle_Qle. change (inject_Z 0) with 0%Q. rewrite <- E. setoid_replace x with (x / inject_Z n * inject_Z n)%Q by (field; lra). apply Qmult_le_0_compat; lra. }
    rewrite (floor_int x z n E H). symmetry. apply Z.quot_div_nonneg; lia.
  - assert (z < 0).
    { rewrite Zlt_Qlt. change (inject_Z 0) with 0%Q. rewrite <- E. apply Qnot_le_lt. intros L. assert (X : (0 <= x / inject_Z n)%Q) by (apply Qle_shift_div_l; lra).
      apply Qle_bool_iff in X. congruence. }
    assert (E' : (- (x / inject_Z n) == - x / inject_Z n)%Q) by (field; lra).
    rewrite (Qfloor_comp _ _ E'), (floor_int (- x)%Q (- z) n); [|rewrite E, inject_Z_opp; reflexivity|exact H].
    rewrite <- Z.quot_div_nonneg by lia. rewrite Z.quot_opp_l by lia. lia.
Qed.
Lemma fmod_int x z n : (x == inject_Z z)%Q -> 0 < n -> (fmod x (inject_Z n) == inject_Z (Z.rem z n))%Q.
Proof.
  intros E H. unfold fmod. rewrite (trunc_int x z n E H), E, <- inject_Z_mult. unfold Qminus. rewrite <- inject_Z_opp, <- inject_Z_plus.
  apply inject_Z_injective. pose proof (Z.quot_rem z n). lia.
Qed.

Section Arithmetic.
  Variable rnd : Q -> Q.
  Hypothesis N : rounds_to_nearest rnd.

  Lemma dmod_int x z n : (x == inject_Z z)%Q -> 0 < n < 2 ^ 53 -> (dmod rnd x (inject_Z n) == inject_Z (z mod n))%Q.
  Proof.
    intros E H. unfold dmod. assert (F : (fmod x (inject_Z n) == inject_Z (Z.rem z n))%Q) by (apply fmod_int; [exact E|lia]).
    rewrite (Qltb_int _ 0 (Z.rem z n) 0 F) by reflexivity. destruct (Z.rem z n <? 0) eqn:G.
    - assert (R : z mod n = Z.rem z n + n).
      { assert (z < 0) by (destruct (Z_lt_ge_dec z 0); [lia|pose proof (Z.rem_nonneg z n); lia]).
        pose proof (Z.rem_bound_abs z n). pose proof (Z.quot_rem z n). symmetry. apply Z.mod_unique with (Z.quot z n - 1); [left; lia|lia]. }
      rewrite R. apply (rnd_add rnd N); [exact F|reflexivity|]. pose proof (Z.rem_bound_abs z n). lia.
    - rewrite F. apply inject_Z_injective. pose proof (Z.rem_bound_abs z n). pose proof (Z.quot_rem z n). apply Z.mod_unique with (Z.quot z n); [left; lia|lia].
  Qed.

  (** * The parser *)
  Definition same_state (s t : pstate) : Prop :=
    (prev s == prev t)%Q /\ whole (2 ^ 40) (prev t) /\ (dms s == dms t)%Q /\ adc s = adc t /\ gvars s = gvars t /\ mvars s = mvars t /\ buf s = buf t.
  Definition same_row (r t : row) : Prop := rkind r = rkind t /\ (rmillis r == rmillis t)%Q /\ rvals r = rvals t.

  Lemma advance_1 p q : (p == q)%Q -> whole (2 ^ 40) q -> (dmod rnd (rnd (p + 10)) roll == Qmod (q + 10) roll)%Q.
  Proof.
    intros E (z & Ez & Hz). change roll with (inject_Z 8192).
    assert (A : (rnd (p + 10) == inject_Z (z + 10))%Q) by (apply (rnd_add rnd N); [rewrite E; exact Ez|reflexivity|lia]).
    assert (B : (q + 10 == inject_Z (z + 10))%Q) by (rewrite Ez, inject_Z_plus; reflexivity).
    rewrite (dmod_int _ _ 8192 A) by lia. rewrite (Qmod_int _ _ 8192 B) by lia. reflexivity.
  Qed.
  Lemma advance_2 p q c : 0 <= c <= 255 -> (p == q)%Q -> whole (2 ^ 40) q ->
    (dmod rnd (rnd (rnd (rnd (p + 10) + inject_Z c) - 109)) roll == Qmod (q + 10 + inject_Z (c - 109)) roll)%Q.
  Proof.
    intros C E (z & Ez & Hz). change roll with (inject_Z 8192).
    assert (A : (rnd (p + 10) == inject_Z (z + 10))%Q) by (apply (rnd_add rnd N); [rewrite E; exact Ez|reflexivity|lia]).
    assert (B : (rnd (rnd (p + 10) + inject_Z c) == inject_Z (z + 10 + c))%Q) by (apply (rnd_add rnd N); [exact A|reflexivity|lia]).
    assert (D : (rnd (rnd (rnd (p + 10) + inject_Z c) - 109) == inject_Z (z + 10 + c - 109))%Q) by (apply (rnd_sub rnd N); [exact B|reflexivity|lia]).
    assert (F : (q + 10 + inject_Z (c - 109) == inject_Z (z + 10 + c - 109))%Q).
    { rewrite Ez. change 10%Q with (inject_Z 10). rewrite <- !inject_Z_plus. apply inject_Z_injective. lia. }
    rewrite (dmod_int _ _ 8192 D) by lia. rewrite (Qmod_int _ _ 8192 F) by lia. reflexivity.
  Qed.
  Lemma whole_mod q r : whole (2 ^ 40) q -> (0 < r < 2 ^ 40)%Z -> whole (2 ^ 40) (Qmod q (inject_Z r)).
  Proof. intros (z & E & _) H. exists (z mod r). split; [apply Qmod_int; [exact E|lia]|]. pose proof (Z.mod_pos_bound z r). lia. Qed.

  Lemma drun_run sc cs : forall s t, same_state s t -> Forall (fun r => rkind r = KD -> whole (2 ^ 40) (rmillis r)) (run sc t cs) ->
    Forall2 same_row (drun rnd sc s cs) (run sc t cs).
  Proof.
    induction cs as [|c cs IH]; intros s t (P & W & D & A & G & M & B) Hr; [constructor|].
    cbn [drun run] in *. unfold dstep, step in *. rewrite A, G, M, B in *.
    cbn [prev dms adc gvars mvars buf] in *.
    set (buf' := c ++ 0 :: skipn (S (length c)) (buf t)) in *.
    destruct (is_lower (nth 0 buf' 0)) eqn:L0.
    - assert (C0 : 0 <= nth 0 buf' 0 <= 255) by (unfold is_lower in L0; lia).
      destruct (negb (is_lower (nth 1 buf' 0))); cbn [run drun] in *.
      + inversion Hr as [|? ? H1 H2]; subst. pose proof (advance_1 _ _ P W) as X. constructor; [split; [reflexivity|split; [exact X|reflexivity]]|].
        apply IH; [|exact H2]. repeat split; try reflexivity; cbn [prev dms adc gvars mvars buf]; [exact X|exact (H1 eq_refl)|exact D].
      + inversion Hr as [|? ? H1 H2]; subst. pose proof (advance_2 _ _ _ C0 P W) as X. constructor; [split; [reflexivity|split; [exact X|reflexivity]]|].
        apply IH; [|exact H2]. repeat split; try reflexivity; cbn [prev dms adc gvars mvars buf]; [exact X|exact (H1 eq_refl)|exact D].
    - destruct (nth 0 buf' 0 =? 68).
      + destruct (sscanf sc fmt_D (cstr (skipn 1 buf'))) as [|v [|a l]]; cbn [run drun] in *; inversion Hr as [|? ? H1 H2]; subst.
        * constructor; [split; [reflexivity|split; [exact D|reflexivity]]|]. apply IH; [|exact H2].
          repeat split; try reflexivity; cbn [prev dms adc gvars mvars buf]; [exact D|exact (H1 eq_refl)|exact D].
        * pose proof (advance_1 _ _ P W) as X. constructor; [split; [reflexivity|split; [exact X|reflexivity]]|]. apply IH; [|exact H2].
          repeat split; try reflexivity; cbn [prev dms adc gvars mvars buf]; [exact X|exact (H1 eq_refl)|exact X].
        * constructor; [repeat split; reflexivity|]. apply IH; [|exact H2]. repeat split; try reflexivity; cbn [prev dms adc gvars mvars buf]; exact (H1 eq_refl).
      + destruct (nth 0 buf' 0 =? 71); [|destruct (nth 0 buf' 0 =? 77)]; cbn [run drun] in *.
        * inversion Hr as [|? ? H1 H2]; subst. constructor; [repeat split; reflexivity|]. apply IH; [|exact H2]. repeat split; try reflexivity; cbn [prev dms adc gvars mvars buf]; assumption.
        * inversion Hr as [|? ? H1 H2]; subst. constructor; [repeat split; reflexivity|]. apply IH; [|exact H2]. repeat split; try reflexivity; cbn [prev dms adc gvars mvars buf]; assumption.
        * apply IH; [|exact Hr]. repeat split; try reflexivity; cbn [prev dms adc gvars mvars buf]; assumption.
  Qed.
  Lemma drun_init sc buf0 bs : Forall (fun r => rkind r = KD -> whole (2 ^ 40) (rmillis r)) (run sc (init buf0) (chunks bs)) ->
    Forall2 same_row (drun rnd sc (init buf0) (chunks bs)) (run sc (init buf0) (chunks bs)).
  Proof. intros H. apply drun_run; [|exact H]. repeat split; try reflexivity. exists 0. split; [reflexivity|lia]. Qed.

  (** * Unwrapping *)
  Lemma same_opt_lt x y v : same_value x y -> lt_opt x v = lt_opt y v.
  Proof. destruct x, y; cbn [same_value lt_opt]; intros H; try contradiction; [apply Qltb_comp; [exact H|reflexivity]|reflexivity]. Qed.
  Lemma same_opt_gt x y v : same_value x y -> gt_opt x v = gt_opt y v.
  Proof. destruct x, y; cbn [same_value gt_opt]; intros H; try contradiction; [apply Qltb_comp; [reflexivity|exact H]|reflexivity]. Qed.
  Definition twin (n : Z) (x y : Q) : Prop := (x == y)%Q /\ whole n y.
  Lemma ddiffs_diffs : forall l m, Forall2 (twin (2 ^ 40)) l m -> forall p q, match p, q with Some a, Some c => twin (2 ^ 40) a c | None, None => True | _, _ => False end ->
    Forall2 same_value (ddiffs rnd p l) (diffs q m).
  Proof.
    induction 1 as [|x y l m (E & z & Ez & Hz) F IH]; intros p q Hpq; cbn [ddiffs diffs]; [constructor|]. constructor.
    - destruct p as [a|], q as [c|]; try contradiction; [|exact Logic.I]. destruct Hpq as (E' & w & Ew & Hw). cbn [same_value].
      rewrite (rnd_sub rnd N x a z w); [|rewrite E; exact Ez|rewrite E'; exact Ew|lia]. rewrite Ez, Ew. unfold Z.sub, Qminus. rewrite inject_Z_plus, inject_Z_opp. reflexivity.
    - apply IH. split; [exact E|exists z; auto].
  Qed.
  Lemma map_same {A} (f : A -> A -> Prop) (g : A -> bool) l m : (forall x y, f x y -> g x = g y) -> Forall2 f l m -> map g l = map g m.
  Proof. intros H. induction 1 as [|x y l m E F IH]; [reflexivity|]. cbn [map]. rewrite (H x y E), IH. reflexivity. Qed.
  Lemma dstairstep_stairstep r l m : Forall2 (twin (2 ^ 40)) l m -> dstairstep rnd r l = stairstep r m.
  Proof.
    intros F. unfold dstairstep, stairstep. pose proof (ddiffs_diffs l m F None None Logic.I) as G.
    rewrite (map_same same_value (fun x => lt_opt x (- (r / 2))%Q) _ _ (fun x y => same_opt_lt x y _) G).
    rewrite (map_same same_value (fun x => gt_opt x (r / 2)%Q) _ _ (fun x y => same_opt_gt x y _) G). reflexivity.
  Qed.
  Lemma cumcount_bound l : forall n, Forall (fun k => n <= k <= n + Z.of_nat (length l)) (cumcount n l).
  Proof.
    induction l as [|x l IH]; intros n; cbn [cumcount]; [constructor|]. constructor; [destruct x; cbn [length]; lia|].
    eapply Forall_impl; [|apply IH]. cbn beta. intros k. cbn [length]. destruct x; lia.
  Qed.
  Lemma diffs_length l : forall p, length (diffs p l) = length l.
  Proof. induction l as [|x l IH]; intros p; [reflexivity|]. cbn [diffs length]. rewrite IH. reflexivity. Qed.
  Lemma map2_forall {A B C} (f : A -> B -> C) (P : A -> Prop) (Q : B -> Prop) (R : C -> Prop) : (forall x y, P x -> Q y -> R (f x y)) ->
    forall l m, Forall P l -> Forall Q m -> Forall R (map2 f l m).
  Proof. intros H l m F. revert m. induction F as [|x l Px F IH]; intros m G; [constructor|]. destruct G as [|y m Qy G]; cbn [map2]; constructor; auto. Qed.
  Lemma stairstep_bound r m : Forall (fun k => Z.abs k <= Z.of_nat (length m)) (stairstep r m).
  Proof.
    unfold stairstep. eapply map2_forall; [|apply cumcount_bound|apply cumcount_bound]. cbn beta. rewrite !map_length, diffs_length. intros x y. lia.
  Qed.
  Lemma corrected_twin n l m : 0 < n <= 2 ^ 16 -> Z.of_nat (length m) <= 2 ^ 26 -> Forall2 (twin (2 ^ 40)) l m ->
    Forall2 (twin (2 ^ 43)) (dcorrected0 rnd (inject_Z n) l) (corrected0 (inject_Z n) m).
  Proof.
    intros Hn Hl F. unfold dcorrected0, corrected0. rewrite (dstairstep_stairstep _ l m F). pose proof (stairstep_bound (inject_Z n) m) as G.
    assert (G' : Forall (fun k => Z.abs k <= 2 ^ 26) (stairstep (inject_Z n) m)) by (eapply Forall_impl; [|exact G]; cbn beta; lia). clear G Hl.
    revert G'. generalize (stairstep (inject_Z n) m). induction F as [|x y l m (E & z & Ez & Hz) F IH]; intros [|k ks] G; cbn [map2]; try constructor.
    - inversion G as [|? ? K _]; subst. assert (Kn : Z.abs (k * n) <= 2 ^ 42) by (rewrite Z.abs_mul; change (2 ^ 42) with (2 ^ 26 * 2 ^ 16); apply Z.mul_le_mono_nonneg; lia).
      assert (A : (rnd (inject_Z k * inject_Z n) == inject_Z (k * n))%Q) by (apply (rnd_mul rnd N); [reflexivity|reflexivity|lia]).
      assert (B : (rnd (rnd (inject_Z k * inject_Z n) + x) == inject_Z (k * n + z))%Q) by (apply (rnd_add rnd N); [exact A|rewrite E; exact Ez|lia]).
      assert (C : (inject_Z k * inject_Z n + y == inject_Z (k * n + z))%Q) by (rewrite Ez, inject_Z_plus, inject_Z_mult; reflexivity).
      split; [rewrite B, C; reflexivity|]. exists (k * n + z). split; [exact C|lia].
    - apply IH. inversion G; assumption.
  Qed.
  Lemma unwrap_twin n h offset l m : n = 2 * h -> 0 < h <= 2 ^ 15 -> whole (2 ^ 50) offset -> Z.of_nat (length m) <= 2 ^ 26 -> Forall2 (twin (2 ^ 40)) l m ->
    Forall2 (twin (2 ^ 52)) (dunwrap rnd (inject_Z n) offset l) (unwrap (inject_Z n) offset m).
  Proof.
    intros Hn Hh (o & Eo & Ho) Hl F. pose proof (corrected_twin n l m ltac:(lia) Hl F) as G. unfold dunwrap, unwrap.
    inversion G as [Ea Eb|x y cl cm (E & z & Ez & Hz) G' Ea Eb]; [constructor|].
    assert (H2 : (inject_Z n / 2 == inject_Z h)%Q) by (rewrite Hn, inject_Z_mult; field).
    assert (Mo : (dmod rnd offset (inject_Z n) == inject_Z (o mod n))%Q) by (apply (dmod_int); [exact Eo|lia]).
    assert (Bo : 0 <= o mod n < n) by (apply Z.mod_pos_bound; lia).
    assert (S1 : (rnd (offset - x) == inject_Z (o - z))%Q) by (apply (rnd_sub rnd N); [exact Eo|rewrite E; exact Ez|lia]).
    assert (S2 : (rnd (x - dmod rnd offset (inject_Z n)) == inject_Z (z - o mod n))%Q) by (apply (rnd_sub rnd N); [rewrite E; exact Ez|exact Mo|lia]).
    assert (S3 : (rnd (rnd (x - dmod rnd offset (inject_Z n)) + inject_Z n / 2) == inject_Z (z - o mod n + h))%Q) by (apply (rnd_add rnd N); [exact S2|exact H2|lia]).
    assert (S4 : (dmod rnd (rnd (rnd (x - dmod rnd offset (inject_Z n)) + inject_Z n / 2)) (inject_Z n) == inject_Z ((z - o mod n + h) mod n))%Q) by (apply dmod_int; [exact S3|lia]).
    assert (B4 : 0 <= (z - o mod n + h) mod n < n) by (apply Z.mod_pos_bound; lia).
    set (w := (z - o mod n + h) mod n) in *.
    assert (S5 : (rnd (rnd (offset - x) + dmod rnd (rnd (rnd (x - dmod rnd offset (inject_Z n)) + inject_Z n / 2)) (inject_Z n)) == inject_Z (o - z + w))%Q) by (apply (rnd_add rnd N); [exact S1|exact S4|lia]).
    assert (S6 : (rnd (rnd (rnd (offset - x) + dmod rnd (rnd (rnd (x - dmod rnd offset (inject_Z n)) + inject_Z n / 2)) (inject_Z n)) - inject_Z n / 2) == inject_Z (o - z + w - h))%Q)
      by (apply (rnd_sub rnd N); [exact S5|exact H2|lia]).
    set (shift := rnd (rnd (rnd (offset - x) + _) - _)) in *.
    assert (X6 : (offset - y + Qmod (y - Qmod offset (inject_Z n) + inject_Z n / 2) (inject_Z n) - inject_Z n / 2 == inject_Z (o - z + w - h))%Q).
    { assert (A : (Qmod offset (inject_Z n) == inject_Z (o mod n))%Q) by (apply Qmod_int; [exact Eo|lia]).
      assert (B : (y - Qmod offset (inject_Z n) + inject_Z n / 2 == inject_Z (z - o mod n + h))%Q).
      { rewrite Ez, A, H2. unfold Z.sub, Qminus. rewrite !inject_Z_plus, inject_Z_opp. reflexivity. }
      rewrite (Qmod_int _ _ n B) by lia. fold w. rewrite Ez, Eo, H2. unfold Z.sub, Qminus. rewrite !inject_Z_plus, !inject_Z_opp. reflexivity. }
    set (shift' := (offset - y + _ - _)%Q) in *.
    assert (Gxy : Forall2 (twin (2 ^ 43)) (x :: cl) (y :: cm)) by (rewrite Ea, Eb; exact G). clear - Gxy S6 X6 N Ho Hz Hh B4 Hn.
    induction Gxy as [|a c l0 m0 (E1 & u & Eu & Hu) G0 IH]; cbn [map]; constructor; [|exact IH].
    assert (A : (rnd (a + shift) == inject_Z (u + (o - z + w - h)))%Q) by (apply (rnd_add rnd N); [rewrite E1; exact Eu|exact S6|lia]).
    assert (C : (c + shift' == inject_Z (u + (o - z + w - h)))%Q) by (rewrite Eu, X6, <- inject_Z_plus; reflexivity).
    split; [rewrite A, C; reflexivity|]. eexists. split; [exact C|lia].
  Qed.

  (** * Sums *)
  Lemma cumsum_twin : forall l acc acc' b, (acc == acc')%Q -> whole b acc' -> 0 <= b -> b + 2 ^ 26 * Z.of_nat (length l) <= 2 ^ 52 ->
    Forall (fun v => forall x, v = Some x -> whole (2 ^ 26) x) l -> Forall2 same_value (dcumsum rnd acc l) (cumsum acc' l).
  Proof.
    induction l as [|[x|] l IH]; intros acc acc' bd E (z & Ez & Hz) B0 B F; cbn [dcumsum cumsum length] in *; [constructor| |]; inversion F as [|? ? F1 F2]; subst.
    - destruct (F1 x eq_refl) as (w & Ew & Hw). assert (A : (rnd (acc + x) == inject_Z (z + w))%Q) by (apply (rnd_add rnd N); [rewrite E; exact Ez|exact Ew|lia]).
      assert (C : (acc' + x == inject_Z (z + w))%Q) by (rewrite Ez, Ew, inject_Z_plus; reflexivity).
      constructor; [cbn [same_value]; rewrite A, C; reflexivity|]. apply (IH _ _ (bd + 2 ^ 26)); [rewrite A, C; reflexivity|exists (z + w); split; [exact C|lia]|lia|lia|exact F2].
    - constructor; [exact Logic.I|]. apply (IH _ _ bd); [exact E|exists z; auto|exact B0|lia|exact F2].
  Qed.
End Arithmetic.

(** * Tables *)
Definition same_drow (d e : drow) : Prop := dkind d = dkind e /\ (dsaw d == dsaw e)%Q /\ dcells d = dcells e.
Definition same_crow (c d : crow) : Prop := ckind c = ckind d /\ (cms c == cms d)%Q /\ ccells c = ccells d.

Lemma group_same k l m : Forall2 same_crow l m -> Forall2 same_crow (group k l) (group k m).
Proof.
  induction 1 as [|c d l m (A & B & C) F IH]; [constructor|]. unfold group in *. cbn [filter]. rewrite A. destruct (kind_eqb (ckind d) k); [constructor; [repeat split; assumption|]|]; exact IH.
Qed.
Definition both {A B} (R : A -> B -> Prop) (x : option A) (y : option B) : Prop :=
  match x, y with Some a, Some c => R a c | None, None => True | _, _ => False end.
Lemma traverse_same {A B} (S : A -> A -> Prop) (R : B -> B -> Prop) (f : A -> option B) l m :
  (forall x y, S x y -> both R (f x) (f y)) -> Forall2 S l m -> both (Forall2 R) (traverse f l) (traverse f m).
Proof.
  intros H. induction 1 as [|x y l m E F IH]; cbn [traverse]; [constructor|]. specialize (H x y E). unfold both in *.
  destruct (f x), (f y); try contradiction; [|exact Logic.I]. destruct (traverse f l), (traverse f m); try contradiction; [constructor; assumption|exact Logic.I].
Qed.
Definition same_sample (p q : Q * option Q) : Prop := (fst p == fst q)%Q /\ snd p = snd q.
Lemma sample_same c d : same_crow c d -> both same_sample (sample_of c) (sample_of d).
Proof.
  intros (_ & B & C). unfold sample_of, both. rewrite C. destruct (ccells d) as [|x l]; [exact Logic.I|]. destruct (numeric x); [|exact Logic.I]. split; [exact B|reflexivity].
Qed.
Lemma meta_same n c d : same_crow c d -> both (fun p q : Q * list (option Q) => (fst p == fst q)%Q /\ snd p = snd q) (meta_of n c) (meta_of n d).
Proof. intros (_ & B & C). unfold meta_of, both. rewrite C. destruct (traverse numeric (firstn n (ccells d))); [split; [exact B|reflexivity]|exact Logic.I]. Qed.
Definition same_place (x y : fix_) : Prop := same_fix (x, 0) (y, 0).
Lemma fix_same c d : same_crow c d -> both same_place (fix_of c) (fix_of d).
Proof.
  intros (_ & B & C). unfold fix_of, both. rewrite C. destruct (traverse numeric (firstn 9 (ccells d))) as [[|a1 [|a2 [|a3 [|a4 [|a5 [|a6 [|a7 [|a8 [|a9 [|]]]]]]]]]]|]; try exact Logic.I.
  repeat split; try reflexivity; exact B.
Qed.
Lemma bounds_same x y : same_place x y -> gps_in_bounds x = gps_in_bounds y /\ make_gps_time x = make_gps_time y.
Proof. intros (_ & _ & E1 & E2 & E3 & E4 & E5 & E6 & E7 & E8 & E9). cbn [fst] in *. unfold gps_in_bounds, make_gps_time. rewrite E1, E2, E3, E4, E5, E6, E7, E8, E9. auto. Qed.
Lemma gps_same ear l m : Forall2 same_crow l m -> both (Forall2 same_fix) (gps_table ear l) (gps_table ear m).
Proof.
  intros F. pose proof (traverse_same same_crow same_place fix_of l m fix_same F) as T. unfold gps_table, both in *.
  destruct F as [|c d l m H F]; [exact Logic.I|].
  destruct (traverse fix_of (c :: l)) as [gs|], (traverse fix_of (d :: m)) as [hs|]; try contradiction; [|exact Logic.I]. clear - T.
  assert (E : Forall2 same_place (filter gps_in_bounds gs) (filter gps_in_bounds hs)).
  { induction T as [|x y l m E T IH]; [constructor|]. cbn [filter]. rewrite (proj1 (bounds_same x y E)). destruct (gps_in_bounds y); [constructor; assumption|assumption]. }
  assert (K : Forall2 same_fix (keep_fixes gs) (keep_fixes hs)).
  { clear E. induction T as [|x y l m E T IH]; [constructor|]. cbn [keep_fixes]. destruct (bounds_same x y E) as [-> ->]. destruct (gps_in_bounds y); [|assumption].
    destruct (make_gps_time y); [|assumption]. constructor; [|assumption]. destruct E as (_ & E). split; [reflexivity|exact E]. }
  destruct E as [|x y l m E E']; [destruct ear; [exact Logic.I|constructor]|exact K].
Qed.
Lemma map2_same (l : list Q) : forall m d e, Forall2 (twin (2 ^ 52)) l m -> Forall2 same_drow d e ->
  Forall2 same_crow (map2 (fun m d => mkc (dkind d) m (dcells d)) l d) (map2 (fun m d => mkc (dkind d) m (dcells d)) m e).
Proof.
  induction l as [|x l IH]; intros m d e F G; inversion F as [|? y ? m' [E _] F']; subst; [constructor|]. destruct G as [|u v d e (A & B & C) G]; cbn [map2]; constructor; [|apply IH; assumption].
  split; [exact A|]. split; [exact E|exact C].
Qed.
Lemma whole_twin n x y : (x == y)%Q -> whole n y -> twin n x y.
Proof. intros A B. split; assumption. Qed.

Lemma settings_rollover version r ncol : settings version = Some (r, ncol) -> exists h, r = inject_Z (2 * h) /\ 0 < h <= 2 ^ 15.
Proof.
  unfold settings. destruct (existsb _ _); [intros E; injection E as <- _; exists 4096; split; [reflexivity|lia]|].
  destruct (String.eqb version "0.85"); [intros E; injection E as <- _; exists 32768; split; [reflexivity|lia]|].
  destruct (String.eqb version "0.8"); [intros E; injection E as <- _; exists 32768; split; [reflexivity|lia]|discriminate].
Qed.

Section Tables.
  Variable rnd : Q -> Q.
  Hypothesis N : rounds_to_nearest rnd.

  Lemma correct_same r ncol version offset d e : settings version = Some (r, ncol) -> whole (2 ^ 50) offset -> whole_table e -> Forall2 same_drow d e ->
    Forall2 same_crow (dcorrect rnd r offset d) (correct r offset e).
  Proof.
    intros Es Ho [W L] F. destruct (settings_rollover version r ncol Es) as (h & -> & Hh). unfold dcorrect, correct. apply map2_same; [|exact F].
    apply (unwrap_twin rnd N (2 * h) h offset); [reflexivity|exact Hh|exact Ho|rewrite map_length; exact L|].
    clear - W F. induction F as [|x y d e (A & B & C) F IH]; [constructor|]. inversion W as [|? ? [W1 _] W2]; subst. cbn [map]. constructor; [apply whole_twin; assumption|apply IH; exact W2].
  Qed.
  Lemma cells_kept r offset e : forall c, In c (correct r offset e) -> exists d, In d e /\ ckind c = dkind d /\ ccells c = dcells d.
  Proof.
    unfold correct. generalize (unwrap r offset (map dsaw e)). intros ms. revert e. induction ms as [|m ms IH]; intros [|d e] c H; cbn [map2] in H; try destruct H.
    - exists d. subst c. cbn [ckind ccells]. split; [left; reflexivity|auto].
    - destruct (IH e c H) as (d' & A & B). exists d'. split; [right; exact A|exact B].
  Qed.
  Lemma traverse_values (l : list crow) : forall s, (forall c, In c l -> ckind c = KD -> Forall (fun c => forall x, c = Num x -> whole (2 ^ 26) x) (firstn 1 (ccells c))) -> Forall (fun c => ckind c = KD) l ->
    traverse sample_of l = Some s -> Forall (fun v => forall x, v = Some x -> whole (2 ^ 26) x) (map snd s) /\ length s = length l.
  Proof.
    induction l as [|c l IH]; intros s W K E; cbn [traverse] in E; [injection E as <-; split; [constructor|reflexivity]|]. inversion K as [|? ? K1 K2]; subst.
    destruct (sample_of c) as [p|] eqn:Ep; [|discriminate]. destruct (traverse sample_of l) as [s'|]; [|discriminate]. injection E as <-.
    destruct (IH s' (fun c' Hc => W c' (or_intror Hc)) K2 eq_refl) as [F Ln]. cbn [map length]. rewrite Ln. split; [|reflexivity]. constructor; [|exact F]. intros x Ex.
    specialize (W c (or_introl eq_refl) K1). unfold sample_of in Ep. destruct (ccells c) as [|u r]; [discriminate|]. cbn [firstn] in W. inversion W as [|? ? W1 _]; subst.
    destruct u as [q| |]; cbn [numeric] in Ep; [|injection Ep as <-; discriminate|discriminate]. injection Ep as <-. cbn [snd] in Ex. injection Ex as <-. exact (W1 q eq_refl).
  Qed.
  Lemma group_kind k l : Forall (fun c => ckind c = k) (group k l).
  Proof. apply Forall_forall. intros c H. apply filter_In in H as [_ H]. destruct (ckind c), k; try discriminate; reflexivity. Qed.
  Lemma combine_same : forall (l m : list (Q * option Q)) vs ws, Forall2 same_sample l m -> Forall2 same_value vs ws ->
    Forall2 (fun p q => (Qabs (fst p - fst q) <= 0)%Q /\ same_value (snd p) (snd q)) (combine (map fst l) vs) (combine (map fst m) ws).
  Proof.
    intros l m vs ws F. revert vs ws. induction F as [|p q l m [A B] F IH]; intros vs ws G; [constructor|]. destruct G as [|v w vs ws E G]; cbn [map combine]; constructor; [|apply IH; exact G].
    cbn [fst snd]. split; [|exact E]. setoid_replace (fst p - fst q)%Q with 0%Q by (rewrite A; ring). discriminate.
  Qed.
  Lemma same_refl x : same_value x x.
  Proof. destruct x; [reflexivity|exact Logic.I]. Qed.

  Lemma process_same ear version offset req d e : whole (2 ^ 50) offset -> whole_table e -> Forall2 same_drow d e ->
    close_results 0 (dprocess rnd ear version offset req d) (process ear version offset req e).
  Proof.
    intros Ho W F. unfold dprocess, process. destruct (settings version) as [[r ncol]|] eqn:Es; [|reflexivity].
    pose proof (Forall2_length_eq _ _ _ F) as Le. destruct d as [|d0 d], e as [|e0 e]; try discriminate; [reflexivity|]. clear Le. cbv zeta.
    pose proof (correct_same r ncol version offset _ _ Es Ho W F) as C. pose proof (group_same KD _ _ C) as CD. pose proof (group_same KM _ _ C) as CM. pose proof (group_same KG _ _ C) as CG.
    pose proof (traverse_same same_crow same_sample sample_of _ _ sample_same CD) as TD.
    pose proof (traverse_same same_crow _ (meta_of ncol) _ _ (meta_same ncol) CM) as TM. pose proof (gps_same ear _ _ CG) as TG.
    assert (V : forall s, traverse sample_of (group KD (correct r offset (e0 :: e))) = Some s -> Forall (fun v => forall x, v = Some x -> whole (2 ^ 26) x) (map snd s) /\ Z.of_nat (length s) <= 2 ^ 26).
    { intros s Et. destruct (traverse_values (group KD (correct r offset (e0 :: e))) s) as [V1 V2]; [|apply group_kind|exact Et|].
      - intros c Hc Kc. apply filter_In in Hc as [Hc _]. destruct (cells_kept _ _ _ c Hc) as (x & Hx & Kx & ->). destruct W as [W _]. rewrite Forall_forall in W. apply (W x Hx). congruence.
      - split; [exact V1|]. rewrite V2. destruct W as [_ WL].
        assert (Lg : (length (group KD (correct r offset (e0 :: e))) <= length (correct r offset (e0 :: e)))%nat) by (unfold group; apply filter_length_le).
        assert (Lm : forall ms es, (length (map2 (fun (m : Q) d => mkc (dkind d) m (dcells d)) ms es) <= length es)%nat).
        { induction ms as [|m ms IH]; intros [|x es]; cbn [map2 length]; try lia. specialize (IH es). lia. }
        specialize (Lm (unwrap r offset (map dsaw (e0 :: e))) (e0 :: e)). unfold correct in Lg. fold (correct r offset (e0 :: e)) in *. unfold correct in *. lia. }
    revert TD TM TG V. generalize dependent (dcorrect rnd r offset (d0 :: d)). intros c1 C. generalize dependent (correct r offset (e0 :: e)). intros c2 C CD CM CG TD TM TG V.
    destruct CD as [|x1 x2 l1 l2 X1 CD]; [reflexivity|]. destruct CM as [|y1 y2 m1 m2 Y1 CM]; [reflexivity|]. unfold both in TD, TM.
    destruct (traverse sample_of (x1 :: l1)) as [s1|], (traverse sample_of (x2 :: l2)) as [s2|]; try contradiction; [|reflexivity].
    destruct (traverse (meta_of ncol) (y1 :: m1)) as [t1|], (traverse (meta_of ncol) (y2 :: m2)) as [t2|]; try contradiction; [|reflexivity].
    destruct (V s2 eq_refl) as [V1 V2].
    assert (D : Forall2 (fun p q => (Qabs (fst p - fst q) <= 0)%Q /\ same_value (snd p) (snd q)) (if integrates version then dintegrate rnd s1 else s1) (if integrates version then integrate s2 else s2)).
    { destruct (integrates version).
      - unfold dintegrate, integrate. apply combine_same; [exact TD|]. assert (Em : map snd s1 = map snd s2) by (clear - TD; induction TD as [|p q l m [_ E] F IH]; [reflexivity|cbn [map]; congruence]).
        rewrite Em. apply (cumsum_twin rnd N _ _ _ 0); [reflexivity|exists 0; split; [reflexivity|lia]|lia|rewrite map_length; lia|exact V1].
      - clear - TD. induction TD as [|p q l m [A B] F IH]; constructor; [|exact IH]. split; [|rewrite B; apply same_refl]. setoid_replace (fst p - fst q)%Q with 0%Q by (rewrite A; ring). discriminate. }
    unfold both in TG. destruct (gps_table ear (group KG c1)) as [g1|], (gps_table ear (group KG c2)) as [g2|]; try contradiction.
    - split; [exact D|]. split; [exact TM|exact TG].
    - destruct req; [reflexivity|]. split; [exact D|]. split; [exact TM|constructor].
  Qed.
End Tables.

(** * Nearest doubles of other numbers *)
(** A number below 2^33 is within 2^-21 of a multiple of 2^-20. *)
Lemma double_near x k : 0 <= k <= 50 -> (Qabs x <= inject_Z (2 ^ (52 - k)))%Q -> exists y, double y /\ (Qabs (y - x) <= 1 / inject_Z (2 ^ (k + 1)))%Q.
Proof.
  intros K B. set (p := inject_Z (2 ^ k)). assert (P1 : 1 <= 2 ^ k) by (pose proof (Z.pow_pos_nonneg 2 k); lia).
  assert (P : (1 <= p)%Q) by (unfold p; change 1%Q with (inject_Z 1); rewrite <- Zle_Qle; exact P1).
  set (m := Qfloor (x * p + (1 # 2))). pose proof (Qfloor_le (x * p + (1 # 2))) as F1. pose proof (Qlt_floor (x * p + (1 # 2))) as F2. fold m in F1, F2. rewrite inject_Z_plus in F2. change (inject_Z 1) with 1%Q in F2.
  assert (E : (p * inject_Z (2 ^ (52 - k)) == inject_Z (2 ^ 52))%Q).
  { unfold p. rewrite <- inject_Z_mult, <- Z.pow_add_r by lia. replace (k + (52 - k)) with 52 by lia. reflexivity. }
  apply Qabs_Qle_condition in B as [B1 B2]. set (c := inject_Z (2 ^ (52 - k))) in *.
  assert (U : (x * p <= c * p)%Q) by (apply Qmult_le_compat_r; [exact B2|lra]). assert (L : (- c * p <= x * p)%Q) by (apply Qmult_le_compat_r; [exact B1|lra]).
  assert (M : Z.abs m < 2 ^ 53).
  { remember (inject_Z (2 ^ 52)) as big eqn:Eb.
    assert (A : (inject_Z m < inject_Z (2 ^ 52 + 1))%Q) by (rewrite inject_Z_plus, <- Eb; change (inject_Z 1) with 1%Q; lra). rewrite <- Zlt_Qlt in A.
    assert (C : (inject_Z (- 2 ^ 52 - 1) < inject_Z m)%Q) by (unfold Z.sub; rewrite inject_Z_plus, inject_Z_opp, <- Eb; change (inject_Z (- (1))) with (- (1))%Q; lra). rewrite <- Zlt_Qlt in C. lia. }
  exists (inject_Z m / p)%Q. split.
  - exists m, (- k). split; [exact M|]. split; [lia|]. unfold Qdiv, p. rewrite Zpower_Qpower by lia. destruct k; [reflexivity|reflexivity|lia].
  - assert (Y : (inject_Z m / p - x == (inject_Z m - x * p) / p)%Q) by (field; lra).
    assert (E2 : (inject_Z (2 ^ (k + 1)) == p * 2)%Q) by (unfold p; rewrite Z.pow_add_r by lia; rewrite inject_Z_mult; reflexivity).
    rewrite Y, E2. setoid_replace (1 / (p * 2))%Q with ((1 # 2) / p)%Q by (field; lra).
    apply Qabs_Qle_condition. split; [apply Qle_shift_div_l; [lra|]|apply Qle_shift_div_r; [lra|]].
    + setoid_replace (- ((1 # 2) / p) * p)%Q with (- (1 # 2))%Q by (field; lra). lra.
    + setoid_replace ((1 # 2) / p * p)%Q with (1 # 2)%Q by (field; lra). lra.
Qed.
Section Near.
  Variable rnd : Q -> Q.
  Hypothesis N : rounds_to_nearest rnd.
  Lemma rnd_near x k : 0 <= k <= 50 -> (Qabs x <= inject_Z (2 ^ (52 - k)))%Q -> (Qabs (rnd x - x) <= 1 / inject_Z (2 ^ (k + 1)))%Q.
  Proof.
    intros K B. destruct (double_near x k K B) as (y & D & E). destruct (N x) as [_ M].
    - eapply Qle_trans; [exact B|]. apply Qle_trans with (Qabs (inject_Z (2 ^ (52 - k)))); [apply Qle_Qabs|]. apply int_below_largest.
      assert (2 ^ (52 - k) <= 2 ^ 52) by (apply Z.pow_le_mono_r; lia). pose proof (Z.pow_pos_nonneg 2 (52 - k)). lia.
    - eapply Qle_trans; [apply M; exact D|exact E].
  Qed.
  Lemma corrected_time c c' : (c == c')%Q -> (Qabs (c' + (893 # 100)) <= inject_Z (2 ^ 32))%Q -> (Qabs (rnd (c + rnd (893 # 100)) - (c' + (893 # 100))) <= 1 # 1000000)%Q.
  Proof.
    intros E B. assert (A : (Qabs (rnd (893 # 100) - (893 # 100)) <= 1 / inject_Z (2 ^ (48 + 1)))%Q) by (apply rnd_near; [lia|]; apply Qle_bool_iff; vm_compute; reflexivity).
    set (a := rnd (893 # 100)) in *. assert (S : (1 / inject_Z (2 ^ (48 + 1)) < 1 # 100000000)%Q) by reflexivity.
    apply Qabs_Qle_condition in A as [A1 A2]. apply Qabs_Qle_condition in B as [B1 B2]. change (inject_Z (2 ^ 32)) with 4294967296%Q in *.
    assert (R : (Qabs (rnd (c + a) - (c + a)) <= 1 / inject_Z (2 ^ (19 + 1)))%Q).
    { apply rnd_near; [lia|]. change (inject_Z (2 ^ (52 - 19))) with 8589934592%Q. apply Qabs_Qle_condition. rewrite E. split; lra. }
    assert (T : (1 / inject_Z (2 ^ (19 + 1)) < 99 # 100000000)%Q) by reflexivity.
    apply Qabs_Qle_condition in R as [R1 R2]. apply Qabs_Qle_condition. split; lra.
  Qed.
End Near.
