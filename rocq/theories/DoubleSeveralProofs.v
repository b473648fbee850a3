(** Proofs about reading several files in double precision. *)
From Coq Require Import String.
From Coq Require Import ZArith QArith Qabs Qround Qpower List Bool Lia Lqa.
From Verif Require Import Lib Base Scan Parser Unwrap UnwrapProofs Process ReadSeveral UnwrapSpec DoubleSpec Double DoubleProofs DoubleSeveral DoubleSeveralSpec.
Import ListNotations.
Open Scope Q_scope.

(** * Remainders *)
Lemma floor_between x z : inject_Z z <= x -> x < inject_Z z + 1 -> Qfloor x = z.
Proof.
  intros A B. pose proof (Qfloor_le x) as C. pose proof (Qlt_floor x) as D. rewrite inject_Z_plus in D. change (inject_Z 1) with 1 in D.
  assert (inject_Z z < inject_Z (Qfloor x) + 1) as E by lra. assert (inject_Z (Qfloor x) < inject_Z z + 1) as F by lra.
  change 1 with (inject_Z 1) in E, F. rewrite <- inject_Z_plus, <- Zlt_Qlt in E, F. lia.
Qed.
Lemma pos_int n : (0 < n)%Z -> 0 < inject_Z n.
Proof. intros H. change 0 with (inject_Z 0). rewrite <- Zlt_Qlt. exact H. Qed.
(** Truncating division of a number in [z, z+1). *)
Lemma floor_div x z n : (0 < n)%Z -> inject_Z z <= x -> x < inject_Z z + 1 -> Qfloor (x / inject_Z n) = (z / n)%Z.
Proof.
  intros H A B. pose proof (pos_int n H) as P. pose proof (Z.div_mod z n ltac:(lia)) as D. pose proof (Z.mod_pos_bound z n H) as M.
  assert (L : inject_Z (n * (z / n)) <= inject_Z z) by (rewrite <- Zle_Qle; lia).
  assert (U : inject_Z z + 1 <= inject_Z (n * (z / n)) + inject_Z n) by (change 1 with (inject_Z 1); rewrite <- !inject_Z_plus, <- Zle_Qle; lia).
  rewrite inject_Z_mult in *. apply floor_between.
  - apply Qle_shift_div_l; [exact P|]. lra.
  - apply Qlt_shift_div_r; [exact P|]. lra.
Qed.
Lemma Qmod_div x z n : (0 < n)%Z -> inject_Z z <= x -> x < inject_Z z + 1 -> Qmod x (inject_Z n) == x - inject_Z (n * (z / n)).
Proof. intros H A B. unfold Qmod. rewrite (floor_div x z n H A B), inject_Z_mult. reflexivity. Qed.

Section Double.
  Variable rnd : Q -> Q.
  Hypothesis N : rounds_to_nearest rnd.
  Hypothesis Pr : respects rnd.

  Lemma near_small x : Qabs x <= 4194304 -> Qabs (rnd x - x) <= 1 # 1000000000.
  Proof.
    intros B. assert (A : Qabs (rnd x - x) <= 1 / inject_Z (2 ^ (30 + 1))) by (apply (rnd_near rnd N); [lia|exact B]).
    eapply Qle_trans; [exact A|]. apply Qle_bool_iff. vm_compute. reflexivity.
  Qed.
  Lemma near_big x : Qabs x <= 8589934592 -> Qabs (rnd x - x) <= 96 # 100000000.
  Proof.
    intros B. assert (A : Qabs (rnd x - x) <= 1 / inject_Z (2 ^ (19 + 1))) by (apply (rnd_near rnd N); [lia|exact B]).
    eapply Qle_trans; [exact A|]. apply Qle_bool_iff. vm_compute. reflexivity.
  Qed.

  (** The remainder of a number that is not whole; not near a multiple. *)
  Lemma dmod_near x z n : (0 < n <= 2 ^ 16)%Z -> inject_Z z < x -> x < inject_Z z + 1 -> Qabs (dmod rnd x (inject_Z n) - (x - inject_Z (n * (z / n)))) <= 1 # 1000000000.
  Proof.
    intros H A B. pose proof (pos_int n ltac:(lia)) as P. unfold dmod, fmod, py_trunc.
    assert (Hn : inject_Z n <= 65536) by (change 65536 with (inject_Z (2 ^ 16)); rewrite <- Zle_Qle; lia).
    destruct (Qle_bool 0 (x / inject_Z n)) eqn:G.
    - rewrite (floor_div x z n) by (lia || lra). rewrite inject_Z_mult. set (w := inject_Z n * inject_Z (z / n)) in *.
      assert (L : inject_Z (n * (z / n)) <= inject_Z z) by (rewrite <- Zle_Qle; pose proof (Z.mul_div_le z n); lia). rewrite inject_Z_mult in L. fold w in L.
      assert (E : Qltb (x - w) 0 = false) by (apply Qltb_ge; lra). rewrite E. setoid_replace (x - w - (x - w)) with 0 by ring. apply Qle_bool_iff. vm_compute. reflexivity.
    - assert (X0 : x < 0).
      { apply Qnot_le_lt. intros X. assert (Y : 0 <= x / inject_Z n) by (apply Qle_shift_div_l; lra). apply Qle_bool_iff in Y. congruence. }
      assert (Z0 : (z < 0)%Z) by (rewrite Zlt_Qlt; change (inject_Z 0) with 0; lra).
      assert (E' : - (x / inject_Z n) == (- x) / inject_Z n) by (field; lra). rewrite (Qfloor_comp _ _ E').
      assert (Fl : Qfloor (- x / inject_Z n) = ((- z - 1) / n)%Z).
      { apply floor_div; [lia| |]; unfold Z.sub; rewrite inject_Z_plus, inject_Z_opp; change (inject_Z (- (1))) with (- (1)); lra. }
      rewrite Fl. assert (Dv : ((- z - 1) / n = - (z / n) - 1)%Z).
      { symmetry. apply (Z.div_unique (- z - 1) n (- (z / n) - 1) (n - 1 - z mod n)%Z); [left; pose proof (Z.mod_pos_bound z n); lia|]. pose proof (Z.div_mod z n). lia. }
      rewrite Dv. replace (- (- (z / n) - 1))%Z with (z / n + 1)%Z by lia.
      pose proof (Z.div_mod z n ltac:(lia)) as D. pose proof (Z.mod_pos_bound z n ltac:(lia)) as M.
      assert (U : inject_Z z + 1 <= inject_Z (n * (z / n)) + inject_Z n) by (change 1 with (inject_Z 1); rewrite <- !inject_Z_plus, <- Zle_Qle; lia).
      assert (Lw : inject_Z (n * (z / n)) <= inject_Z z) by (rewrite <- Zle_Qle; lia).
      assert (Eq : inject_Z n * inject_Z (z / n + 1) == inject_Z (n * (z / n)) + inject_Z n) by (rewrite inject_Z_plus, inject_Z_mult; change (inject_Z 1) with 1; ring).
      set (w := inject_Z (n * (z / n))) in *. set (v := inject_Z n * inject_Z (z / n + 1)) in *.
      assert (E : Qltb (x - v) 0 = true) by (apply Qltb_lt; lra). rewrite E.
      assert (R : Qabs (rnd (x - v + inject_Z n) - (x - v + inject_Z n)) <= 1 # 1000000000) by (apply near_small; apply Qabs_Qle_condition; split; lra).
      apply Qabs_Qle_condition in R as [R1 R2]. apply Qabs_Qle_condition. split; lra.
  Qed.

  (** * Unwrapping from a start that is a whole number of milliseconds and 0.93 *)
  Definition lag : Q := 93 # 100.
  (** The number of rollovers added. *)
  Definition turns (n h o z : Z) : Z := (o / n - (z - o + n * (o / n) + h - 1) / n)%Z.

  Lemma shift_exact n h o z offset first : n = (2 * h)%Z -> (0 < h)%Z -> offset == inject_Z o + lag -> first == inject_Z z ->
    (offset - first) + Qmod (first - Qmod offset (inject_Z n) + inject_Z n / 2) (inject_Z n) - inject_Z n / 2 == inject_Z (n * turns n h o z).
  Proof.
    intros Hn Hh Eo Ef. assert (H2 : inject_Z n / 2 == inject_Z h) by (rewrite Hn, inject_Z_mult; field). unfold lag in Eo.
    assert (M : Qmod offset (inject_Z n) == offset - inject_Z (n * (o / n))) by (apply Qmod_div; [lia|rewrite Eo; lra|rewrite Eo; lra]).
    set (y := first - Qmod offset (inject_Z n) + inject_Z n / 2).
    assert (Ey : y == inject_Z (z - o + n * (o / n) + h - 1) + (7 # 100)).
    { unfold y. rewrite M, H2, Eo, Ef. unfold Z.sub. rewrite !inject_Z_plus, !inject_Z_opp. change (inject_Z 1) with 1. ring. }
    rewrite (Qmod_div y (z - o + n * (o / n) + h - 1) n) by (lia || rewrite Ey; lra). rewrite Ey, H2, Eo, Ef. unfold turns. rewrite Z.mul_sub_distr_l. unfold Z.sub. rewrite !inject_Z_plus, !inject_Z_opp.
    change (inject_Z 1) with 1. ring.
  Qed.

  Lemma shift_near n h o z offset first : n = (2 * h)%Z -> (0 < h <= 2 ^ 15)%Z -> (Z.abs o <= 2 ^ 32 + 2 ^ 16)%Z -> (Z.abs z <= 2 ^ 20)%Z ->
    Qabs (offset - (inject_Z o + lag)) <= tiny -> first == inject_Z z ->
    Qabs (rnd (rnd (rnd (offset - first) + dmod rnd (rnd (rnd (first - dmod rnd offset (inject_Z n)) + inject_Z n / 2)) (inject_Z n)) - inject_Z n / 2) - inject_Z (n * turns n h o z)) <= 3 # 1000000.
  Proof.
    intros Hn Hh Bo Bz Eo Ef. assert (H2 : inject_Z n / 2 == inject_Z h) by (rewrite Hn, inject_Z_mult; field). unfold lag, tiny in Eo.
    apply Qabs_Qle_condition in Eo as [O1 O2].
    assert (M : Qabs (dmod rnd offset (inject_Z n) - (offset - inject_Z (n * (o / n)))) <= 1 # 1000000000) by (apply dmod_near; [lia|lra|lra]).
    apply Qabs_Qle_condition in M as [M1 M2]. set (m := dmod rnd offset (inject_Z n)) in *.
    pose proof (Z.div_mod o n ltac:(lia)) as D. pose proof (Z.mod_pos_bound o n ltac:(lia)) as Mb.
    assert (Q1 : inject_Z o - inject_Z (n * (o / n)) == inject_Z (o mod n)).
    { unfold Qminus. rewrite <- inject_Z_opp, <- inject_Z_plus. apply inject_Z_injective. lia. }
    assert (Q2 : 0 <= inject_Z (o mod n)) by (change 0 with (inject_Z 0); rewrite <- Zle_Qle; lia).
    assert (Q3 : inject_Z (o mod n) <= 65536) by (change 65536 with (inject_Z 65536); rewrite <- Zle_Qle; lia).
    assert (Z1 : inject_Z z <= 1048576) by (change 1048576 with (inject_Z (2 ^ 20)); rewrite <- Zle_Qle; lia).
    assert (Z2 : - (1048576) <= inject_Z z) by (change (- (1048576)) with (inject_Z (- 2 ^ 20)); rewrite <- Zle_Qle; lia).
    assert (H3 : inject_Z h <= 32768) by (change 32768 with (inject_Z 32768); rewrite <- Zle_Qle; lia).
    assert (H4 : 0 < inject_Z h) by (apply pos_int; lia).
    assert (O3 : inject_Z o <= 4295032832) by (change 4295032832 with (inject_Z (2 ^ 32 + 2 ^ 16)); rewrite <- Zle_Qle; lia).
    assert (O4 : - (4295032832) <= inject_Z o) by (change (- (4295032832)) with (inject_Z (- (2 ^ 32 + 2 ^ 16))); rewrite <- Zle_Qle; lia).
    set (zq := inject_Z z) in *. set (oq := inject_Z o) in *. set (hq := inject_Z h) in *. set (w := inject_Z (n * (o / n))) in *. set (om := inject_Z (o mod n)) in *.
    assert (A : Qabs (rnd (first - m) - (first - m)) <= 1 # 1000000000) by (apply near_small; apply Qabs_Qle_condition; split; lra).
    apply Qabs_Qle_condition in A as [A1 A2]. set (a := rnd (first - m)) in *.
    assert (B : Qabs (rnd (a + inject_Z n / 2) - (a + inject_Z n / 2)) <= 1 # 1000000000) by (apply near_small; apply Qabs_Qle_condition; split; lra).
    apply Qabs_Qle_condition in B as [B1 B2]. set (b := rnd (a + inject_Z n / 2)) in *.
    set (y := (z - o + n * (o / n) + h - 1)%Z).
    assert (Ey : inject_Z y == zq - oq + w + hq - 1).
    { unfold y, zq, oq, w, hq. unfold Z.sub. rewrite !inject_Z_plus, !inject_Z_opp. change (inject_Z 1) with 1. ring. }
    assert (C : Qabs (dmod rnd b (inject_Z n) - (b - inject_Z (n * (y / n)))) <= 1 # 1000000000) by (apply dmod_near; [lia|lra|lra]).
    apply Qabs_Qle_condition in C as [C1 C2].
    pose proof (Z.div_mod y n ltac:(lia)) as Dy. pose proof (Z.mod_pos_bound y n ltac:(lia)) as My.
    assert (Y1 : inject_Z y - inject_Z (n * (y / n)) == inject_Z (y mod n)).
    { unfold Qminus. rewrite <- inject_Z_opp, <- inject_Z_plus. apply inject_Z_injective. lia. }
    assert (Y2 : 0 <= inject_Z (y mod n)) by (change 0 with (inject_Z 0); rewrite <- Zle_Qle; lia).
    assert (Y3 : inject_Z (y mod n) <= 65536) by (change 65536 with (inject_Z 65536); rewrite <- Zle_Qle; lia).
    set (c := dmod rnd b (inject_Z n)) in *. set (v := inject_Z (n * (y / n))) in *. set (ym := inject_Z (y mod n)) in *.
    assert (S1 : Qabs (rnd (offset - first) - (offset - first)) <= 96 # 100000000) by (apply near_big; apply Qabs_Qle_condition; split; lra).
    apply Qabs_Qle_condition in S1 as [S1 S1']. set (d := rnd (offset - first)) in *.
    assert (S2 : Qabs (rnd (d + c) - (d + c)) <= 96 # 100000000) by (apply near_big; apply Qabs_Qle_condition; split; lra).
    apply Qabs_Qle_condition in S2 as [S2 S2']. set (e := rnd (d + c)) in *.
    assert (S3 : Qabs (rnd (e - inject_Z n / 2) - (e - inject_Z n / 2)) <= 96 # 100000000) by (apply near_big; apply Qabs_Qle_condition; split; lra).
    apply Qabs_Qle_condition in S3 as [S3 S3'].
    assert (T : inject_Z (n * turns n h o z) == w - v).
    { unfold turns. fold y. rewrite Z.mul_sub_distr_l. unfold Z.sub. rewrite inject_Z_plus, inject_Z_opp. reflexivity. }
    apply Qabs_Qle_condition. rewrite T. split; lra.
  Qed.

  (** A double clock that is a function of the exact one, and near it as long as that is below 49 days. *)
  Definition follows (g : Z -> Q) : Prop := forall z, (Z.abs z <= 2 ^ 32 + 2 ^ 15)%Z -> Qabs (g z - inject_Z z) <= 4 # 1000000.
  Definition on (g : Z -> Q) (x y : Q) : Prop := exists z : Z, y == inject_Z z /\ x == g z.

  (** The start of a file: a whole number in both computations, or near a whole number and 0.93. *)
  Inductive starts : Q -> Q -> Prop :=
  | st_whole s s' : s' == s -> whole (2 ^ 32) s -> starts s' s
  | st_lag s s' o : s == inject_Z o + lag -> (Z.abs o <= 2 ^ 32 + 2 ^ 16)%Z -> Qabs (s' - s) <= tiny -> starts s' s.

  Lemma unwrap_on n h s' s l m : n = (2 * h)%Z -> (0 < h <= 2 ^ 15)%Z -> starts s' s -> (Z.of_nat (length m) <= 2 ^ 26)%Z -> Forall2 (twin (2 ^ 40)) l m ->
    Forall (whole (2 ^ 20)) m -> exists g, follows g /\ Forall2 (on g) (dunwrap rnd (inject_Z n) s' l) (unwrap (inject_Z n) s m).
  Proof.
    intros Hn Hh St Hl F W. pose proof (corrected_twin rnd N n l m ltac:(lia) Hl F) as G. unfold dunwrap, unwrap.
    assert (Hd : forall x y cl cm, dcorrected0 rnd (inject_Z n) l = x :: cl -> corrected0 (inject_Z n) m = y :: cm -> whole (2 ^ 20) y).
    { intros x y cl cm _ E. destruct m as [|u m]; [discriminate|]. apply Forall_inv in W as (z & Ez & Bz). exists z. split; [|exact Bz].
      unfold corrected0, stairstep in E. cbn [diffs map cumcount lt_opt gt_opt map2] in E. injection E as E _. rewrite <- E, <- Ez. change (inject_Z (0 + 0 - (0 + 0))) with 0. ring. }
    inversion G as [Ea Eb|x y cl cm (E & z & Ez & Hz) G' Ea Eb]; [exists inject_Z; split; [|constructor]|].
    { intros z _. setoid_replace (inject_Z z - inject_Z z) with 0 by ring. apply Qle_bool_iff. vm_compute. reflexivity. }
    destruct (Hd x y cl cm (eq_sym Ea) (eq_sym Eb)) as (z1 & Ez1 & Bz). assert (z1 = z) as -> by (apply inject_Z_injective; rewrite <- Ez1, <- Ez; reflexivity). clear Hd Ez1.
    assert (Gxy : Forall2 (twin (2 ^ 43)) (x :: cl) (y :: cm)) by (rewrite Ea, Eb; exact G).
    set (sh' := rnd (rnd (rnd (s' - x) + _) - _)). set (sh := (s - y + _ - _)).
    assert (K : exists k, sh == inject_Z k /\ Qabs (sh' - sh) <= 3 # 1000000 /\ (Z.abs k <= 2 ^ 34)%Z).
    { destruct St as [s s' Es (o & Eo & Bo)|s s' o Eo Bo Bs].
      - exists ((o - z + (z - o mod n + h) mod n - h))%Z.
        assert (H2 : inject_Z n / 2 == inject_Z h) by (rewrite Hn, inject_Z_mult; field). assert (Es' : s' == inject_Z o) by (rewrite Es; exact Eo).
        assert (Mo : dmod rnd s' (inject_Z n) == inject_Z (o mod n)) by (apply (dmod_int rnd N); [exact Es'|lia]).
        assert (Bm : (0 <= o mod n < n)%Z) by (apply Z.mod_pos_bound; lia).
        assert (X : x == inject_Z z) by (rewrite E; exact Ez).
        assert (S1 : rnd (s' - x) == inject_Z (o - z)) by (apply (rnd_sub rnd N); [exact Es'|exact X|lia]).
        assert (S2 : rnd (x - dmod rnd s' (inject_Z n)) == inject_Z (z - o mod n)) by (apply (rnd_sub rnd N); [exact X|exact Mo|lia]).
        assert (S3 : rnd (rnd (x - dmod rnd s' (inject_Z n)) + inject_Z n / 2) == inject_Z (z - o mod n + h)) by (apply (rnd_add rnd N); [exact S2|exact H2|lia]).
        assert (S4 : dmod rnd (rnd (rnd (x - dmod rnd s' (inject_Z n)) + inject_Z n / 2)) (inject_Z n) == inject_Z ((z - o mod n + h) mod n)) by (apply (dmod_int rnd N); [exact S3|lia]).
        assert (B4 : (0 <= (z - o mod n + h) mod n < n)%Z) by (apply Z.mod_pos_bound; lia).
        set (w := ((z - o mod n + h) mod n)%Z) in *.
        assert (S5 : rnd (rnd (s' - x) + dmod rnd (rnd (rnd (x - dmod rnd s' (inject_Z n)) + inject_Z n / 2)) (inject_Z n)) == inject_Z (o - z + w)) by (apply (rnd_add rnd N); [exact S1|exact S4|lia]).
        assert (S6 : sh' == inject_Z (o - z + w - h)) by (apply (rnd_sub rnd N); [exact S5|exact H2|lia]).
        assert (X6 : sh == inject_Z (o - z + w - h)).
        { assert (A : Qmod s (inject_Z n) == inject_Z (o mod n)) by (apply Qmod_int; [exact Eo|lia]).
          assert (B : y - Qmod s (inject_Z n) + inject_Z n / 2 == inject_Z (z - o mod n + h)).
          { rewrite Ez, A, H2. unfold Z.sub, Qminus. rewrite !inject_Z_plus, inject_Z_opp. reflexivity. }
          unfold sh. rewrite (Qmod_int _ _ n B) by lia. fold w. rewrite Ez, Eo, H2. unfold Z.sub, Qminus. rewrite !inject_Z_plus, !inject_Z_opp. reflexivity. }
        split; [exact X6|]. split; [|lia]. setoid_replace (sh' - sh) with 0 by (rewrite S6, X6; ring). apply Qle_bool_iff. vm_compute. reflexivity.
      - exists (n * turns n h o z)%Z. pose proof (shift_exact n h o z s y Hn ltac:(lia) Eo Ez) as X. fold sh in X. split; [exact X|]. split.
        + rewrite X. apply shift_near; [exact Hn|exact Hh|exact Bo|exact Bz|rewrite <- Eo; exact Bs|rewrite E; exact Ez].
        + unfold turns. set (q := (o / n)%Z). set (p := ((z - o + n * q + h - 1) / n)%Z).
          pose proof (Z.div_mod o n ltac:(lia)) as D1. fold q in D1. pose proof (Z.mod_pos_bound o n ltac:(lia)) as M1.
          pose proof (Z.div_mod (z - o + n * q + h - 1) n ltac:(lia)) as D2. fold p in D2. pose proof (Z.mod_pos_bound (z - o + n * q + h - 1) n ltac:(lia)) as M2.
          rewrite Z.mul_sub_distr_l. lia. }
    destruct K as (k & Ek & Bk & Hk). exists (fun t => rnd (inject_Z (t - k) + sh')). split.
    - intros t Bt. apply Qabs_Qle_condition in Bk as [K1 K2]. rewrite Ek in K1, K2.
      assert (T : inject_Z (t - k) == inject_Z t - inject_Z k) by (unfold Z.sub, Qminus; rewrite inject_Z_plus, inject_Z_opp; reflexivity).
      assert (T1 : inject_Z t <= 4295000064) by (change 4295000064 with (inject_Z (2 ^ 32 + 2 ^ 15)); rewrite <- Zle_Qle; lia).
      assert (T2 : - (4295000064) <= inject_Z t) by (change (- (4295000064)) with (inject_Z (- (2 ^ 32 + 2 ^ 15))); rewrite <- Zle_Qle; lia).
      assert (R : Qabs (rnd (inject_Z (t - k) + sh') - (inject_Z (t - k) + sh')) <= 96 # 100000000) by (apply near_big; apply Qabs_Qle_condition; split; lra).
      apply Qabs_Qle_condition in R as [R1 R2]. apply Qabs_Qle_condition. split; lra.
    - clear - Gxy Ek Pr. induction Gxy as [|a c l0 m0 (E1 & u & Eu & Hu) G0 IH]; cbn [map]; constructor; [|exact IH].
      exists (u + k)%Z. split; [rewrite Eu, Ek, inject_Z_plus; reflexivity|]. apply Pr. replace (u + k - k)%Z with u by lia. rewrite E1, Eu. reflexivity.
  Qed.
End Double.

(** * Tables *)
Section Relation.
  Variable R : Q -> Q -> Prop.
  Definition rel_crow (c d : crow) : Prop := ckind c = ckind d /\ R (cms c) (cms d) /\ ccells c = ccells d.
  Definition rel_fix (x y : fix_ * Z) : Prop :=
    snd x = snd y /\ R (msPPS (fst x)) (msPPS (fst y)) /\ msLag (fst x) = msLag (fst y) /\ gyear (fst x) = gyear (fst y) /\ gmonth (fst x) = gmonth (fst y) /\
    gday (fst x) = gday (fst y) /\ ghour (fst x) = ghour (fst y) /\ gminute (fst x) = gminute (fst y) /\ gsecond (fst x) = gsecond (fst y) /\
    glat (fst x) = glat (fst y) /\ glon (fst x) = glon (fst y).
  Definition rel_data := Forall2 (fun p q : Q * option Q => R (fst p) (fst q) /\ same_value (snd p) (snd q)).
  Definition rel_meta := Forall2 (fun p q : Q * list (option Q) => R (fst p) (fst q) /\ snd p = snd q).

  Lemma rel_group k l m : Forall2 rel_crow l m -> Forall2 rel_crow (group k l) (group k m).
  Proof.
    induction 1 as [|c d l m (A & B & C) F IH]; [constructor|]. unfold group in *. cbn [filter]. rewrite A. destruct (kind_eqb (ckind d) k); [constructor; [repeat split; assumption|]|]; exact IH.
  Qed.
  Definition rel_sample (p q : Q * option Q) : Prop := R (fst p) (fst q) /\ snd p = snd q.
  Lemma rel_sample_of c d : rel_crow c d -> both rel_sample (sample_of c) (sample_of d).
  Proof.
    intros (_ & B & C). unfold sample_of, both. rewrite C. destruct (ccells d) as [|x l]; [exact Logic.I|]. destruct (numeric x); [|exact Logic.I]. split; [exact B|reflexivity].
  Qed.
  Lemma rel_meta_of n c d : rel_crow c d -> both (fun p q : Q * list (option Q) => R (fst p) (fst q) /\ snd p = snd q) (meta_of n c) (meta_of n d).
  Proof. intros (_ & B & C). unfold meta_of, both. rewrite C. destruct (traverse numeric (firstn n (ccells d))); [split; [exact B|reflexivity]|exact Logic.I]. Qed.
  Definition rel_place (x y : fix_) : Prop := rel_fix (x, 0%Z) (y, 0%Z).
  Lemma rel_fix_of c d : rel_crow c d -> both rel_place (fix_of c) (fix_of d).
  Proof.
    intros (_ & B & C). unfold fix_of, both. rewrite C. destruct (traverse numeric (firstn 9 (ccells d))) as [[|a1 [|a2 [|a3 [|a4 [|a5 [|a6 [|a7 [|a8 [|a9 [|]]]]]]]]]]|]; try exact Logic.I.
    repeat split; try reflexivity; exact B.
  Qed.
  Lemma rel_bounds x y : rel_place x y -> gps_in_bounds x = gps_in_bounds y /\ make_gps_time x = make_gps_time y.
  Proof. intros (_ & _ & E1 & E2 & E3 & E4 & E5 & E6 & E7 & E8 & E9). cbn [fst] in *. unfold gps_in_bounds, make_gps_time. rewrite E1, E2, E3, E4, E5, E6, E7, E8, E9. auto. Qed.
  Lemma rel_gps ear l m : Forall2 rel_crow l m -> both (Forall2 rel_fix) (gps_table ear l) (gps_table ear m).
  Proof.
    intros F. pose proof (traverse_same rel_crow rel_place fix_of l m) as T. 
    assert (T' : both (Forall2 rel_place) (traverse fix_of l) (traverse fix_of m)).
    { clear T. induction F as [|x y l m E F IH]; cbn [traverse]; [constructor|]. pose proof (rel_fix_of x y E) as H. unfold both in *.
      destruct (fix_of x), (fix_of y); try contradiction; [|exact Logic.I]. destruct (traverse fix_of l), (traverse fix_of m); try contradiction; [constructor; assumption|exact Logic.I]. }
    clear T. rename T' into T. unfold gps_table, both in *.
    destruct F as [|c d l m H F]; [exact Logic.I|].
    destruct (traverse fix_of (c :: l)) as [gs|], (traverse fix_of (d :: m)) as [hs|]; try contradiction; [|exact Logic.I]. clear - T.
    assert (E : Forall2 rel_place (filter gps_in_bounds gs) (filter gps_in_bounds hs)).
    { induction T as [|x y l m E T IH]; [constructor|]. cbn [filter]. rewrite (proj1 (rel_bounds x y E)). destruct (gps_in_bounds y); [constructor; assumption|assumption]. }
    assert (K : Forall2 rel_fix (keep_fixes gs) (keep_fixes hs)).
    { clear E. induction T as [|x y l m E T IH]; [constructor|]. cbn [keep_fixes]. destruct (rel_bounds x y E) as [-> ->]. destruct (gps_in_bounds y); [|assumption].
      destruct (make_gps_time y); [|assumption]. constructor; [|assumption]. destruct E as (_ & E). split; [reflexivity|exact E]. }
    destruct E as [|x y l m E E']; [destruct ear; [exact Logic.I|constructor]|exact K].
  Qed.
  Lemma rel_map2 (l : list Q) : forall m d e, Forall2 R l m -> Forall2 same_drow d e ->
    Forall2 rel_crow (map2 (fun m d => mkc (dkind d) m (dcells d)) l d) (map2 (fun m d => mkc (dkind d) m (dcells d)) m e).
  Proof.
    induction l as [|x l IH]; intros m d e F G; inversion F as [|? y ? m' E F']; subst; [constructor|]. destruct G as [|u v d e (A & B & C) G]; cbn [map2]; constructor; [|apply IH; assumption].
    split; [exact A|]. split; [exact E|exact C].
  Qed.
  Lemma rel_combine : forall (l m : list (Q * option Q)) vs ws, Forall2 rel_sample l m -> Forall2 same_value vs ws -> rel_data (combine (map fst l) vs) (combine (map fst m) ws).
  Proof.
    intros l m vs ws F. revert vs ws. induction F as [|p q l m [A B] F IH]; intros vs ws G; [constructor|]. destruct G as [|v w vs ws E G]; cbn [map combine]; constructor; [|apply IH; exact G].
    cbn [fst snd]. split; assumption.
  Qed.
  Definition rel_tables (t u : tables) : Prop := rel_data (data t) (data u) /\ rel_meta (metadata t) (metadata u) /\ Forall2 rel_fix (gps t) (gps u).
End Relation.

Section Tables.
  Variable rnd : Q -> Q.
  Hypothesis N : rounds_to_nearest rnd.
  Hypothesis Pr : respects rnd.

  Lemma low_whole e : low_table e -> whole_table e.
  Proof. intros [A B]. split; [|exact B]. eapply Forall_impl; [|exact A]. intros d [H _]. exact H. Qed.

  Lemma process_on ear version s' s req d e : starts s' s -> low_table e -> Forall2 same_drow d e ->
    match dprocess rnd ear version s' req d, process ear version s req e with
    | inl t, inl u => exists g, follows g /\ rel_tables (on g) t u
    | inr x, inr y => x = y
    | _, _ => False
    end.
  Proof.
    intros St Lw F. pose proof (low_whole e Lw) as W. unfold dprocess, process. destruct (settings version) as [[r ncol]|] eqn:Es; [|reflexivity].
    pose proof (Forall2_length_eq _ _ _ F) as Le. destruct d as [|d0 d], e as [|e0 e]; try discriminate; [reflexivity|]. clear Le. cbv zeta.
    assert (C : exists g, follows g /\ Forall2 (rel_crow (on g)) (dcorrect rnd r s' (d0 :: d)) (correct r s (e0 :: e))).
    { destruct (settings_rollover version r ncol Es) as (h & -> & Hh).
      destruct (unwrap_on rnd N Pr (2 * h) h s' s (map dsaw (d0 :: d)) (map dsaw (e0 :: e)) eq_refl Hh St) as (g & Fg & G).
      - rewrite map_length. exact (proj2 Lw).
      - destruct W as [W _]. revert W F. generalize (d0 :: d) (e0 :: e). clear. intros d e W F. induction F as [|x y d e (A & B & C) F IH]; [constructor|]. inversion W as [|? ? [W1 _] W2]; subst.
        cbn [map]. constructor; [apply whole_twin; assumption|apply IH; exact W2].
      - apply Forall_map. eapply Forall_impl; [|exact (proj1 Lw)]. intros x [_ H]. exact H.
      - exists g. split; [exact Fg|]. unfold dcorrect, correct. apply rel_map2; [exact G|exact F]. }
    destruct C as (g & Fg & C).
    pose proof (rel_group (on g) KD _ _ C) as CD. pose proof (rel_group (on g) KM _ _ C) as CM. pose proof (rel_group (on g) KG _ _ C) as CG.
    pose proof (rel_gps (on g) ear _ _ CG) as TG.
    assert (TV : forall {A} (S : A -> A -> Prop) (f : crow -> option A), (forall x y, rel_crow (on g) x y -> both S (f x) (f y)) -> forall l m, Forall2 (rel_crow (on g)) l m -> both (Forall2 S) (traverse f l) (traverse f m)).
    { clear. intros A S f H l m. induction 1 as [|x y l m E F IH]; cbn [traverse]; [constructor|]. specialize (H x y E). unfold both in *.
      destruct (f x), (f y); try contradiction; [|exact Logic.I]. destruct (traverse f l), (traverse f m); try contradiction; [constructor; assumption|exact Logic.I]. }
    pose proof (TV _ _ sample_of (rel_sample_of (on g)) _ _ CD) as TD.
    pose proof (TV _ _ (meta_of ncol) (rel_meta_of (on g) ncol) _ _ CM) as TM. clear TV.
    assert (V : forall s0, traverse sample_of (group KD (correct r s (e0 :: e))) = Some s0 -> Forall (fun v => forall x, v = Some x -> whole (2 ^ 26) x) (map snd s0) /\ (Z.of_nat (length s0) <= 2 ^ 26)%Z).
    { intros s0 Et. destruct (traverse_values (group KD (correct r s (e0 :: e))) s0) as [V1 V2]; [|apply group_kind|exact Et|].
      - intros c Hc Kc. apply filter_In in Hc as [Hc _]. destruct (cells_kept _ _ _ c Hc) as (x & Hx & Kx & ->). destruct W as [W _]. rewrite Forall_forall in W. apply (W x Hx). congruence.
      - split; [exact V1|]. rewrite V2. destruct W as [_ WL].
        assert (Lg : (length (group KD (correct r s (e0 :: e))) <= length (correct r s (e0 :: e)))%nat) by (unfold group; apply filter_length_le).
        assert (Lm : forall ms es, (length (map2 (fun (m : Q) d => mkc (dkind d) m (dcells d)) ms es) <= length es)%nat).
        { induction ms as [|m ms IH]; intros [|x es]; cbn [map2 length]; try lia. specialize (IH es). lia. }
        specialize (Lm (unwrap r s (map dsaw (e0 :: e))) (e0 :: e)). unfold correct in Lg. fold (correct r s (e0 :: e)) in *. unfold correct in *. lia. }
    revert TD TM TG V. generalize dependent (dcorrect rnd r s' (d0 :: d)). intros c1 C. generalize dependent (correct r s (e0 :: e)). intros c2 C CD CM CG TD TM TG V.
    destruct CD as [|x1 x2 l1 l2 X1 CD]; [reflexivity|]. destruct CM as [|y1 y2 m1 m2 Y1 CM]; [reflexivity|]. unfold both in TD, TM.
    destruct (traverse sample_of (x1 :: l1)) as [s1|], (traverse sample_of (x2 :: l2)) as [s2|]; try contradiction; [|reflexivity].
    destruct (traverse (meta_of ncol) (y1 :: m1)) as [t1|], (traverse (meta_of ncol) (y2 :: m2)) as [t2|]; try contradiction; [|reflexivity].
    destruct (V s2 eq_refl) as [V1 V2].
    assert (D : rel_data (on g) (if integrates version then dintegrate rnd s1 else s1) (if integrates version then integrate s2 else s2)).
    { destruct (integrates version).
      - unfold dintegrate, integrate. apply rel_combine; [exact TD|]. assert (Em : map snd s1 = map snd s2) by (clear - TD; induction TD as [|p q l m [_ E] F IH]; [reflexivity|cbn [map]; congruence]).
        rewrite Em. apply (cumsum_twin rnd N _ _ _ 0); [reflexivity|exists 0%Z; split; [reflexivity|lia]|lia|rewrite map_length; lia|exact V1].
      - clear - TD. unfold rel_data. induction TD as [|p q l m [A B] F IH]; constructor; [|exact IH]. split; [exact A|rewrite B; apply same_refl]. }
    unfold both in TG. destruct (gps_table ear (group KG c1)) as [g1|], (gps_table ear (group KG c2)) as [g2|]; try contradiction.
    - exists g. split; [exact Fg|]. split; [exact D|]. split; [exact TM|exact TG].
    - destruct req; [reflexivity|]. exists g. split; [exact Fg|]. split; [exact D|]. split; [exact TM|constructor].
  Qed.

  (** After the correction of 8.93 ms. *)
  Definition lagged (g : Z -> Q) (x y : Q) : Prop := exists z : Z, y == inject_Z z + (893 # 100) /\ x == rnd (g z + rnd (893 # 100)).
  Definition read_on (g : Z -> Q) (t u : tables) : Prop :=
    rel_data (lagged g) (data t) (data u) /\ rel_meta (on g) (metadata t) (metadata u) /\ Forall2 (rel_fix (on g)) (gps t) (gps u).

  Definition low_alike (x y : res (list drow)) : Prop :=
    match x, y with inl d, inl e => Forall2 same_drow d e /\ low_table e | inr a, inr c => a = c | _, _ => False end.
  Lemma readers_on ear version s' s req : starts s' s -> forall ds es, Forall2 (fun d e => low_alike (d req) (e req)) ds es ->
    match dtry_readers rnd ear version s' req ds, try_readers ear version s req es with
    | inl t, inl u => exists g, follows g /\ read_on g t u
    | inr x, inr y => x = y
    | _, _ => False
    end.
  Proof.
    intros St ds es F. induction F as [|d e ds es H F IH]; [reflexivity|]. cbn [dtry_readers try_readers]. unfold low_alike in H.
    destruct (d req) as [dd|x], (e req) as [ee|y]; try contradiction; [|subst y; destruct (fatal x); [reflexivity|exact IH]].
    destruct H as [H W]. pose proof (process_on ear version s' s req dd ee St W H) as P.
    destruct (dprocess rnd ear version s' req dd) as [t|x], (process ear version s req ee) as [u|y]; try contradiction; [|subst y; destruct (fatal x); [reflexivity|exact IH]].
    destruct P as (g & Fg & P1 & P2 & P3).
    assert (Gb : gps t = [] <-> gps u = []) by (split; intros E; rewrite E in P3; inversion P3; reflexivity).
    assert (Rr : forall c, time_correction version = Some c ->
      exists g0, follows g0 /\ read_on g0 (mktab (map (fun p => (rnd (fst p + rnd c), snd p))%Q (data t)) (metadata t) (gps t)) (mktab (map (fun p => (fst p + c, snd p))%Q (data u)) (metadata u) (gps u))).
    { intros c Ec. exists g. split; [exact Fg|]. assert (c = (893 # 100)%Q) as -> by (unfold time_correction in Ec; destruct (existsb _ _); [congruence|discriminate]).
      split; [|split; [exact P2|exact P3]]. cbn [data] in *. clear - P1 Pr. unfold rel_data in *. induction P1 as [|p q l m [(z & A & B) C] P IH]; [constructor|]. cbn [map]. constructor; [|exact IH].
      cbn [fst snd] in *. split; [|exact C]. exists z. split; [rewrite A; reflexivity|]. apply Pr. rewrite B. reflexivity. }
    destruct (gps t) as [|g1 gs] eqn:Et; destruct (gps u) as [|g' gs'] eqn:Eu; try (exfalso; destruct Gb as [G1 G2]; (discriminate (G1 eq_refl) || discriminate (G2 eq_refl))).
    - destruct req; [reflexivity|]. destruct (time_correction version) as [c|]; [exact (Rr c eq_refl)|reflexivity].
    - destruct (time_correction version) as [c|]; [exact (Rr c eq_refl)|reflexivity].
  Qed.
End Tables.
