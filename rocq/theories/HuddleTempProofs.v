(** Proofs about the comparison of temperatures in the huddle test. *)
From Coq Require Import String.
From Coq Require Import ZArith QArith Qround Qabs List Bool Lia Lqa.
From Verif Require Import Base Lib UnwrapProofs Process Outliers OutliersSpec OutliersProofs Windows Select Huddle HuddleSpec HuddleProofs HuddleGroupProofs.
Import ListNotations.
Open Scope Z_scope.

(** Rounding. *)
Lemma rint_spec x : exists k, rint x = k /\ (Qabs (inject_Z k - x) <= 1 # 2)%Q /\ ((Qabs (inject_Z k - x) == 1 # 2)%Q -> Z.even k = true).
Proof.
  exists (rint x). split; [reflexivity|]. unfold rint. pose proof (Qfloor_le x) as A. pose proof (Qlt_floor x) as B.
  rewrite inject_Z_plus in B. change (inject_Z 1) with 1%Q in B. set (f := Qfloor x) in *.
  assert (P1 : (inject_Z (f + 1) == inject_Z f + 1)%Q) by (rewrite inject_Z_plus; reflexivity).
  destruct (Qltb _ (1 # 2)) eqn:E1.
  - apply Qltb_lt in E1. assert (Q : (Qabs (inject_Z f - x) == x - inject_Z f)%Q) by (rewrite Qabs_neg; lra).
    split; [lra|]. intro H. lra.
  - apply Qltb_ge in E1. destruct (Qltb (1 # 2) _) eqn:E2.
    + apply Qltb_lt in E2. assert (Q : (Qabs (inject_Z (f + 1) - x) == inject_Z f + 1 - x)%Q) by (rewrite Qabs_pos; lra).
      split; [lra|]. intro H. lra.
    + apply Qltb_ge in E2. destruct (Z.even f) eqn:E3.
      * assert (Q : (Qabs (inject_Z f - x) == x - inject_Z f)%Q) by (rewrite Qabs_neg; lra). split; [lra|auto].
      * assert (Q : (Qabs (inject_Z (f + 1) - x) == inject_Z f + 1 - x)%Q) by (rewrite Qabs_pos; lra). split; [lra|].
        intros _. rewrite Z.even_add, E3. reflexivity.
Qed.
Lemma round2_spec x : hundredths x (round2 x).
Proof.
  destruct (rint_spec (x * 100)) as (k & E & A & H). exists k.
  assert (F : (round2 x == k # 100)%Q).
  { unfold round2. rewrite E. unfold Qeq, Qdiv, Qmult, Qinv, inject_Z. cbn. lia. }
  split; [exact F|]. assert (G : ((k # 100) * 100 == inject_Z k)%Q) by (unfold Qeq, Qmult, inject_Z; cbn; lia).
  assert (Q : (Qabs (round2 x - x) * 100 == Qabs (inject_Z k - x * 100))%Q).
  { rewrite F, <- G. rewrite <- (Qabs_pos 100) at 1 by lra. rewrite <- Qabs_Qmult. apply Qabs_wd. ring. }
  split; [lra|]. intro J. apply H. lra.
Qed.
Lemma hundredths_fun x x' y y' : (x == x')%Q -> hundredths x y -> hundredths x' y' -> (y == y')%Q.
Proof.
  intros Ex (k & E & A & H) (k' & E' & A' & H').
  assert (G : ((k # 100) * 100 == inject_Z k)%Q) by (unfold Qeq, Qmult, inject_Z; cbn; lia).
  assert (G' : ((k' # 100) * 100 == inject_Z k')%Q) by (unfold Qeq, Qmult, inject_Z; cbn; lia).
  assert (D : k = k'); [|rewrite E, E', D; reflexivity].
  destruct (Z.lt_trichotomy k k') as [L|[L|L]]; [exfalso|exact L|exfalso].
  - assert (L1 : (inject_Z k + 1 <= inject_Z k')%Q) by (change 1%Q with (inject_Z 1); rewrite <- inject_Z_plus, <- Zle_Qle; lia).
    apply Qabs_Qle_condition in A. apply Qabs_Qle_condition in A'.
    assert (X : (y - x == - (1 # 200))%Q) by lra. assert (X' : (y' - x' == 1 # 200)%Q) by lra.
    rewrite X in H. rewrite X' in H'. specialize (H (Qeq_refl _)). specialize (H' (Qeq_refl _)).
    assert (k' = k + 1).
    { assert (Y : (inject_Z k' == inject_Z (k + 1))%Q) by (rewrite inject_Z_plus; change (inject_Z 1) with 1%Q; lra).
      unfold Qeq, inject_Z in Y. cbn in Y. lia. }
    subst k'. rewrite Z.even_add, H in H'. discriminate.
  - assert (L1 : (inject_Z k' + 1 <= inject_Z k)%Q) by (change 1%Q with (inject_Z 1); rewrite <- inject_Z_plus, <- Zle_Qle; lia).
    apply Qabs_Qle_condition in A. apply Qabs_Qle_condition in A'.
    assert (X : (y - x == 1 # 200)%Q) by lra. assert (X' : (y' - x' == - (1 # 200))%Q) by lra.
    rewrite X in H. rewrite X' in H'. specialize (H (Qeq_refl _)). specialize (H' (Qeq_refl _)).
    assert (k = k' + 1).
    { assert (Y : (inject_Z k == inject_Z (k' + 1))%Q) by (rewrite inject_Z_plus; change (inject_Z 1) with 1%Q; lra).
      unfold Qeq, inject_Z in Y. cbn in Y. lia. }
    subst k. rewrite Z.even_add, H' in H. discriminate.
Qed.
Lemma present_numbers l : numbers l = present l.
Proof. induction l as [|[x|] l IH]; [reflexivity| |]; cbn [present]; rewrite <- IH; reflexivity. Qed.

(** The messages, column by column. *)
Lemma temperature_messages_spec t temps cols : (forall c, In c cols -> c < t) ->
  temperature_messages t temps cols = Some (flat_map (fun c => match far_from_median c temps with [] => [] | x => [Temperatures x c] end) cols).
Proof.
  induction cols as [|c cols IH]; intro H; [reflexivity|]. cbn [temperature_messages flat_map].
  rewrite IH by (intros c' I; apply H; right; exact I).
  destruct (far_from_median c temps) as [|x xs]; [reflexivity|].
  assert (E : t <=? c = false) by (apply Z.leb_gt, H; left; reflexivity). rewrite E. reflexivity.
Qed.
Lemma temperature_in t temps cols l X c : temperature_messages t temps cols = Some l ->
  (In (Temperatures X c) l <-> In c cols /\ X <> [] /\ far_from_median c temps = X).
Proof.
  revert l. induction cols as [|c' cols IH]; intros l E; cbn [temperature_messages] in E.
  - injection E as <-. split; [intros []|intros ([] & _)].
  - destruct (far_from_median c' temps) as [|x xs] eqn:F.
    + rewrite (IH _ E). split.
      * intros (I & N & G). split; [right; exact I|]. auto.
      * intros ([<-|I] & N & G); [congruence|]. auto.
    + destruct (temperature_messages t temps cols) as [m|] eqn:M; [|discriminate]. destruct (t <=? c'); [discriminate|]. injection E as <-.
      specialize (IH m eq_refl). split.
      * intros [J|J].
        -- injection J as <- <-. split; [left; reflexivity|]. split; [discriminate|exact F].
        -- apply IH in J. destruct J as (I & N & G). split; [right; exact I|]. auto.
      * intros ([<-|I] & N & G).
        -- left. congruence.
        -- right. apply IH. auto.
Qed.

(** The widths. *)
Lemma floor_bounds a w : (0 < w)%Q -> (w * inject_Z (Qfloor (a / w)) <= a)%Q /\ (a < w * inject_Z (Qfloor (a / w)) + w)%Q.
Proof.
  intro P. pose proof (Qfloor_le (a / w)) as A. pose proof (Qlt_floor (a / w)) as B. rewrite inject_Z_plus in B. change (inject_Z 1) with 1%Q in B.
  assert (X : (w * (a / w) == a)%Q) by (field; lra).
  split.
  - rewrite <- X at 2. rewrite !(Qmult_comm w). apply Qmult_le_compat_r; [exact A|lra].
  - apply (Qmult_lt_compat_r _ _ w) in B; [|exact P]. rewrite (Qmult_comm _ w), X in B. lra.
Qed.
Lemma inject_pos i : 0 < i -> (0 < inject_Z i)%Q.
Proof. intro P. change 0%Q with (inject_Z 0). rewrite <- Zlt_Qlt. exact P. Qed.

Section Steady.
  Variables (rows : bytes -> list health) (s d : bytes -> Q) (i : bytes -> Z) (L : list bytes).
  Hypothesis steady : forall sn, In sn L -> regular (rows sn) (s sn) (d sn) /\ whole (d sn) (i sn).
  Let loggers := map (fun sn => (sn, rows sn)) L.

  Lemma least_interval : L <> [] -> exists sn0 v, In sn0 L /\ (forall sn, In sn L -> i sn0 <= i sn) /\
    py_min (map (fun x => interval (snd x)) loggers) = Some (Some v) /\ py_trunc v = i sn0.
  Proof.
    intro N. unfold loggers. rewrite map_map. cbn [snd].
    destruct (py_min_some (map (fun sn => interval (rows sn)) L)) as (x & E); [intro F; apply map_eq_nil in F; contradiction|].
    pose proof (py_min_spec _ _ E) as P. destruct x as [v|].
    - destruct P as (I & _ & A). apply in_map_iff in I. destruct I as (sn0 & E0 & I0).
      destruct (steady sn0 I0) as [R0 W0]. destruct (regular_interval _ _ _ R0) as (v0 & F0 & Q0). assert (v0 = v) by congruence. subst v0.
      exists sn0, v. split; [exact I0|]. split; [|split; [exact E|rewrite (py_trunc_eq _ _ Q0); apply trunc_whole, W0]].
      intros sn Is. destruct (steady sn Is) as [R W]. destruct (regular_interval _ _ _ R) as (u & F & Qu).
      assert (Lu : (v <= u)%Q) by (apply A; rewrite <- F; apply in_map_iff; exists sn; auto).
      destruct W0 as (_ & L0 & U0 & _). destruct W as (_ & L1 & U1 & _).
      assert (H : (inject_Z (i sn0) < inject_Z (i sn + 1))%Q) by (rewrite inject_Z_plus; change (inject_Z 1) with 1%Q; lra).
      rewrite <- Zlt_Qlt in H. lia.
    - exfalso. destruct P as (l & F). destruct L as [|sn0 L']; [contradiction|]. injection F as F _.
      destruct (steady sn0 (or_introl eq_refl)) as [R0 _]. destruct (regular_interval _ _ _ R0) as (v0 & F0 & _). congruence.
  Qed.

  Lemma comparison_steady lo hi : L <> [] -> exists sn0 w t1 t2, In sn0 L /\ (forall sn, In sn L -> i sn0 <= i sn) /\ 60 = i sn0 * w /\ 0 < w /\
    let a := Qfloor (lo / inject_Z w) in let e := Qfloor (hi / inject_Z w) in let n := e - a - 10 * i sn0 in
    (t1 == inject_Z (w * a))%Q /\ (t2 == inject_Z (w * e) - 600)%Q /\ (t2 - t1 == inject_Z (w * n))%Q /\
    comparison (Some lo) (Some hi) loggers = if n <=? 0 then None else Some (t1, t2, n).
  Proof.
    intro N. destruct (least_interval N) as (sn0 & v & I0 & M & E & T). destruct (steady sn0 I0) as [_ (P & _ & _ & D)].
    destruct D as (w & Ew). assert (E60 : 60 = i sn0 * w) by lia. assert (Pw : 0 < w) by nia.
    unfold comparison. rewrite E. unfold width. rewrite T. destruct (i sn0 =? 0) eqn:Z0; [apply Z.eqb_eq in Z0; lia|].
    set (W := (check_interval / inject_Z (i sn0))%Q). assert (EW : (W == inject_Z w)%Q) by (apply step_eq; [exact E60|lia]).
    assert (PW : (0 < inject_Z w)%Q) by (apply inject_pos, Pw).
    assert (FL : forall x, Qfloor (x / W) = Qfloor (x / inject_Z w)) by (intro x; apply Qfloor_comp; rewrite EW; reflexivity).
    exists sn0, w, (lo - Qmod lo W)%Q, (hi - Qmod hi W - check_interval * 10)%Q.
    split; [exact I0|]. split; [exact M|]. split; [exact E60|]. split; [exact Pw|]. cbv zeta.
    set (a := Qfloor (lo / inject_Z w)). set (e := Qfloor (hi / inject_Z w)).
    assert (T1 : (lo - Qmod lo W == inject_Z (w * a))%Q) by (unfold Qmod; rewrite FL; fold a; rewrite inject_Z_mult, EW; ring).
    assert (T2 : (hi - Qmod hi W - check_interval * 10 == inject_Z (w * e) - 600)%Q) by (unfold Qmod, check_interval; rewrite FL; fold e; rewrite inject_Z_mult, EW; ring).
    assert (TD : (hi - Qmod hi W - check_interval * 10 - (lo - Qmod lo W) == inject_Z (w * (e - a - 10 * i sn0)))%Q).
    { rewrite T1, T2. assert (X : (inject_Z 600 == inject_Z (w * (10 * i sn0)))%Q) by (replace (w * (10 * i sn0)) with 600 by lia; reflexivity).
      change 600%Q with (inject_Z 600). replace (w * (e - a - 10 * i sn0)) with (w * e - w * a - w * (10 * i sn0)) by ring.
      rewrite X. unfold Zminus. rewrite !inject_Z_plus, !inject_Z_opp. ring. }
    split; [exact T1|]. split; [exact T2|]. split; [exact TD|].
    assert (Tn : py_trunc ((hi - Qmod hi W - check_interval * 10 - (lo - Qmod lo W)) / W) = e - a - 10 * i sn0).
    { rewrite <- (trunc_int (e - a - 10 * i sn0)). apply py_trunc_eq. rewrite TD, EW, inject_Z_mult. field. lra. }
    rewrite Tn. reflexivity.
  Qed.

  (** At most as many temperatures as columns. *)
  Lemma enough_columns sn q t1 t2 n w i0 j : In sn L -> 60 = i sn * q -> 60 = i0 * w -> 0 < i0 -> 0 < w -> 0 <= n -> i0 <= i sn ->
    (t1 <= s sn)%Q -> (t2 - t1 == inject_Z (w * n))%Q -> nearest (rows sn) t2 = Some (Z.of_nat j) -> Z.of_nat j <= q * n.
  Proof.
    intros I E E0 P0 Pw Pn Li L1 T J. destruct (steady sn I) as [R W]. pose proof (whole_pos _ _ W) as D.
    destruct (nearest_end _ _ _ t2 R D) as (j' & J' & _ & H). assert (j' = j) by (rewrite J in J'; injection J' as J'; lia). subst j'.
    destruct j as [|j]; [nia|]. destruct (proj1 (H j) ltac:(lia)) as [_ H1]. destruct W as (Pi & Ld & _ & _).
    assert (K : (inject_Z (i sn) * (inject_Z (Z.of_nat j) + (1 # 2)) < inject_Z (w * n))%Q).
    { assert (X : (inject_Z (i sn) * (inject_Z (Z.of_nat j) + (1 # 2)) <= d sn * (inject_Z (Z.of_nat j) + (1 # 2)))%Q).
      { apply Qmult_le_compat_r; [exact Ld|]. assert (0 <= inject_Z (Z.of_nat j))%Q by (change 0%Q with (inject_Z 0); rewrite <- Zle_Qle; lia). lra. }
      assert (Y : (d sn * (inject_Z (Z.of_nat j) + (1 # 2)) == d sn * inject_Z (Z.of_nat j) + d sn * (1 # 2))%Q) by ring. lra. }
    assert (K' : (inject_Z (i sn * (2 * Z.of_nat j + 1)) < inject_Z (2 * (w * n)))%Q).
    { rewrite !inject_Z_mult, inject_Z_plus, inject_Z_mult. rewrite inject_Z_mult in K. change (inject_Z 2) with 2%Q. change (inject_Z 1) with 1%Q. lra. }
    rewrite <- Zlt_Qlt in K'.
    (* i * (2j + 1) < 2 w n;  i q = i0 w = 60 *)
    assert (K2 : i0 * (i sn * (2 * Z.of_nat j + 1)) < i0 * (2 * (w * n))) by (apply Z.mul_lt_mono_pos_l; lia).
    replace (i0 * (2 * (w * n))) with (2 * (i0 * w) * n) in K2 by ring. rewrite <- E0 in K2.
    assert (K3 : i sn * (i0 * (2 * Z.of_nat j + 1)) < i sn * (2 * q * n)).
    { replace (i sn * (2 * q * n)) with (2 * (i sn * q) * n) by ring. rewrite <- E.
      replace (i sn * (i0 * (2 * Z.of_nat j + 1))) with (i0 * (i sn * (2 * Z.of_nat j + 1))) by ring. lia. }
    apply Z.mul_lt_mono_pos_l in K3; [|lia]. nia.
  Qed.

  Definition cells (t1 t2 : Q) (n : Z) (sn : bytes) : list (option Q) := match sampled t1 t2 n (rows sn) with Some l => l | None => [] end.
  Lemma nth_map_range {A} (f : Z -> A) m c dflt : 0 <= c -> nth (Z.to_nat c) (map f (range m)) dflt = if c <? m then f c else dflt.
  Proof.
    clear. intro P. destruct (Z.ltb_spec c m) as [H|H].
    - assert (E : nth_error (map f (range m)) (Z.to_nat c) = Some (f c)).
      { apply map_nth_error. rewrite range_nth by lia. f_equal. lia. }
      exact (nth_error_nth _ _ _ E).
    - apply nth_overflow. rewrite map_length. unfold range. rewrite map_length, seq_length. lia.
  Qed.
  Lemma cells_reading sn t1 t2 n q : In sn L -> 60 = i sn * q -> (t1 <= s sn)%Q ->
    (forall j, nearest (rows sn) t2 = Some (Z.of_nat j) -> Z.of_nat j <= q * n) -> 0 <= n ->
    sampled t1 t2 n (rows sn) = Some (cells t1 t2 n sn) /\
    forall c, 0 <= c -> (forall x, nth (Z.to_nat c) (cells t1 t2 n sn) None = Some x <-> reading (rows sn) (d sn) q t2 c x) /\
      (n <= c -> nth (Z.to_nat c) (cells t1 t2 n sn) None = None).
  Proof.
    intros I E L1 B Pn. destruct (steady sn I) as [R W]. pose proof (whole_pos _ _ W) as D.
    assert (Pq : 0 < q) by (destruct W as (W & _); nia).
    destruct (sampled_regular _ _ _ _ _ t1 t2 n R W E L1 B) as (j & m & J & M & Hm & S). unfold cells. rewrite S. split; [reflexivity|].
    destruct (nearest_end _ _ _ t2 R D) as (j' & J' & Lj & Hj). assert (j' = j) by (rewrite J in J'; injection J' as J'; lia). subst j'.
    intros c Pc. rewrite nth_map_range by exact Pc. split.
    - intro x. destruct (Z.ltb_spec c m) as [H|H].
      + pose proof (proj1 (Hm c Pc) H) as H1. destruct (nth_error (rows sn) (Z.to_nat (c * q))) as [r|] eqn:K; [|apply nth_error_None in K; lia].
        rewrite (nth_error_nth _ _ _ (map_nth_error h_temp _ _ K)).
        destruct R as [_ R]. destruct (R _ _ K) as (t & Et & Qt). destruct (proj1 (Hj (Z.to_nat (c * q))) ltac:(lia)) as [H2 H3]. split.
        * intro Ex. exists r, t. split; [exact Pc|]. split; [lia|]. split; [exact K|]. split; [exact Et|]. split; [lra|exact Ex].
        * intros (r' & t' & _ & _ & K' & _ & _ & Ex). congruence.
      + split; [discriminate|]. intros (r & t & _ & H1 & K & Et & Lt & Ex). exfalso. destruct R as [_ R]. destruct (R _ _ K) as (t' & Et' & Qt).
        assert (t' = t) by congruence. subst t'. assert (H2 : (Z.to_nat (c * q) < j)%nat) by (apply Hj; split; [lia|lra]).
        assert (c < m); [apply Hm; [exact Pc|nia]|lia].
    - intro Ln. destruct (Z.ltb_spec c m) as [H|H]; [lia|reflexivity].
  Qed.

  Lemma all_some_map_iff {A B} (f : A -> option B) l : (forall x, In x l -> exists y, f x = Some y) -> exists m, all_some (map f l) = Some m.
  Proof.
    clear. induction l as [|x l IH]; intro H; [eexists; reflexivity|]. cbn [map all_some]. destruct (H x (or_introl eq_refl)) as (y & ->).
    destruct IH as (m & ->); [intros z I; apply H; right; exact I|]. eexists. reflexivity.
  Qed.
  Lemma last_map {A B} (f : A -> B) l x y : l <> [] -> last (map f l) y = f (last l x).
  Proof.
    clear. induction l as [|a l IH]; [contradiction|]. intros _. destruct l as [|a' l]; [reflexivity|].
    change (last (map f (a' :: l)) y = f (last (a' :: l) x)). apply IH. discriminate.
  Qed.
  Lemma last_in {A} (l : list A) x : l <> [] -> In (last l x) l.
  Proof.
    clear. induction l as [|a l IH]; [contradiction|]. intros _. destruct l as [|a' l]; [left; reflexivity|].
    right. apply IH. discriminate.
  Qed.

  Lemma temperatures_steady lo hi : L <> [] -> (forall sn, In sn L -> (lo <= s sn)%Q) ->
    exists sn0 w t2 n, In sn0 L /\ (forall sn, In sn L -> i sn0 <= i sn) /\ 60 = i sn0 * w /\ 0 < w /\
    comparison_end w hi t2 /\ n = Qfloor (hi / inject_Z w) - Qfloor (lo / inject_Z w) - 10 * i sn0 /\
    ((n <= 0 /\ temperatures (Some lo) (Some hi) loggers = None) \/
     (0 < n /\ exists t1 T l, T = cells t1 t2 n /\ temperatures (Some lo) (Some hi) loggers = Some l /\
       (forall X c, In (Temperatures X c) l <-> 0 <= c < n /\ X <> [] /\ far_from_median c (map (fun sn => (sn, T sn)) L) = X) /\
       (forall m, In m l -> exists X c, m = Temperatures X c) /\
       forall sn q c, In sn L -> 60 = i sn * q -> 0 <= c ->
         (forall x, nth (Z.to_nat c) (T sn) None = Some x <-> reading (rows sn) (d sn) q t2 c x) /\ (n <= c -> nth (Z.to_nat c) (T sn) None = None))).
  Proof.
    intros N Lo. destruct (comparison_steady lo hi N) as (sn0 & w & t1 & t2 & I0 & M & E0 & Pw & H). cbv zeta in H.
    set (a := Qfloor (lo / inject_Z w)) in *. set (e := Qfloor (hi / inject_Z w)) in *. set (n := e - a - 10 * i sn0) in *.
    destruct H as (T1 & T2 & TD & C). exists sn0, w, t2, n. split; [exact I0|]. split; [exact M|]. split; [exact E0|]. split; [exact Pw|].
    assert (PW : (0 < inject_Z w)%Q) by (apply inject_pos, Pw).
    split. { exists e. destruct (floor_bounds hi _ PW) as [A B]. fold e in A, B. rewrite !inject_Z_mult, inject_Z_plus.
             change (inject_Z 1) with 1%Q. rewrite inject_Z_mult in T2. split; [exact A|]. split; [lra|exact T2]. }
    split; [reflexivity|]. unfold temperatures. rewrite C. destruct (Z.leb_spec n 0) as [Hn|Hn]; [left; split; [exact Hn|reflexivity]|].
    right. split; [exact Hn|]. exists t1, (cells t1 t2 n).
    assert (L1 : forall sn, In sn L -> (t1 <= s sn)%Q).
    { intros sn I. specialize (Lo sn I). destruct (floor_bounds lo _ PW) as [A _]. fold a in A. rewrite inject_Z_mult in T1. lra. }
    assert (B : forall sn q, In sn L -> 60 = i sn * q -> forall j, nearest (rows sn) t2 = Some (Z.of_nat j) -> Z.of_nat j <= q * n).
    { intros sn q I E j J. destruct (steady sn0 I0) as [_ (P0 & _)].
      apply (enough_columns sn q t1 t2 n w (i sn0) j I E E0 ltac:(lia) Pw ltac:(lia) (M sn I) (L1 sn I) TD J). }
    assert (S : all_some (map (fun x : bytes * list health => sampled t1 t2 n (snd x)) loggers) = Some (map (cells t1 t2 n) L)).
    { unfold loggers. rewrite map_map. cbn [snd]. apply all_some_map. intros sn I. destruct (steady sn I) as [_ (_ & _ & _ & (q & Eq))].
      destruct (cells_reading sn t1 t2 n q I ltac:(lia) (L1 sn I) (B sn q I ltac:(lia)) ltac:(lia)) as [X _]. exact X. }
    rewrite S. set (z := last L []). assert (Iz : In z L) by (apply last_in, N).
    assert (Ez : snd (last loggers ([], [])) = rows z) by (unfold loggers; rewrite (last_map _ L [] _ N); reflexivity).
    rewrite Ez. destruct (steady z Iz) as [Rz Wz]. rewrite (width_regular _ _ _ _ Rz Wz).
    assert (Cm : combine (map fst loggers) (map (cells t1 t2 n) L) = map (fun sn => (sn, cells t1 t2 n sn)) L).
    { unfold loggers. rewrite map_map. cbn [fst]. rewrite map_id. clear. induction L as [|x l IH]; [reflexivity|]. cbn. rewrite IH. reflexivity. }
    rewrite Cm. set (temps := map (fun sn => (sn, cells t1 t2 n sn)) L).
    assert (Ln : n <= arange_len t1 t2 (check_interval / inject_Z (i z))).
    { unfold arange_len. apply Z.le_trans with (Qceiling ((t2 - t1) / (check_interval / inject_Z (i z)))); [|lia].
      rewrite <- (Qceiling_Z n). apply Qceiling_resp_le. destruct Wz as (Pz & _ & _ & (q & Eq)).
      assert (EQ : (check_interval / inject_Z (i z) == inject_Z q)%Q) by (apply step_eq; lia). rewrite EQ, TD.
      assert (Pq : 0 < q) by nia. apply Qle_shift_div_l; [apply inject_pos, Pq|]. rewrite <- inject_Z_mult, <- Zle_Qle.
      specialize (M z Iz). assert (q <= w) by nia. nia. }
    eexists. split; [reflexivity|]. split; [apply temperature_messages_spec; intros c I; apply range_in in I; lia|].
    set (l := flat_map _ _). assert (El : temperature_messages (arange_len t1 t2 (check_interval / inject_Z (i z))) temps (range n) = Some l).
    { apply temperature_messages_spec. intros c I. apply range_in in I. lia. }
    split. { intros X c. rewrite (temperature_in _ _ _ _ _ _ El), range_in. reflexivity. }
    split. { intros m I. exact (temperature_kind _ _ _ _ _ El I). }
    intros sn q c I E Pc. destruct (cells_reading sn t1 t2 n q I E (L1 sn I) (B sn q I E) ltac:(lia)) as [_ H]. apply H, Pc.
  Qed.
End Steady.

(** Who is far from the median. *)
Lemma only_map_filter {A} (P : bytes -> Prop) (f : bytes * A -> bool) (g : bytes -> A) L :
  (forall sn, In sn L -> (f (sn, g sn) = true <-> P sn)) -> only P L (map fst (filter f (map (fun sn => (sn, g sn)) L))).
Proof.
  induction L as [|sn L IH]; intro H; [constructor|]. cbn [map filter].
  assert (K : forall sn', In sn' L -> (f (sn', g sn') = true <-> P sn')) by (intros; apply H; right; assumption).
  destruct (f (sn, g sn)) eqn:E.
  - cbn [map fst]. apply only_yes; [apply (H sn (or_introl eq_refl)), E|apply IH, K].
  - apply only_no; [|apply IH, K]. rewrite <- (H sn (or_introl eq_refl)), E. discriminate.
Qed.
Lemma far_spec (T : bytes -> list (option Q)) L c :
  let v sn := nth (Z.to_nat c) (T sn) None in
  (forall sn, In sn L -> v sn = None) /\ far_from_median c (map (fun sn => (sn, T sn)) L) = [] \/
  exists m y, is_median (present (map v L)) m /\ hundredths m y /\
    only (fun sn => exists x, v sn = Some x /\ (Qabs (x - y) > 3 # 2)%Q) L (far_from_median c (map (fun sn => (sn, T sn)) L)).
Proof.
  cbv zeta. unfold far_from_median. rewrite !map_map. cbn [fst snd]. rewrite present_numbers.
  destruct (present (map (fun x => nth (Z.to_nat c) (T x) None) L)) as [|q r] eqn:E.
  - left. split; [|reflexivity]. intros sn I. destruct (nth (Z.to_nat c) (T sn) None) as [x|] eqn:F; [exfalso|reflexivity].
    assert (J : In x (numbers (map (fun x => nth (Z.to_nat c) (T x) None) L))) by (apply numbers_in; rewrite <- F; apply in_map_iff; exists sn; auto).
    rewrite present_numbers, E in J. destruct J.
  - right. exists (median (q :: r)), (round2 (median (q :: r))). split; [apply median_is; discriminate|]. split; [apply round2_spec|].
    apply (only_map_filter (fun sn => exists x, nth (Z.to_nat c) (T sn) None = Some x /\ (Qabs (x - round2 (median (q :: r))) > 3 # 2)%Q)
      (fun x : bytes * option Q => match snd x with Some v => Qltb group_temp_diff_max (Qabs (v - round2 (median (q :: r)))) | None => false end)
      (fun sn => nth (Z.to_nat c) (T sn) None)).
    intros sn _. cbn [snd]. destruct (nth (Z.to_nat c) (T sn) None) as [x|].
    + rewrite Qltb_lt. split; [intro H; exists x; split; [reflexivity|exact H]|]. intros (x' & Ex & H). injection Ex as <-. exact H.
    + split; [discriminate|]. intros (x & Ex & _). discriminate.
Qed.
