From Coq Require Import ZArith QArith Qabs List Bool Lia Lqa.
From Verif Require Import Lib Base UnwrapSpec UnwrapProofs Process ReadSeveral Drift DriftSpec.
Import ListNotations.
Open Scope Q_scope.

(** * Sums *)

Lemma qsum_sum l : qsum l = sum_of l.
Proof. induction l; simpl; congruence. Qed.

Lemma number_cons {A} (x : A) l : number (x :: l) == number l + 1.
Proof. unfold number. cbn [length]. rewrite Nat2Z.inj_succ. unfold Z.succ. rewrite inject_Z_plus. reflexivity. Qed.
Lemma number_nonneg {A} (l : list A) : 0 <= number l.
Proof. unfold number. change 0 with (inject_Z 0). rewrite <- Zle_Qle. lia. Qed.
Lemma number_pos {A} (l : list A) : l <> [] -> 0 < number l.
Proof. destruct l; [contradiction|]. intros _. rewrite number_cons. pose proof (number_nonneg l). lra. Qed.
Lemma number_split {A} (f : A -> bool) l : number (filter (fun q => negb (f q)) l) + number (filter f l) == number l.
Proof.
  induction l as [|q l IH]; [reflexivity|]. cbn [filter]. destruct (f q); cbn [negb]; rewrite !number_cons; lra.
Qed.
Lemma number_map {A B} (f : A -> B) l : number (map f l) = number l.
Proof. unfold number. rewrite map_length. reflexivity. Qed.

Lemma sum_add l c : sum_of (map (fun x => x + c) l) == sum_of l + number l * c.
Proof. induction l as [|x l IH]; [cbn; unfold number; cbn; ring|]. cbn [map sum_of]. rewrite IH, number_cons. ring. Qed.

Lemma mean_is l : l <> [] -> is_mean l (mean l).
Proof.
  intros N. unfold is_mean, mean. rewrite qsum_sum. change (count l) with (number l).
  pose proof (number_pos l N). field. lra.
Qed.

Lemma mean_unique l m m' : l <> [] -> is_mean l m -> is_mean l m' -> m == m'.
Proof.
  unfold is_mean. intros N A B. pose proof (number_pos l N).
  apply (Qmult_inj_l m m' (number l)); [lra|]. rewrite A, B. reflexivity.
Qed.

Lemma sum_sq_ext l m m' : m == m' -> sum_of (map (fun x => (x - m) * (x - m)) l) == sum_of (map (fun x => (x - m') * (x - m')) l).
Proof. intros E. induction l as [|x l IH]; [reflexivity|]. cbn [map sum_of]. rewrite IH, E. reflexivity. Qed.

Lemma var_is l : l <> [] -> is_variance l (var l).
Proof.
  intros N. exists (mean l). split; [apply mean_is; exact N|]. unfold var.
  set (sq := map _ l). assert (sq <> []) as N' by (subst sq; destruct l; [contradiction|discriminate]).
  pose proof (mean_is sq N') as M. unfold is_mean in M.
  replace (number l) with (number sq) by (subst sq; apply number_map). exact M.
Qed.

Lemma variance_unique l v v' : l <> [] -> is_variance l v -> is_variance l v' -> v == v'.
Proof.
  intros N (m & M & V) (m' & M' & V'). pose proof (mean_unique l m m' N M M') as E.
  rewrite (sum_sq_ext l _ _ E), <- V' in V. pose proof (number_pos l N).
  apply (Qmult_inj_l v v' (number l)); [lra|exact V].
Qed.

(** * Outliers *)

  Lemma existsb_false {A} (f : A -> bool) l : existsb f l = false <-> Forall (fun x => f x = false) l.
  Proof.
    induction l as [|x l IH]; [simpl; split; auto|]. cbn [existsb]. rewrite orb_false_iff, IH.
    split; [intros []; constructor; auto|intros F; inversion F; auto].
  Qed.

  Lemma filter_without (f : point -> bool) Out l : (forall q, In q l -> f q = true <-> Out q) ->
    without Out l (filter (fun q => negb (f q)) l).
  Proof.
    induction l as [|q l IH]; intros E; [constructor|]. cbn [filter].
    pose proof (E q (or_introl eq_refl)) as Eq. destruct (f q).
    - cbn. constructor; [tauto|]. apply IH. intros; apply E; right; assumption.
    - cbn. constructor; [intros X; apply Eq in X; discriminate|]. apply IH. intros; apply E; right; assumption.
  Qed.

  Lemma without_fun (f : point -> bool) Out l l' : (forall q, In q l -> f q = true <-> Out q) ->
    without Out l l' -> l' = filter (fun q => negb (f q)) l.
  Proof.
    intros E W. induction W as [|q l l' N W IH|q l l' N W IH]; [reflexivity| |]; cbn [filter];
      (assert (E' : forall x, In x l -> f x = true <-> Out x) by (intros; apply E; right; assumption));
      specialize (IH E'); pose proof (E q (or_introl eq_refl)) as Eq; destruct (f q); cbn; try tauto; try congruence.
    exfalso. apply Eq in N. discriminate.
  Qed.

  Lemma filter_less {A} (f : A -> bool) l : existsb f l = true -> (length (filter (fun q => negb (f q)) l) < length l)%nat.
  Proof.
    induction l as [|x l IH]; [discriminate|]. cbn [existsb filter]. destruct (f x) eqn:E; cbn.
    - intros _. pose proof (filter_length_le (fun q => negb (f q)) l). lia.
    - intros H. specialize (IH H). lia.
  Qed.

  Lemma Exists_nonempty {A} (R : A -> Prop) l : Exists R l -> l <> [].
  Proof. intros E ->. inversion E. Qed.

  Lemma subsequence_refl {A} (l : list A) : subsequence l l.
  Proof. induction l; constructor; assumption. Qed.

  Lemma subsequence_trans {A} (l m n : list A) : subsequence l m -> subsequence m n -> subsequence l n.
  Proof.
    intros H1 H2. revert l H1. induction H2; intros l0 H1; [exact H1| |constructor; auto].
    inversion H1; subst; constructor; auto.
  Qed.

  Lemma without_sub Out l l' : without Out l l' -> subsequence l' l.
  Proof. induction 1; constructor; assumption. Qed.

  Lemma sum_filter_le (f : point -> bool) (g : point -> Q) l : (forall q, 0 <= g q) ->
    sum_of (map g (filter f l)) <= sum_of (map g l).
  Proof.
    intros G. induction l as [|q l IH]; [apply Qle_refl|]. cbn [filter]. pose proof (G q).
    destruct (f q); cbn [map sum_of]; lra.
  Qed.

Section R.
  Variable P : Type.
  Variable fit : list point -> option P.
  Variable eval : P -> Q -> Q.

  Lemma z_outlier_iff z p pts q : pts <> [] ->
    z_outlier P eval z p pts q = true <-> beyond_z P eval z p pts q.
  Proof.
    intros N. unfold z_outlier, beyond_z, residuals. rewrite Qltb_lt.
    assert (N' : map (resid P eval p) pts <> []) by (destruct pts; [contradiction|discriminate]).
    split.
    - intros E. eexists. split; [apply var_is; exact N'|exact E].
    - intros (v & V & E). rewrite (variance_unique _ _ _ N' (var_is _ N') V). exact E.
  Qed.

  Lemma z_outlier_false z p pts q : pts <> [] ->
    z_outlier P eval z p pts q = false <-> ~ beyond_z P eval z p pts q.
  Proof.
    intros N. rewrite <- (z_outlier_iff z p pts q N). destruct (z_outlier P eval z p pts q); split; congruence.
  Qed.

  Lemma mad_outlier_iff lim p q : mad_outlier P eval lim p q = true <-> beyond_limit P eval lim p q.
  Proof.
    unfold mad_outlier, beyond_limit. destruct lim as [m|].
    - rewrite Qltb_lt. split; [intros E; exists m; auto|intros (m' & [= <-] & E); exact E].
    - split; [discriminate|]. intros (m & [=] & _).
  Qed.
  Lemma mad_outlier_false lim p q : mad_outlier P eval lim p q = false <-> ~ beyond_limit P eval lim p q.
  Proof. rewrite <- mad_outlier_iff. destruct (mad_outlier P eval lim p q); split; congruence. Qed.





  Lemma outlier_cases z lim p pts : pts <> [] ->
    (existsb (z_outlier P eval z p pts) pts = true /\ outlier P eval z lim p pts = z_outlier P eval z p pts) \/
    (Forall (fun q => ~ beyond_z P eval z p pts q) pts /\ outlier P eval z lim p pts = mad_outlier P eval lim p).
  Proof.
    intros N. unfold outlier. destruct (existsb (z_outlier P eval z p pts) pts) eqn:E; [left; auto|right].
    split; [|reflexivity]. apply existsb_false in E. eapply Forall_impl; [|exact E]. intros q. apply z_outlier_false. exact N.
  Qed.

  Lemma robust_terminates fuel z lim d pts : (length pts < fuel)%nat -> robust P fit eval fuel z lim d pts <> OutOfFuel.
  Proof.
    revert d pts. induction fuel as [|fuel IH]; intros d pts L; [lia|]. cbn [robust].
    destruct (fit pts) as [p|]; [|discriminate].
    destruct (existsb (outlier P eval z lim p pts) pts) eqn:E; cbn [andb].
    - destruct (match d with Some O => false | _ => true end).
      + apply IH. apply filter_less in E. lia.
      + destruct pts; discriminate.
    - destruct pts; discriminate.
  Qed.

  Lemma robust_pruned fuel z lim pts p kept :
    robust P fit eval fuel z lim None pts = Done p kept -> pruned P fit eval z lim pts p kept.
  Proof.
    revert pts. induction fuel as [|fuel IH]; intros pts; [discriminate|]. cbn [robust].
    destruct (fit pts) as [p0|] eqn:F; [|discriminate]. rewrite andb_true_r.
    destruct pts as [|q0 pts0].
    { cbn [existsb]. discriminate. }
    set (pts := q0 :: pts0) in *. assert (N : pts <> []) by discriminate. clearbody pts.
    destruct (outlier_cases z lim p0 pts N) as [[E ->]|[Z ->]].
    - rewrite E. intros R. eapply pruned_z; [exact F| |apply IH; exact R]. split.
      + apply existsb_exists in E as (q & I & E). apply Exists_exists. exists q. split; [exact I|].
        apply z_outlier_iff; assumption.
      + apply filter_without. intros q _. apply z_outlier_iff. exact N.
    - destruct (existsb (mad_outlier P eval lim p0) pts) eqn:E.
      + intros R. eapply pruned_limit; [exact F|exact Z| |apply IH; exact R]. split.
        * apply existsb_exists in E as (q & I & E). apply Exists_exists. exists q. split; [exact I|].
          apply mad_outlier_iff; assumption.
        * apply filter_without. intros q _. apply mad_outlier_iff.
      + intros R. assert (X : Done p0 pts = Done p kept) by (destruct pts; [contradiction|exact R]). injection X as <- <-.
        apply pruned_stop; [exact F|exact N|exact Z|].
        apply existsb_false in E. eapply Forall_impl; [|exact E]. intros q. apply mad_outlier_false.
  Qed.


  Lemma pruned_robust z lim pts p kept : pruned P fit eval z lim pts p kept ->
    forall fuel, (length pts < fuel)%nat -> robust P fit eval fuel z lim None pts = Done p kept.
  Proof.
    induction 1 as [pts p F N Z M|pts p kept p' final F [X W] H IH|pts p kept p' final F Z [X W] H IH];
      intros [|fuel] L; try lia; cbn [robust]; rewrite F, andb_true_r.
    - destruct (outlier_cases z lim p pts N) as [[E ->]|[_ ->]].
      + exfalso. apply existsb_exists in E as (q & I & E). rewrite Forall_forall in Z. apply (Z q I). apply z_outlier_iff; assumption.
      + assert (existsb (mad_outlier P eval lim p) pts = false) as ->.
        { apply existsb_false. eapply Forall_impl; [|exact M]. intros q. apply mad_outlier_false. }
        destruct pts; [contradiction|reflexivity].
    - pose proof (Exists_nonempty _ _ X) as N.
      assert (E : existsb (z_outlier P eval z p pts) pts = true).
      { apply existsb_exists. apply Exists_exists in X as (q & I & X). exists q. split; [exact I|]. apply z_outlier_iff; assumption. }
      destruct (outlier_cases z lim p pts N) as [[_ ->]|[Z _]].
      + rewrite E. assert (W' : kept = filter (fun q => negb (z_outlier P eval z p pts q)) pts).
        { eapply without_fun; [|exact W]. intros q _. apply z_outlier_iff. exact N. }
        rewrite <- W'. apply IH. subst kept. apply filter_less in E. lia.
      + exfalso. apply Exists_exists in X as (q & I & X). rewrite Forall_forall in Z. exact (Z q I X).
    - pose proof (Exists_nonempty _ _ X) as N.
      assert (E : existsb (mad_outlier P eval lim p) pts = true).
      { apply existsb_exists. apply Exists_exists in X as (q & I & X). exists q. split; [exact I|]. apply mad_outlier_iff; assumption. }
      destruct (outlier_cases z lim p pts N) as [[E' _]|[_ ->]].
      + exfalso. apply existsb_exists in E' as (q & I & E'). rewrite Forall_forall in Z. apply (Z q I). apply z_outlier_iff; assumption.
      + rewrite E. assert (W' : kept = filter (fun q => negb (mad_outlier P eval lim p q)) pts).
        { eapply without_fun; [|exact W]. intros q _. apply mad_outlier_iff. }
        rewrite <- W'. apply IH. subst kept. apply filter_less in E. lia.
  Qed.

  Lemma robust_iff z lim pts p kept :
    robust_regress P fit eval z lim None pts = Done p kept <-> pruned P fit eval z lim pts p kept.
  Proof.
    unfold robust_regress. split; [apply robust_pruned|]. intros H. eapply pruned_robust; [exact H|lia].
  Qed.

  Lemma robust_raised z lim pts : robust_regress P fit eval z lim None pts = Raised <->
    (forall p kept, ~ pruned P fit eval z lim pts p kept).
  Proof.
    split.
    - intros E p kept H. apply robust_iff in H. congruence.
    - intros N. destruct (robust_regress P fit eval z lim None pts) as [|p kept|] eqn:E; [reflexivity| |].
      + exfalso. apply (N p kept). apply robust_iff. exact E.
      + exfalso. apply (robust_terminates (S (length pts)) z lim None pts); [lia|exact E].
  Qed.


  Lemma pruned_sub z lim pts p kept : pruned P fit eval z lim pts p kept ->
    subsequence kept pts /\ kept <> [] /\ fit kept = Some p /\
    Forall (fun q => ~ beyond_z P eval z p kept q) kept /\ Forall (fun q => ~ beyond_limit P eval lim p q) kept.
  Proof.
    induction 1 as [pts p F N Z M|pts p kept p' final F [X W] H (S & R)|pts p kept p' final F Z [X W] H (S & R)].
    - split; [apply subsequence_refl|]. auto.
    - split; [|exact R]. eapply subsequence_trans; [exact S|]. eapply without_sub. exact W.
    - split; [|exact R]. eapply subsequence_trans; [exact S|]. eapply without_sub. exact W.
  Qed.

  (** * A z-score pass removes few points *)

  Lemma sse_shift p c p' pts : (forall x, eval p' x == eval p x + c) ->
    sse P eval p' pts == sse P eval p pts - 2 * c * sum_of (residuals P eval p pts) + number pts * (c * c).
  Proof.
    intros E. unfold sse, residuals. induction pts as [|q pts IH]; [cbn; unfold number; cbn; ring|].
    cbn [map sum_of]. rewrite IH, number_cons. unfold residual. rewrite E. ring.
  Qed.

  Lemma best_centred p pts : shiftable P eval -> best P eval p pts -> sum_of (residuals P eval p pts) == 0.
  Proof.
    intros Sh B. destruct pts as [|q pts]; [reflexivity|].
    assert (N : 0 < number (q :: pts)) by (apply number_pos; discriminate).
    set (l := q :: pts) in *. set (s := sum_of (residuals P eval p l)) in *. set (n := number l) in *.
    destruct (Sh p (s / n)) as (p' & E). pose proof (sse_shift p (s / n) p' l E) as Q.
    specialize (B p'). rewrite Q in B. fold s n in B.
    assert (X : s * s / n <= 0).
    { assert (s * s / n == 2 * (s / n) * s - n * (s / n * (s / n))) as -> by (field; lra). lra. }
    assert (Y : s * s <= 0).
    { apply (Qmult_le_r _ _ (/ n)); [apply Qinv_lt_0_compat; exact N|]. rewrite Qmult_0_l. exact X. }
    clearbody s. clear -Y. nra.
  Qed.


  Lemma few_beyond z p pts v removed : sum_of (residuals P eval p pts) == 0 -> is_variance (residuals P eval p pts) v ->
    removed = filter (fun q => Qltb (z * z * v) (residual P eval p q * residual P eval p q)) pts ->
    removed <> [] -> z * z * number removed < number pts.
  Proof.
    intros C V -> N. set (out := filter _ pts) in *.
    assert (Np : pts <> []) by (intros ->; apply N; reflexivity).
    assert (Nr : residuals P eval p pts <> []) by (unfold residuals; destruct pts; [contradiction|discriminate]).
    destruct V as (m & M & V). unfold is_mean in M. rewrite C in M.
    pose proof (number_pos pts Np) as Hn.
    assert (En : number (residuals P eval p pts) = number pts) by apply number_map. rewrite En in M, V.
    assert (m == 0) as Em. { apply (Qmult_inj_l m 0 (number pts)); [lra|]. rewrite M. ring. }
    rewrite (sum_sq_ext _ _ _ Em) in V.
    assert (V' : number pts * v == sum_of (map (fun q => residual P eval p q * residual P eval p q) pts)).
    { rewrite V. unfold residuals. rewrite map_map. clear. induction pts as [|q l IH]; [reflexivity|].
      cbn [map sum_of]. rewrite IH. ring. }
    assert (A : z * z * v * number out < sum_of (map (fun q => residual P eval p q * residual P eval p q) out)).
    { assert (F : Forall (fun q => z * z * v < residual P eval p q * residual P eval p q) out).
      { apply Forall_forall. intros q I. apply filter_In in I as [_ I]. apply Qltb_lt. exact I. }
      clear -F N. clearbody out. destruct out as [|q out]; [contradiction|]. clear N.
      revert q F. induction out as [|q' out IH]; intros q F; inversion F as [|? ? F1 F2]; subst.
      - cbn [map sum_of]. rewrite number_cons. change (@number point []) with 0. lra.
      - change (sum_of (map (fun q => residual P eval p q * residual P eval p q) (q :: q' :: out)))
          with (residual P eval p q * residual P eval p q + sum_of (map (fun q => residual P eval p q * residual P eval p q) (q' :: out))).
        specialize (IH q' F2). rewrite number_cons. rewrite Qmult_plus_distr_r. lra. }
    assert (B : sum_of (map (fun q => residual P eval p q * residual P eval p q) out) <=
                sum_of (map (fun q => residual P eval p q * residual P eval p q) pts)).
    { apply sum_filter_le. intros q. nra. }
    rewrite <- V' in B.
    assert (Hv : 0 <= v).
    { apply (Qmult_le_l 0 v (number pts) Hn). rewrite V'. rewrite Qmult_0_r. clear.
      induction pts as [|q l IH]; [apply Qle_refl|]. cbn [map sum_of]. nra. }
    assert (v == 0 \/ 0 < v) as [Z|Z] by lra.
    - exfalso. rewrite Z in *. lra.
    - apply (Qmult_lt_r _ _ v Z). lra.
  Qed.
End R.

(** * Acceptance of the fit *)

Lemma from_to_fl l : l <> [] -> from_to l (first_q l) (last_q l).
Proof.
  intros N. split.
  - destruct l; [contradiction|reflexivity].
  - exists (removelast l). apply app_removelast_last. exact N.
Qed.

Lemma from_to_eq l a b : from_to l a b -> first_q l = a /\ last_q l = b.
Proof.
  intros [H (l' & ->)]. split; [|apply last_last]. unfold first_q. destruct (l' ++ [b]); [discriminate|]. injection H as ->. reflexivity.
Qed.

Lemma max_abs_le l m : 0 <= m -> max_abs l <= m <-> Forall (fun r => Qabs r <= m) l.
Proof.
  intros M. induction l as [|r l IH]; [split; auto|]. cbn [max_abs fold_right].
  change (fold_right (fun r m0 => if Qltb m0 (Qabs r) then Qabs r else m0) 0 l) with (max_abs l).
  destruct (Qltb (max_abs l) (Qabs r)) eqn:E.
  - apply Qltb_lt in E. split.
    + intros H. constructor; [exact H|]. apply IH. lra.
    + intros F. inversion F; assumption.
  - apply Qltb_ge in E. split.
    + intros H. constructor; [lra|]. apply IH. exact H.
    + intros F. inversion F; subst. apply IH. assumption.
Qed.

Lemma div_lt_pos a d c : 0 < d -> a / d < c <-> a < c * d.
Proof.
  intros D. split; intros H.
  - apply (Qmult_lt_r _ _ d D) in H. rewrite Qmult_comm, Qmult_div_r in H by lra. exact H.
  - apply (Qmult_lt_r _ _ d D). rewrite Qmult_comm, Qmult_div_r by lra. exact H.
Qed.

Lemma div_lt_neg a d c : d < 0 -> a / d < c <-> c * d < a.
Proof.
  intros D. assert (E : a / d == (- a) / (- d)) by (field; lra). rewrite E.
  rewrite div_lt_pos by lra. split; intros H; lra.
Qed.

Lemma div_gt_pos a d c : 0 < d -> c < a / d <-> c * d < a.
Proof.
  intros D. split; intros H.
  - apply (Qmult_lt_r _ _ d D) in H. rewrite (Qmult_comm (a / d)), Qmult_div_r in H by lra. exact H.
  - apply (Qmult_lt_r _ _ d D). rewrite (Qmult_comm (a / d)), Qmult_div_r by lra. exact H.
Qed.

Lemma div_gt_neg a d c : d < 0 -> c < a / d <-> a < c * d.
Proof.
  intros D. assert (E : a / d == (- a) / (- d)) by (field; lra). rewrite E.
  rewrite div_gt_pos by lra. split; intros H; lra.
Qed.

Lemma fixes_eq L : fix_points L = fixes L.
Proof. reflexivity. Qed.

Lemma fixes_nil L : gps L = [] <-> fixes L = [].
Proof. unfold fixes. destruct (gps L); cbn; split; intros E; try reflexivity; discriminate. Qed.

Lemma fix_time_int L t : In t (map snd (fixes L)) -> exists z, t = inject_Z z.
Proof.
  unfold fixes. rewrite map_map. cbn. intros I. apply in_map_iff in I as (e & <- & _). eauto.
Qed.

Lemma sufficient_iff L : data L <> [] -> gps L <> [] -> sufficient L = true <-> covers L.
Proof.
  intros ND NG. unfold sufficient. rewrite Qltb_lt, fixes_eq.
  assert (N1 : sample_clock L <> []) by (unfold sample_clock; destruct (data L); [contradiction|discriminate]).
  assert (N2 : map snd (fixes L) <> []) by (unfold fixes; destruct (gps L); [contradiction|discriminate]).
  change (map fst (data L)) with (sample_clock L).
  unfold span. set (a := first_q (sample_clock L)). set (b := last_q (sample_clock L)).
  set (s := first_q (map snd (fixes L))). set (e := last_q (map snd (fixes L))).
  assert (X : covers L <-> ((s <= e /\ (1024 # 1000000) * (b - a) < 2 * (e - s + (1 # 1000000000))) \/
                            (e < s /\ 2 * (e - s + (1 # 1000000000)) < (1024 # 1000000) * (b - a)))).
  { split.
    - intros (a' & b' & s' & e' & F1 & F2 & C). apply from_to_eq in F1 as [<- <-]. apply from_to_eq in F2 as [<- <-]. exact C.
    - intros C. exists a, b, s, e. split; [apply from_to_fl; exact N1|]. split; [apply from_to_fl; exact N2|exact C]. }
  rewrite X.
  destruct (fix_time_int L s) as (zs & Zs).
  { subst s. unfold first_q. destruct (map snd (fixes L)); [contradiction|left; reflexivity]. }
  destruct (fix_time_int L e) as (ze & Ze).
  { subst e. unfold last_q. rewrite (app_removelast_last 0 N2) at 2. apply in_or_app. right. left. reflexivity. }
  clearbody a b s e. subst s e.
  destruct (Z_le_gt_dec zs ze) as [H|H].
  - rewrite Zle_Qle in H. rewrite div_lt_pos by lra. split; [intros H0; left; split; [exact H|exact H0]|intros [[_ ?]|[? _]]; lra].
  - assert (H' : (ze + 1 <= zs)%Z) by lia. rewrite Zle_Qle in H'. rewrite inject_Z_plus in H'. change (inject_Z 1) with 1 in H'.
    rewrite div_lt_neg by lra. split; [intros; right; split; lra|intros [[? _]|[_ ?]]; lra].
Qed.

Lemma spread_iff L kept : data L <> [] -> kept <> [] ->
  ratio_over_2 ((1024 # 1000000) * span (map fst (data L))) (span (map fst kept)) = false <-> spread_out L kept.
Proof.
  intros ND NK.
  assert (N1 : sample_clock L <> []) by (unfold sample_clock; destruct (data L); [contradiction|discriminate]).
  assert (N2 : map fst kept <> []) by (destruct kept; [contradiction|discriminate]).
  change (map fst (data L)) with (sample_clock L).
  unfold span. set (a := first_q (sample_clock L)). set (b := last_q (sample_clock L)).
  set (s := first_q (map fst kept)). set (e := last_q (map fst kept)).
  assert (X : spread_out L kept <-> ((s == e /\ b <= a) \/ (s < e /\ (1024 # 1000000) * (b - a) <= 2 * (e - s)) \/
     (e < s /\ 2 * (e - s) <= (1024 # 1000000) * (b - a)))).
  { split.
    - intros (a' & b' & s' & e' & F1 & F2 & C). apply from_to_eq in F1 as [<- <-]. apply from_to_eq in F2 as [<- <-]. exact C.
    - intros C. exists a, b, s, e. split; [apply from_to_fl; exact N1|]. split; [apply from_to_fl; exact N2|exact C]. }
  rewrite X. clear X. clearbody a b s e. unfold ratio_over_2.
  destruct (Qeq_bool (e - s) 0) eqn:E.
  - apply Qeq_bool_eq in E. rewrite Qltb_ge. split; [intros; left; split; lra|intros [[_ ?]|[[? _]|[? _]]]; lra].
  - apply Qeq_bool_neq in E. rewrite Qltb_ge.
    destruct (Qlt_le_dec 0 (e - s)) as [H|H].
    + split.
      * intros Hc. right. left. split; [lra|]. apply Qnot_lt_le. intros F. apply Qle_not_lt in Hc. apply Hc. apply div_gt_pos; lra.
      * intros [[? _]|[[_ C]|[? _]]]; [lra| |lra]. apply Qnot_lt_le. intros F. apply div_gt_pos in F; lra.
    + assert (H' : e - s < 0). { apply Qle_lteq in H as [H|H]; [exact H|contradiction]. }
      split.
      * intros Hc. right. right. split; [lra|]. apply Qnot_lt_le. intros F. apply Qle_not_lt in Hc. apply Hc. apply div_gt_neg; lra.
      * intros [[? _]|[[? _]|[_ C]]]; [lra|lra|]. apply Qnot_lt_le. intros F. rewrite (div_gt_neg _ _ _ H') in F. lra.
Qed.

Lemma qdiff_chain (f : point -> Q) (c : Q) l :
  existsb (fun d => Qltb c (Qabs d)) (qdiff (map f l)) = false <-> chain (fun q q' => Qabs (f q' - f q) <= c) l.
Proof.
  induction l as [|x [|y l] IH]; [cbn; tauto|cbn; tauto|].
  change (existsb (fun d => Qltb c (Qabs d)) (qdiff (map f (x :: y :: l))))
    with (Qltb c (Qabs (f y - f x)) || existsb (fun d => Qltb c (Qabs d)) (qdiff (map f (y :: l)))).
  change (chain (fun q q' => Qabs (f q' - f q) <= c) (x :: y :: l))
    with (Qabs (f y - f x) <= c /\ chain (fun q q' => Qabs (f q' - f q) <= c) (y :: l)).
  rewrite orb_false_iff, IH, Qltb_ge. tauto.
Qed.

Section D.
  Variable fit3 : list point -> option cubic.
  Variable fit1 : list point -> option linear.

  Lemma detect_step_spec L :
    match detect_step fit1 (fix_points L) with
    | Some false => no_step fit1 L
    | Some true => step fit1 L
    | None => line_fails fit1 L
    end.
  Proof.
    unfold detect_step. rewrite fixes_eq.
    destruct (robust_regress linear fit1 eval1 4 None None (fixes L)) as [|p kept|] eqn:E.
    - unfold line_fails. apply robust_raised. exact E.
    - apply robust_iff in E.
      destruct (existsb _ _) eqn:X; exists p, kept; (split; [exact E|]).
      + intros S. apply (qdiff_chain (resid linear eval1 p)) in S. congruence.
      + apply (qdiff_chain (resid linear eval1 p)) in X. exact X.
    - exfalso. eapply robust_terminates; [|exact E]. lia.
  Qed.

  Lemma pruned_det {P} (fit : list point -> option P) eval z lim pts p kept p' kept' :
    pruned P fit eval z lim pts p kept -> pruned P fit eval z lim pts p' kept' -> p = p' /\ kept = kept'.
  Proof. intros A B. apply robust_iff in A. apply robust_iff in B. rewrite A in B. injection B as <- <-. auto. Qed.

  Lemma step_excl L : no_step fit1 L -> step fit1 L -> False.
  Proof. intros (p & k & A & B) (p' & k' & A' & B'). destruct (pruned_det _ _ _ _ _ _ _ _ _ A A') as [<- <-]. contradiction. Qed.
  Lemma line_excl L : line_fails fit1 L -> (no_step fit1 L \/ step fit1 L) -> False.
  Proof. intros F [(p & k & A & _)|(p & k & A & _)]; exact (F _ _ A). Qed.

  Lemma accepted_fit_iff L p kept : data L <> [] -> accepted_fit fit3 L = Some (p, kept) <-> good_fit fit3 L p kept.
  Proof.
    intros ND. unfold accepted_fit. rewrite fixes_eq. split.
    - destruct (robust_regress cubic fit3 eval3 4 (Some (1 # 100)) None (fixes L)) as [|p' kept'|] eqn:E; try discriminate.
      destruct (ratio_over_2 _ _ || _ || _) eqn:X; [discriminate|]. intros [= <- <-].
      apply robust_iff in E. rewrite !orb_false_iff in X. destruct X as [[X1 X2] X3].
      destruct (pruned_sub _ _ _ _ _ _ _ _ E) as (_ & N & _).
      split; [exact E|]. split; [apply Nat.ltb_ge; exact X2|]. split.
      + apply Qltb_ge in X3. apply max_abs_le in X3; [|lra]. rewrite Forall_map in X3. exact X3.
      + apply spread_iff; assumption.
    - intros (E & X2 & X3 & X1). destruct (pruned_sub _ _ _ _ _ _ _ _ E) as (_ & N & _). apply robust_iff in E. rewrite E.
      apply spread_iff in X1; [|assumption|assumption]. rewrite X1.
      apply Nat.ltb_ge in X2. rewrite X2.
      assert (Qltb (1 # 100) (max_abs (map (resid cubic eval3 p) kept)) = false) as ->; [|reflexivity].
      apply Qltb_ge. apply max_abs_le; [lra|]. rewrite Forall_map. exact X3.
  Qed.

  Lemma accepted_fit_none L : data L <> [] -> accepted_fit fit3 L = None <-> (forall p kept, ~ good_fit fit3 L p kept).
  Proof.
    intros ND. split.
    - intros E p kept G. apply accepted_fit_iff in G; congruence.
    - intros N. destruct (accepted_fit fit3 L) as [[p kept]|] eqn:E; [|reflexivity].
      exfalso. apply (N p kept). apply accepted_fit_iff; assumption.
  Qed.
End D.
