(** Proofs about the individual checks of the huddle test. *)
From Coq Require Import String.
From Coq Require Import ZArith QArith Qround Qabs List Bool Lia Lqa.
From Verif Require Import Base Lib UnwrapProofs Process Outliers OutliersSpec Windows Select Huddle HuddleSpec.
Import ListNotations.
Open Scope Z_scope.

Lemma lt_nan_true x y : lt_nan x y = true <-> exists u v, x = Some u /\ y = Some v /\ (u < v)%Q.
Proof.
  unfold lt_nan. destruct x as [u|], y as [v|]; split; intro H; try discriminate.
  - exists u, v. split; [reflexivity|]. split; [reflexivity|]. apply Qltb_lt, H.
  - destruct H as (u' & v' & E & E' & L). injection E as ->. injection E' as ->. apply Qltb_lt, L.
  - destruct H as (u' & v' & E & E' & L). discriminate.
  - destruct H as (u' & v' & E & E' & L). discriminate.
  - destruct H as (u' & v' & E & E' & L). discriminate.
Qed.
Lemma le_nan_true x y : le_nan x y = true <-> exists u v, x = Some u /\ y = Some v /\ (u <= v)%Q.
Proof.
  unfold le_nan. destruct x as [u|], y as [v|]; split; intro H; try discriminate.
  - exists u, v. split; [reflexivity|]. split; [reflexivity|]. apply Qle_bool_iff, H.
  - destruct H as (u' & v' & E & E' & L). injection E as ->. injection E' as ->. apply Qle_bool_iff, L.
  - destruct H as (u' & v' & E & E' & L). discriminate.
  - destruct H as (u' & v' & E & E' & L). discriminate.
  - destruct H as (u' & v' & E & E' & L). discriminate.
Qed.
Lemma is_zero_true x : is_zero x = true <-> exists v, x = Some v /\ (v == 0)%Q.
Proof.
  unfold is_zero. destruct x as [v|]; split; intro H; try discriminate.
  - exists v. split; [reflexivity|]. apply Qeq_bool_iff, H.
  - destruct H as (w & E & Z). injection E as ->. apply Qeq_bool_iff, Z.
  - destruct H as (w & E & Z). discriminate.
Qed.

(** Minimum and maximum of a column. *)
Lemma fold_none_min (l : list (option Q)) : fold_left (fun m y => if lt_nan y m then y else m) l None = None.
Proof. induction l as [|x l IH]; [reflexivity|]. cbn [fold_left]. destruct x; cbn [lt_nan]; exact IH. Qed.
Lemma fold_none_max (l : list (option Q)) : fold_left (fun m y => if lt_nan m y then y else m) l None = None.
Proof. induction l as [|x l IH]; [reflexivity|]. cbn [fold_left]. destruct x; cbn [lt_nan]; exact IH. Qed.
Lemma fold_some_min (l : list (option Q)) q : exists m, fold_left (fun m y => if lt_nan y m then y else m) l (Some q) = Some m /\
  (m = q \/ In (Some m) l) /\ (m <= q)%Q /\ forall v, In (Some v) l -> (m <= v)%Q.
Proof.
  revert q. induction l as [|x l IH]; intro q.
  - exists q. split; [reflexivity|]. split; [left; reflexivity|]. split; [apply Qle_refl|]. intros v [].
  - cbn [fold_left]. destruct x as [u|]; cbn [lt_nan].
    + destruct (Qltb u q) eqn:E.
      * apply Qltb_lt in E. destruct (IH u) as (m & F & [ -> |I] & L & A).
        -- exists u. split; [exact F|]. split; [right; left; reflexivity|]. split; [lra|]. intros v [E'|I]; [injection E' as ->; lra|apply A, I].
        -- exists m. split; [exact F|]. split; [right; right; exact I|]. split; [lra|]. intros v [E'|I']; [injection E' as ->; lra|apply A, I'].
      * apply Qltb_ge in E. destruct (IH q) as (m & F & M & L & A).
        exists m. split; [exact F|]. split; [destruct M as [ -> |I]; [left; reflexivity|right; right; exact I]|].
        split; [exact L|]. intros v [E'|I]; [injection E' as ->; lra|apply A, I].
    + destruct (IH q) as (m & F & M & L & A).
      exists m. split; [exact F|]. split; [destruct M as [ -> |I]; [left; reflexivity|right; right; exact I]|].
      split; [exact L|]. intros v [E'|I]; [discriminate|apply A, I].
Qed.
Lemma fold_some_max (l : list (option Q)) q : exists m, fold_left (fun m y => if lt_nan m y then y else m) l (Some q) = Some m /\
  (m = q \/ In (Some m) l) /\ (q <= m)%Q /\ forall v, In (Some v) l -> (v <= m)%Q.
Proof.
  revert q. induction l as [|x l IH]; intro q.
  - exists q. split; [reflexivity|]. split; [left; reflexivity|]. split; [apply Qle_refl|]. intros v [].
  - cbn [fold_left]. destruct x as [u|]; cbn [lt_nan].
    + destruct (Qltb q u) eqn:E.
      * apply Qltb_lt in E. destruct (IH u) as (m & F & [ -> |I] & L & A).
        -- exists u. split; [exact F|]. split; [right; left; reflexivity|]. split; [lra|]. intros v [E'|I]; [injection E' as ->; lra|apply A, I].
        -- exists m. split; [exact F|]. split; [right; right; exact I|]. split; [lra|]. intros v [E'|I']; [injection E' as ->; lra|apply A, I'].
      * apply Qltb_ge in E. destruct (IH q) as (m & F & M & L & A).
        exists m. split; [exact F|]. split; [destruct M as [ -> |I]; [left; reflexivity|right; right; exact I]|].
        split; [exact L|]. intros v [E'|I]; [injection E' as ->; lra|apply A, I].
    + destruct (IH q) as (m & F & M & L & A).
      exists m. split; [exact F|]. split; [destruct M as [ -> |I]; [left; reflexivity|right; right; exact I]|].
      split; [exact L|]. intros v [E'|I]; [discriminate|apply A, I].
Qed.
Lemma py_min_known l q : py_min (Some q :: l) = Some None -> False.
Proof. cbn [py_min]. destruct (fold_some_min l q) as (m & -> & _). discriminate. Qed.

Lemma py_min_spec (l : list (option Q)) x : py_min l = Some x ->
  match x with
  | None => exists r, l = None :: r
  | Some m => In (Some m) l /\ (exists q r, l = Some q :: r) /\ forall v, In (Some v) l -> (m <= v)%Q
  end.
Proof.
  destruct l as [|[q|] l]; cbn [py_min]; [discriminate| |].
  - intro E. destruct (fold_some_min l q) as (m & F & M & L & A). rewrite F in E. injection E as <-.
    split; [destruct M as [ -> |I]; [left; reflexivity|right; exact I]|]. split; [exists q, l; reflexivity|].
    intros v [E|I]; [injection E as <-; exact L|apply A, I].
  - rewrite fold_none_min. intro E. injection E as <-. exists l. reflexivity.
Qed.
Lemma py_max_spec (l : list (option Q)) x : py_max l = Some x ->
  match x with
  | None => exists r, l = None :: r
  | Some m => In (Some m) l /\ (exists q r, l = Some q :: r) /\ forall v, In (Some v) l -> (v <= m)%Q
  end.
Proof.
  destruct l as [|[q|] l]; cbn [py_max]; [discriminate| |].
  - intro E. destruct (fold_some_max l q) as (m & F & M & L & A). rewrite F in E. injection E as <-.
    split; [destruct M as [ -> |I]; [left; reflexivity|right; exact I]|]. split; [exists q, l; reflexivity|].
    intros v [E|I]; [injection E as <-; exact L|apply A, I].
  - rewrite fold_none_max. intro E. injection E as <-. exists l. reflexivity.
Qed.
Lemma py_min_some (l : list (option Q)) : l <> [] -> exists x, py_min l = Some x.
Proof. destruct l; [contradiction|]. intros _. eexists. reflexivity. Qed.
Lemma py_max_some (l : list (option Q)) : l <> [] -> exists x, py_max l = Some x.
Proof. destruct l; [contradiction|]. intros _. eexists. reflexivity. Qed.

Lemma begins_known_iff f rows : begins_known f rows <-> exists q l, map f rows = Some q :: l.
Proof.
  split.
  - intros (r & rest & v & -> & E). exists v, (map f rest). cbn [map]. rewrite E. reflexivity.
  - intros (q & l & E). destruct rows as [|r rest]; [discriminate|]. injection E as E _. exists r, rest, q. auto.
Qed.
Lemma begins_none f rows l : map f rows = None :: l -> ~ begins_known f rows.
Proof. intros E K. apply begins_known_iff in K. destruct K as (q & m & F). rewrite E in F. discriminate. Qed.
Lemma value_in (f : health -> option Q) rows v : In (Some v) (map f rows) -> exists r, In r rows /\ f r = Some v.
Proof. intro I. apply in_map_iff in I. destruct I as (r & E & I). exists r. auto. Qed.

Lemma check_low_spec f rows lim margin x : (0 <= margin)%Q -> py_min (map f rows) = Some x ->
  forall near, (near == lim + margin)%Q ->
  graded f rows (fun v => v < lim)%Q (fun v => v < near)%Q (check_low lim margin x).
Proof.
  intros NN P near EN. pose proof (py_min_spec _ _ P) as PM. destruct x as [m|].
  - destruct PM as (I & K & A). destruct (value_in _ _ _ I) as (r & Ir & Er).
    right. split; [apply begins_known_iff; exact K|].
    assert (All : forall y, (y <= m)%Q -> ~ some_value f rows (fun v => v < y)%Q).
    { intros y L (r' & v & I' & E' & L'). specialize (A v). rewrite <- E' in A. specialize (A (in_map f _ _ I')). lra. }
    unfold check_low. cbn [lt_nan]. destruct (Qltb m lim) eqn:E1.
    + left. split; [reflexivity|]. apply Qltb_lt in E1. exists r, m. auto.
    + apply Qltb_ge in E1. right. destruct (Qltb m (lim + margin)) eqn:E2.
      * left. split; [reflexivity|]. apply Qltb_lt in E2. split; [apply All, E1|]. exists r, m. split; [exact Ir|]. split; [exact Er|]. lra.
      * right. split; [reflexivity|]. apply Qltb_ge in E2. split; [apply All, E1|apply All; lra].
  - left. destruct PM as (l & E). split; [exact (begins_none _ _ _ E)|reflexivity].
Qed.
Lemma check_high_spec f rows lim margin x : (0 <= margin)%Q -> py_max (map f rows) = Some x ->
  forall near, (near == lim - margin)%Q ->
  graded f rows (fun v => v > lim)%Q (fun v => v > near)%Q (check_high lim margin x).
Proof.
  intros NN P near EN. pose proof (py_max_spec _ _ P) as PM. destruct x as [m|].
  - destruct PM as (I & K & A). destruct (value_in _ _ _ I) as (r & Ir & Er).
    right. split; [apply begins_known_iff; exact K|].
    assert (All : forall y, (m <= y)%Q -> ~ some_value f rows (fun v => v > y)%Q).
    { intros y L (r' & v & I' & E' & L'). specialize (A v). rewrite <- E' in A. specialize (A (in_map f _ _ I')). lra. }
    unfold check_high. cbn [lt_nan]. destruct (Qltb lim m) eqn:E1.
    + left. split; [reflexivity|]. apply Qltb_lt in E1. exists r, m. auto.
    + apply Qltb_ge in E1. right. destruct (Qltb (lim - margin) m) eqn:E2.
      * left. split; [reflexivity|]. apply Qltb_lt in E2. split; [apply All, E1|]. exists r, m. split; [exact Ir|]. split; [exact Er|]. lra.
      * right. split; [reflexivity|]. apply Qltb_ge in E2. split; [apply All, E1|apply All; lra].
  - left. destruct PM as (l & E). split; [exact (begins_none _ _ _ E)|reflexivity].
Qed.

(** Counting. *)
Lemma number_of_filter {A} (P : A -> Prop) (f : A -> bool) l : (forall x, f x = true <-> P x) -> number_of P l (Z.of_nat (length (filter f l))).
Proof.
  intro H. induction l as [|x l IH]; [constructor|]. cbn [filter]. destruct (f x) eqn:E.
  - cbn [length]. rewrite Nat2Z.inj_succ. apply number_yes; [apply H, E|exact IH].
  - apply number_no; [rewrite <- H, E; discriminate|exact IH].
Qed.
Lemma number_of_fun {A} (P : A -> Prop) l n m : number_of P l n -> number_of P l m -> n = m.
Proof.
  intro H. revert m. induction H as [|x l n p H IH|x l n p H IH]; intros m K; inversion K; subst; try contradiction; try reflexivity.
  - f_equal. apply IH. assumption.
  - apply IH. assumption.
Qed.

Lemma diffs_pairs f (rows : list health) :
  diffs (map f rows) = map (fun p => minus (f (snd p)) (f (fst p))) (pairs rows).
Proof.
  induction rows as [|x [|y r] IH]; [reflexivity..|].
  change (diffs (map f (x :: y :: r))) with (minus (f y) (f x) :: diffs (map f (y :: r))). rewrite IH. reflexivity.
Qed.
Lemma filter_map_length {A B} (g : A -> B) (f : B -> bool) l : length (filter f (map g l)) = length (filter (fun x => f (g x)) l).
Proof. induction l as [|x l IH]; [reflexivity|]. cbn [map filter]. destruct (f (g x)); cbn [length]; rewrite IH; reflexivity. Qed.

Lemma inject_lt_frac (p q : Z) (k n : Z) : 0 < n -> 0 < q ->
  Qltb (p # Z.to_pos q) (inject_Z k / inject_Z n) = (p * n <? q * k).
Proof.
  intros N Pq.
  assert (E : (inject_Z k / inject_Z n == k # Z.to_pos n)%Q).
  { unfold Qeq, Qdiv, Qmult, Qinv, inject_Z. cbn [Qnum Qden]. destruct n as [|n|n]; try lia. cbn. lia. }
  destruct (p * n <? q * k) eqn:F.
  - apply Qltb_lt. rewrite E. unfold Qlt. cbn [Qnum Qden]. rewrite !Z2Pos.id by lia. apply Z.ltb_lt in F. lia.
  - apply Qltb_ge. rewrite E. unfold Qle. cbn [Qnum Qden]. rewrite !Z2Pos.id by lia. apply Z.ltb_ge in F. lia.
Qed.
Lemma share_lt (p q : Z) f l n : 0 < n -> 0 < q -> Qltb (p # Z.to_pos q) (share f l n) = (p * n <? q * Z.of_nat (length (filter f l))).
Proof. intros. unfold share. apply inject_lt_frac; assumption. Qed.

Lemma check_flat_spec f rows : (2 <= length rows)%nat -> flat f rows (check_flat (map f rows)).
Proof.
  intro L. exists (Z.of_nat (length (filter (fun p => is_zero (minus (f (snd p)) (f (fst p)))) (pairs rows)))). split.
  - apply number_of_filter. intro p. rewrite is_zero_true. unfold unchanged, minus. split.
    + intros (v & E & Z). destruct (f (snd p)) as [u|], (f (fst p)) as [w|]; try discriminate.
      injection E as <-. exists w, u. split; [reflexivity|]. split; [reflexivity|]. lra.
    + intros (u & v & -> & -> & E). eexists. split; [reflexivity|]. lra.
  - cbv zeta. unfold check_flat. rewrite map_length, diffs_pairs.
    change (99 # 100)%Q with (99 # Z.to_pos 100)%Q. change (95 # 100)%Q with (95 # Z.to_pos 100)%Q.
    rewrite !share_lt by lia. rewrite filter_map_length.
    set (n := Z.of_nat (length (filter _ _))). set (s := Z.of_nat (length rows) - 1).
    destruct (99 * s <? 100 * n) eqn:E1; [left; split; [reflexivity|apply Z.ltb_lt, E1]|]. apply Z.ltb_ge in E1. right.
    destruct (95 * s <? 100 * n) eqn:E2.
    + left. split; [reflexivity|]. apply Z.ltb_lt in E2. lia.
    + right. split; [reflexivity|]. apply Z.ltb_ge in E2. lia.
Qed.

Lemma volts_iff x : le_nan (Some A_min) x && le_nan x (Some A_max) = true <-> volts x.
Proof.
  rewrite andb_true_iff, !le_nan_true. split.
  - intros [(u & v & E & -> & L) (w & z & Ew & Ez & M)]. injection E as <-. injection Ew as <-. injection Ez as <-.
    exists v. split; [reflexivity|]. split; [exact L|exact M].
  - intros (v & -> & L & M). split; [exists A_min, v|exists v, A_max]; split; try reflexivity; split; try reflexivity; assumption.
Qed.
Lemma check_range_spec f rows : within f rows (check_range (map f rows)).
Proof.
  unfold check_range.
  assert (E : forallb (fun v => le_nan (Some A_min) v) (map f rows) && forallb (fun v => le_nan v (Some A_max)) (map f rows) =
              forallb (fun r => le_nan (Some A_min) (f r) && le_nan (f r) (Some A_max)) rows).
  { clear. induction rows as [|r rows IH]; [reflexivity|]. cbn [map forallb]. rewrite <- IH.
    destruct (le_nan (Some A_min) (f r)), (le_nan (f r) (Some A_max)), (forallb (fun v => le_nan (Some A_min) v) (map f rows)); reflexivity. }
  rewrite E. clear E. destruct (forallb _ rows) eqn:E.
  - left. split; [reflexivity|]. intros r I. rewrite forallb_forall in E. apply volts_iff, E, I.
  - right. split; [reflexivity|]. induction rows as [|r rows IH]; [discriminate|]. cbn [forallb] in E.
    destruct (le_nan (Some A_min) (f r) && le_nan (f r) (Some A_max)) eqn:F.
    + destruct (IH E) as (r' & I & N). exists r'. split; [right; exact I|exact N].
    + exists r. split; [left; reflexivity|]. rewrite <- volts_iff, F. discriminate.
Qed.

Lemma exists_value f rows (P : Q -> Prop) (g : option Q -> bool) : (forall x, g x = true <-> exists v, x = Some v /\ P v) ->
  existsb g (map f rows) = true <-> some_value f rows P.
Proof.
  intro H. rewrite existsb_exists. split.
  - intros (x & I & G). apply in_map_iff in I. destruct I as (r & <- & I). apply H in G. destruct G as (v & E & p). exists r, v. auto.
  - intros (r & v & I & E & p). exists (f r). split; [apply in_map, I|]. apply H. exists v. auto.
Qed.
Lemma above_iff lim x : lt_nan (Some lim) x = true <-> exists v, x = Some v /\ (v > lim)%Q.
Proof.
  rewrite lt_nan_true. split.
  - intros (u & v & E & -> & L). injection E as <-. exists v. auto.
  - intros (v & -> & L). exists lim, v. auto.
Qed.
Lemma upto_iff lim x : le_nan x (Some lim) = true <-> exists v, x = Some v /\ (v <= lim)%Q.
Proof.
  rewrite le_nan_true. split.
  - intros (u & v & -> & E & L). injection E as <-. exists u. auto.
  - intros (v & -> & L). exists v, lim. auto.
Qed.

(** The lengths of the times with the GPS on. *)
Lemma only_filter {A} (P : A -> Prop) (f : A -> bool) l : (forall x, f x = true <-> P x) -> only P l (filter f l).
Proof.
  intro H. induction l as [|x l IH]; [constructor|]. cbn [filter]. destruct (f x) eqn:E.
  - apply only_yes; [apply H, E|exact IH].
  - apply only_no; [rewrite <- H, E; discriminate|exact IH].
Qed.
Lemma only_fun {A} (P : A -> Prop) l m m' : only P l m -> only P l m' -> m = m'.
Proof.
  intro H. revert m'. induction H as [|x l m p H IH|x l m p H IH]; intros m' K; inversion K; subst; try contradiction; try reflexivity.
  - f_equal. apply IH. assumption.
  - apply IH. assumption.
Qed.
Lemma skipn_pairs {A} (l : list A) n p : In p (skipn n (pairs l)) <->
  exists before after, l = before ++ fst p :: snd p :: after /\ (n <= length before)%nat.
Proof.
  revert n. induction l as [|x l IH]; intro n.
  - cbn [pairs]. rewrite skipn_nil. split; [intros []|]. intros (before & after & E & _). destruct before; discriminate.
  - destruct l as [|y r].
    + cbn [pairs]. rewrite skipn_nil. split; [intros []|]. intros (before & after & E & _).
      destruct before as [|z [|z' before]]; discriminate.
    + change (pairs (x :: y :: r)) with ((x, y) :: pairs (y :: r)). destruct n as [|n].
      * cbn [skipn]. specialize (IH 0%nat). cbn [skipn] in IH. split.
        -- intros [<-|I].
           ++ exists [], r. split; [reflexivity|cbn; lia].
           ++ apply IH in I. destruct I as (before & after & E & L). exists (x :: before), after. split; [rewrite E; reflexivity|cbn; lia].
        -- intros (before & after & E & L). destruct before as [|z before].
           ++ left. injection E as -> -> _. destruct p; reflexivity.
           ++ right. apply IH. injection E as -> E. exists before, after. split; [exact E|lia].
      * cbn [skipn]. rewrite (IH n). split.
        -- intros (before & after & E & L). exists (x :: before), after. split; [rewrite E; reflexivity|cbn; lia].
        -- intros (before & after & E & L). destruct before as [|z before]; [cbn in L; lia|].
           injection E as -> E. exists before, after. split; [exact E|cbn in L; lia].
Qed.
Lemma check_gps_spec rows : check_gps rows = WARNING /\ long_gap rows \/ check_gps rows = OKAY /\ ~ long_gap rows.
Proof.
  unfold check_gps.
  assert (H : existsb (fun d => lt_nan (Some 180%Q) d) (gps_lengths rows) = true <-> long_gap rows).
  { unfold gps_lengths. set (offs := filter (fun r => is_zero (h_gps r)) rows).
    assert (O : only off rows offs) by (apply only_filter; intro r; apply is_zero_true).
    rewrite existsb_exists. rewrite diffs_pairs.
    split.
    - intros (d & I & G). apply filter_In in I. destruct I as [I _].
      rewrite skipn_map in I. apply in_map_iff in I. destruct I as (p & E & I). apply skipn_pairs in I.
      destruct I as (before & after & El & L). apply above_iff in G. destruct G as (v & Ed & G). subst d.
      unfold minus in Ed. destruct (h_t (snd p)) as [t'|] eqn:E1; [|discriminate]. destruct (h_t (fst p)) as [t|] eqn:E2; [|discriminate].
      injection Ed as <-. exists offs, before, (fst p), (snd p), after, t, t'. repeat (split; [assumption|]). exact G.
    - intros (l & before & r & r' & after & t & t' & Ol & El & L & E1 & E2 & G).
      rewrite (only_fun _ _ _ _ Ol O) in El. clear Ol. exists (Some (t' - t)%Q). split.
      + apply filter_In. split; [|apply above_iff; exists (t' - t)%Q; split; [reflexivity|lra]].
        rewrite skipn_map. apply in_map_iff. exists (r, r'). split; [cbn [fst snd]; rewrite E1, E2; reflexivity|].
        apply skipn_pairs. exists before, after. auto.
      + apply above_iff. exists (t' - t)%Q. auto. }
  destruct (existsb _ _) eqn:E.
  - left. split; [reflexivity|]. apply H. reflexivity.
  - right. split; [reflexivity|]. rewrite <- H. discriminate.
Qed.

(** All the results of a logger. *)
Definition all_checks : list check :=
  [BatteryMin; BatteryMax; TemperatureMin; TemperatureMax; A2Flat; A2Range; A3Flat; A3Range;
   UnusualFifo; ExcessiveFifo; MaxOverruns; UnusedStack; GpsRunTime].
Lemma all_checks_in c : In c all_checks.
Proof. destruct c; cbn; tauto. Qed.
Lemma results_checks rows l : results rows = Some l -> map fst l = all_checks.
Proof.
  unfold results. destruct (py_min (map h_batt rows)), (py_max (map h_batt rows)), (py_min (map h_temp rows)), (py_max (map h_temp rows)); try discriminate.
  intro E. injection E as <-. reflexivity.
Qed.
Lemma results_some rows : rows <> [] -> exists l, results rows = Some l.
Proof.
  intro N. assert (M : forall f : health -> option Q, map f rows <> []) by (intros f E; apply map_eq_nil in E; contradiction).
  unfold results. destruct (py_min_some _ (M h_batt)) as [x ->]. destruct (py_max_some _ (M h_batt)) as [y ->].
  destruct (py_min_some _ (M h_temp)) as [z ->]. destruct (py_max_some _ (M h_temp)) as [w ->]. eexists. reflexivity.
Qed.
Lemma results_deserved rows l c st : (2 <= length rows)%nat -> results rows = Some l -> In (c, st) l -> deserves rows c st.
Proof.
  intros L R I. unfold results in R.
  destruct (py_min (map h_batt rows)) as [b1|] eqn:B1; [|discriminate]. destruct (py_max (map h_batt rows)) as [b2|] eqn:B2; [|discriminate].
  destruct (py_min (map h_temp rows)) as [t1|] eqn:T1; [|discriminate]. destruct (py_max (map h_temp rows)) as [t2|] eqn:T2; [|discriminate].
  injection R as <-. cbn [In] in I.
  repeat destruct I as [I|I]; try (injection I as <- <-); [..|destruct I]; cbn [deserves].
  - refine (check_low_spec _ _ _ _ _ _ B1 _ _); vm_compute; [discriminate|reflexivity].
  - refine (check_high_spec _ _ _ _ _ _ B2 _ _); vm_compute; [discriminate|reflexivity].
  - refine (check_low_spec _ _ _ _ _ _ T1 _ _); vm_compute; [discriminate|reflexivity].
  - refine (check_high_spec _ _ _ _ _ _ T2 _ _); vm_compute; [discriminate|reflexivity].
  - apply check_flat_spec, L.
  - apply check_range_spec.
  - apply check_flat_spec, L.
  - apply check_range_spec.
  - exists (Z.of_nat (length (filter (fun r => lt_nan (Some fifo_soft_limit) (h_fifo r)) rows))). split.
    + apply number_of_filter. intro r. apply above_iff.
    + unfold check_fifo_soft. change (1 # 100)%Q with (1 # Z.to_pos 100)%Q.
      rewrite share_lt by (rewrite ?map_length; lia). rewrite map_length, filter_map_length.
      destruct (Z.ltb_spec (1 * Z.of_nat (length rows)) (100 * Z.of_nat (length (filter (fun r => lt_nan (Some fifo_soft_limit) (h_fifo r)) rows))));
        [left|right]; (split; [reflexivity|lia]).
  - unfold check_fifo_hard. pose proof (exists_value h_fifo rows _ _ (above_iff fifo_hard_limit)) as H.
    destruct (existsb _ _); [left|right]; (split; [reflexivity|]); [apply H; reflexivity|].
    intro S. apply H in S. discriminate.
  - unfold check_overruns. destruct (existsb _ _) eqn:E; [left|right]; (split; [reflexivity|]).
    + apply existsb_exists in E. destruct E as (x & Ix & N). apply in_map_iff in Ix. destruct Ix as (r & <- & Ir).
      exists r. split; [exact Ir|]. intros v Ev Z. apply negb_true_iff in N.
      assert (T : is_zero (h_over r) = true) by (apply is_zero_true; exists v; auto). congruence.
    + intros r Ir. apply is_zero_true. destruct (is_zero (h_over r)) eqn:Z; [reflexivity|].
      assert (T : existsb (fun v => negb (is_zero v)) (map h_over rows) = true); [|congruence].
      apply existsb_exists. exists (h_over r). split; [apply in_map, Ir|]. rewrite Z. reflexivity.
  - unfold check_stack. pose proof (exists_value h_stack1 rows _ _ (upto_iff 30)) as H1. pose proof (exists_value h_idle rows _ _ (upto_iff 30)) as H2.
    destruct (existsb _ (map h_stack1 rows)); cbn [orb].
    + left. split; [reflexivity|]. left. apply H1. reflexivity.
    + destruct (existsb _ _); [left|right]; (split; [reflexivity|]).
      * right. apply H2. reflexivity.
      * split; [intro S; apply H1 in S; discriminate|intro S; apply H2 in S; discriminate].
  - apply check_gps_spec.
Qed.

(** At most one result is deserved. *)
Lemma graded_fun f rows P P' st st' : graded f rows P P' st -> graded f rows P P' st' -> st = st'.
Proof.
  unfold graded. intros [[N ->]|[K H]] [[N' ->]|[K' H']]; try contradiction; [reflexivity|].
  destruct H as [[-> H]|[(-> & H & H1)|(-> & H & H1)]], H' as [[-> H']|[(-> & H' & H1')|(-> & H' & H1')]]; try contradiction; reflexivity.
Qed.
Lemma flat_fun f rows st st' : flat f rows st -> flat f rows st' -> st = st'.
Proof.
  intros (n & N & H) (n' & N' & H'). rewrite <- (number_of_fun _ _ _ _ N N') in H'. cbv zeta in H, H'.
  destruct H as [[-> H]|[[-> H]|[-> H]]], H' as [[-> H']|[[-> H']|[-> H']]]; try reflexivity; lia.
Qed.
Lemma within_fun f rows st st' : within f rows st -> within f rows st' -> st = st'.
Proof.
  intros [[-> H]|[-> (r & I & N)]] [[-> H']|[-> (r' & I' & N')]]; try reflexivity; exfalso; [apply N', H, I'|apply N, H', I].
Qed.
Lemma deserves_fun rows c st st' : deserves rows c st -> deserves rows c st' -> st = st'.
Proof.
  destruct c; cbn [deserves]; try apply graded_fun; try apply flat_fun; try apply within_fun.
  - intros (n & N & H) (n' & N' & H'). rewrite <- (number_of_fun _ _ _ _ N N') in H'.
    destruct H as [[-> H]|[-> H]], H' as [[-> H']|[-> H']]; try reflexivity; lia.
  - intros [[-> H]|[-> H]] [[-> H']|[-> H']]; try reflexivity; contradiction.
  - intros [[-> (r & I & N)]|[-> H]] [[-> (r' & I' & N')]|[-> H']]; try reflexivity; exfalso.
    + destruct (H' r I) as (v & E & Z). exact (N v E Z).
    + destruct (H r' I') as (v & E & Z). exact (N' v E Z).
  - intros [[-> H]|[-> H]] [[-> H']|[-> H']]; try reflexivity; exfalso; tauto.
  - intros [[-> H]|[-> H]] [[-> H']|[-> H']]; try reflexivity; contradiction.
Qed.

(** The state that is built. *)
Definition of_status (st : status) (sn : bytes) (l : list (check * status)) : list message :=
  map (fun cs => message_of sn (fst cs)) (filter (fun cs => severity (snd cs) =? severity st) l).
Lemma put_all sn l s : fold_left (put sn) l s =
  mkstate (table s ++ map (fun cs => (sn, fst cs, snd cs)) l) (errors s ++ of_status ERROR sn l)
    (warnings s ++ of_status WARNING sn l) (notes s ++ of_status NOTE sn l).
Proof.
  revert s. induction l as [|[c st] l IH]; intros [t e w n].
  - cbn. rewrite !app_nil_r. reflexivity.
  - cbn [fold_left]. rewrite IH. clear IH. unfold of_status. destruct st; cbn -[message_of]; rewrite <- !app_assoc; reflexivity.
Qed.

Lemma individual_spec read ok sns s s' m : individual read ok sns s = Some (s', m) ->
  map fst m = sns /\ (forall sn rows, In (sn, rows) m -> read sn = Some rows /\ dated rows = true /\ results rows <> None) /\
  exists R, map fst R = sns /\ (forall sn l, In (sn, l) R -> exists rows, In (sn, rows) m /\ results rows = Some l) /\
  table s' = table s ++ flat_map (fun x => map (fun cs => (fst x, fst cs, snd cs)) (snd x)) R /\
  errors s' = errors s ++ flat_map (fun x => of_status ERROR (fst x) (snd x)) R /\
  warnings s' = warnings s ++ flat_map (fun x => of_status WARNING (fst x) (snd x)) R /\
  notes s' = notes s ++ flat_map (fun x => of_status NOTE (fst x) (snd x)) R.
Proof.
  revert s s' m. induction sns as [|sn sns IH]; intros s s' m E; cbn [individual] in E.
  - injection E as <- <-. split; [reflexivity|]. split; [intros ? ? []|]. exists []. split; [reflexivity|]. split; [intros ? ? []|].
    cbn. rewrite !app_nil_r. auto.
  - destruct (read sn) as [rows|] eqn:Er; [|discriminate]. destruct (dated rows && is_int sn && ok sn) eqn:Ed; [|discriminate].
    destruct (results rows) as [l|] eqn:El; [|discriminate]. destruct (individual read ok sns _) as [[s1 m1]|] eqn:E1; [|discriminate].
    injection E as <- <-. apply andb_true_iff in Ed. destruct Ed as [Ed _]. apply andb_true_iff in Ed. destruct Ed as [Ed _].
    destruct (IH _ _ _ E1) as (F & A & R & FR & AR & T & Er' & W & N). clear IH.
    rewrite put_all in T, Er', W, N. cbn [table errors warnings notes] in T, Er', W, N.
    split; [cbn; rewrite F; reflexivity|]. split.
    { intros sn' rows' [E'|I]; [|apply A, I]. injection E' as <- <-. split; [exact Er|]. split; [exact Ed|]. rewrite El. discriminate. }
    exists ((sn, l) :: R). split; [cbn; rewrite FR; reflexivity|]. split.
    { intros sn' l' [E'|I]; [injection E' as <- <-; exists rows; split; [left; reflexivity|exact El]|].
      destruct (AR _ _ I) as (rows' & I' & H). exists rows'. split; [right; exact I'|exact H]. }
    cbn [flat_map fst snd]. rewrite T, Er', W, N, !app_assoc. auto.
Qed.
Lemma dated_two rows : dated rows = true -> (2 <= length rows)%nat.
Proof.
  unfold dated. destruct (Z.of_nat (length rows) <? 86400) eqn:E.
  - destruct rows as [|r [|r' rows]]; try discriminate. intros _. cbn. lia.
  - intros _. apply Z.ltb_ge in E. lia.
Qed.
