From Coq Require Import ZArith List Bool Lia.
From Coq Require Import ZifyBool.
From Verif Require Import Calendar CalendarSpec.
Import ListNotations.
Open Scope Z_scope.
Ltac Zify.zify_post_hook ::= Z.div_mod_to_equations.

Lemma is_leap_spec y : is_leap y = true <-> leap_year y.
Proof.
  unfold is_leap, leap_year.
  rewrite andb_true_iff, orb_true_iff, negb_true_iff, Z.eqb_eq, Z.eqb_neq, Z.eqb_eq.
  rewrite !Z.mod_divide by lia. tauto.
Qed.

Lemma month_length_spec y m n : month_length y m n <-> 1 <= m <= 12 /\ n = days_in_month y m.
Proof.
  split.
  - intros H. destruct H as [y m H|y m H|y H|y H].
    + simpl in H. repeat destruct H as [<-|H]; try (split; [lia|reflexivity]). destruct H.
    + simpl in H. repeat destruct H as [<-|H]; try (split; [lia|reflexivity]). destruct H.
    + split; [lia|]. unfold days_in_month. simpl. apply is_leap_spec in H. now rewrite H.
    + split; [lia|]. unfold days_in_month. simpl. destruct (is_leap y) eqn:E; [|reflexivity].
      apply is_leap_spec in E. contradiction.
  - intros [H ->].
    assert (m = 1 \/ m = 2 \/ m = 3 \/ m = 4 \/ m = 5 \/ m = 6 \/ m = 7 \/ m = 8 \/ m = 9 \/ m = 10 \/ m = 11 \/ m = 12)
      as C by lia.
    repeat destruct C as [->|C]; try (apply ml_31; simpl; tauto); try (apply ml_30; simpl; tauto).
    + unfold days_in_month. simpl. destruct (is_leap y) eqn:E.
      * apply ml_feb_leap. now apply is_leap_spec.
      * apply ml_feb. intros L. apply is_leap_spec in L. congruence.
    + subst. apply ml_31; simpl; tauto.
Qed.

Lemma is_date_spec t : is_date (year t) (month t) (day t) (hour t) (minute t) (second t) = true <-> exists_in_calendar t.
Proof.
  unfold is_date, exists_in_calendar, in_range. rewrite !andb_true_iff, !Z.leb_le. split.
  - intros H. split; [lia|]. split; [|lia]. exists (days_in_month (year t) (month t)).
    split; [|lia]. apply month_length_spec. lia.
  - intros (H1 & (n & H2 & H3) & H4). apply month_length_spec in H2 as [H2 ->]. lia.
Qed.

Lemma month_step y m : 1 <= m < 12 -> days_before_month y (m + 1) = days_before_month y m + days_in_month y m.
Proof.
  intros H. unfold days_before_month, days_in_month.
  assert (m = 1 \/ m = 2 \/ m = 3 \/ m = 4 \/ m = 5 \/ m = 6 \/ m = 7 \/ m = 8 \/ m = 9 \/ m = 10 \/ m = 11)
    as C by lia.
  repeat destruct C as [->|C]; try subst m; destruct (is_leap y); reflexivity.
Qed.

Lemma month_12 y : days_before_month y 12 + 31 = if is_leap y then 366 else 365.
Proof. unfold days_before_month. destruct (is_leap y); reflexivity. Qed.

Lemma month_1 y : days_before_month y 1 = 0.
Proof. reflexivity. Qed.

Lemma year_step y : days_before_year (y + 1) = days_before_year y + if is_leap y then 366 else 365.
Proof.
  unfold days_before_year, is_leap. cbv zeta.
  destruct (y mod 4 =? 0) eqn:A, (y mod 100 =? 0) eqn:B, (y mod 400 =? 0) eqn:C; simpl; lia.
Qed.

Lemma month_mono y m : 1 <= m -> forall k, 0 <= k -> m + k <= 12 ->
  days_before_month y m <= days_before_month y (m + k).
Proof.
  intros Hm. apply (natlike_ind (fun k => m + k <= 12 -> days_before_month y m <= days_before_month y (m + k))).
  - intros _. replace (m + 0) with m by lia. lia.
  - intros k Hk IH H. replace (m + Z.succ k) with (m + k + 1) by lia. rewrite month_step by lia.
    assert (days_before_month y m <= days_before_month y (m + k)) by (apply IH; lia).
    assert (0 <= days_in_month y (m + k)); [|lia].
    unfold days_in_month. destruct (m + k =? 2); [destruct (is_leap y); lia|].
    destruct (Z.to_nat (m + k)) as [|[|[|[|[|[|[|[|[|[|[|[|[|[|n]]]]]]]]]]]]]]; simpl; lia.
Qed.

Lemma year_mono y : forall k, 0 <= k -> days_before_year y <= days_before_year (y + k).
Proof.
  apply (natlike_ind (fun k => days_before_year y <= days_before_year (y + k))).
  - replace (y + 0) with y by lia. lia.
  - intros k Hk IH. replace (y + Z.succ k) with (y + k + 1) by lia. rewrite year_step. destruct (is_leap (y + k)); lia.
Qed.

Lemma in_year y m d : 1 <= m <= 12 -> 1 <= d <= days_in_month y m ->
  days_before_year y + 1 <= ordinal y m d <= days_before_year (y + 1).
Proof.
  intros Hm Hd. unfold ordinal. rewrite year_step.
  pose proof (month_mono y 1 ltac:(lia) (m - 1) ltac:(lia) ltac:(lia)) as L.
  replace (1 + (m - 1)) with m in L by lia. rewrite month_1 in L.
  assert (U : days_before_month y m + days_in_month y m <= if is_leap y then 366 else 365).
  { destruct (Z.eq_dec m 12) as [->|N].
    - rewrite <- month_12. apply Z.add_le_mono_l. cbv; discriminate.
    - rewrite <- month_step by lia. pose proof (month_mono y (m + 1) ltac:(lia) (11 - m) ltac:(lia) ltac:(lia)) as M.
      replace (m + 1 + (11 - m)) with 12 in M by lia. rewrite <- month_12. lia. }
  destruct (is_leap y); lia.
Qed.

Lemma ordinal_lt_year y m d y' m' d' : y < y' -> 1 <= m <= 12 -> 1 <= d <= days_in_month y m ->
  1 <= m' <= 12 -> 1 <= d' <= days_in_month y' m' -> ordinal y m d < ordinal y' m' d'.
Proof.
  intros H Hm Hd Hm' Hd'. pose proof (in_year y m d Hm Hd). pose proof (in_year y' m' d' Hm' Hd').
  pose proof (year_mono (y + 1) (y' - (y + 1)) ltac:(lia)) as M. replace (y + 1 + (y' - (y + 1))) with y' in M by lia. lia.
Qed.

Lemma ordinal_lt_month y m d m' d' : m < m' -> 1 <= m <= 12 -> 1 <= d <= days_in_month y m ->
  1 <= m' <= 12 -> 1 <= d' -> ordinal y m d < ordinal y m' d'.
Proof.
  intros H Hm Hd Hm' Hd'. unfold ordinal.
  pose proof (month_mono y (m + 1) ltac:(lia) (m' - (m + 1)) ltac:(lia) ltac:(lia)) as M.
  replace (m + 1 + (m' - (m + 1))) with m' in M by lia. rewrite month_step in M by lia. lia.
Qed.

Definition stamp (t : datetime) : option Z := utc_timestamp (year t) (month t) (day t) (hour t) (minute t) (second t).

Lemma stamp_defined t : (exists n, stamp t = Some n) <-> exists_in_calendar t.
Proof.
  unfold stamp, utc_timestamp. rewrite <- is_date_spec.
  destruct (is_date _ _ _ _ _ _); split; intros; eauto; try discriminate. destruct H; discriminate.
Qed.

Lemma stamp_inv t n : stamp t = Some n ->
  1 <= month t <= 12 /\ 1 <= day t <= days_in_month (year t) (month t) /\
  0 <= hour t <= 23 /\ 0 <= minute t <= 59 /\ 0 <= second t <= 59 /\
  n = (ordinal (year t) (month t) (day t) - 719163) * 86400 + hour t * 3600 + minute t * 60 + second t.
Proof.
  unfold stamp, utc_timestamp. destruct (is_date _ _ _ _ _ _) eqn:E; [|discriminate].
  intros [= <-]. unfold is_date, in_range in E. rewrite !andb_true_iff, !Z.leb_le in E. intuition lia.
Qed.

Lemma stamp_lt t u n k : stamp t = Some n -> stamp u = Some k -> earlier t u -> n < k.
Proof.
  intros Ht Hu E. apply stamp_inv in Ht as (M & D & H & MI & S & ->). apply stamp_inv in Hu as (M' & D' & H' & MI' & S' & ->).
  destruct E as [E|[Ey E]].
  { pose proof (ordinal_lt_year _ _ _ _ _ _ E M D M' D'). lia. }
  rewrite <- Ey in *. destruct E as [E|[Em E]].
  { pose proof (ordinal_lt_month (year t) _ _ _ (day u) E M D M' ltac:(lia)). lia. }
  rewrite <- Em in *. unfold ordinal. destruct E as [E|[Ed E]]; [lia|]. rewrite <- Ed.
  destruct E as [E|[Eh E]]; [lia|]. destruct E as [E|[Emi E]]; lia.
Qed.

Lemma earlier_total t u : t = u \/ earlier t u \/ earlier u t.
Proof.
  destruct t as [y m d h mi s], u as [y' m' d' h' mi' s']. unfold earlier; simpl.
  destruct (Z.lt_trichotomy y y') as [?|[->|?]]; try tauto; try lia.
  destruct (Z.lt_trichotomy m m') as [?|[->|?]]; try tauto; try lia.
  destruct (Z.lt_trichotomy d d') as [?|[->|?]]; try tauto; try lia.
  destruct (Z.lt_trichotomy h h') as [?|[->|?]]; try tauto; try lia.
  destruct (Z.lt_trichotomy mi mi') as [?|[->|?]]; try tauto; try lia.
  destruct (Z.lt_trichotomy s s') as [?|[->|?]]; try tauto; try lia.
Qed.

Lemma stamp_iff t u n k : stamp t = Some n -> stamp u = Some k -> (earlier t u <-> n < k).
Proof.
  intros Ht Hu. split; [now apply stamp_lt|]. intros L.
  destruct (earlier_total t u) as [->|[E|E]]; [congruence || (rewrite Ht in Hu; injection Hu as ->; lia)|exact E|].
  pose proof (stamp_lt u t k n Hu Ht E). lia.
Qed.

Lemma stamp_inj t u n : stamp t = Some n -> stamp u = Some n -> t = u.
Proof.
  intros Ht Hu. destruct (earlier_total t u) as [E|[E|E]]; [exact E| |].
  - pose proof (stamp_lt t u n n Ht Hu E). lia.
  - pose proof (stamp_lt u t n n Hu Ht E). lia.
Qed.

Lemma next_day_ordinal y m d y' m' d' : next_day (y, m, d) (y', m', d') -> ordinal y' m' d' = ordinal y m d + 1.
Proof.
  intros H. inversion H; subst; unfold ordinal.
  - lia.
  - match goal with X : month_length _ _ _ |- _ => apply month_length_spec in X as [X ->] end.
    rewrite month_step by lia. lia.
  - rewrite year_step, month_1. pose proof (month_12 y). destruct (is_leap y); lia.
Qed.

Lemma stamp_next t u n : stamp t = Some n -> next_second t u -> exists_in_calendar u -> stamp u = Some (n + 1).
Proof.
  intros Ht Hn Hu. apply stamp_defined in Hu as [k Hk]. rewrite Hk. f_equal.
  apply stamp_inv in Ht as (_ & _ & _ & _ & _ & ->). apply stamp_inv in Hk as (_ & _ & _ & _ & _ & ->).
  inversion Hn; subst; simpl; try lia.
  match goal with X : next_day _ _ |- _ => apply next_day_ordinal in X; rewrite X end. lia.
Qed.
