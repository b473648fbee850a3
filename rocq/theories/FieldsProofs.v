From Coq Require Import ZArith List Bool Lia.
From Verif Require Import Base Calendar CalendarSpec CalendarProofs Fields.
Import ListNotations.
Open Scope Z_scope.
Ltac Zify.zify_post_hook ::= Z.div_mod_to_equations.

Lemma year_and_day_spec o y l n : year_and_day o = (y, l, n) ->
  o = days_before_year y + n + 1 /\ l = is_leap y /\ 0 <= n <= (if is_leap y then 365 else 364).
Proof.
  unfold year_and_day. set (n0 := o - 1). assert (Eo : o = n0 + 1) by (unfold n0; lia).
  pose proof (Z.div_mod n0 146097 ltac:(lia)) as D1. pose proof (Z.mod_pos_bound n0 146097 ltac:(lia)) as B1.
  set (a := n0 / 146097) in *. set (r1 := n0 mod 146097) in *.
  pose proof (Z.div_mod r1 36524 ltac:(lia)) as D2. pose proof (Z.mod_pos_bound r1 36524 ltac:(lia)) as B2.
  set (c := r1 / 36524) in *. set (r2 := r1 mod 36524) in *.
  pose proof (Z.div_mod r2 1461 ltac:(lia)) as D3. pose proof (Z.mod_pos_bound r2 1461 ltac:(lia)) as B3.
  set (q := r2 / 1461) in *. set (r3 := r2 mod 1461) in *.
  pose proof (Z.div_mod r3 365 ltac:(lia)) as D4. pose proof (Z.mod_pos_bound r3 365 ltac:(lia)) as B4.
  set (u := r3 / 365) in *. set (r4 := r3 mod 365) in *.
  clearbody n0 a c q u r1 r2 r3 r4. subst r1 r2 r3.
  assert (0 <= c <= 4) by lia. assert (0 <= q <= 24) by lia. assert (0 <= u <= 4) by lia.
  assert (DB : forall k, days_before_year (k + 1) = k * 365 + k / 4 - k / 100 + k / 400).
  { intros k. unfold days_before_year. replace (k + 1 - 1) with k by lia. reflexivity. }
  assert (LP : forall k, is_leap (k + 1) = ((k + 1) mod 4 =? 0) && (negb ((k + 1) mod 100 =? 0) || ((k + 1) mod 400 =? 0))) by reflexivity.
  destruct (u =? 4) eqn:U; [|destruct (c =? 4) eqn:C]; cbn [orb].
  - apply Z.eqb_eq in U. intros [= <- <- <-].
    replace (a * 400 + 1 + c * 100 + q * 4 + u - 1) with (a * 400 + c * 100 + q * 4 + 3 + 1) by lia.
    set (k := a * 400 + c * 100 + q * 4 + 3). rewrite DB, LP.
    assert (c <= 3) by lia.
    assert (NX : q <= 23 \/ c = 3) by lia.
    assert (k / 4 = a * 100 + c * 25 + q) by lia. assert (k / 100 = a * 4 + c) by lia. assert (k / 400 = a) by lia.
    assert ((k + 1) mod 4 = 0) by lia.
    assert (L : (negb ((k + 1) mod 100 =? 0) || ((k + 1) mod 400 =? 0)) = true).
    { destruct NX as [NX|NX].
      - replace ((k + 1) mod 100 =? 0) with false; [reflexivity|]. symmetry. apply Z.eqb_neq. lia.
      - destruct (Z.eq_dec q 24).
        + replace ((k + 1) mod 400 =? 0) with true; [apply orb_true_r|]. symmetry. apply Z.eqb_eq. lia.
        + replace ((k + 1) mod 100 =? 0) with false; [reflexivity|]. symmetry. apply Z.eqb_neq. lia. }
    rewrite L. replace ((k + 1) mod 4 =? 0) with true by (symmetry; apply Z.eqb_eq; assumption). cbn [andb].
    split; [|split; [reflexivity|lia]]. lia.
  - apply Z.eqb_eq in C. intros [= <- <- <-].
    assert (q = 0 /\ u = 0) by lia.
    replace (a * 400 + 1 + c * 100 + q * 4 + u - 1) with (a * 400 + 399 + 1) by lia.
    set (k := a * 400 + 399). rewrite DB, LP.
    assert (k / 4 = a * 100 + 99) by lia. assert (k / 100 = a * 4 + 3) by lia. assert (k / 400 = a) by lia.
    replace ((k + 1) mod 4 =? 0) with true by (symmetry; apply Z.eqb_eq; lia).
    replace ((k + 1) mod 400 =? 0) with true by (symmetry; apply Z.eqb_eq; lia).
    rewrite orb_true_r. cbn [andb]. split; [|split; [reflexivity|lia]]. lia.
  - apply Z.eqb_neq in U, C. intros [= <- <- <-].
    replace (a * 400 + 1 + c * 100 + q * 4 + u) with (a * 400 + c * 100 + q * 4 + u + 1) by lia.
    set (k := a * 400 + c * 100 + q * 4 + u). rewrite DB.
    assert (k / 4 = a * 100 + c * 25 + q) by lia. assert (k / 100 = a * 4 + c) by lia. assert (k / 400 = a) by lia.
    assert (L : is_leap (k + 1) = (u =? 3) && (negb (q =? 24) || (c =? 3))).
    { rewrite LP. destruct (Z.eqb_spec u 3).
      - replace ((k + 1) mod 4 =? 0) with true by (symmetry; apply Z.eqb_eq; lia). cbn [andb].
        destruct (Z.eqb_spec q 24); cbn [negb orb].
        + replace ((k + 1) mod 100 =? 0) with true by (symmetry; apply Z.eqb_eq; lia). cbn [negb orb].
          destruct (Z.eqb_spec c 3); [apply Z.eqb_eq|apply Z.eqb_neq]; lia.
        + replace ((k + 1) mod 100 =? 0) with false by (symmetry; apply Z.eqb_neq; lia). reflexivity.
      - replace ((k + 1) mod 4 =? 0) with false by (symmetry; apply Z.eqb_neq; lia). reflexivity. }
    rewrite L. split; [|split; [reflexivity|]].
    + lia.
    + destruct (_ && _); lia.
Qed.

(** The months: checked day by day. *)
Definition day_ok (l : bool) (n : Z) : bool :=
  let y := if l then 4 else 1 in
  let '(m, d) := month_and_day l n in
  in_range 1 m 12 && in_range 1 d (days_in_month y m) && (days_before_month y m + d =? n + 1).

Lemma days_ok : forallb (day_ok true) (map Z.of_nat (seq 0 366)) && forallb (day_ok false) (map Z.of_nat (seq 0 365)) = true.
Proof. vm_compute. reflexivity. Qed.

Lemma month_leap_only y y' m : is_leap y = is_leap y' -> days_in_month y m = days_in_month y' m /\ days_before_month y m = days_before_month y' m.
Proof. intros E. unfold days_in_month, days_before_month. rewrite E. auto. Qed.

Lemma month_and_day_spec y n m d : 0 <= n <= (if is_leap y then 365 else 364) -> month_and_day (is_leap y) n = (m, d) ->
  1 <= m <= 12 /\ 1 <= d <= days_in_month y m /\ days_before_month y m + d = n + 1.
Proof.
  intros B E. pose proof days_ok as K. apply andb_prop in K as [K1 K2]. rewrite forallb_forall in K1, K2.
  assert (D : day_ok (is_leap y) n = true).
  { destruct (is_leap y); [apply K1|apply K2]; apply in_map_iff; exists (Z.to_nat n); (split; [lia|apply in_seq; lia]). }
  unfold day_ok in D. rewrite E in D.
  destruct (month_leap_only y (if is_leap y then 4 else 1) m) as [-> ->]; [destruct (is_leap y); reflexivity|].
  unfold in_range in D. rewrite !andb_true_iff, !Z.leb_le, Z.eqb_eq in D. lia.
Qed.

Lemma fields_spec t tm j : fields t = (tm, j) -> 1 <= year tm <= 9999 ->
  stamp tm = Some t /\ j = days_before_month (year tm) (month tm) + day tm.
Proof.
  unfold fields. destruct (year_and_day (t / 86400 + 719163)) as [[y l] n] eqn:Y.
  apply year_and_day_spec in Y as (Eo & -> & B). destruct (month_and_day (is_leap y) n) as [m d] eqn:M.
  apply month_and_day_spec in M as (Bm & Bd & E); [|assumption]. intros [= <- <-]. cbn [year month day]. intros By.
  split; [|lia]. unfold stamp, utc_timestamp. cbn [year month day hour minute second].
  assert (D : is_date y m d (t mod 86400 / 3600) (t mod 86400 mod 3600 / 60) (t mod 86400 mod 60) = true).
  { unfold is_date, in_range. rewrite !andb_true_iff, !Z.leb_le. lia. }
  rewrite D. f_equal. unfold ordinal. lia.
Qed.
