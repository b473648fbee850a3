(** C48: the calendar fields of a time are those of the calendar. *)
From Coq Require Import ZArith QArith List Bool Lia Lqa.
From Verif Require Import Base Calendar CalendarSpec CalendarProofs CalendarProps Fields FieldsProofs.
Import ListNotations.
Open Scope Z_scope.

Lemma days_before_year_mono y y' : y <= y' -> days_before_year y <= days_before_year y'.
Proof. intros L. replace y' with (y + (y' - y)) by lia. apply year_mono. lia. Qed.

Lemma year_in_range o y l n : year_and_day o = (y, l, n) -> 1 <= o <= 3652059 -> 1 <= y <= 9999.
Proof.
  intros E B. apply year_and_day_spec in E as (Eo & _ & Bn). split.
  - destruct (Z_le_gt_dec 1 y); [assumption|exfalso]. pose proof (days_before_year_mono (y + 1) 1 ltac:(lia)) as M.
    rewrite year_step in M. change (days_before_year 1) with 0 in M. destruct (is_leap y); lia.
  - destruct (Z_le_gt_dec y 9999); [assumption|exfalso]. pose proof (days_before_year_mono 10000 y ltac:(lia)) as M.
    change (days_before_year 10000) with 3652059 in M. lia.
Qed.

(** Every second of the years 1 to 9999 has the fields of a date-time that exists, and that date-time is
    this second; the day of the year counts whole days since the first of January, from 1. *)
Theorem C48_fields_of_time t tm j :
  -62135596800 <= t <= 253402300799 -> fields t = (tm, j) ->
  exists_in_calendar tm /\ utc_timestamp (year tm) (month tm) (day tm) (hour tm) (minute tm) (second tm) = Some t /\
  exists t0, utc_timestamp (year tm) 1 1 0 0 0 = Some t0 /\ t0 + (j - 1) * 86400 <= t < t0 + j * 86400.
Proof.
  intros B E. assert (By : 1 <= year tm <= 9999).
  { unfold fields in E. destruct (year_and_day (t / 86400 + 719163)) as [[y l] n] eqn:Y. destruct (month_and_day l n) as [m d].
    injection E as <- _. cbn [year]. eapply year_in_range; [exact Y|].
    split; [assert (-719162 <= t / 86400) by (apply Z.div_le_lower_bound; lia); lia|].
    assert (t / 86400 < 2932897) by (apply Z.div_lt_upper_bound; lia). lia. }
  destruct (fields_spec _ _ _ E By) as [S Ej]. unfold stamp in S. assert (X : exists_in_calendar tm) by (apply stamp_defined; exists t; exact S).
  split; [exact X|]. split; [exact S|].
  assert (D1 : is_date (year tm) 1 1 0 0 0 = true).
  { unfold is_date, in_range. change (days_in_month (year tm) 1) with 31. rewrite !andb_true_iff, !Z.leb_le. lia. }
  unfold utc_timestamp at 1. rewrite D1. eexists. split; [reflexivity|].
  apply stamp_inv in S. unfold ordinal in *. rewrite month_1.
  destruct X as (_ & _ & H1 & H2 & H3). lia.
Qed.

(** And conversely: the fields of the time of a date-time are that date-time. *)
Theorem C48_time_of_fields tm t :
  utc_timestamp (year tm) (month tm) (day tm) (hour tm) (minute tm) (second tm) = Some t -> fst (fields t) = tm.
Proof.
  intros S. destruct (fields t) as [tm' j] eqn:E. cbn [fst].
  assert (X : exists_in_calendar tm) by (apply stamp_defined; exists t; exact S).
  assert (B : -62135596800 <= t <= 253402300799).
  { pose proof (stamp_inv tm t S) as I. pose proof X as (Y & (n & M & D) & H1 & H2 & H3).
    apply month_length_spec in M as [Mm ->]. pose proof (in_year (year tm) (month tm) (day tm) Mm D) as K.
    pose proof (days_before_year_mono 1 (year tm) ltac:(lia)) as M1. pose proof (days_before_year_mono (year tm + 1) 10000 ltac:(lia)) as M2.
    rewrite ?year_step in *. change (days_before_year 1) with 0 in M1. change (days_before_year 10000) with 3652059 in M2.
    unfold ordinal in *. lia. }
  destruct (C48_fields_of_time t tm' j B E) as (_ & S' & _). eapply stamp_inj; [exact S'|exact S].
Qed.

Example C48_case : fields 1709210096 = (mkdt 2024 2 29 12 34 56, 60) /\ fields (-1) = (mkdt 1969 12 31 23 59 59, 365) /\
  fields 951782400 = (mkdt 2000 2 29 0 0 0, 60) /\ fields 4107542400 = (mkdt 2100 3 1 0 0 0, 60).
Proof. repeat split. Qed.

Print Assumptions C48_fields_of_time.
Print Assumptions C48_time_of_fields.
