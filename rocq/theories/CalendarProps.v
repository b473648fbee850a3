(** Property C12: GPS date fields map to one epoch time, monotonically. *)
From Coq Require Import ZArith List Bool Lia.
From Verif Require Import Calendar CalendarSpec CalendarProofs.
Import ListNotations.
Open Scope Z_scope.

(** Exactly the date-times of the calendar get a time. *)
Theorem C12_defined y m d h mi s :
  (exists n, utc_timestamp y m d h mi s = Some n) <-> exists_in_calendar (mkdt y m d h mi s).
Proof. exact (stamp_defined (mkdt y m d h mi s)). Qed.

(** 1970-01-01T00:00:00 is zero, and every following second is one more: together with the calendar
    ([next_second]) this determines the function. *)
Theorem C12_epoch : utc_timestamp 1970 1 1 0 0 0 = Some 0.
Proof. reflexivity. Qed.

Theorem C12_next_second y m d h mi s y' m' d' h' mi' s' n :
  utc_timestamp y m d h mi s = Some n ->
  next_second (mkdt y m d h mi s) (mkdt y' m' d' h' mi' s') ->
  exists_in_calendar (mkdt y' m' d' h' mi' s') ->
  utc_timestamp y' m' d' h' mi' s' = Some (n + 1).
Proof. exact (stamp_next (mkdt y m d h mi s) (mkdt y' m' d' h' mi' s') n). Qed.

(** Strictly increasing in calendar order, and injective. *)
Theorem C12_increasing y m d h mi s y' m' d' h' mi' s' n n' :
  utc_timestamp y m d h mi s = Some n -> utc_timestamp y' m' d' h' mi' s' = Some n' ->
  (earlier (mkdt y m d h mi s) (mkdt y' m' d' h' mi' s') <-> n < n').
Proof. exact (stamp_iff (mkdt y m d h mi s) (mkdt y' m' d' h' mi' s') n n'). Qed.

Theorem C12_injective y m d h mi s y' m' d' h' mi' s' n :
  utc_timestamp y m d h mi s = Some n -> utc_timestamp y' m' d' h' mi' s' = Some n ->
  mkdt y m d h mi s = mkdt y' m' d' h' mi' s'.
Proof. exact (stamp_inj (mkdt y m d h mi s) (mkdt y' m' d' h' mi' s') n). Qed.

Example C12_case :
  utc_timestamp 2020 2 28 23 59 59 = Some 1582934399 /\
  next_second (mkdt 2020 2 28 23 59 59) (mkdt 2020 2 29 0 0 0) /\
  exists_in_calendar (mkdt 2020 2 29 0 0 0) /\
  utc_timestamp 2020 2 29 0 0 0 = Some 1582934400 /\
  earlier (mkdt 2020 2 29 0 0 0) (mkdt 2020 3 1 0 0 0) /\
  utc_timestamp 2021 2 29 0 0 0 = None.
Proof.
  assert (L : leap_year 2020).
  { split; [exists 505; reflexivity|left]. intros [k H]. lia. }
  split; [reflexivity|]. split; [|split; [|split; [reflexivity|split; [|reflexivity]]]].
  - apply ns_day. change 29 with (28 + 1). eapply nd_in_month; [apply ml_feb_leap; exact L|lia].
  - apply is_date_spec. reflexivity.
  - right. simpl. split; [reflexivity|]. left. lia.
Qed.

Print Assumptions C12_defined.
Print Assumptions C12_epoch.
Print Assumptions C12_next_second.
Print Assumptions C12_increasing.
Print Assumptions C12_injective.
