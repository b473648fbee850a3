(** Model of [obspy.UTCDateTime(year, month, day, hour, minute, second)] as called by
    [_make_gps_time] (gemlog/core.py 669-675).  obspy is third-party code: the model follows the
    algorithm of Python's [datetime.toordinal], on which UTCDateTime is built; arguments that are no
    calendar date-time raise (here [None]). *)
From Coq Require Import ZArith List Bool.
Import ListNotations.
Open Scope Z_scope.

Definition is_leap (y : Z) : bool := (y mod 4 =? 0) && (negb (y mod 100 =? 0) || (y mod 400 =? 0)).

Definition days_before_year (y : Z) : Z :=
  let p := y - 1 in p * 365 + p / 4 - p / 100 + p / 400.

Definition days_in_month (y m : Z) : Z :=
  if m =? 2 then (if is_leap y then 29 else 28)
  else nth (Z.to_nat m) [0; 31; 28; 31; 30; 31; 30; 31; 31; 30; 31; 30; 31] 0.

Definition days_before_month (y m : Z) : Z :=
  nth (Z.to_nat m) [0; 0; 31; 59; 90; 120; 151; 181; 212; 243; 273; 304; 334] 0
  + (if (2 <? m) && is_leap y then 1 else 0).

Definition ordinal (y m d : Z) : Z := days_before_year y + days_before_month y m + d.

Definition in_range (lo x hi : Z) : bool := (lo <=? x) && (x <=? hi).

Definition is_date (y m d h mi s : Z) : bool :=
  in_range 1 y 9999 && in_range 1 m 12 && in_range 1 d (days_in_month y m) &&
  in_range 0 h 23 && in_range 0 mi 59 && in_range 0 s 59.

(** 719163 is the ordinal of 1970-01-01. *)
Definition utc_timestamp (y m d h mi s : Z) : option Z :=
  if is_date y m d h mi s
  then Some ((ordinal y m d - 719163) * 86400 + h * 3600 + mi * 60 + s)
  else None.
