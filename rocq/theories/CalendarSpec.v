(** The Gregorian calendar, described without arithmetic on day numbers. *)
From Coq Require Import ZArith List Bool.
Import ListNotations.
Open Scope Z_scope.

Definition leap_year (y : Z) : Prop := (4 | y) /\ (~ (100 | y) \/ (400 | y)).

Inductive month_length : Z -> Z -> Z -> Prop :=   (* year, month, number of days *)
| ml_31 y m : In m [1; 3; 5; 7; 8; 10; 12] -> month_length y m 31
| ml_30 y m : In m [4; 6; 9; 11] -> month_length y m 30
| ml_feb_leap y : leap_year y -> month_length y 2 29
| ml_feb y : ~ leap_year y -> month_length y 2 28.

Record datetime := mkdt { year : Z; month : Z; day : Z; hour : Z; minute : Z; second : Z }.

(** A date-time that exists (years 1 to 9999, as in Python). *)
Definition exists_in_calendar (t : datetime) : Prop :=
  1 <= year t <= 9999 /\
  (exists n, month_length (year t) (month t) n /\ 1 <= day t <= n) /\
  0 <= hour t <= 23 /\ 0 <= minute t <= 59 /\ 0 <= second t <= 59.

(** The day after. *)
Inductive next_day : Z * Z * Z -> Z * Z * Z -> Prop :=
| nd_in_month y m d n : month_length y m n -> d < n -> next_day (y, m, d) (y, m, d + 1)
| nd_month y m n : month_length y m n -> m < 12 -> next_day (y, m, n) (y, m + 1, 1)
| nd_year y : next_day (y, 12, 31) (y + 1, 1, 1).

(** The second after. *)
Inductive next_second : datetime -> datetime -> Prop :=
| ns_second y m d h mi s : s < 59 -> next_second (mkdt y m d h mi s) (mkdt y m d h mi (s + 1))
| ns_minute y m d h mi : mi < 59 -> next_second (mkdt y m d h mi 59) (mkdt y m d h (mi + 1) 0)
| ns_hour y m d h : h < 23 -> next_second (mkdt y m d h 59 59) (mkdt y m d (h + 1) 0 0)
| ns_day y m d y' m' d' : next_day (y, m, d) (y', m', d') ->
    next_second (mkdt y m d 23 59 59) (mkdt y' m' d' 0 0 0).

(** Chronological order: compare year, then month, then day, ... *)
Definition earlier (t u : datetime) : Prop :=
  year t < year u \/ year t = year u /\
  (month t < month u \/ month t = month u /\
   (day t < day u \/ day t = day u /\
    (hour t < hour u \/ hour t = hour u /\
     (minute t < minute u \/ minute t = minute u /\ second t < second u)))).
