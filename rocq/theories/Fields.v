(** Model of the calendar fields of a time, as gemlog uses them through [obspy.UTCDateTime(t)] (core.py
    1411-1413 [julday], [hour], [minute], [second]; 355 and gem_network.py [strftime] in file names).
    obspy is third-party code: like Calendar.v this follows Python's [datetime], here [_ord2ymd]. *)
From Coq Require Import ZArith List Bool.
From Verif Require Import Calendar CalendarSpec.
Import ListNotations.
Open Scope Z_scope.

(** Year (with its leap flag) and days since its first day, of an ordinal (1: 0001-01-01). *)
Definition year_and_day (ord : Z) : Z * bool * Z :=
  let n := ord - 1 in
  let n400 := n / 146097 in let n := n mod 146097 in
  let n100 := n / 36524 in let n := n mod 36524 in
  let n4 := n / 1461 in let n := n mod 1461 in
  let n1 := n / 365 in let n := n mod 365 in
  let y := n400 * 400 + 1 + n100 * 100 + n4 * 4 + n1 in
  if (n1 =? 4) || (n100 =? 4) then (y - 1, true, 365)
  else (y, (n1 =? 3) && (negb (n4 =? 24) || (n100 =? 3)), n).

Definition month_table (m : Z) : Z := nth (Z.to_nat m) [0; 0; 31; 59; 90; 120; 151; 181; 212; 243; 273; 304; 334] 0.
Definition length_table (m : Z) : Z := nth (Z.to_nat m) [0; 31; 28; 31; 30; 31; 30; 31; 31; 30; 31; 30; 31] 0.
Definition b2z (c : bool) : Z := if c then 1 else 0.

(** Month and day of a number of days since the first of January. *)
Definition month_and_day (leap : bool) (n : Z) : Z * Z :=
  let m := Z.shiftr (n + 50) 5 in
  let p := month_table m + b2z ((2 <? m) && leap) in
  if n <? p then let m := m - 1 in (m, n - (p - (length_table m + b2z ((m =? 2) && leap))) + 1)
  else (m, n - p + 1).

(** Date, time and day of the year of a whole number of seconds since 1970. *)
Definition fields (t : Z) : datetime * Z :=
  let '(y, leap, n) := year_and_day (t / 86400 + 719163) in
  let '(m, d) := month_and_day leap n in
  let s := t mod 86400 in
  (mkdt y m d (s / 3600) (s mod 3600 / 60) (s mod 60), n + 1).
