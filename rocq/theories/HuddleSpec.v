(** What a user may expect of the huddle test.  A column is given by a function from rows to values;
    a missing value is [None]. *)
From Coq Require Import String.
From Coq Require Import ZArith QArith Qround Qabs List.
From Verif Require Import Base OutliersSpec Huddle.
Import ListNotations.
Open Scope Z_scope.

(** Some (no) value of a column satisfies a condition. *)
Definition some_value (f : health -> option Q) (rows : list health) (P : Q -> Prop) : Prop :=
  exists r v, In r rows /\ f r = Some v /\ P v.
(** The first value of a column is there. *)
Definition begins_known (f : health -> option Q) (rows : list health) : Prop :=
  exists r rest v, rows = r :: rest /\ f r = Some v.

(** How many elements satisfy a condition. *)
Inductive number_of {A} (P : A -> Prop) : list A -> Z -> Prop :=
| number_nil : number_of P [] 0
| number_yes x l n : P x -> number_of P l n -> number_of P (x :: l) (n + 1)
| number_no x l n : ~ P x -> number_of P l n -> number_of P (x :: l) n.
(** The pairs of consecutive elements. *)
Fixpoint pairs {A} (l : list A) : list (A * A) :=
  match l with x :: (y :: _) as r => (x, y) :: pairs r | _ => [] end.

(** The result of a limit: an error beyond it, a warning within a margin of it.  If the first value
    of the column is missing the result is always okay. *)
Definition graded (f : health -> option Q) (rows : list health) (beyond near : Q -> Prop) (st : status) : Prop :=
  (~ begins_known f rows /\ st = OKAY) \/
  (begins_known f rows /\
   ((st = ERROR /\ some_value f rows beyond) \/
    (st = WARNING /\ ~ some_value f rows beyond /\ some_value f rows near) \/
    (st = OKAY /\ ~ some_value f rows beyond /\ ~ some_value f rows near))).
(** More than 99 (95) in a hundred steps of a column without any change. *)
Definition unchanged (f : health -> option Q) (p : health * health) : Prop :=
  exists u v, f (fst p) = Some u /\ f (snd p) = Some v /\ (u == v)%Q.
Definition flat (f : health -> option Q) (rows : list health) (st : status) : Prop :=
  exists n, number_of (unchanged f) (pairs rows) n /\
    let steps := Z.of_nat (length rows) - 1 in
    ((st = ERROR /\ 99 * steps < 100 * n) \/
     (st = WARNING /\ 95 * steps < 100 * n <= 99 * steps) \/
     (st = OKAY /\ 100 * n <= 95 * steps)).
(** Every value is there and between 0 and 3.1. *)
Definition volts (x : option Q) : Prop := exists v, x = Some v /\ (0 <= v)%Q /\ (v <= 31 # 10)%Q.
Definition within (f : health -> option Q) (rows : list health) (st : status) : Prop :=
  (st = OKAY /\ forall r, In r rows -> volts (f r)) \/ (st = ERROR /\ exists r, In r rows /\ ~ volts (f r)).
Definition off (r : health) : Prop := exists v, h_gps r = Some v /\ (v == 0)%Q.
(** [l] is [rows] without the rows that do not satisfy a condition. *)
Inductive only {A} (P : A -> Prop) : list A -> list A -> Prop :=
| only_nil : only P [] []
| only_yes x l m : P x -> only P l m -> only P (x :: l) (x :: m)
| only_no x l m : ~ P x -> only P l m -> only P (x :: l) m.
(** Two consecutive rows with the GPS off, after the first eleven of them, more than 180 s apart. *)
Definition long_gap (rows : list health) : Prop :=
  exists l before r r' after t t', only off rows l /\ l = before ++ r :: r' :: after /\ (10 <= length before)%nat /\
    h_t r = Some t /\ h_t r' = Some t' /\ (t' - t > 180)%Q.

(** The result each check should have for a logger with these rows. *)
Definition deserves (rows : list health) (c : check) (st : status) : Prop :=
  match c with
  | BatteryMin => graded h_batt rows (fun v => v < 17 # 10)%Q (fun v => v < 22 # 10)%Q st
  | BatteryMax => graded h_batt rows (fun v => v > 15)%Q (fun v => v > 145 # 10)%Q st
  | TemperatureMin => graded h_temp rows (fun v => v < - (20))%Q (fun v => v < - (15))%Q st
  | TemperatureMax => graded h_temp rows (fun v => v > 60)%Q (fun v => v > 55)%Q st
  | A2Flat => flat h_a2 rows st
  | A3Flat => flat h_a3 rows st
  | A2Range => within h_a2 rows st
  | A3Range => within h_a3 rows st
  | UnusualFifo => exists n, number_of (fun r => exists v, h_fifo r = Some v /\ (v > 5)%Q) rows n /\
      ((st = NOTE /\ Z.of_nat (length rows) < 100 * n) \/ (st = OKAY /\ 100 * n <= Z.of_nat (length rows)))
  | ExcessiveFifo => (st = NOTE /\ some_value h_fifo rows (fun v => v > 50)%Q) \/ (st = OKAY /\ ~ some_value h_fifo rows (fun v => v > 50)%Q)
  | MaxOverruns => (st = WARNING /\ exists r, In r rows /\ forall v, h_over r = Some v -> ~ (v == 0)%Q) \/
                   (st = OKAY /\ forall r, In r rows -> exists v, h_over r = Some v /\ (v == 0)%Q)
  | UnusedStack => (st = WARNING /\ (some_value h_stack1 rows (fun v => v <= 30)%Q \/ some_value h_idle rows (fun v => v <= 30)%Q)) \/
                   (st = OKAY /\ ~ some_value h_stack1 rows (fun v => v <= 30)%Q /\ ~ some_value h_idle rows (fun v => v <= 30)%Q)
  | GpsRunTime => (st = WARNING /\ long_gap rows) \/ (st = OKAY /\ ~ long_gap rows)
  end.

(** How bad a result is. *)
Definition severity (st : status) : Z := match st with OKAY => 0 | NOTE => 1 | WARNING => 2 | ERROR => 3 end.
(** The checks decided by single values, and when the row [r'] is at least as bad as [r] for one. *)
Definition not_above (x y : option Q) : Prop := forall v, x = Some v -> exists w, y = Some w /\ (w <= v)%Q.
Definition not_below (x y : option Q) : Prop := forall v, x = Some v -> exists w, y = Some w /\ (v <= w)%Q.
Definition as_bad (c : check) (r r' : health) : Prop :=
  match c with
  | BatteryMin => not_above (h_batt r) (h_batt r')
  | BatteryMax => not_below (h_batt r) (h_batt r')
  | TemperatureMin => not_above (h_temp r) (h_temp r')
  | TemperatureMax => not_below (h_temp r) (h_temp r')
  | A2Range => volts (h_a2 r') -> volts (h_a2 r)
  | A3Range => volts (h_a3 r') -> volts (h_a3 r)
  | ExcessiveFifo => not_below (h_fifo r) (h_fifo r')
  | MaxOverruns => (exists v, h_over r' = Some v /\ (v == 0)%Q) -> (exists v, h_over r = Some v /\ (v == 0)%Q)
  | UnusedStack => not_above (h_stack1 r) (h_stack1 r') /\ not_above (h_idle r) (h_idle r')
  | _ => False
  end.

(** [t] is the earliest (latest) time of the rows, and no time is missing. *)
Definition timed (rows : list health) : Prop := forall r, In r rows -> exists t, h_t r = Some t.
Definition earliest (rows : list health) (t : Q) : Prop :=
  (exists r u, In r rows /\ h_t r = Some u /\ (u == t)%Q) /\ forall r u, In r rows -> h_t r = Some u -> (t <= u)%Q.
Definition latest (rows : list health) (t : Q) : Prop :=
  (exists r u, In r rows /\ h_t r = Some u /\ (u == t)%Q) /\ forall r u, In r rows -> h_t r = Some u -> (u <= t)%Q.

(** The rows are [d] seconds apart, from time [s] on. *)
Definition regular (rows : list health) (s d : Q) : Prop :=
  (2 <= length rows)%nat /\
  forall k r, nth_error rows k = Some r -> exists t, h_t r = Some t /\ (t == s + d * inject_Z (Z.of_nat k))%Q.
(** A whole number of rows fits into a minute: with the seconds between rows cut down to [i], which
    is at least 1, 60 / [i] of them. *)
Definition whole (d : Q) (i : Z) : Prop := 1 <= i /\ (inject_Z i <= d)%Q /\ (d < inject_Z i + 1)%Q /\ (i | 60).

(** The temperature that enters the [c]-th comparison, of a logger with rows [d] seconds apart: that
    of every [q]-th row, up to the last row but one and as long as the time of the next row is nearer
    to the end [until] of the comparison. *)
Definition reading (rows : list health) (d : Q) (q : Z) (until : Q) (c : Z) (x : Q) : Prop :=
  exists r t, 0 <= c /\ c * q + 1 < Z.of_nat (length rows) /\ nth_error rows (Z.to_nat (c * q)) = Some r /\
    h_t r = Some t /\ (t + d * (1 # 2) < until)%Q /\ h_temp r = Some x.
(** The numbers among the values. *)
Fixpoint present (l : list (option Q)) : list Q :=
  match l with [] => [] | Some x :: r => x :: present r | None :: r => present r end.
(** [y] is [x] rounded to hundredths, halves to the even one. *)
Definition hundredths (x y : Q) : Prop :=
  exists k, (y == k # 100)%Q /\ (Qabs (y - x) <= 1 # 200)%Q /\ ((Qabs (y - x) == 1 # 200)%Q -> Z.even k = true).
(** The end of the comparison: ten minutes before the last time, cut down to a multiple of [w]. *)
Definition comparison_end (w : Z) (last until : Q) : Prop :=
  exists m, (inject_Z (w * m) <= last)%Q /\ (last < inject_Z (w * (m + 1)))%Q /\ (until == inject_Z (w * m) - 600)%Q.

(** A name that is passed over: it begins with a dot. *)
Definition hidden (name : bytes) : Prop := exists rest, name = b "." ++ rest.
(** Where the state-of-health data of a logger are. *)
Definition health_file (path sn : bytes) : bytes := path ++ b "/metadata/" ++ sn ++ b "metadata_000.txt".
(** The checks that begin with the first value of a column have one. *)
Definition usable (c : check) (rows : list health) : Prop :=
  match c with
  | BatteryMin | BatteryMax => begins_known h_batt rows
  | TemperatureMin | TemperatureMax => begins_known h_temp rows
  | _ => True
  end.
(** A window of the cross-correlation in which the waveforms agree, and one in which no lag is other than zero. *)
Definition agrees (w : window) : Prop :=
  (exists v, w_consistency w = Some v /\ (v == 0)%Q) /\ forall m, is_median (w_coef w) m -> (m > 8 # 10)%Q.
Definition no_lag (w : window) : Prop := forall x, In x (w_lag w) -> exists v, x = Some v /\ (v == 0)%Q.
