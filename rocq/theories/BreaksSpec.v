(** When a block of files can be given times. *)
From Coq Require Import ZArith QArith List.
From Verif Require Import UnwrapSpec Process Breaks.
Import ListNotations.
Open Scope Q_scope.

(** The elements of [l], counted from [i], that satisfy [P] with their position. *)
Inductive picked {A} (P : nat -> A -> Prop) : nat -> list A -> list A -> Prop :=
| picked_nil i : picked P i [] []
| picked_take i x l l' : P i x -> picked P (S i) l l' -> picked P i (x :: l) (x :: l')
| picked_skip i x l l' : ~ P i x -> picked P (S i) l l' -> picked P i (x :: l) l'.

(** A GPS tag that is trusted at time [now]: not in the future, of 2015 or later (or of no year), not on the
    equator or the prime meridian, and, unless it is within a day of both neighbours or of one of them, the
    first or the last. *)
Definition close (s t : Z) : Prop := (Z.abs (s - t) <= 86400)%Z.
Definition trusted (now : Q) (gps : list tag) (i : nat) (e : tag) : Prop :=
  inject_Z (snd e) <= now /\
  (forall y, gyear (fst e) = Some y -> 2015 <= y) /\
  (forall x, glat (fst e) = Some x -> ~ x == 0) /\ (forall x, glon (fst e) = Some x -> ~ x == 0) /\
  (i = 0%nat \/ S i = length gps \/
   (exists e', nth_error gps (i - 1) = Some e' /\ close (snd e) (snd e')) \/
   (exists e', nth_error gps (S i) = Some e' /\ close (snd e) (snd e'))).
Definition usable (now : Q) (gps gs : list tag) : Prop := picked (trusted now gps) 0 gps gs.

(** Two consecutive samples that are more than 25 ms apart, or go back. *)
Definition jump (x y : Q) : Prop := 25 < y - x \/ y < x.

(** The clock jumps twice at the beginning. *)
Definition two_jumps (clock : list Q) : Prop :=
  exists x y z r, clock = x :: y :: z :: r /\ jump x y /\ jump y z.

(** Between two tags, clock (units of 1.024 ms) and time disagree by more than 0.01 % (0.2 % for tags within 50 s). *)
Definition off_rate (e e' : tag) : Prop :=
  let dt := inject_Z (snd e') - inject_Z (snd e) in
  let dm := (1024 # 1000) * (msPPS (fst e') - msPPS (fst e)) in
  (50 < dt /\ ((10001 # 10) * dt < dm \/ dm < (9999 # 10) * dt)) \/
  (dt <= 50 /\ (1002 * dt < dm \/ dm < 998 * dt)).

(** The first two of three or more tags disagree, and there is a jump of the clock, not at the very beginning
    or end of the record, such that one of the three samples around it is not before the first of these tags,
    and one is not after the second. *)
Definition first_tags_disagree (gs : list tag) (clock : list Q) : Prop :=
  exists e0 e1 e2 gr pre x y z post,
    gs = e0 :: e1 :: e2 :: gr /\ off_rate e0 e1 /\
    clock = pre ++ x :: y :: z :: post /\ post <> [] /\ jump y z /\
    (exists u, In u [x; y; z] /\ msPPS (fst e0) <= u) /\ (exists u, In u [x; y; z] /\ u <= msPPS (fst e1)).

(** A position in the GPS table is that of a fix: same coordinates and time, and the date is the day of the year
    (counted from 1) with its fraction. *)
Definition located (e : tag) (p : position) : Prop :=
  p_lat p = glat (fst e) /\ p_lon p = glon (fst e) /\ p_t p = snd e /\
  exists t0, Calendar.utc_timestamp (p_year p) 1 1 0 0 0 = Some t0 /\
    inject_Z t0 + (p_date p - 1) * 86400 == inject_Z (snd e) /\ 1 <= p_date p < 367.
