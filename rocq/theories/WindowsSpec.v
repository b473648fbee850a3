(** What a user may expect of an analysis in sliding windows. *)
From Coq Require Import String.
From Coq Require Import ZArith QArith List.
From Verif Require Import Base StationsSpec InventorySpec.
Import ListNotations.
Open Scope Q_scope.

(** [starts] are the starts of [m + 1] evenly spaced windows of length [win], the first at the beginning
    of the record and the last one ending at its end. *)
Definition spread (t1 t2 win step : Q) (m : nat) (starts : list Q) : Prop :=
  length starts = S m /\
  forall i s, nth_error starts i = Some s ->
    s == t1 + inject_Z (Z.of_nat i) * step /\ (i = m -> s + win == t2).
(** Distance between windows that overlap by the wanted fraction. *)
Definition wanted_step (win overlap : Q) : Q := win * (1 - overlap).

(** Times that count for the window starting at [s]: up to a microsecond, those from its start on and
    before its end. *)
Definition in_window (win s t : Q) : Prop := s - (1#1000000) <= t <= s + win - (1#1000000).

(** [w] is the stream [st] restricted to times with [P], without traces that have no such time. *)
Inductive cut {S} (P : Q -> Prop) : list (bytes * list (Q * S)) -> list (bytes * list (Q * S)) -> Prop :=
| cut_nil : cut P [] []
| cut_keep id tr r st w : those_with (fun x => P (fst x)) tr r -> r <> [] -> cut P st w ->
    cut P ((id, tr) :: st) ((id, r) :: w)
| cut_drop id tr st w : those_with (fun x => P (fst x)) tr [] -> cut P st w -> cut P ((id, tr) :: st) w.

(** The table of results: a column for each item any window has, in order of first appearance, with one
    value per window, missing where the window does not have the item. *)
Definition value_of_item {V} (k : bytes) (d : list (bytes * V)) (v : option V) : Prop :=
  match v with Some x => In (k, x) d | None => ~ In k (map fst d) end.
Definition table_of {V} (ds : list (list (bytes * V))) (cols : list (bytes * list (option V))) : Prop :=
  first_occurrences [] (concat (map (map fst) ds)) (map fst cols) /\
  forall k c, In (k, c) cols -> Forall2 (value_of_item k) ds c.

(** The first trace lasts from [t1] to [t2]. *)
Definition record {S} (st : list (bytes * list (Q * S))) (t1 t2 : Q) : Prop :=
  exists id tr rest, st = (id, tr) :: rest /\
    (exists x r, tr = x :: r /\ fst x = t1) /\ (exists x r, tr = r ++ [x] /\ fst x = t2).
