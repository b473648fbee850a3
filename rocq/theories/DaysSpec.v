(** What a user may expect of day-by-day processing.  Times in microseconds. *)
From Coq Require Import String.
From Coq Require Import ZArith List Permutation.
From Verif Require Import Base.
Import ListNotations.
Open Scope Z_scope.

Definition one_second : Z := 1000000.
Definition one_day : Z := 86400000000.
(** Time of day; fraction of the second; the first midnight after [t], moved by the fraction of the second. *)
Definition time_of_day (t : Z) : Z := t mod one_day.
Definition fraction (t : Z) : Z := t mod one_second.
Definition midnight_after (t : Z) : Z := t - time_of_day t + one_day + fraction t.

Definition inside (t : Z) (w : Z * Z) : Prop := fst w <= t <= snd w.

Section Data.
  Context {V : Type}.
  (** Channel, time, value. *)
  Definition sample := (bytes * Z * V)%type.
  Definition samples (st : list (bytes * list (Z * V))) : list sample :=
    flat_map (fun tr => map (fun s => (fst tr, fst s, snd s)) (snd tr)) st.
  (** Traces with samples in the order of time. *)
  Definition in_order (tr : bytes * list (Z * V)) : Prop :=
    snd tr <> [] /\ forall i j s s', (i <= j)%nat -> nth_error (snd tr) i = Some s -> nth_error (snd tr) j = Some s' -> fst s <= fst s'.
  (** [sub] are the samples of [all] with the property. *)
  Definition picked (P : sample -> Prop) (all sub : list sample) : Prop :=
    exists p, (forall s, p s = true <-> P s) /\ Permutation sub (filter p all).
End Data.
(** The earliest and latest of some times. *)
Definition earliest_of (l : list Z) (m : Z) : Prop := In m l /\ forall t, In t l -> m <= t.
Definition latest_of (l : list Z) (m : Z) : Prop := In m l /\ forall t, In t l -> t <= m.
Section Results.
  Context {V : Type}.
  Definition first_time (tr : bytes * list (Z * V)) : Z := hd 0 (map fst (snd tr)).
  Definition last_time (tr : bytes * list (Z * V)) : Z := last (map fst (snd tr)) 0.
  (** The traces of the readable files. *)
  Definition traces_of (fs : bytes -> option (list (bytes * list (Z * V)))) (files : list bytes) : list (bytes * list (Z * V)) :=
    flat_map (fun n => match fs n with Some l => l | None => [] end) files.
  (** The part of the requested interval between the first and the last sample of the data. *)
  Definition limits (data : list (bytes * list (Z * V))) (t1 t2 t1' t2' : Z) : Prop :=
    exists e l, earliest_of (map first_time data) e /\ latest_of (map last_time data) l /\ t1' = Z.max t1 e /\ t2' = Z.min t2 l.
End Results.
(** The outputs of the calls that did not raise, in order. *)
Inductive outputs {A R} (f : A -> option R) : list A -> list R -> Prop :=
| out_nil : outputs f [] []
| out_some c o cs os : f c = Some o -> outputs f cs os -> outputs f (c :: cs) (o :: os)
| out_none c cs os : f c = None -> outputs f cs os -> outputs f (c :: cs) os.
