(** What a user may expect of a look for discontinuities. *)
From Coq Require Import ZArith List.
From Verif Require Import Base UnwrapSpec Stream.
Import ListNotations.
Open Scope Z_scope.

(** The files have, for [id], the value [v] at time [k]. *)
Definition recorded (files : list (list (bytes * gtrace))) (id : bytes) (k v : Z) : Prop :=
  exists f tr i, In f files /\ In (id, tr) f /\ nth_error (gd tr) i = Some v /\ k = gs tr + Z.of_nat i.
Definition present (files : list (list (bytes * gtrace))) (id : bytes) (k : Z) : Prop := exists v, recorded files id k v.

(** No trace is empty, and where files overlap they have the same values. *)
Definition proper (files : list (list (bytes * gtrace))) : Prop :=
  (forall f id tr, In f files -> In (id, tr) f -> gd tr <> []) /\
  forall id k v w, recorded files id k v -> recorded files id k w -> v = w.

(** There are samples of [id] from time [a] to time [z], but not just before and not just after. *)
Definition stretch (files : list (list (bytes * gtrace))) (line : bytes * Z * Z) : Prop :=
  let '(id, a, z) := line in
  a <= z /\ (forall k, a <= k <= z -> present files id k) /\ ~ present files id (a - 1) /\ ~ present files id (z + 1).

(** All samples are of the same id and there are no gaps between them. *)
Definition continuous (files : list (list (bytes * gtrace))) : Prop :=
  forall id k id' k', present files id k -> present files id' k' ->
    id = id' /\ forall m, k <= m <= k' -> present files id m.

(** Byte-wise order of strings. *)
Fixpoint not_after (x y : bytes) : Prop :=
  match x, y with
  | [], _ => True
  | _ :: _, [] => False
  | a :: x', c :: y' => a < c \/ (a = c /\ not_after x' y')
  end.
(** The order of the lines. *)
Definition goes_first (l l' : bytes * Z * Z) : Prop :=
  let '(id, _, z) := l in let '(id', a', _) := l' in (id = id' /\ z < a') \/ (id <> id' /\ not_after id id').
