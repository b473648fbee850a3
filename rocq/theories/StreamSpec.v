(** What a user may expect of the samples of a stream. *)
From Coq Require Import ZArith List.
From Verif Require Import UnwrapSpec Stream.
Import ListNotations.
Open Scope Z_scope.

(** The stream has the value [v] at time [k]. *)
Definition sample (st : stream) (k v : Z) : Prop :=
  exists tr i, In tr st /\ nth_error (gd tr) i = Some v /\ k = gs tr + Z.of_nat i.

(** Traces with samples, in time order and without overlap. *)
Definition in_order (st : stream) : Prop :=
  Forall (fun tr => gd tr <> []) st /\ chain (fun x y => gend x < gs y) st.

(** [v] at time [k] fills a gap of the record [S]: there are values at times [i] and [j] around [k], none in
    between, at most three intervals apart, and [v] is on the line between them, truncated to an integer. *)
Definition fills (S : Z -> Z -> Prop) (k v : Z) : Prop :=
  exists i j a z, S i a /\ S j z /\ i < k < j /\ j - i <= 3 /\
    (forall m w, i < m < j -> ~ S m w) /\
    v = Z.quot (a * (j - i) + (k - i) * (z - a)) (j - i).
