(** What a user may expect of filling short gaps. *)
From Coq Require Import ZArith List.
From Verif Require Import UnwrapSpec Stream StreamSpec.
Import ListNotations.
Open Scope Z_scope.

(** There is a sample at time [k]. *)
Definition has (S : Z -> Z -> Prop) (k : Z) : Prop := exists v, S k v.

(** Samples are missing between those at times [i] and [j]. *)
Definition gap (S : Z -> Z -> Prop) (i j : Z) : Prop :=
  has S i /\ has S j /\ i + 1 < j /\ forall m, i < m < j -> ~ has S m.

(** A gap shorter than the limit. *)
Definition short (L : Z) (S : Z -> Z -> Prop) (u v : Z) : Prop := gap S u v /\ v - u < L.

(** The gap from [i] to [j], with the samples that bound it, is within [L] of the gap from [u] to [v]. *)
Definition near (L u v i j : Z) : Prop := u - L <= i /\ j <= v + L.

(** The samples [ks], counted from [s], are those from which values near the gap from [u] to [v] are found:
    samples of the result, in order, among them all samples of the record that are within [L] of that gap. *)
Definition support (L : Z) (S R : Z -> Z -> Prop) (u v s : Z) (ks : list (Z * Z)) : Prop :=
  chain (fun p q => fst p < fst q) ks /\
  (forall t w, In (t, w) ks -> R (s + t) w /\ u - L <= s + t <= v + L) /\
  (forall p w, S p w -> u - L <= p <= v + L -> In (p - s, w) ks).
