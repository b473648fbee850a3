(** Which channels a user may expect in a cross-correlation. *)
From Coq Require Import String.
From Coq Require Import ZArith List.
From Verif Require Import Base.
Import ListNotations.
Open Scope Z_scope.

(** Letters, digits and the underscore. *)
Definition word (c : Z) : Prop := 48 <= c <= 57 \/ 65 <= c <= 90 \/ c = 95 \/ 97 <= c <= 122.
Definition code_of (lo hi : nat) (s : bytes) : Prop := Forall word s /\ (lo <= length s <= hi)%nat.
(** Network, station, location and channel, and anything after them. *)
Definition begins_like_id (s : bytes) : Prop :=
  exists n st l c rest, s = n ++ b "." ++ st ++ b "." ++ l ++ b "." ++ c ++ rest /\
    code_of 0 2 n /\ code_of 1 5 st /\ code_of 0 2 l /\ code_of 3 3 c.

Section Wanted.
  Variable search : bytes -> bytes -> option bool.
  (** [x] is asked for: everything in the data, or named, or matched by a pattern. *)
  Definition asked (data : list bytes) (ids : option (list bytes)) (x : bytes) : Prop :=
    match ids with
    | None | Some [] => In x data
    | Some l => exists i, In i l /\
        (begins_like_id i /\ x = i \/ ~ begins_like_id i /\ In x data /\ search i x = Some true)
    end.
  Definition excluded (excl : option (list bytes)) (x : bytes) : Prop :=
    exists ps p, excl = Some ps /\ In p ps /\ search p x = Some true.
  (** Some pattern that has to be tried is invalid. *)
  Definition invalid (data : list bytes) (ids excl : option (list bytes)) : Prop :=
    (exists l i x, ids = Some l /\ In i l /\ ~ begins_like_id i /\ In x data /\ search i x = None) \/
    (exists ps p x, excl = Some ps /\ In p ps /\ asked data ids x /\ search p x = None).
End Wanted.
Fixpoint ascending (le : bytes -> bytes -> Prop) (l : list bytes) : Prop :=
  match l with [] => True | x :: r => Forall (le x) r /\ ascending le r end.
