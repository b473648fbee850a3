(** What a user may expect of the lags between sensors. *)
From Coq Require Import String.
From Coq Require Import ZArith QArith List.
From Verif Require Import Base.
Import ListNotations.
Open Scope Z_scope.

(** [y] is the next of [x] around the ring of the sensors, [x] being number [i]. *)
Definition next {A} (l : list A) (i : nat) (x y : A) : Prop :=
  nth_error l i = Some x /\ nth_error l (Nat.modulo (i + 1) (length l)) = Some y.

Definition total (l : list Z) : Z := fold_right Z.add 0 l.
Definition qtotal (l : list Q) : Q := fold_right Qplus 0%Q l.
