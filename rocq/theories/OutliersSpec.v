(** What a user may expect of the removal of outlying positions. *)
From Coq Require Import ZArith QArith Qabs List Bool Permutation.
Import ListNotations.
Open Scope Q_scope.

Definition total (l : list Q) : Q := fold_right Qplus 0 l.
Definition size {A} (l : list A) : Q := inject_Z (Z.of_nat (length l)).
Definition how_many (p : Q -> bool) (l : list Q) : Z := Z.of_nat (length (filter p l)).

(** [m] is the average, [v] the variance of a non-empty list, and [d] a median: at least half of the
    values are on either side (and it is the middle of the smallest possible interval of those). *)
Definition is_mean (l : list Q) (m : Q) : Prop := m * size l == total l.
Definition is_variance (l : list Q) (v : Q) : Prop :=
  exists m, is_mean l m /\ v * size l == total (map (fun x => (x - m) * (x - m)) l).
Inductive ascending : list Q -> Prop :=
| asc_nil : ascending []
| asc_one x : ascending [x]
| asc_cons x y l : x <= y -> ascending (y :: l) -> ascending (x :: y :: l).
Definition is_median (l : list Q) (d : Q) : Prop :=
  exists s a c s', Permutation l (s ++ a ++ s') /\ ascending (s ++ a ++ s') /\ length s = length s' /\
    ((a = [c] /\ d == c) \/ (exists c', a = [c; c'] /\ 2 * d == c + c')).

(** [x] is less than [N * (1e-5 + std)] from the median, std being the square root of the variance:
    there is a number [s] not above that root for which it is so. *)
Definition near (N : Q) (l : list Q) (x : Q) : Prop :=
  exists d v s, is_median l d /\ is_variance l v /\ 0 <= s /\ s * s <= v /\
    Qabs (x - d) < N * ((1 # 100000) + s).

(** [y] is [x] without the rows that are not near in both coordinates. *)
Inductive kept (P : Q * Q -> Prop) : list (Q * Q) -> list (Q * Q) -> Prop :=
| kept_nil : kept P [] []
| kept_yes p x y : P p -> kept P x y -> kept P (p :: x) (p :: y)
| kept_no p x y : ~ P p -> kept P x y -> kept P (p :: x) y.
Definition one_pass (N : Q) (x y : list (Q * Q)) : Prop :=
  kept (fun p => near N (map fst x) (fst p) /\ near N (map snd x) (snd p)) x y.

(** Repeated passes. *)
Inductive passes (N : Q) : list (Q * Q) -> list (Q * Q) -> Prop :=
| passes_none x : passes N x x
| passes_more x y z : one_pass N x y -> passes N y z -> passes N x z.

Inductive sublist {A} : list A -> list A -> Prop :=
| sub_nil : sublist [] []
| sub_keep a l m : sublist l m -> sublist (a :: l) (a :: m)
| sub_drop a l m : sublist l m -> sublist l (a :: m).
