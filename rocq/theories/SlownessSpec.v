(** What a user may expect of the inversion for slowness. *)
From Coq Require Import String.
From Coq Require Import ZArith QArith List.
From Verif Require Import Base.
Import ListNotations.
Open Scope Q_scope.

(** All points on one line. *)
Definition collinear (ps : list (Q * Q)) : Prop :=
  exists p q c, ~ (p == 0 /\ q == 0) /\ Forall (fun x => p * fst x + q * snd x == c) ps.

(** Arrival time at [x] of a plane wave with slowness [s]. *)
Definition arrival_time (s x : Q * Q) : Q := fst s * fst x + snd s * snd x.

(** The lags between neighbours in the list of stations. *)
Inductive neighbours {A} (R : A -> A -> Q -> Prop) : list A -> list Q -> Prop :=
| nb_nil : neighbours R [] []
| nb_one x : neighbours R [x] []
| nb_cons x y r t l : R x y t -> neighbours R (y :: r) l -> neighbours R (x :: y :: r) (t :: l).
Definition plane_wave (s : Q * Q) (ps : list (Q * Q)) (lags : list Q) : Prop :=
  neighbours (fun x y t => t == arrival_time s x - arrival_time s y) ps lags.

(** Sum of squared differences between the lags and those of a plane wave. *)
Inductive misfit (s : Q * Q) : list (Q * Q) -> list Q -> Q -> Prop :=
| mf_nil : misfit s [] [] 0
| mf_one x : misfit s [x] [] 0
| mf_cons x y r t l m : misfit s (y :: r) l m ->
    misfit s (x :: y :: r) (t :: l) (m + (arrival_time s x - arrival_time s y - t) * (arrival_time s x - arrival_time s y - t)).

(** Station identifiers: no underscore, no small m. *)
Definition plain (i : bytes) : Prop := ~ In 95%Z i /\ ~ In 109%Z i.
(** [t] is the lag between the neighbours in line [w] of the table. *)
Definition recorded (d : list (bytes * list (option Q))) (w : nat) (x y : bytes * (Q * Q)) (t : Q) : Prop :=
  exists c, In (b "lag_" ++ fst x ++ b "_" ++ fst y, c) d /\ nth_error c w = Some (Some t).
