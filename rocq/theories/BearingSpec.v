(** What a user may expect of directions of arrival. *)
From Coq Require Import String.
From Coq Require Import Reals List.
From Verif Require Import Base.
Import ListNotations.
Open Scope R_scope.

Definition radians (degrees : R) : R := degrees * PI / 180.

(** When a plane wave from the direction [az] (degrees clockwise from north) with slowness [s] (seconds per
    metre) gets to a place [x] metres east and [y] metres north of the origin, relative to the origin: the
    earlier, the further the place lies in the direction the wave comes from. *)
Definition reaches (az s : R) (p : R * R) : R :=
  - (s * (fst p * sin (radians az) + snd p * cos (radians az))).

(** All points on one line. *)
Definition on_a_line (ps : list (R * R)) : Prop :=
  exists p q c, ~ (p = 0 /\ q = 0) /\ Forall (fun x => p * fst x + q * snd x = c) ps.

(** The numbers [l] are related by [P] to the neighbours in a list. *)
Inductive adjacent {A} (P : A -> A -> R -> Prop) : list A -> list R -> Prop :=
| adj_nil : adjacent P [] []
| adj_one x : adjacent P [x] []
| adj_cons x y r t l : P x y t -> adjacent P (y :: r) l -> adjacent P (x :: y :: r) (t :: l).

(** The lags between neighbouring stations that a wave makes. *)
Definition lags_of_wave (az s : R) (ps : list (R * R)) (lags : list R) : Prop :=
  adjacent (fun x y t => t = reaches az s x - reaches az s y) ps lags.

(** [t] is the lag between the neighbours in line [w] of the table. *)
Definition lag_in (d : list (bytes * list (option R))) (w : nat) (x y : bytes * (R * R)) (t : R) : Prop :=
  exists c, In (b "lag_" ++ fst x ++ b "_" ++ fst y, c) d /\ nth_error c w = Some (Some t).

(** Sum of the squared differences of two lists of numbers of the same length. *)
Inductive squares_between : list R -> list R -> R -> Prop :=
| sq_nil : squares_between [] [] 0
| sq_cons x y l r m : squares_between l r m -> squares_between (x :: l) (y :: r) ((x - y) * (x - y) + m).

(** An array tells waves apart in all directions as well as two stations [a] metres apart in the direction of the
    wave do: a change of the slowness vector by (u, v) changes the lags accordingly. *)
Definition aperture (ps : list (R * R)) (a : R) : Prop :=
  0 < a /\ forall u v ls zs m,
    adjacent (fun x y t => t = u * (fst x - fst y) + v * (snd x - snd y)) ps ls ->
    Forall (fun z => z = 0) zs -> squares_between ls zs m -> a * a * (u * u + v * v) <= m.

(** Station identifiers: no underscore, no small m. *)
Definition simple_id (i : bytes) : Prop := ~ In 95%Z i /\ ~ In 109%Z i.

(** The columns of a table of cross-correlation results, in order: for each station its own column and two for it and
    the next one; the last station is followed by the first. *)
Inductive station_columns (first : bytes) : list bytes -> list bytes -> Prop :=
| sc_last i : station_columns first [i] [b "rms_" ++ i; b "lag_" ++ i ++ b "_" ++ first; b "r_" ++ i ++ b "_" ++ first]
| sc_next i j r l : station_columns first (j :: r) l ->
    station_columns first (i :: j :: r) ((b "rms_" ++ i) :: (b "lag_" ++ i ++ b "_" ++ j) :: (b "r_" ++ i ++ b "_" ++ j) :: l).
Definition xcorr_table (ids : list bytes) (d : list (bytes * list (option R))) : Prop :=
  NoDup (map fst d) /\ exists first rest l, ids = first :: rest /\ station_columns first ids l /\
    map fst d = [b "t_mid"; b "mean_coef"] ++ l ++ [b "consistency"].
