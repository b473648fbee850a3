(** Times computed in double precision. *)
From Coq Require Import ZArith QArith Qabs List.
From Verif Require Import Base Process ReadSeveral Drift SegmentsSpec.
Import ListNotations.
Open Scope Q_scope.

(** A power function with a relative error of 2^-52 at most. *)
Definition cubes (cube : Q -> Q) : Prop := forall x, Qabs (cube x - x ^ 3) <= Qabs (x ^ 3) * (1 # 4503599627370496).

(** A fit of a logger: times before the year 2065, clock values of up to 49 days, a clock that is off by 1000 s at most by the square
    and by the cubic term (the coefficient of the square is below 1 s per square ms). *)
Definition moderate (p : cubic) (x : Q) : Prop :=
  0 <= c0 p /\ c0 p <= 3000000000 /\ Qabs x <= 4294967296 /\ Qabs (c1 p * x) <= 8000000 /\ Qabs (c2 p) <= 1 /\ Qabs (c2 p * x ^ 2) <= 1000 /\ Qabs (c3 p * x ^ 3) <= 1000.
(** All lines of a header that contain the clock value have such a fit. *)
Definition moderate_header {S} (header : list (hrow hinfo S)) (x : Q) : Prop := forall h, In h (lines header) -> contains h x -> moderate (h_fit h) x.

(** Two microseconds. *)
Definition close_time (t u : option Q) : Prop :=
  match t, u with Some a, Some c => Qabs (a - c) <= 2 # 1000000 | None, None => True | _, _ => False end.
