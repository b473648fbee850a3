(** What a user may expect of the stream that is resampled in double precision. *)
From Coq Require Import ZArith QArith Qabs List.
From Verif Require Import Base UnwrapSpec DoubleSpec Interp InterpSpec.
Import ListNotations.
Open Scope Q_scope.

(** A time as the program has it: a double, between January 2004 and January 2065 (in seconds after 1970). *)
Definition instant (t : Q) : Prop := double t /\ inject_Z (2 ^ 30) <= t /\ t <= 3000000000.
Definition nearest_double (x y : Q) : Prop := double y /\ forall z, double z -> Qabs (y - x) <= Qabs (z - x).
(** Ten microseconds. *)
Definition tiny : Q := 1 # 100000.

(** The points in reach of a run, as in [around], with limits that are [tiny] off at most. *)
Definition roughly_around (s e : Q) (pts w : list (Q * option Q)) : Prop :=
  exists lo hi, Qabs (lo - (s - (11 # 1000))) <= tiny /\ Qabs (hi - (e + (9 # 1000))) <= tiny /\
    w = filter (fun p => Qle_bool lo (fst p) && Qle_bool (fst p) hi) pts.

(** [tr] is the resampling of [f] from [s] to [e]: as many samples as whole intervals of 0.01 s, with [tiny] tolerance; sample [k] is the
    rounded value of [f] at the double nearest to the time [m k] hundredths of a second, which is [s + 0.01 k] rounded to the grid; it starts
    at the first of these times; and if [s] is not within a thousandth of an interval of the middle of an interval, the times are one interval
    apart. *)
Definition dresampling (f : Q -> Q) (s e : Q) (tr : trace) : Prop :=
  let n := length (tr_data tr) in
  (1 <= n)%nat /\ inject_Z (Z.of_nat n) * (1 # 100) <= e - s + tiny /\ e - s < (inject_Z (Z.of_nat n) + 1) * (1 # 100) + tiny /\
  exists m : nat -> Z,
    (forall k, (k < n)%nat ->
       Qabs (inject_Z (m k) * (1 # 100) - (s + inject_Z (Z.of_nat k) * (1 # 100))) <= (1 # 200) + tiny /\
       exists g v, nearest_double (inject_Z (m k) * (1 # 100)) g /\ nth_error (tr_data tr) k = Some v /\ nearest (f g) v) /\
    nearest_double (inject_Z (m 0%nat) * (1 # 100)) (tr_start tr) /\
    ((forall z : Z, 1 # 1000 < Qabs (s * 100 - (inject_Z z + (1 # 2)))) -> forall k, (k < n)%nat -> m k = (m 0%nat + Z.of_nat k)%Z).

Section Spline.
  Variable spline : list (Q * option Q) -> option (Q -> Q).

  (** One trace for each run that has two different times and can be interpolated. *)
  Inductive dresampled (pts : list (Q * option Q)) : list (list Q) -> list trace -> Prop :=
  | dres_nil : dresampled pts [] []
  | dres_single r s e runs trs : begins r s -> finishes r e -> s == e ->
      dresampled pts runs trs -> dresampled pts (r :: runs) trs
  | dres_failed r s e w runs trs : begins r s -> finishes r e -> ~ s == e -> roughly_around s e pts w -> spline w = None ->
      dresampled pts runs trs -> dresampled pts (r :: runs) trs
  | dres_trace r s e w f tr runs trs : begins r s -> finishes r e -> ~ s == e -> roughly_around s e pts w -> spline w = Some f ->
      dresampling f s e tr -> dresampled pts runs trs -> dresampled pts (r :: runs) (tr :: trs).

  (** A run too short for one sample. *)
  Definition roughly_too_short (pts : list (Q * option Q)) (r : list Q) : Prop :=
    exists s e w f, begins r s /\ finishes r e /\ ~ s == e /\ roughly_around s e pts w /\ spline w = Some f /\ e - s < (1 # 100) + tiny.
End Spline.
