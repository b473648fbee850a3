(** What the instrument response should be. *)
From Coq Require Import String.
From Coq Require Import ZArith QArith List Bool.
From Verif Require Import Base Response SpecsSpec.
Import ListNotations.
Open Scope Z_scope.

(** Where a response file is looked for: in the package's folder for its kind, unless its name is a full path. *)
Definition located (folder kind name path : bytes) : Prop :=
  (exists r, name = 47 :: r /\ path = name) \/ ((forall r, name <> 47 :: r) /\ path = folder ++ [47] ++ kind ++ [47] ++ name).
(** The name to use: the given one, or the standard one if none is given. *)
Definition or_standard (given standard name : bytes) : Prop := (given = [] /\ name = standard) \/ (given <> [] /\ name = given).
Definition valid_gain (g : bytes) : Prop := same_word g (b "high") \/ same_word g (b "low").

(** The response of sensor and logger together: the sensor's first stage, then the stages of the logger after its first.
    The sensitivity is the product of the sensor's and the digitizer's gain (the third stage), times the gain at 0.05 Hz of a
    high-pass filter of first order with corner at 0.039 Hz: with r = 0.05/0.039 its square is r^2/(1+r^2). *)
Definition combined (sensor logger rs : response) : Prop :=
  exists s0 srest l0 g1 g2 rest,
    rs_stages sensor = s0 :: srest /\ rs_stages logger = l0 :: g1 :: g2 :: rest /\
    rs_stages rs = s0 :: g1 :: g2 :: rest /\ rs_units rs = sg_units s0 /\
    let r := (50 # 39)%Q in
    (rs_value2 rs == (sg_gain s0 * sg_gain g2) * (sg_gain s0 * sg_gain g2) * (r * r / (1 + r * r)))%Q.

(** The product of the gains of all stages: counts per pascal where the filters are flat. *)
Definition counts_per_pascal (rs : response) : Q := fold_right Qmult 1%Q (map sg_gain (rs_stages rs)).
(** Removing the response there. *)
Definition remove_flat (rs : response) (counts : list Q) : option (list Q) := Some (map (fun c => (c / counts_per_pascal rs)%Q) counts).
