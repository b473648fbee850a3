(** What a user may expect of joining the files of a day. *)
From Coq Require Import String.
From Coq Require Import ZArith List Bool.
From Verif Require Import Base Stream.
Import ListNotations.
Open Scope Z_scope.

(** The base name of a file: a day, a time of day, and a rest after the first dot. *)
Definition named (day rest name : bytes) : Prop :=
  exists time, name = day ++ time ++ b "." ++ rest /\ (time = [] \/ exists t, time = b "T" ++ t) /\
    ~ In 46 (day ++ time) /\ ~ In 84 day /\ ~ In 44 name.
Definition visible (name : bytes) : Prop := forall r, name <> b "." ++ r.

(** The network code: what comes before the first dot of the rest. *)
Definition network (rest code : bytes) : Prop := exists t, rest = code ++ b "." ++ t /\ ~ In 46 code.

(** Names of the same shape: days of the same length, the same number of dots, and network codes of the same
    length. *)
Definition same_shape (names : list bytes) : Prop :=
  exists d n c, forall name, In name names -> visible name /\ exists day rest code,
    named day rest name /\ length day = d /\ count_occ Z.eq_dec rest 46 = n /\ network rest code /\ length code = c.

(** Sample of a trace. *)
Definition value_at (tr : gtrace) (k v : Z) : Prop := exists i, nth_error (gd tr) i = Some v /\ k = gs tr + Z.of_nat i.

(** Joining: from the earliest start to the latest end; at each time the value is that of the trace which
    reaches furthest among those that have started (the one that started first, if several do), or its last
    value if it has ended. *)
Definition furthest (ts : list gtrace) (k : Z) (t : gtrace) : Prop :=
  In t ts /\ gs t <= k /\ forall t', In t' ts -> gs t' <= k -> gend t' < gend t \/ (gend t' = gend t /\ gs t <= gs t').
Definition joined (ts : list gtrace) (r : gtrace) : Prop :=
  (exists t, In t ts /\ gs r = gs t) /\ (exists t, In t ts /\ gend r = gend t) /\
  (forall t, In t ts -> gs r <= gs t /\ gend t <= gend r) /\
  (forall k, gs r <= k <= gend r -> exists v, value_at r k v) /\
  (forall k v, value_at r k v -> exists t, furthest ts k t /\ value_at t (Z.min k (gend t)) v).
