(** What a user may expect of the commands that find lags and directions. *)
From Coq Require Import String.
From Coq Require Import ZArith QArith List.
From Verif Require Import Base.
Import ListNotations.
Open Scope Z_scope.

(** No file other than [n] differs. *)
Definition only (n : bytes) (st st' : bytes -> option bytes) : Prop := forall m, m <> n -> st' m = st m.
(** The file holds the beginning of the text, or all of it. *)
Definition begun (st : bytes -> option bytes) (n text : bytes) : Prop := exists p r, st n = Some p /\ text = p ++ r.

(** A table with columns of one length. *)
Definition has_lines (n : nat) (d : list (bytes * list (option Q))) : Prop := Forall (fun kc => length (snd kc) = n) d.

(** Station [j] follows [i] in the list, the first one follows the last one. *)
Definition follows (ids : list bytes) (i j : bytes) : Prop :=
  (exists l r, ids = l ++ i :: j :: r) \/ (exists l r, ids = l ++ [i] /\ ids = j :: r).

(** The code of a channel is network.station.location.channel, and its place network.station.location. *)
Definition at_place (code id : bytes) : Prop :=
  exists net sta loc cha, (forall p, In p [net; sta; loc; cha] -> ~ In 46 p) /\
    code = net ++ b "." ++ sta ++ b "." ++ loc ++ b "." ++ cha /\ id = net ++ b "." ++ sta ++ b "." ++ loc.

(** The same up to the way rational numbers are written. *)
Definition same_vector (x y : Q * Q) : Prop := (fst x == fst y /\ snd x == snd y)%Q.

(** One table below the other: every column any of them has, in order of first appearance; nothing where a table
    does not have the column. *)
Definition lines_in (d : list (bytes * list (option Q))) : nat := match d with [] => O | kc :: _ => length (snd kc) end.
Definition part_from (k : bytes) (d : list (bytes * list (option Q))) (x : list (option Q)) : Prop :=
  In (k, x) d \/ ~ In k (map fst d) /\ x = repeat None (lines_in d).
