(** A logger that stood in one place for nearly all of the time, and elsewhere now and then. *)
From Coq Require Import ZArith QArith Qabs List Bool.
Import ListNotations.
Open Scope Q_scope.

(** The place: bounds of latitude and of longitude that are less than 0.00005 degrees (5.5 m or less) apart. *)
Record site := mksite { lat0 : Q; lat1 : Q; lon0 : Q; lon1 : Q }.
Definition small (s : site) : Prop :=
  lat0 s <= lat1 s /\ lat1 s - lat0 s < 5 # 100000 /\ lon0 s <= lon1 s /\ lon1 s - lon0 s < 5 # 100000.
Definition at_site (s : site) (p : Q * Q) : Prop := lat0 s <= fst p <= lat1 s /\ lon0 s <= snd p <= lon1 s.
(** Less than 0.0021 degrees (about 230 m) off in latitude and in longitude. *)
Definition about_site (s : site) (p : Q * Q) : Prop :=
  (lat0 s - (21 # 10000) < fst p < lat1 s + (21 # 10000)) /\ (lon0 s - (21 # 10000) < snd p < lon1 s + (21 # 10000)).
