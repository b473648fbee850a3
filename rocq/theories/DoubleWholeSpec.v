(** From raw files to traces in double precision. *)
From Coq Require Import ZArith QArith Qabs List.
From Verif Require Import Base Process ReadSeveral UnwrapSpec Drift SegmentsSpec DoubleSpec DoubleSeveralSpec.
Import ListNotations.
Open Scope Q_scope.

(** A fit spans the samples of its file: it begins and ends at samples. *)
Definition spans_samples {F} (drift : tables -> F -> bool -> hinfo + failure) : Prop :=
  forall L fn r h, data L <> [] -> drift L fn r = inl h -> In (h_start h) (map fst (data L)) /\ In (h_end h) (map fst (data L)).
(** Two fits with the same span, but for 10 nanoseconds, that give times within [eps] seconds of each other to the same clock value. *)
Definition alike_fit (eps : Q) (h' h : hinfo) : Prop :=
  Qabs (h_start h' - h_start h) <= tiny /\ Qabs (h_end h' - h_end h) <= tiny /\
  forall x' x, contains h x -> Qabs (x' - x) <= tiny -> Qabs (cubic_at (h_fit h') x' - cubic_at (h_fit h) x) <= eps.
(** Clock values that run forward, by a microsecond or more from sample to sample, from a positive one. *)
Definition forward (clock : list Q) : Prop := chain (fun x y => x + (1 # 1000) <= y) clock /\ Forall (fun x => 1 # 1000 < x) clock.
(** Times within [eps] of each other, NaN included. *)
Definition times_within (eps : Q) (t u : option Q) : Prop :=
  match t, u with Some a, Some c => Qabs (a - c) <= eps | None, None => True | _, _ => False end.
