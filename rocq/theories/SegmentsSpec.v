(** What a user may expect of the sample times computed from the header table. *)
From Coq Require Import QArith Qabs List.
From Verif Require Import Base UnwrapSpec Process ReadSeveral Drift.
Import ListNotations.
Open Scope Q_scope.

(** The time that a cubic gives to a clock value. *)
Definition cubic_at (p : cubic) (x : Q) : Q := c0 p + c1 p * x + c2 p * x ^ 2 + c3 p * x ^ 3.

(** The span of a fitted file contains a clock value. *)
Definition contains (h : hinfo) (x : Q) : Prop := h_start h <= x <= h_end h.

(** The fitted spans of a header, in order. *)
Definition spans {S} (header : list (hrow hinfo S)) : list hinfo :=
  flat_map (fun row => match h_info row with Some h => [h] | None => [] end) header.

(** The spans and cubics of all the lines of a header, in order: the line of a rejected file reads zero
    throughout, so it spans the clock value 0 alone and gives it the time 0. *)
Definition zero_line : hinfo := mkhi 0 0 (mkcubic 0 0 0 0) 0%nat 0%nat (Some 0).
Definition lines {S} (header : list (hrow hinfo S)) : list hinfo :=
  map (fun row => match h_info row with Some h => h | None => zero_line end) header.

(** [h] is the last span that contains [x]. *)
Definition last_containing (hs : list hinfo) (x : Q) (h : hinfo) : Prop :=
  exists before after, hs = before ++ h :: after /\ contains h x /\ Forall (fun h' => ~ contains h' x) after.

(** Equal times, NaN included. *)
Definition same_time (a b : option Q) : Prop :=
  match a, b with Some x, Some y => x == y | None, None => True | _, _ => False end.

(** The fit does not decrease (increases) over its span. *)
Definition rises (h : hinfo) : Prop :=
  forall x y, contains h x -> contains h y -> x < y -> cubic_at (h_fit h) x < cubic_at (h_fit h) y.

(** [h'] takes over after [h] ends, and not earlier in time. *)
Definition takes_over (h h' : hinfo) : Prop :=
  h_end h < h_start h' /\ cubic_at (h_fit h) (h_end h) < cubic_at (h_fit h') (h_start h').
