(** Model of gemlog/core.py [_apply_fit] (1233-1234) and [_apply_segments] (1236-1243): sample times from
    the header table, in which the lines of rejected files keep the zeros of [_make_empty_header] (1490-1508). *)
From Coq Require Import QArith List Bool.
From Verif Require Import Base Process ReadSeveral Drift.
Import ListNotations.
Open Scope Q_scope.

(** [_apply_fit] (1233-1234). *)
Definition apply_fit (x : Q) (h : hinfo) : Q :=
  c0 (h_fit h) + c1 (h_fit h) * x + c2 (h_fit h) * (x * x) + c3 (h_fit h) * (x * x * x).

(** The numbers of a header line; a line that was never filled in is all zeros (1490-1508). *)
Definition blank : hinfo := mkhi 0 0 (mkcubic 0 0 0 0) 0%nat 0%nat (Some 0).
Definition line {S} (row : hrow hinfo S) : hinfo := match h_info row with Some h => h | None => blank end.

(** Lines 1240-1242: the rows apply in order, so a later row overwrites an earlier one; [None] is NaN. *)
Definition apply_row {S} (x : Q) (y : option Q) (row : hrow hinfo S) : option Q :=
  let h := line row in
  if Qle_bool (h_start h) x && Qle_bool x (h_end h) then Some (apply_fit x h) else y.

(** [_apply_segments] (1236-1243) on one clock value. *)
Definition apply_segments {S} (header : list (hrow hinfo S)) (x : Q) : option Q :=
  fold_left (apply_row x) header None.

(** Line 1266: the times of the sample column, with the samples. *)
Definition timed {S} (header : list (hrow hinfo S)) (D : list (Q * option Q)) : list (option Q * option Q) :=
  map (fun p => (apply_segments header (fst p), snd p)) D.
