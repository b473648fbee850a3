(** [_apply_fit] and [_apply_segments] as they are computed, in doubles: every sum and product is rounded by [rnd]; [cube] is the power
    [x ** 3] of the mathematical library.  The definitions are those of Segments.v otherwise, and cite the same lines of core.py. *)
From Coq Require Import QArith List Bool.
From Verif Require Import Base Process ReadSeveral Drift Segments.
Import ListNotations.
Open Scope Q_scope.

Section Double.
  Variable rnd cube : Q -> Q.

  (** [_apply_fit] (1233-1234); numpy computes [x ** 2] as [x * x]. *)
  Definition dapply_fit (x : Q) (h : hinfo) : Q :=
    rnd (rnd (rnd (c0 (h_fit h) + rnd (c1 (h_fit h) * x)) + rnd (c2 (h_fit h) * rnd (x * x))) + rnd (c3 (h_fit h) * cube x)).
  (** Lines 1240-1242; the comparisons are exact. *)
  Definition dapply_row {S} (x : Q) (y : option Q) (row : hrow hinfo S) : option Q :=
    let h := line row in
    if Qle_bool (h_start h) x && Qle_bool x (h_end h) then Some (dapply_fit x h) else y.
  (** [_apply_segments] (1236-1243) on one clock value. *)
  Definition dapply_segments {S} (header : list (hrow hinfo S)) (x : Q) : option Q := fold_left (dapply_row x) header None.
  (** Line 1266. *)
  Definition dtimed {S} (header : list (hrow hinfo S)) (D : list (Q * option Q)) : list (option Q * option Q) :=
    map (fun p => (dapply_segments header (fst p), snd p)) D.
End Double.
