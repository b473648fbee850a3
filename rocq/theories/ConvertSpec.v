(** What a user may expect of a conversion. *)
From Coq Require Import ZArith QArith List.
From Verif Require Import UnwrapSpec Stream StreamSpec Convert.
Import ListNotations.
Open Scope Q_scope.

Section Spec.
  Variables M G P : Type.

  (** The parts of a history: blocks offered for reading, log rows, output files. *)
  Definition reads (h : list (event M G)) : list (list Z) := flat_map (fun e => match e with Read b => [b] | _ => [] end) h.
  Definition metas (h : list (event M G)) : list M := flat_map (fun e => match e with Meta r => r | _ => [] end) h.
  Definition gpss (h : list (event M G)) : list (list G) := flat_map (fun e => match e with Gps r => [r] | _ => [] end) h.
  Definition written (h : list (event M G)) : stream := flat_map (fun e => match e with Write tr => [tr] | _ => [] end) h.

  (** What a block of files gives: nothing if it cannot be read or has no samples. *)
  Definition data_of (o : outcome M G P) : stream := match o with Block st _ _ _ => st | _ => [] end.
  Definition meta_of (o : outcome M G P) : list M := match o with Block (_ :: _) m _ _ => m | _ => [] end.
  Definition gps_of (o : outcome M G P) : list (list G) := match o with Block (_ :: _) _ g _ => [g] | _ => [] end.
  Definition problems_of (o : outcome M G P) : list P := match o with Block (_ :: _) _ _ pb => pb | _ => [] end.
End Spec.
Arguments reads {M G}.
Arguments metas {M G}.
Arguments gpss {M G}.
Arguments written {M G}.
Arguments data_of {M G P}.
Arguments meta_of {M G P}.
Arguments gps_of {M G P}.
Arguments problems_of {M G P}.

(** [blocks] divides [nums] (all of them, in order) in ranges of [per] numbers each, counted from the first. *)
Definition divided (nums : list Z) (per : Q) (blocks : list (list Z)) : Prop :=
  nums <> [] /\ concat blocks = nums /\ last blocks [] <> [] /\
  forall i bl n, nth_error blocks i = Some bl -> In n bl ->
    inject_Z (Z.of_nat i) * per <= inject_Z (n - hd 0%Z nums) /\ inject_Z (n - hd 0%Z nums) < (inject_Z (Z.of_nat i) + 1) * per.

(** One file inside one window of length [len], counted from the epoch. *)
Definition in_window (len : Q) (tr : gtrace) : Prop :=
  exists m : Z, inject_Z m * len <= inject_Z (gs tr) /\ inject_Z (gend tr) < (inject_Z m + 1) * len.

(** [T] is the first whole second (a multiple of 100 sampling intervals) not before the first sample. *)
Definition first_second (st : stream) (T : Z) : Prop :=
  (exists q, T = 100 * q)%Z /\
  exists k v, sample st k v /\ (forall l w, sample st l w -> k <= l)%Z /\ (k <= T < k + 100)%Z.

(** The trace has a sample at time [k]. *)
Definition holds_time (tr : gtrace) (k : Z) : Prop := (gs tr <= k <= gend tr)%Z.

Section Whole.
  Context {M G P : Type}.
  Variable read_gem : list Z -> outcome M G P.

  (** Everything the blocks contain. *)
  Definition all_of {A} (part : outcome M G P -> list A) (blocks : list (list Z)) : list A :=
    flat_map (fun bl => part (read_gem bl)) blocks.

  (** A conversion of everything: file numbers divided in blocks of [12 * blockdays], files of [f] samples,
      no unexpected exception while reading, all traces of all blocks in time order without overlap and after
      the epoch, and an end time [t2] at least a block, a file and two seconds after the last sample. *)
  Definition whole_conversion (nums : list Z) (blockdays : Q) (f : Z) (t2 : Q) (blocks : list (list Z)) : Prop :=
    0 < blockdays /\ (0 < f)%Z /\ divided nums (12 * blockdays) blocks /\
    (forall bl, In bl blocks -> read_gem bl <> Raises) /\
    in_order (all_of data_of blocks) /\
    (forall k v, sample (all_of data_of blocks) k v ->
       (0 <= k)%Z /\ inject_Z k + day * blockdays + inject_Z f + 200 <= t2).
End Whole.
