(** What a user may expect of the resampled stream. *)
From Coq Require Import ZArith QArith Qabs List.
From Verif Require Import Base UnwrapSpec Interp.
Import ListNotations.
Open Scope Q_scope.

(** The times of the samples that have one, and those samples. *)
Definition points (rows : list (option Q * option Q)) (pts : list (Q * option Q)) : Prop :=
  map (fun p => (Some (fst p), snd p)) pts = filter (fun r => match fst r with Some _ => true | None => false end) rows.

(** A break between consecutive times [x], [y] of a record from [a] to [z]: over 25 ms or backwards, and
    neither at the beginning nor at the end of the record. *)
Definition break (a z x y : Q) : Prop := ((25 # 1000) < y - x \/ y < x) /\ a < x /\ y < z.

Definition begins (l : list Q) (x : Q) : Prop := hd_error l = Some x.
Definition finishes (l : list Q) (x : Q) : Prop := exists l', l = l' ++ [x].

(** [runs] are the parts of [ts] between breaks. *)
Definition runs_of (ts : list Q) (runs : list (list Q)) : Prop :=
  concat runs = ts /\
  exists a z, begins ts a /\ finishes ts z /\
    Forall (fun r => r <> [] /\ chain (fun x y => ~ break a z x y) r) runs /\
    chain (fun r r' => forall x y, finishes r x -> begins r' y -> break a z x y) runs.

(** The points in reach of a run from [s] to [e]. *)
Definition around (s e : Q) (pts : list (Q * option Q)) : list (Q * option Q) :=
  filter (fun p => Qle_bool (s - (11 # 1000)) (fst p) && Qle_bool (fst p) (e + (9 # 1000))) pts.

Definition on_grid (t : Q) : Prop := exists k : Z, t * 100 == inject_Z k.
(** Nearest integer; halves either way. *)
Definition nearest (x : Q) (n : Z) : Prop := Qabs (x - inject_Z n) <= 1 # 2.

(** The time of sample [k] of a trace. *)
Definition time_of (tr : trace) (k : nat) : Q := tr_start tr + inject_Z (Z.of_nat k) * (1 # 100).

(** [tr] is the resampling of the interpolant [f] of a run from [s] to [e]: as many samples as whole
    intervals of 0.01 s, at least one; each is the rounded value of [f] at a time on the grid at most half
    an interval from [s], [s + 0.01], [s + 0.02] ...; it starts at the first of these times. *)
Definition resampling (f : Q -> Q) (s e : Q) (tr : trace) : Prop :=
  let n := length (tr_data tr) in
  (1 <= n)%nat /\ inject_Z (Z.of_nat n) * (1 # 100) <= e - s /\ e - s < (inject_Z (Z.of_nat n) + 1) * (1 # 100) /\
  exists g : nat -> Q,
    (forall k, (k < n)%nat -> on_grid (g k) /\ Qabs (g k - (s + inject_Z (Z.of_nat k) * (1 # 100))) <= 1 # 200 /\
       exists v, nth_error (tr_data tr) k = Some v /\ nearest (f (g k)) v) /\
    tr_start tr = g 0%nat.

Section Spline.
  Variable spline : list (Q * option Q) -> option (Q -> Q).

  (** One trace for each run that has two different times and can be interpolated. *)
  Inductive resampled (pts : list (Q * option Q)) : list (list Q) -> list trace -> Prop :=
  | res_nil : resampled pts [] []
  | res_single r s e runs trs : begins r s -> finishes r e -> s == e ->
      resampled pts runs trs -> resampled pts (r :: runs) trs
  | res_failed r s e runs trs : begins r s -> finishes r e -> ~ s == e -> spline (around s e pts) = None ->
      resampled pts runs trs -> resampled pts (r :: runs) trs
  | res_trace r s e f tr runs trs : begins r s -> finishes r e -> ~ s == e -> spline (around s e pts) = Some f ->
      resampling f s e tr -> resampled pts runs trs -> resampled pts (r :: runs) (tr :: trs).

  (** A run too short for one sample. *)
  Definition too_short (pts : list (Q * option Q)) (r : list Q) : Prop :=
    exists s e f, begins r s /\ finishes r e /\ ~ s == e /\ spline (around s e pts) = Some f /\ e - s < 1 # 100.

  (** What is used of cubic splines: one exists for two or more values at increasing times, and it takes
      these values. *)
  Definition spline_contract : Prop :=
    forall pts, (2 <= length pts)%nat -> chain Qlt (map fst pts) -> Forall (fun p => snd p <> None) pts ->
      exists f, spline pts = Some f /\ forall t v x, In (t, Some v) pts -> x == t -> f x == v.
End Spline.
