(** Day-by-day processing: gemlog/xcorr.py [loop_through_days] (181-282).

    Times are whole microseconds since the epoch, without leap seconds.  A trace is its identifier and its
    samples with their times, in order.  Simplifications: reading the headers of a file (197) succeeds exactly
    if reading the file (257) does, and gives the times of the first and last samples; samples of one channel
    do not overlap and have one sampling rate, so that [merge] (260) keeps all of them; the limits of [trim]
    (262) and [slice] (273) are on the sampling grid, so that they are not moved to the nearest sample. *)
From Coq Require Import String.
From Coq Require Import ZArith List Bool.
From Verif Require Import Base Stations Select Ids.
Import ListNotations.
Open Scope Z_scope.

Definition second : Z := 1000000.
Definition day : Z := 86400 * second.

(** 227, 238: [(t+86400+2).replace(hour=0, minute=0, second=0)], which keeps the microseconds. *)
Definition next_midnight (t : Z) : Z :=
  let u := t + day + 2 * second in u / day * day + u mod second.

(** 225-231 and 234-243: [first], then further times while before [t2]. *)
Fixpoint times_before (fuel : nat) (t2 first : Z) : list Z :=
  first :: (let n := next_midnight first in
            if n <? t2 then match fuel with O => [] | S k => times_before k t2 n end else []).
Definition enough (t1 t2 : Z) : nat := S (S (Z.to_nat ((t2 - t1) / day))).
Definition day_starts (t1 t2 : Z) : list Z := times_before (enough t1 t2) t2 t1.
Definition day_ends (t1 t2 : Z) : list Z := times_before (enough t1 t2) t2 (t1 + day) ++ [t2].
(** 249. *)
Definition day_windows (t1 t2 : Z) : list (Z * Z) := combine (day_starts t1 t2) (day_ends t1 t2).

Section Days.
  Variables V R : Type.
  Definition trace := (bytes * list (Z * V))%type.
  Definition t_first (tr : trace) : Z := hd 0 (map fst (snd tr)).
  Definition t_last (tr : trace) : Z := last (map fst (snd tr)) 0.

  (** What [obspy.read] returns for a file; [None]: an exception. *)
  Variable fs : bytes -> option (list trace).
  Definition content (n : bytes) : list trace := match fs n with Some l => l | None => [] end.

  (** A line of the table of traces: file, identifier, first and last time. *)
  Record row := mkrow { r_file : bytes; r_id : bytes; r_t1 : Z; r_t2 : Z }.
  (** 192-207; unreadable files are skipped. *)
  Definition metadata (files : list bytes) : list row :=
    flat_map (fun n => map (fun tr => mkrow n (fst tr) (t_first tr) (t_last tr)) (content n)) files.

  (** 215-217. *)
  Definition fits (t1 t2 : Z) (ids : list bytes) (r : row) : bool :=
    (t1 <=? r_t2 r) && (r_t1 r <=? t2) && existsb (eqb_bytes (r_id r)) ids.

  (** 262, 273: the samples from [a] to [z]; traces left without samples are dropped. *)
  Definition cut (a z : Z) (tr : trace) : trace := (fst tr, filter (fun s => (a <=? fst s) && (fst s <=? z)) (snd tr)).
  Definition has_samples (tr : trace) : bool := match snd tr with [] => false | _ => true end.
  Definition trim (a z : Z) (st : list trace) : list trace := filter has_samples (map (cut a z) st).

  (** 255-258: files are read once. *)
  Fixpoint read_new (names read : list bytes) (st : list trace) : list bytes * list trace :=
    match names with
    | [] => (read, st)
    | n :: r => if existsb (eqb_bytes n) read then read_new r read st else read_new r (read ++ [n]) (st ++ content n)
    end.

  Variable f : list trace -> option R.
  (** 246-277: the outputs of the days on which [f] did not raise. *)
  Fixpoint loop (rows : list row) (ids : list bytes) (t2 : Z) (ws : list (Z * Z)) (read : list bytes) (st : list trace) : list R :=
    match ws with
    | [] => []
    | (a, z) :: ws =>
        let names := map r_file (filter (fun r => (r_t1 r <=? z) && (a <=? r_t2 r)) rows) in
        let '(read, st) := read_new names read st in
        let st := filter (fun tr => existsb (eqb_bytes (fst tr)) ids) (trim a t2 st) in
        let out := loop rows ids t2 ws read st in
        match f (trim a z st) with Some o => o :: out | None => out end
    end.

  Variable search : bytes -> bytes -> option bool.
  (** 181-282.  [None]: an exception; the empty list is Python's [None], otherwise the outputs are joined (282). *)
  Definition loop_through_days (files : list bytes) (t1 t2 : Z) (ids excl : option (list bytes)) : option (list R) :=
    match metadata files with
    | [] => None                                                         (* 193, 209-222 *)
    | r0 :: more =>
        let t1 := Z.max t1 (fold_left Z.min (map r_t1 more) (r_t1 r0)) in    (* 209 *)
        let t2 := Z.min t2 (fold_left Z.max (map r_t2 more) (r_t2 r0)) in    (* 210 *)
        match channels search (map r_id (r0 :: more)) ids excl with
        | None => None
        | Some ids =>
            match sort_by (fun x y => r_t1 x <=? r_t1 y) (filter (fits t1 t2 ids) (r0 :: more)) with
            | [] => None                                                 (* 221-222 *)
            | rows => if t2 <? t1 then None                              (* 262: [trim] *)
                      else Some (loop rows ids t2 (day_windows t1 t2) [] [])
            end
        end
    end.
End Days.
Arguments t_first {V}. Arguments t_last {V}. Arguments content {V}. Arguments metadata {V}. Arguments cut {V}.
Arguments has_samples {V}. Arguments trim {V}. Arguments read_new {V}. Arguments loop {V R}. Arguments loop_through_days {V R}.
