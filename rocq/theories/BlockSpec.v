(** What a user may expect of reading a block of raw files, from the bytes to the resampled waveforms. *)
From Coq Require Import String.
From Coq Require Import ZArith QArith Qabs List.
From Verif Require Import Base UnwrapSpec Process ReadSeveral Drift SegmentsSpec Interp InterpSpec Select SelectSpec.
Import ListNotations.
Open Scope Q_scope.

(** The files read for the numbers [nums]: all readable ones by number, without those at the beginning that
    have no readable format line; [v] is the format of the first. *)
Definition files_of (d : list entry) (sn : bytes) (nums : list Z) (v : bytes) (fl : list entry) : Prop :=
  exists before f rest, fl = f :: rest /\
    (forall g, In g (before ++ fl) <-> In g d /\ readable sn nums g) /\ (NoDup d -> NoDup (before ++ fl)) /\
    chain (fun g h => forall n m x y, named (e_name g) n x -> named (e_name h) m y -> (n <= m)%Z) (before ++ fl) /\
    (forall g, In g before -> e_version g = None) /\ e_version f = Some v.

(** The samples of the joined files with their times: those of the last header line that spans them (C19). *)
Definition timed_by {F S} (out : joined F hinfo S) (pts : list (Q * option Q)) : Prop :=
  Forall2 (fun p q => snd q = snd p /\
             exists h, last_containing (lines (jheader out)) (fst p) h /\ fst q == cubic_at (h_fit h) (fst p))
          (jdata out) pts.

(** The times of the state-of-health rows: likewise, and none if no line spans them. *)
Definition meta_timed {F S} (out : joined F hinfo S) (ms : list (option Q * list (option Q))) : Prop :=
  Forall2 (fun p q => snd q = snd p /\
             match fst q with
             | Some t => exists h, last_containing (lines (jheader out)) (fst p) h /\ t == cubic_at (h_fit h) (fst p)
             | None => Forall (fun h => ~ contains h (fst p)) (lines (jheader out))
             end)
          (jmeta out) ms.

(** The value [v] at time [k] (in units of 0.01 s) comes from the timed samples [pts]: there is a run of them,
    between two breaks, that [k] lies in, and [v] is the nearest integer to its interpolant at this time (up to one
    interval aside if the run begins exactly half-way between two grid times). *)
Definition explained (spline : list (Q * option Q) -> option (Q -> Q)) (pts : list (Q * option Q)) (k v : Z) : Prop :=
  exists runs r s e f g,
    runs_of (map fst pts) runs /\ In r runs /\ begins r s /\ finishes r e /\
    spline (around s e pts) = Some f /\
    s - (1 # 200) <= inject_Z k * (1 # 100) <= e - (1 # 200) /\
    on_grid g /\ Qabs (g - inject_Z k * (1 # 100)) <= 1 # 100 /\ nearest (f g) v /\
    ((forall m : Z, ~ s * 100 == inject_Z m + (1 # 2)) -> g == inject_Z k * (1 # 100)).
