(** What a user may expect of converting a card whose recordings have pauses between them, because the logger was switched
    off and on again: its counter starts anew. *)
From Coq Require Import ZArith QArith List.
From Verif Require Import Base UnwrapSpec Process Drift DriftSpec InterpSpec ParserSpec RecordingSpec CardSpec.
Import ListNotations.
Open Scope Q_scope.

(** If the fields of a GPS line are a plausible fix, its year is 2015 or later and it is not on the equator or the prime
    meridian (where fixes are not trusted). *)
Definition sound_fix (fs : list field) : Prop :=
  forall t, says_fix fs t ->
    exists lag y mo d h mi s la lo, fs = [lag; y; mo; d; h; mi; s; la; lo] /\
      2015 <= field_value y /\ ~ field_value la == 0 /\ ~ field_value lo == 0.
Definition sound_line (r : ParserSpec.record) : Prop := match r with Full_G (_ :: fs) _ => sound_fix fs | _ => True end.
(** A raw file in which the events are written down, with such fixes only. *)
Definition sound_text (evs : list event) (bs : bytes) : Prop :=
  exists rs last, bs = file (map record_text rs) (record_text last) /\
    Forall record_ok (rs ++ [last]) /\ Forall (fun r => ok_line (record_text r)) (rs ++ [last]) /\
    writes None evs (rs ++ [last]) /\ (Z.of_nat (length evs) <= 65520000)%Z /\ Forall sound_line (rs ++ [last]).

(** Consecutive samples: at most 25 ms apart. *)
Definition follows (t t' : Q) : Prop := 0 < t' - t /\ t' - t <= 25 # 1000.

(** Sample times in stretches: each lasts 0.1 s or more, and in a stretch the times are at most 25 ms apart. *)
Definition stretch (ts : list Q) : Prop :=
  ts <> [] /\ chain follows ts /\ forall s e, begins ts s -> finishes ts e -> 1 # 10 <= e - s.
Definition in_stretches (ts : list Q) : Prop := exists l, ts = concat l /\ Forall stretch l.

(** A recording that can be used by itself, at time [now]: it consists of stretches, with gaps of up to 1000 counts between
    them; its counts are within 0.01 % of 1.024 ms; its fixes are sound, at most a day apart, and not in the future,
    and the first two are exact. *)
Record usable_alone (now : Q) (r : recording) : Prop := {
  ua_steady : steady_within 1000 (r_clock r) (r_events r);
  ua_stretches : in_stretches (map fst (wave r));
  ua_rate : (9999 # 10) * c1 (r_clock r) <= 1024 # 1000 /\ 1024 # 1000 <= (10001 # 10) * c1 (r_clock r);
  ua_fixes : sound_text (r_events r) (r_bytes r);
  ua_past : forall c t, In (c, t) (fixes_of (r_events r)) -> inject_Z t <= now;
  ua_daily : chain (fun f g => (snd g - snd f <= 86400)%Z) (fixes_of (r_events r));
  ua_first : exact_fixes (r_clock r) (firstn 2 (fixes_of (r_events r))) }.

(** Recordings one after the other, with or without pauses: their samples, and their GPS seconds, are in time order; and
    the counter of none begins at the last reading of the one before. *)
Definition in_turn (now : Q) (recs : list recording) : Prop :=
  Forall (usable_alone now) recs /\
  chain (fun r r' => apart (r_events r) (r_events r')) recs /\
  chain Z.lt (flat_map (fun r => map snd (fixes_of (r_events r))) recs) /\
  chain Qlt (map fst (record recs)).

(** A time among sample times that comes after a pause, or is the first. *)
Definition after_pause (ts : list Q) (t : Q) : Prop :=
  exists p q, ts = p ++ t :: q /\ forall p' u, p = p' ++ [u] -> ~ follows u t.
(** No sample of the recordings that comes after a pause is exactly half-way between two grid times. *)
Definition begins_plainly (recs : list recording) : Prop :=
  forall t, after_pause (map fst (record recs)) t -> forall m : Z, ~ t * 100 == inject_Z m + (1 # 2).

(** The start time [T] of the conversion, in units of 0.01 s: the one that is given, or the first whole second of a record
    that begins at [s1] seconds. *)
Definition starts_at (s1 : Q) (t1 : option Q) (T : Q) : Prop :=
  match t1 with
  | Some t => T = t
  | None => (exists q, T == inject_Z (100 * q)) /\ s1 * 100 - (1 # 2) <= T /\ T <= s1 * 100 + (201 # 2)
  end.
(** The record lasts from [s1] to [e1].  A start time that is given must be 35 ms or more before its end; if none is given, it must
    last 1.04 s or more, so that a whole second is among it. *)
Definition can_start (s1 e1 : Q) (t1 : option Q) : Prop :=
  match t1 with Some t => 0 <= t /\ t * (1 # 100) <= e1 - (35 # 1000) | None => 104 # 100 <= e1 - s1 end.
