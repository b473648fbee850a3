(** What a user may expect of merging and converting a card with pauses. *)
From Coq Require Import String.
From Coq Require Import ZArith QArith List.
From Verif Require Import Base UnwrapSpec Process Drift DriftSpec InterpSpec ParserSpec GemCatSpec SelectSpec RecordingSpec CardSpec PausesSpec MergeSpec.
Import ListNotations.
Open Scope Q_scope.

(** As [in_lines], and the fixes in the file are sound. *)
Definition sound_lines (r : recording) : Prop :=
  exists f, r_bytes r = content f /\ well_formed f /\ writes None (r_events r) (lines_of f) /\ (line_count [f] <= 65519999)%Z /\
    (~ exists rest, r_bytes r = b "#GemCSV0.91" ++ rest) /\ Forall sound_line (lines_of f).

(** Recordings of which the events can be used, at time [now], whatever the files look like: as [usable_alone] but for
    the text of the file. *)
Record timely (now : Q) (r : recording) : Prop := {
  ti_steady : steady_within 1000 (r_clock r) (r_events r);
  ti_stretches : in_stretches (map fst (wave r));
  ti_rate : (9999 # 10) * c1 (r_clock r) <= 1024 # 1000 /\ 1024 # 1000 <= (10001 # 10) * c1 (r_clock r);
  ti_past : forall c t, In (c, t) (fixes_of (r_events r)) -> inject_Z t <= now;
  ti_daily : chain (fun f g => (snd g - snd f <= 86400)%Z) (fixes_of (r_events r));
  ti_first : exact_fixes (r_clock r) (firstn 2 (fixes_of (r_events r))) }.

(** Groups one after the other, with or without pauses: as [in_turn]. *)
Definition groups_in_turn (now : Q) (groups : list (list recording)) : Prop :=
  let recs := map together groups in
  Forall (timely now) recs /\
  chain (fun r r' => apart (r_events r) (r_events r')) recs /\
  chain Z.lt (flat_map (fun r => map snd (fixes_of (r_events r))) recs) /\
  chain Qlt (map fst (record recs)).
