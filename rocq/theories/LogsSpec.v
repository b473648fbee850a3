(** What a user may expect of the GPS log and the state-of-health log that a conversion of a card writes. *)
From Coq Require Import ZArith QArith List.
From Verif Require Import Base Calendar UnwrapSpec Process Drift DriftSpec SegmentsSpec InterpSpec ParserSpec Breaks RecordingSpec CardSpec PausesSpec.
Import ListNotations.
Open Scope Q_scope.

(** A GPS fix: its second, latitude and longitude. *)
Definition place : Type := Z * (Q * Q).
(** A state-of-health reading: the counter, and the numbers that are written down. *)
Definition health : Type := Q * list Q.

(** The fixes and the state-of-health readings among the events, with the numbers in the lines that say so. *)
Inductive noted : list event -> list ParserSpec.record -> list place -> list health -> Prop :=
| n_nil : noted [] [] [] []
| n_other l evs rs ps hs : noted evs rs ps hs -> noted evs (Other l :: rs) ps hs
| n_full c d ms a x evs rs ps hs : noted evs rs ps hs -> noted (Sample c d :: evs) (Full_D ms a x :: rs) ps hs
| n_two c d dev diff x evs rs ps hs : noted evs rs ps hs -> noted (Sample c d :: evs) (Compact2 dev diff x :: rs) ps hs
| n_one c d diff x evs rs ps hs : noted evs rs ps hs -> noted (Sample c d :: evs) (Compact1 diff x :: rs) ps hs
| n_fix c t f lag y mo d h mi s la lo x evs rs ps hs : noted evs rs ps hs ->
    noted (Fix c t :: evs) (Full_G [f; lag; y; mo; d; h; mi; s; la; lo] x :: rs) ((t, (field_value la, field_value lo)) :: ps) hs
| n_no_fix c f fs x evs rs ps hs : noted evs rs ps hs -> noted (No_fix c :: evs) (Full_G (f :: fs) x :: rs) ps hs
| n_health c f fs x evs rs ps hs : noted evs rs ps hs ->
    noted (Health c :: evs) (Full_M (f :: fs) x :: rs) ps ((c, map field_value fs) :: hs).

(** The events are written down in these bytes, with these fixes and readings. *)
Definition noted_text (evs : list event) (bs : bytes) (ps : list place) (hs : list health) : Prop :=
  exists rs last, bs = file (map record_text rs) (record_text last) /\
    Forall record_ok (rs ++ [last]) /\ Forall (fun r => ok_line (record_text r)) (rs ++ [last]) /\
    writes None evs (rs ++ [last]) /\ (Z.of_nat (length evs) <= 65520000)%Z /\ noted evs (rs ++ [last]) ps hs.

(** A row of the GPS log: the coordinates of the fix and its time, which is also given as year and day of the year (from 1,
    with its fraction). *)
Definition place_row (p : place) (row : position) : Prop :=
  p_t row = fst p /\
  (exists la, p_lat row = Some la /\ la == fst (snd p)) /\ (exists lo, p_lon row = Some lo /\ lo == snd (snd p)) /\
  exists t0, utc_timestamp (p_year row) 1 1 0 0 0 = Some t0 /\ inject_Z t0 + (p_date row - 1) * 86400 == inject_Z (fst p) /\ 1 <= p_date row < 367.

(** A row of the state-of-health log: the numbers that were written down; and if the reading was taken between the first and
    the last sample of its file (as delayed by the filter), its true time. *)
Definition health_row (q : recording * health) (row : option Q * list (option Q)) : Prop :=
  let (r, h) := q in
  Forall2 (fun v x => exists y, x = Some y /\ y == v) (snd h) (snd row) /\
  forall a z, begins (samples (r_events r)) a -> finishes (samples (r_events r)) z ->
    a + (893 # 100) <= fst h <= z + (893 # 100) -> exists t, fst row = Some t /\ t == cubic_at (r_clock r) (fst h).
