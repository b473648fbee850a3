(** What a user may expect of converting the memory card of a logger. *)
From Coq Require Import String.
From Coq Require Import ZArith QArith Qabs List Bool.
From Verif Require Import Base UnwrapSpec Drift DriftSpec SegmentsSpec InterpSpec SelectSpec CliSpec Header HeaderSpec BlockSpec RecordingSpec Card.
Import ListNotations.
Open Scope Q_scope.

(** A recording: the number of its file, the clock of the logger, what happened while it was recorded, and its bytes. *)
Record recording := mkrecording { r_number : Z; r_clock : cubic; r_events : list RecordingSpec.event; r_bytes : bytes }.
(** Its samples: the true time and the value of each. *)
Definition wave (r : recording) : list (Q * Z) := waveform (r_clock r) 0 (r_events r).
Definition record (recs : list recording) : list (Q * Z) := flat_map wave recs.

(** The head of the file: the first line gives one of the current formats; the first line after the third that is
    neither empty nor a remark gives the serial number [sn]. *)
Definition headed (sn bs : bytes) : Prop :=
  exists v e1 l2 l3 notes l0 rest,
    bs = lines_text ((b "#GemCSV" ++ v, e1) :: l2 :: l3 :: notes ++ [l0]) ++ rest /\
    Forall line_ok ((b "#GemCSV" ++ v, e1) :: l2 :: l3 :: notes ++ [l0]) /\
    In v [b "0.85C"; b "0.9"; b "0.91"; b "1.10"] /\ Forall (fun p => note (fst p)) notes /\ serial_line (fst l0) sn.
(** The gain: a configuration line among lines 2 to 11 gives 0 or 1; or there is none, and line 11 is not empty. *)
Definition gained (bs : bytes) : Prop :=
  (exists l1 pre l c rest, bs = lines_text (l1 :: pre ++ [l]) ++ rest /\ Forall line_ok (l1 :: pre ++ [l]) /\ (length pre <= 9)%nat /\
     Forall (fun p => ~ mentions_C (fst p)) pre /\ config_line (fst l) c /\ (adc_range c = 0%Z \/ adc_range c = 1%Z)) \/
  (exists l1 pre l rest, bs = lines_text (l1 :: pre ++ [l]) ++ rest /\ Forall line_ok (l1 :: pre ++ [l]) /\ length pre = 9%nat /\
     Forall (fun p => ~ mentions_C (fst p)) (pre ++ [l]) /\ ~ empty_line (fst l)).

(** The file of the recording: its head, and the lines that say what happened. *)
Definition written_by (sn : bytes) (r : recording) : Prop :=
  headed sn (r_bytes r) /\ gained (r_bytes r) /\ raw_text (r_events r) (r_bytes r) /\ true_clock (r_clock r) (r_events r).

(** The card of the logger [sn]: no two files have the same name; the recordings are on it, under increasing numbers;
    other files are of other loggers, or no raw files.  (There is no FILEnnnn.TXT.) *)
Definition card_of (sn : bytes) (recs : list recording) (c : card) : Prop :=
  NoDup (map fst c) /\ chain Z.lt (map r_number recs) /\ Forall (written_by sn) recs /\
  (forall r, In r recs -> exists name, named name (r_number r) sn /\ In (name, r_bytes r) c) /\
  (forall name bs n x, In (name, bs) c -> named name n x -> x = sn \/ x = b "TXT" ->
     x = sn /\ exists r, In r recs /\ r_number r = n /\ r_bytes r = bs).

(** A serial number: three digits, and not one of the prototypes 000 to 002. *)
Definition serial_number (sn : bytes) : Prop :=
  exists x y z, sn = map (fun k => 48 + k)%Z [x; y; z] /\ Forall (fun k => 0 <= k <= 9)%Z [x; y; z] /\ (3 <= 100 * x + 10 * y + z)%Z.

(** The recordings asked for: all, unless numbers are given. *)
Definition asked_for (nums : option (list Z)) (r : recording) : Prop :=
  match nums with Some ((_ :: _) as l) => In (r_number r) l | _ => True end.

(** The recordings are one record: each can be used by itself and lasts 1.1 s or more, each continues the last one, the
    GPS seconds increase, and there is a sample at least every 25 ms. *)
Definition unbroken (recs : list recording) : Prop :=
  Forall (fun r => steady (r_clock r) (r_events r) /\
            forall s e, begins (map fst (wave r)) s -> finishes (map fst (wave r)) e -> 11 # 10 <= e - s) recs /\
  chain (fun r r' => continues (r_events r) (r_events r')) recs /\
  chain Z.lt (flat_map (fun r => map snd (fixes_of (r_events r))) recs) /\
  chain (fun t t' => 0 < t' - t /\ t' - t <= 25 # 1000) (map fst (record recs)).

(** The blocks of a conversion: the recordings in order, divided by their numbers in periods of [per], counted from the first. *)
Definition in_blocks (per : Q) (recs : list recording) (parts : list (list recording)) : Prop :=
  concat parts = recs /\
  forall i part r first, nth_error parts i = Some part -> In r part -> hd_error recs = Some first ->
    inject_Z (Z.of_nat i) * per <= inject_Z (r_number r - r_number first) /\
    inject_Z (r_number r - r_number first) < (inject_Z (Z.of_nat i) + 1) * per.

(** The value [v] at time [k] is explained by the samples of one block. *)
Definition recorded_value (spline : list (Q * option Q) -> option (Q -> Q)) (parts : list (list recording)) (k v : Z) : Prop :=
  exists part pts, In part parts /\ Forall2 is_recorded (record part) pts /\ explained spline pts k v.
