(** What a user may expect of merging the files of a card and converting the result. *)
From Coq Require Import String.
From Coq Require Import ZArith QArith List Bool.
From Verif Require Import Base UnwrapSpec Drift ParserSpec GemCatSpec SelectSpec HeaderSpec RecordingSpec Card CardSpec.
Import ListNotations.

(** The file of the recording consists of complete lines: header lines, a sample that is written out, and any documented
    lines, in one of the formats 0.85C, 0.9 and 1.10. *)
Definition in_lines (r : recording) : Prop :=
  exists f, r_bytes r = content f /\ well_formed f /\ writes None (r_events r) (lines_of f) /\ (line_count [f] <= 65519999)%Z /\
    ~ exists rest, r_bytes r = b "#GemCSV0.91" ++ rest.

(** During the recording there was an attempt at a GPS fix. *)
Definition heard (r : recording) : bool :=
  existsb (fun e => match e with Fix _ _ | No_fix _ => true | Sample _ _ | Health _ => false end) (r_events r).

(** Names of files that are merged: FILE, four digits, a dot, [ext], and anything. *)
Definition matches (ext name : bytes) : Prop :=
  exists ds rest, name = b "FILE" ++ ds ++ b "." ++ ext ++ rest /\ length ds = 4%nat /\ Forall digit ds.

(** The folder holds the recordings of the logger [sn], under increasing numbers, and no other file that would be merged. *)
Definition raw_folder (ext sn : bytes) (recs : list recording) (c : card) : Prop :=
  NoDup (map fst c) /\ chain Z.lt (map r_number recs) /\
  Forall (fun r => headed sn (r_bytes r) /\ gained (r_bytes r) /\ in_lines r) recs /\
  (forall r, In r recs -> exists name, SelectSpec.named name (r_number r) sn /\ In (name, r_bytes r) c) /\
  (forall name bs, In (name, bs) c -> matches ext name -> exists r, In r recs /\ SelectSpec.named name (r_number r) sn /\ bs = r_bytes r).

(** The recordings of a group one after the other, as far as the clock and the fixes are concerned. *)
Definition clock_of (g : list recording) : cubic := match g with r :: _ => r_clock r | [] => mkcubic 0 0 0 0 end.
Definition together (g : list recording) : recording := mkrecording 0 (clock_of g) (flat_map r_events g) [].

(** They have one clock, which is true, and they are not too long for one file. *)
Definition one_run (g : list recording) : Prop :=
  Forall (fun r => r_clock r = clock_of g) g /\ true_clock (clock_of g) (flat_map r_events g) /\
  (Z.of_nat (length (flat_map r_events g)) <= 65520000)%Z.

(** [m] is the recording of the whole group: the same samples and fixes. *)
Definition joins (g : list recording) (m : recording) : Prop :=
  r_clock m = clock_of g /\ wave m = flat_map wave g /\ fixes_of (r_events m) = fixes_of (flat_map r_events g).
