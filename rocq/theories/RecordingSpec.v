(** What a logger records, how it writes it down, and what a conversion should give back. *)
From Coq Require Import ZArith QArith List.
From Verif Require Import Base UnwrapSpec Process ProcessSpec ReadSeveral Drift DriftSpec SegmentsSpec InterpSpec ParserSpec PolyfitSpec.
Import ListNotations.
Open Scope Q_scope.

(** What happens while a file is recorded, with the reading of the millisecond counter (which never rolls over): a sample,
    given by its difference from the previous one; a GPS fix for the second [t]; an attempt at a fix that failed; a
    state-of-health reading. *)
Inductive event := Sample (c : Q) (diff : Z) | Fix (c : Q) (t : Z) | No_fix (c : Q) | Health (c : Q).
Definition reading (e : event) : Q := match e with Sample c _ | Fix c _ | No_fix c | Health c => c end.

(** The fields of a GPS line, after the counter, are a plausible fix for the second [t]. *)
Definition says_fix (fs : list field) (t : Z) : Prop :=
  exists lag y mo d h mi s la lo, fs = [lag; y; mo; d; h; mi; s; la; lo] /\
    plausible (mkfix 0 (Some (field_value lag)) (Some (field_value y)) (Some (field_value mo)) (Some (field_value d))
                 (Some (field_value h)) (Some (field_value mi)) (Some (field_value s)) (Some (field_value la)) (Some (field_value lo))) t.

(** How it is written down, line by line; [p] is the counter of the previous sample of the file, if any.  Counters are
    written modulo 8192; a sample is written out, or with one or two letters after a previous sample. *)
Inductive writes : option Q -> list event -> list record -> Prop :=
| w_nil p : writes p [] []
| w_other p l evs rs : writes p evs rs -> writes p evs (Other l :: rs)
| w_full p c ms a t evs rs : reduced c (dec_value ms) -> writes (Some c) evs rs ->
    writes p (Sample c (int_value a) :: evs) (Full_D ms a t :: rs)
| w_two p c dev diff t evs rs : c == p + 10 + inject_Z dev -> writes (Some c) evs rs ->
    writes (Some p) (Sample c diff :: evs) (Compact2 dev diff t :: rs)
| w_one p c diff t evs rs : c == p + 10 -> writes (Some c) evs rs ->
    writes (Some p) (Sample c diff :: evs) (Compact1 diff t :: rs)
| w_fix p c t f fs x evs rs : reduced c (field_value f) -> says_fix fs t -> writes p evs rs ->
    writes p (Fix c t :: evs) (Full_G (f :: fs) x :: rs)
| w_no_fix p c f fs x evs rs : reduced c (field_value f) -> (forall t, ~ says_fix fs t) -> writes p evs rs ->
    writes p (No_fix c :: evs) (Full_G (f :: fs) x :: rs)
| w_health p c f fs x evs rs : reduced c (field_value f) -> writes p evs rs ->
    writes p (Health c :: evs) (Full_M (f :: fs) x :: rs).

(** A raw file in which these events are written down: documented lines that fit the line buffer. *)
Definition raw_text (evs : list event) (bs : bytes) : Prop :=
  exists rs last, bs = file (map record_text rs) (record_text last) /\
    Forall record_ok (rs ++ [last]) /\ Forall (fun r => ok_line (record_text r)) (rs ++ [last]) /\
    writes None evs (rs ++ [last]) /\ (Z.of_nat (length evs) <= 65520000)%Z.

(** The counter readings of the samples; the fixes. *)
Fixpoint samples (evs : list event) : list Q :=
  match evs with [] => [] | Sample c _ :: r => c :: samples r | _ :: r => samples r end.
Fixpoint fixes_of (evs : list event) : list (Q * Z) :=
  match evs with [] => [] | Fix c t :: r => (c, t) :: fixes_of r | _ :: r => fixes_of r end.

(** All fixes are exact.  Or all but one, which may say anything: of 33 fixes or more, of a clock that runs at an even rate;
    and its place has no more than 16 times the average influence on a cubic fit (as each has among equally spaced ones). *)
Definition exact_fixes (tau : cubic) (fs : list (Q * Z)) : Prop := forall c t, In (c, t) fs -> inject_Z t == cubic_at tau c.
Definition points_of (fs : list (Q * Z)) : list point := map (fun f => (fst f, inject_Z (snd f))) fs.
Definition one_false (tau : cubic) (fs : list (Q * Z)) : Prop :=
  exists before c t after, fs = before ++ (c, t) :: after /\ exact_fixes tau (before ++ after) /\ ~ inject_Z t == cubic_at tau c /\
    c2 tau == 0 /\ c3 tau == 0 /\ (33 <= length fs)%nat /\ ordinary (points_of fs) c.

(** A recorder whose counter shows the true time [tau c] when it reads [c]: between events the counter moves by less than
    half a rollover, it runs forward up to the first sample, and from fix to fix; and the fixes are exact, but perhaps for
    one.  Its health is read at least once. *)
Record true_clock (tau : cubic) (evs : list event) : Prop := {
  tc_steps : chain (step_below 4096) (map reading evs);
  tc_begin : exists pre c d rest, evs = pre ++ Sample c d :: rest /\ samples pre = [] /\ chain Qle (map reading pre ++ [c]);
  tc_health : exists c, In (Health c) evs;
  tc_forward : chain Qlt (map fst (fixes_of evs));
  tc_exact : exact_fixes tau (fixes_of evs) \/ one_false tau (fixes_of evs) }.

(** The file on disk holds these events, recorded with this clock. *)
Definition recorded_file (f : raw_file) (tau : cubic) (evs : list event) : Prop :=
  exists bs, f_content f = Some bs /\ raw_text evs bs /\ true_clock tau evs.

(** What was recorded: the true time of each sample (the filter delays it by 8.93 ms) and its value. *)
Fixpoint waveform (tau : cubic) (level : Z) (evs : list event) : list (Q * Z) :=
  match evs with
  | [] => []
  | Sample c d :: r => (cubic_at tau (c + (893 # 100)), level + d)%Z :: waveform tau (level + d)%Z r
  | _ :: r => waveform tau level r
  end.

(** The first sample of a file does not have the same counter reading, modulo the rollover, as the last of the one before. *)
Definition apart (e e' : list event) : Prop :=
  forall c c', finishes (samples e) c -> begins (samples e') c' -> ~ congruent 8192 c c'.

(** The timed sample [p] is the recorded one [w]. *)
Definition is_recorded (w : Q * Z) (p : Q * option Q) : Prop := fst p == fst w /\ exists v, snd p = Some v /\ v == inject_Z (snd w).

(** What is used of polynomial fits: they are least squares, for four or more points from left to right (two or more, for a
    line). *)
Definition fits_cubics (fit : list point -> option cubic) : Prop := fits_least_squares eval3 4 fit.
Definition fits_lines (fit : list point -> option linear) : Prop := fits_least_squares eval1 2 fit.

(** A file that can be used by itself: its clock runs at an even rate of at most one second per count, it has ten fixes or
    more, which span more than half of the time from the first sample to the last (at 1.024 ms per count), also without a
    false one, and it has a sample at least every [g] counts. *)
Definition span_half (evs : list event) (fs : list (Q * Z)) : Prop :=
  forall a z c t mid c' t', begins (samples evs) a -> finishes (samples evs) z -> fs = (c, t) :: mid ++ [(c', t')] ->
    (1024 # 1000000) * (z - a) < 2 * inject_Z (t' - t).
Record steady_within (g : Q) (tau : cubic) (evs : list event) : Prop := {
  st_line : c2 tau == 0 /\ c3 tau == 0 /\ 0 < c1 tau /\ c1 tau <= 1;
  st_fixes : (10 <= length (fixes_of evs))%nat;
  st_samples : chain (fun x y => 0 < y - x /\ y - x <= g) (samples evs);
  st_cover : span_half evs (fixes_of evs);
  st_others : forall before c t after, fixes_of evs = before ++ (c, t) :: after -> ~ inject_Z t == cubic_at tau c -> span_half evs (before ++ after) }.
Arguments st_line {g} tau evs _.
Arguments st_fixes {g} tau evs _.
Arguments st_samples {g} tau evs _.
Arguments st_cover {g} tau evs _.
Arguments st_others {g} tau evs _.
Notation steady := (steady_within 25).

(** The next file begins within half a rollover of the end of this one, and its samples at most 25 counts after it. *)
Definition continues (e e' : list event) : Prop :=
  forall l a s, finishes (samples e) l -> begins (map reading e') a -> begins (samples e') s ->
    l + (893 # 100) - 4096 <= a /\ a < l + (893 # 100) + 4096 /\ 0 < s - l /\ s - l <= 25.
