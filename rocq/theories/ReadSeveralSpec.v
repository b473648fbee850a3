(** What a user may expect when several raw files of one logger are read together. *)
From Coq Require Import String.
From Coq Require Import ZArith QArith List Bool.
From Verif Require Import Base Parser UnwrapSpec Process ReadSeveral.
Import ListNotations.
Open Scope Z_scope.

(** The same table on a clock that is [c] ms ahead. *)
Definition ahead (c : Q) (L L' : tables) : Prop :=
  Forall2 (fun p q => fst q == fst p + c /\ snd q = snd p)%Q (data L) (data L') /\
  Forall2 (fun p q => fst q == fst p + c /\ snd q = snd p)%Q (metadata L) (metadata L') /\
  Forall2 (fun p q => msPPS (fst q) == msPPS (fst p) + c /\ snd q = snd p /\
                      msLag (fst q) = msLag (fst p) /\ gyear (fst q) = gyear (fst p) /\ gmonth (fst q) = gmonth (fst p) /\
                      gday (fst q) = gday (fst p) /\ ghour (fst q) = ghour (fst p) /\ gminute (fst q) = gminute (fst p) /\
                      gsecond (fst q) = gsecond (fst p) /\ glat (fst q) = glat (fst p) /\ glon (fst q) = glon (fst p))%Q
          (gps L) (gps L').

(** A step of the sample clock within one file: not backwards and not over one second. *)
Definition good_step (x y : Q) : Prop := (0 <= y - x /\ y - x <= 1000)%Q.

(** The last sample time of a table. *)
Definition ends_at (L : tables) (t : Q) : Prop := exists l v, data L = l ++ [(t, v)].

(** [message m fn] : message [m] is about file [fn]. *)
Definition about {F} (m : message F) (fn : F) : Prop :=
  m = Insufficient fn \/ m = No_gps fn \/ m = Corrupt fn \/ m = Failed fn.

Section History.
  Variables F H S : Type.
  Variable read : F -> Q -> res tables.              (* reading one file, given the previous end *)
  Variable drift : tables -> F -> H + failure.       (* its timing information *)
  Variable sn : F -> option S.                       (* its serial number *)

  (** [L] is the content of [fn] read after [start], one rollover later if it would begin before [start]. *)
  Definition content (start : Q) (fn : F) (L : tables) : Prop :=
    exists L0 t v l, read fn start = inl L0 /\ data L0 = (t, v) :: l /\
      ((start <= t /\ L = L0) \/ (t < start /\ ahead 8192 L0 L))%Q.

  (** File [fn] is good and contributes [L]. *)
  Definition accepted (start : Q) (fn : F) (L : tables) (h : H) (s : S) : Prop :=
    content start fn L /\ chain good_step (map fst (data L)) /\ drift L fn = inl h /\ sn fn = Some s.

  (** File [fn] is bad, and the message that says so. *)
  Inductive rejected (start : Q) (fn : F) : message F -> Prop :=
  | rej_no_gps : read fn start = inr NoGPS -> rejected start fn (No_gps fn)
  | rej_corrupt : read fn start = inr CorruptRaw -> rejected start fn (Corrupt fn)
  | rej_other e : read fn start = inr e -> e <> NoGPS -> e <> CorruptRaw -> e <> Interrupt -> rejected start fn (Failed fn)
  | rej_empty L : read fn start = inl L -> data L = [] -> rejected start fn (Failed fn)
  | rej_steps L : content start fn L -> ~ chain good_step (map fst (data L)) -> rejected start fn (Corrupt fn)
  | rej_inadequate L : content start fn L -> chain good_step (map fst (data L)) ->
      drift L fn = inr InadequateGPS -> rejected start fn (Insufficient fn)
  | rej_drift_no_gps L : content start fn L -> chain good_step (map fst (data L)) ->
      drift L fn = inr (Exn NoGPS) -> rejected start fn (No_gps fn)
  | rej_drift_corrupt L : content start fn L -> chain good_step (map fst (data L)) ->
      (drift L fn = inr DiscontinuousGPS \/ drift L fn = inr (Exn CorruptRaw)) -> rejected start fn (Corrupt fn)
  | rej_drift_other L e : content start fn L -> chain good_step (map fst (data L)) ->
      drift L fn = inr (Exn e) -> e <> NoGPS -> e <> CorruptRaw -> e <> Interrupt -> rejected start fn (Failed fn)
  | rej_sn L h : content start fn L -> chain good_step (map fst (data L)) ->
      drift L fn = inl h -> sn fn = None -> rejected start fn (Corrupt fn).

  (** What became of the files: each contributes its tables or is reported; the clock continues from
      the last sample of the last file that contributed. *)
  Inductive verdict := Good (L : tables) (h : H) (s : S) | Bad (m : message F).
  Inductive history : Q -> list (F * verdict) -> Prop :=
  | hist_nil start : history start []
  | hist_good start fn L h s t rest :
      accepted start fn L h s -> ends_at L t -> history t rest -> history start ((fn, Good L h s) :: rest)
  | hist_bad start fn m rest :
      rejected start fn m -> history start rest -> history start ((fn, Bad m) :: rest).

  Definition contribution (v : F * verdict) : list (F * tables * S) :=
    match v with (fn, Good L _ s) => [(fn, L, s)] | _ => [] end.
  Definition complaint (v : F * verdict) : list (message F) :=
    match v with (_, Bad m) => [m] | _ => [] end.
  Definition goods (vs : list (F * verdict)) := flat_map contribution vs.
  Definition bads (vs : list (F * verdict)) := flat_map complaint vs.
End History.

Arguments content {F} _ _ _ _.
Arguments accepted {F H S} _ _ _ _ _ _ _ _.
Arguments rejected {F H S} _ _ _ _ _ _.
Arguments Good {F H S} _ _ _.
Arguments Bad {F H S} _.
Arguments history {F H S} _ _ _ _ _.
Arguments goods {F H S} _.
Arguments bads {F H S} _.

(** Rows of a file begin with a sample, or with one other row, or with rows whose clock runs forward
    (by less than half a rollover between rows) up to the first sample. *)
Definition forward (r x y : Q) : Prop := exists k : Z, (0 <= y - x + r * inject_Z k /\ y - x + r * inject_Z k < r / 2)%Q.
Definition begins_well (df : list drow) : Prop :=
  exists pre d rest, df = pre ++ d :: rest /\ Forall (fun x => dkind x <> KD) pre /\ dkind d = KD /\
    (pre = [] \/
     Forall (in_period 8192) (map dsaw df) /\
     ((length pre <= 1)%nat \/ chain (forward 8192) (map dsaw (pre ++ [d])))).

(** A recording: for each file, the kind and the true clock of each of its rows. *)
Definition recording := list (kind * Q).
Definition clocks_of (k : kind) (rec : recording) : list Q :=
  map snd (filter (fun p => kind_eqb (fst p) k) rec).

(** [df] are the rows of [rec] as written by the logger, whose clock rolls over every 8192 ms, and the
    clock never jumps by half a rollover. *)
Definition written (rec : recording) (df : list drow) : Prop :=
  map dkind df = map fst rec /\ recorded 8192 (map snd rec) (map dsaw df) /\
  chain (step_below 4096) (map snd rec).

(** File [g] begins within half a rollover of the (corrected) end of the samples of [f], and its samples
    are not before those of [f]. *)
Definition follows (f g : recording) : Prop :=
  forall l a s, (exists pre, clocks_of KD f = pre ++ [l]) -> hd_error (map snd g) = Some a -> hd_error (clocks_of KD g) = Some s ->
    (l + (893 # 100) - 4096 <= a /\ a < l + (893 # 100) + 4096 /\ l <= s)%Q.
