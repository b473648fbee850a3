(** When the two readers of a raw file may be compared, and what it means that they say the same. *)
From Coq Require Import ZArith QArith Qround List Bool.
From Verif Require Import Base Scan Parser ParserSpec UnwrapSpec Process Reference.
Import ListNotations.
Open Scope Z_scope.

(** Python's [float] reads decimal literals. *)
Definition reads_float (pf : bytes -> option Q) : Prop :=
  (forall i, int_ok i -> exists v, pf (int_text i) = Some v /\ (v == inject_Z (int_value i))%Q) /\
  (forall d, dec_ok d -> exists v, pf (dec_text d) = Some v /\ (v == dec_value d)%Q).

(** Lines of the formats before 1.10: complete D, G and M lines, alone on their line (a CR may follow), or lines of
    ASCII text that begin with none of these letters and with no small letter. *)
Definition plain_end (t : bytes) : Prop := t = [] \/ t = [13].
Definition plain_record (r : record) : Prop :=
  match r with
  | Full_D ms a t => dec_ok ms /\ int_ok a /\ plain_end t
  | Full_G fs t => Forall2 field_ok [Clf; Clf; Cd; Cd; Cd; Cd; Cd; Clf; Clf; Clf] fs /\ plain_end t
  | Full_M fs t => Forall2 field_ok [Clf; Clf; Clf; Clf; Clf; Cd; Cd; Cd; Cd; Cd; Cd; Cd] fs /\ plain_end t
  | Other l => line_kind l = None /\ Forall (fun c => c < 128) l /\ ~ In 13 l
  | Compact2 _ _ _ | Compact1 _ _ => False
  end.

(** The clock values written in the lines. *)
Definition clock_of (r : record) : list Q :=
  match r with
  | Full_D ms _ _ => [dec_value ms]
  | Full_G (f :: _) _ | Full_M (f :: _) _ => [field_value f]
  | _ => []
  end.
Definition clocks (rs : list record) : list Q := concat (map clock_of rs).

Definition is_D (r : record) : bool := match r with Full_D _ _ _ => true | _ => false end.
Definition is_G (r : record) : bool := match r with Full_G _ _ => true | _ => false end.
Definition is_M (r : record) : bool := match r with Full_M _ _ => true | _ => false end.
Definition count (p : record -> bool) (rs : list record) : Z := Z.of_nat (length (filter p rs)).

(** The fast reader's value is a number equal to the reference's. *)
Definition is (x : option Q) (y : Q) : Prop := exists v, x = Some v /\ (v == y)%Q.
Definition opt_same (x y : option Q) : Prop :=
  match x, y with Some v, Some w => (v == w)%Q | None, None => True | _, _ => False end.
(** The same fix, its clock value later by [k]. *)
Definition fix_later (k : Q) (g g' : fix_) : Prop :=
  (msPPS g == msPPS g' + k)%Q /\ opt_same (msLag g) (msLag g') /\ opt_same (gyear g) (gyear g') /\
  opt_same (gmonth g) (gmonth g') /\ opt_same (gday g) (gday g') /\ opt_same (ghour g) (ghour g') /\
  opt_same (gminute g) (gminute g') /\ opt_same (gsecond g) (gsecond g') /\ opt_same (glat g) (glat g') /\
  opt_same (glon g) (glon g').

(** The fixes of the reference whose date exists. *)
Definition dated (l : list (fix_ * option Z)) : list (fix_ * Z) :=
  concat (map (fun p => match snd p with Some t => [(fst p, t)] | None => [] end) l).

(** The tables of [_read_single] for a file starting at [offset] agree with those of the reference: the clock of the
    former contains the whole rollovers of the offset, sample times are corrected by 8.93 ms, and fixes with a date that
    does not exist are gone; everything else is equal, in the same order. *)
Definition same_tables (offset : Q) (tab : tables) (ref : ref_tables) : Prop :=
  let k := (8192 * inject_Z (Qfloor (offset / 8192)))%Q in
  Forall2 (fun s s' => (fst s == fst s' + k + (893 # 100))%Q /\ is (snd s) (snd s')) (data tab) (rdata ref) /\
  Forall2 (fun m m' => exists c cs, m' = c :: cs /\ (fst m == c + k)%Q /\ Forall2 is (snd m) cs) (metadata tab) (rmeta ref) /\
  Forall2 (fun g g' => fix_later k (fst g) (fst g') /\ snd g = snd g') (gps tab) (dated (rgps ref)).
