(** Reading several files in double precision. *)
From Coq Require Import String.
From Coq Require Import ZArith QArith Qabs List.
From Verif Require Import Base Scan Parser Process ReadSeveral UnwrapSpec DoubleSpec RecordingSpec.
Import ListNotations.
Open Scope Q_scope.

(** Rounding is a function of the number (not of the way it is written). *)
Definition respects (rnd : Q -> Q) : Prop := forall x y, x == y -> rnd x == rnd y.

(** Two tables that agree but for the clock values, which are within [eps] of each other. *)
Definition near_fix (eps : Q) (x y : fix_ * Z) : Prop :=
  snd x = snd y /\ Qabs (msPPS (fst x) - msPPS (fst y)) <= eps /\ msLag (fst x) = msLag (fst y) /\ gyear (fst x) = gyear (fst y) /\ gmonth (fst x) = gmonth (fst y) /\
  gday (fst x) = gday (fst y) /\ ghour (fst x) = ghour (fst y) /\ gminute (fst x) = gminute (fst y) /\ gsecond (fst x) = gsecond (fst y) /\
  glat (fst x) = glat (fst y) /\ glon (fst x) = glon (fst y).
Definition near_data (eps : Q) := Forall2 (fun p q : Q * option Q => Qabs (fst p - fst q) <= eps /\ same_value (snd p) (snd q)).
Definition near_meta (eps : Q) := Forall2 (fun p q : Q * list (option Q) => Qabs (fst p - fst q) <= eps /\ snd p = snd q).
Definition near_gps (eps : Q) := Forall2 (near_fix eps).
Definition near_tables (eps : Q) (t u : tables) : Prop :=
  near_data eps (data t) (data u) /\ near_meta eps (metadata t) (metadata u) /\ near_gps eps (gps t) (gps u).
(** 10 nanoseconds, in milliseconds. *)
Definition tiny : Q := 1 # 100000.

(** A file with whole clock values (up to 2^20 ms), as in [whole_file]. *)
Definition low_row (d : drow) : Prop := whole_row d /\ whole (2 ^ 20) (dsaw d).
Definition low_table (df : list drow) : Prop := Forall low_row df /\ (Z.of_nat (length df) <= 2 ^ 26)%Z.
Definition low_file (sc : scanner) (buf0 : bytes) (f : raw_file) : Prop :=
  (forall bs n rows, f_content f = Some bs -> parse_gemfile sc buf0 n bs = Some rows -> Forall (fun r => low_row (drow_of r)) rows) /\
  (forall req df, f_pandas f req = inl df -> low_table df) /\ (forall req df, f_pandas08 f req = inl df -> low_table df).

(** A logger's counter counts whole milliseconds and its samples change by at most 2^26 units. *)
Definition whole_events (evs : list event) : Prop :=
  Forall (fun e => (exists z, reading e == inject_Z z) /\ match e with Sample _ d => (Z.abs d <= 2 ^ 26)%Z | _ => True end) evs.

Section Run.
  Variables F H S : Type.
  Variable read_v : F -> string -> Q -> bool -> res tables.
  Variables ddrift drift : tables -> F -> bool -> H + failure.
  Variable alike : H -> H -> Prop.
  Variable sn : F -> option S.
  Variable version : string.
  Variable require_gps : bool.

  (** What is asked of the table of a file, read after [start]: all its clock values are within 49 days; its first sample is not exactly at [start];
      no two consecutive samples are exactly a second apart; and the fit of its clock goes alike for tables that agree with it but for
      10 nanoseconds. *)
  Definition calm (start : Q) (fn : F) (L : tables) : Prop :=
    Forall (fun p => Qabs (fst p) <= inject_Z (2 ^ 32)) (data L) /\ Forall (fun p => Qabs (fst p) <= inject_Z (2 ^ 32)) (metadata L) /\
    Forall (fun g => Qabs (msPPS (fst g)) <= inject_Z (2 ^ 32)) (gps L) /\
    (forall p, hd_error (data L) = Some p -> ~ fst p == start) /\
    chain (fun x y => ~ y - x == 1000) (map fst (data L)) /\
    forall u t, align start L = Some u -> near_tables tiny t u ->
      match ddrift t fn require_gps, drift u fn require_gps with
      | inl h', inl h => alike h' h
      | inr f', inr f => f' = f
      | _, _ => False
      end.
  (** The same for each file of a run. *)
  Fixpoint calm_run (start : Q) (acc : list (Q * option Q)) (fns : list F) : Prop :=
    match fns with
    | [] => True
    | fn :: rest =>
        (forall L, read F read_v version require_gps fn start = inl L -> calm start fn L) /\
        match snd (one_file F H S read_v drift sn version require_gps fn start) with
        | inl L => calm_run (last_of start (acc ++ data L)) (acc ++ data L) rest
        | inr _ => calm_run start acc rest
        end
    end.
End Run.

(** Header lines that agree, with fits that are alike. *)
Definition alike_line {H S} (alike : H -> H -> Prop) (x y : hrow H S) : Prop :=
  h_num x = h_num y /\ h_sn x = h_sn y /\
  match h_info x, h_info y with Some a, Some c => alike a c | None, None => True | _, _ => False end.
Definition near_joined {F H S} (alike : H -> H -> Prop) (x y : joined F H S) : Prop :=
  near_data tiny (jdata x) (jdata y) /\ near_meta tiny (jmeta x) (jmeta y) /\ near_gps tiny (jgps x) (jgps y) /\
  Forall2 (alike_line alike) (jheader x) (jheader y) /\ jproblems x = jproblems y.
