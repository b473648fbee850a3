(** What a user may expect from reading one raw file, stated on the rows the file contains. *)
From Coq Require Import String.
From Coq Require Import ZArith QArith List Bool.
From Verif Require Import Base Parser UnwrapSpec Calendar CalendarSpec Process.
Import ListNotations.
Open Scope Z_scope.

(** Formats: difference-coded with an 8192 ms clock, or plain with a 65536 ms clock. *)
Definition difference_coded (v : string) : Prop := In v ["1.10"; "0.9"; "0.85C"]%string.
Definition plain (v : string) : Prop := In v ["0.85"; "0.8"]%string.
Definition format_period (v : string) (r : Q) : Prop :=
  (difference_coded v /\ r = 8192%Q) \/ (plain v /\ r = 65536%Q).
Definition meta_columns (v : string) : nat := if String.eqb v "0.8" then 9 else 11.

(** Rows of one kind, each with its clock value. *)
Definition of_kind (k : kind) (l : list (Q * drow)) : list (Q * drow) :=
  filter (fun p => match dkind (snd p), k with KD, KD | KG, KG | KM, KM => true | _, _ => false end) l.

(** The number written in a cell. *)
Inductive holds : cell -> option Q -> Prop :=
| holds_num x : holds (Num x) (Some x)
| holds_nan : holds NaN None.

(** Sum of the numbers in a list. *)
Fixpoint total (l : list (option Q)) : Q :=
  match l with [] => 0 | Some x :: r => x + total r | None :: r => total r end%Q.

(** [out] is the list of running sums of [vs] (a missing value stays missing and counts as nothing). *)
Definition running_sums (vs out : list (option Q)) : Prop :=
  length out = length vs /\
  forall i v, nth_error vs i = Some v ->
    match v with
    | Some _ => exists s, nth_error out i = Some (Some s) /\ (s == total (firstn (S i) vs))%Q
    | None => nth_error out i = Some None
    end.

(** Documented limits of a GPS fix. *)
Definition between (lo hi : Q) (x : option Q) : Prop := forall v, x = Some v -> (lo <= v /\ v <= hi)%Q.
Definition nonzero (x : option Q) : Prop := forall v, x = Some v -> ~ (v == 0)%Q.
(** The integer part of a non-negative number. *)
Definition integer_part (x : option Q) (n : Z) : Prop :=
  exists v, x = Some v /\ (inject_Z n <= v /\ v < inject_Z n + 1)%Q.
Definition whole (x : option Q) (n : Z) : Prop := exists v, x = Some v /\ (v == inject_Z n)%Q.

Definition plausible (g : fix_) (t : Z) : Prop :=
  between (-90) 90 (glat g) /\ nonzero (glat g) /\
  between (-180) 180 (glon g) /\ nonzero (glon g) /\
  between 0 1000 (msLag g) /\
  between 2014 2040 (gyear g) /\ between 1 12 (gmonth g) /\ between 1 31 (gday g) /\
  between 0 24 (ghour g) /\ between 0 60 (gminute g) /\ between 0 60 (gsecond g) /\
  exists y mo d h mi s,
    integer_part (gyear g) y /\ integer_part (gmonth g) mo /\ integer_part (gday g) d /\
    integer_part (ghour g) h /\ integer_part (gminute g) mi /\ whole (gsecond g) s /\
    exists_in_calendar (mkdt y mo d h mi s) /\ utc_timestamp y mo d h mi s = Some t.

(** The fix written in a row with clock value [m]. *)
Definition fix_in (p : Q * drow) (g : fix_) : Prop :=
  (msPPS g == fst p)%Q /\
  exists rest, Forall2 holds (firstn 9 (dcells (snd p)))
    [msLag g; gyear g; gmonth g; gday g; ghour g; gminute g; gsecond g; glat g; glon g] /\
    dcells (snd p) = firstn 9 (dcells (snd p)) ++ rest.

Definition kept_as (p : Q * drow) (e : fix_ * Z) : Prop := fix_in p (fst e) /\ plausible (fst e) (snd e).

(** [out] consists of the elements of [l] that have an image under [R], in order. *)
Inductive selected {A B} (R : A -> B -> Prop) : list A -> list B -> Prop :=
| sel_nil : selected R [] []
| sel_keep x y l m : R x y -> selected R l m -> selected R (x :: l) (y :: m)
| sel_skip x l m : (forall y, ~ R x y) -> selected R l m -> selected R (x :: l) m.

(** The table can be read as numbers. *)
Definition numeric_fixes (l : list (Q * drow)) : Prop := Forall (fun p => exists g, fix_in p g) l.

Definition consistent (version : string) (offset : Q) (require_gps : bool) (df : list drow) (tab : tables) : Prop :=
  exists r clock, format_period version r /\
  Forall2 (congruent r) clock (map dsaw df) /\
  (forall c cs, clock = c :: cs -> (offset - r / 2 <= c /\ c < offset + r / 2)%Q) /\
  (Forall (in_period r) (map dsaw df) -> chain (step_within (r / 2)) clock) /\
  let rows := combine clock df in
  (* samples: every D row, in order, with its clock value plus 8.93 ms *)
  Forall2 (fun p s => fst s == fst p + (893 # 100))%Q (of_kind KD rows) (data tab) /\
  (exists vs, Forall2 (fun p v => exists c cs, dcells (snd p) = c :: cs /\ holds c v) (of_kind KD rows) vs /\
     (difference_coded version -> running_sums vs (map snd (data tab))) /\
     (plain version -> map snd (data tab) = vs)) /\
  (* metadata: every M row, in order, with its clock value *)
  Forall2 (fun p m => fst m == fst p /\ Forall2 holds (firstn (meta_columns version) (dcells (snd p))) (snd m))%Q
    (of_kind KM rows) (metadata tab) /\
  (* GPS: exactly the plausible fixes, in order, with their clock value *)
  (selected kept_as (of_kind KG rows) (gps tab) \/
   (gps tab = [] /\ require_gps = false /\ ~ numeric_fixes (of_kind KG rows))).
