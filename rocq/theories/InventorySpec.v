(** What a user may expect of the inventory. *)
From Coq Require Import String.
From Coq Require Import ZArith QArith List.
From Verif Require Import Base StationsSpec Convert110 Inventory.
Import ListNotations.
Open Scope Z_scope.

(** [x] is the first element of [l] with the property. *)
Inductive first_with {A} (P : A -> Prop) : list A -> A -> Prop :=
| fw_here x l : P x -> first_with P (x :: l) x
| fw_next y l x : ~ P y -> first_with P l x -> first_with P (y :: l) x.

(** [m] is [l] without the elements lacking the property. *)
Inductive those_with {A} (P : A -> Prop) : list A -> list A -> Prop :=
| tw_nil : those_with P [] []
| tw_yes x l m : P x -> those_with P l m -> those_with P (x :: l) (x :: m)
| tw_no x l m : ~ P x -> those_with P l m -> those_with P (x :: l) m.

Definition average (l : list Q) (m : Q) : Prop :=
  (m * inject_Z (Z.of_nat (length l)) == fold_right Qplus 0 l)%Q.
Definition latest (l : list Z) (m : Z) : Prop := In m l /\ Forall (fun t => t <= m) l.

(** The following speak about the tables of Inventory.v (only its record types and [py_int], the value
    of a text as an integer, are used). *)
Definition with_codes n s l (r : srow) : Prop := r_net r = n /\ r_sta r = s /\ r_loc r = l.

(** A line of the coordinate table belongs to an instrument by its codes if the table has codes, and
    otherwise by its number. *)
Definition matches (c : coords) (sn n s l : bytes) (x : cline) : Prop :=
  if has_codes c then c_net x = n /\ c_sta x = s /\ c_loc x = l
  else exists k, py_int (c_sn x) = Some k /\ py_int sn = Some k.

(** [r] is the first row of the station table with these codes, [x] the first coordinate line for it. *)
Definition coordinate_line (c : coords) (rows : list srow) (n s l : bytes) (r : srow) (x : cline) : Prop :=
  first_with (with_codes n s l) rows r /\ first_with (matches c (r_sn r) n s l) (lines c) x.
Definition located (c : coords) (rows : list srow) (n s l : bytes) : Prop := exists r x, coordinate_line c rows n s l r x.

(** There are positions and columns to match by; serial numbers are integers where they are needed. *)
Definition good_tables (c : coords) (rows : list srow) : Prop :=
  has_position c = true /\ (has_codes c = true \/ has_sn c = true) /\
  (has_codes c = false -> Forall (fun x => py_int (c_sn x) <> None) (lines c) /\ Forall (fun r => py_int (r_sn r) <> None) rows).

(** The channels of an inventory, with network and station code. *)
Definition entries {R} (inv : list (network R)) : list (bytes * bytes * channel R) :=
  flat_map (fun nw => flat_map (fun st => map (fun ch => (net_name nw, st_name st, ch)) (st_channels st)) (net_stations nw)) inv.
Definition code {R} (e : bytes * bytes * channel R) : bytes * bytes * bytes := (fst (fst e), snd (fst e), ch_loc (snd e)).
