(** What the summaries of converted files should contain, without reference to how they are computed. *)
From Coq Require Import ZArith QArith List Bool.
From Verif Require Import Base Database.
Import ListNotations.
Open Scope Z_scope.

(** [m] is the highest (lowest) of the samples. *)
Definition highest (l : list Q) (m : Q) : Prop := In m l /\ Forall (fun x => (x <= m)%Q) l.
Definition lowest (l : list Q) (m : Q) : Prop := In m l /\ Forall (fun x => (m <= x)%Q) l.

(** The row [r] describes the trace [tr] of the file [fn]; [a] is its amplitude. *)
Definition describes (fn : bytes) (tr : trace) (a : Q) (r : row) : Prop :=
  r_file r = fn /\ r_station r = tr_station tr /\ r_location r = tr_location tr /\ r_amp r = a /\
  highest (tr_data tr) (r_max r) /\ lowest (tr_data tr) (r_min r) /\ r_t1 r = tr_start tr /\ r_t2 r = tr_end tr.

(** The name [x] comes before [y]: it is a beginning of it, or has the smaller character where they first differ. *)
Definition comes_before (x y : bytes) : Prop :=
  exists p, (exists c r, x = p /\ y = p ++ c :: r) \/ (exists a c r s, x = p ++ a :: r /\ y = p ++ c :: s /\ a < c).

(** [x] is the number of distinct elements of [l]. *)
Definition distinct {A} (l : list A) (x : nat) : Prop := exists m, NoDup m /\ (forall y, In y m <-> In y l) /\ length m = x.
Definition first_of (l : list Z) (m : Z) : Prop := In m l /\ Forall (fun t => m <= t) l.
Definition last_of (l : list Z) (m : Z) : Prop := In m l /\ Forall (fun t => t <= m) l.
(** [t0] is the full hour at or before [t]. *)
Definition full_hour (t t0 : Z) : Prop := t0 <= t < t0 + 3600 * 10 ^ 9 /\ exists h, t0 = h * (3600 * 10 ^ 9).

(** The pieces of the traces between two times, in order; traces without samples there leave none. *)
Inductive pieces (cut : trace -> Z -> Z -> option trace) (a e : Z) : list trace -> list trace -> Prop :=
| pieces_nil : pieces cut a e [] []
| pieces_some tr p l m : cut tr a e = Some p -> pieces cut a e l m -> pieces cut a e (tr :: l) (p :: m)
| pieces_none tr l m : cut tr a e = None -> pieces cut a e l m -> pieces cut a e (tr :: l) m.

(** [ls] and [vs] are the shifts and values of the correlations of each of the first [n] traces with the next one, and of the
    last of them with the first. *)
Definition around (cor : trace -> trace -> Z -> option (Z * Q)) (shift : Z) (st : list trace) (n : nat) (ls : list Z) (vs : list Q) : Prop :=
  length ls = n /\ length vs = n /\
  forall i, (i < n)%nat -> exists x y l v, nth_error st i = Some x /\ nth_error st (if Nat.eqb (S i) n then 0 else S i)%nat = Some y /\
    cor x y shift = Some (l, v) /\ nth_error ls i = Some l /\ nth_error vs i = Some v.

(** What is found in the window that begins at [t]. *)
Definition in_window cut cor (shift win : Z) (st : list trace) (n : nat) (t : Z) (ls : list Z) (vs : list Q) : Prop :=
  exists p, pieces cut t (t + win) st p /\ around cor shift p n ls vs.

(** The four outputs agree: entry by entry, the time, the shifts, the values and the sum of the shifts of one window. *)
Inductive entries (w : Z -> list Z -> list Q -> Prop) : list Z -> list (list Z) -> list (list Q) -> list Z -> Prop :=
| entries_nil : entries w [] [] [] []
| entries_cons t ls vs ts lags vals sums : w t ls vs -> entries w ts lags vals sums ->
    entries w (t :: ts) (ls :: lags) (vs :: vals) (fold_right Z.add 0 ls :: sums).

(** What a call of [check_lags] works on: the traces of all files of the table in its order, the number of stations, the
    first time of the windows' grid and the last time of the data. *)
Definition lag_input (read : bytes -> option (list trace)) (DB : list row) (st : list trace) (n : nat) (t0 tmax : Z) : Prop :=
  (exists parts, Forall2 (fun r l => read (r_file r) = Some l) DB parts /\ st = concat parts) /\
  distinct (map r_station DB) n /\
  (exists first, first_of (map r_t1 DB) first /\ full_hour first t0) /\
  last_of (map r_t2 DB) tmax.
