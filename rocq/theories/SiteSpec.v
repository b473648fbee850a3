(** What a user may expect of the place of a logger. *)
From Coq Require Import String.
From Coq Require Import ZArith QArith List.
From Verif Require Import Base NamesSpec StationsSpec Convert110 Inventory InventorySpec Gps CardSpec LogsSpec Site.
Import ListNotations.
Open Scope Z_scope.

(** The name of the GPS log number [k] of a logger. *)
Definition log_name (sn : bytes) (k : Z) (n : bytes) : Prop :=
  exists s, decimal 3 k s /\ 0 <= k < 1000 /\ n = sn ++ b "gps" ++ b "_" ++ s ++ b ".txt".

(** A folder with GPS logs of loggers and nothing else; the newest log of [sn] has these rows. *)
Definition log_folder (sn : bytes) (fixes : list fix_) (es : list log) : Prop :=
  NoDup (map fst es) /\ Forall (fun e : log => snd e <> None) es /\
  (forall e, In e es -> exists sn' k, serial_number sn' /\ log_name sn' k (fst e)) /\
  exists n k, log_name sn k n /\ In (n, Some fixes) es /\ forall e m, In e es -> log_name sn m (fst e) -> m <= k.

(** A coordinate is between two bounds that are less than 0.00005 degrees (5.5 m or less) apart. *)
Definition narrow (lo hi : Q) : Prop := (lo <= hi /\ hi - lo < 5 # 100000)%Q.
Definition between (lo hi x : Q) : Prop := (lo <= x <= hi)%Q.

(** What summary and inventory say about a logger that saw the places [seen] and stood within the bounds. *)
Definition on_the_map (sn : bytes) (seen : list place) (la0 la1 lo0 lo1 : Q) (l : list summary) : Prop :=
  exists s a z, In s l /\ s_sn s = sn /\ (forall s', In s' l -> s_sn s' = sn -> s' = s) /\
    earliest (map fst seen) a /\ latest (map fst seen) z /\
    s_count s = length seen /\ between la0 la1 (s_lat s) /\ between lo0 lo1 (s_lon s) /\ s_start s = a * 1000000000 /\ s_end s = z * 1000000000 /\
    (forall R (response : R) rows, Forall (fun r => r_sn r = sn) rows -> exists inv, make_inventory response (coords_of l) rows = Some inv) /\
    forall R (response : R) rows inv, Forall (fun r => py_int (r_sn r) <> None) rows -> make_inventory response (coords_of l) rows = Some inv ->
      forall net st loc r, first_with (with_codes net st loc) rows r -> r_sn r = sn ->
      exists ch, In (net, st, ch) (InventorySpec.entries inv) /\ ch_loc ch = loc /\ ch_sn ch = sn /\ between la0 la1 (ch_lat ch) /\ between lo0 lo1 (ch_lon ch) /\
        ch_start ch = (a - 3600) * 1000000000 /\ ch_end ch = (z + 3600) * 1000000000.

