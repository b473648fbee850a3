(** The station inventory: gemlog/gem_network.py [make_gem_inventory] (192-279). *)
From Coq Require Import String.
From Coq Require Import ZArith QArith List Bool.
From Verif Require Import Base Scan Convert110 Stations.
Import ListNotations.
Open Scope Z_scope.

(** The columns of the station table that are used, row by row; [None] if one is missing or holds
    something else than text. *)
Record srow := mks { r_sn : bytes; r_net : bytes; r_sta : bytes; r_loc : bytes }.
Fixpoint zip_rows (sn net sta loc : list cell) : option (list srow) :=
  match sn, net, sta, loc with
  | [], [], [], [] => Some []
  | Txt a :: sn, Txt n :: net, Txt s :: sta, Txt l :: loc =>
      option_map (cons (mks a n s l)) (zip_rows sn net sta loc)
  | _, _, _, _ => None
  end.
Definition rows_of (t : table) : option (list srow) :=
  match column t (b "SN"), column t (b "network"), column t (b "station"), column t (b "location") with
  | Some a, Some n, Some s, Some l => zip_rows a n s l
  | _, _, _, _ => None
  end.

(** The coordinate table: which columns it has, and its lines (times in nanoseconds since 1970). *)
Record cline := mkc { c_sn : bytes; c_net : bytes; c_sta : bytes; c_loc : bytes;
                      c_lat : Q; c_lon : Q; c_elev : Q; c_start : Z; c_end : Z }.
Record coords := mkcoords { has_sn : bool; has_codes : bool; has_position : bool; has_times : bool; lines : list cline }.

Record channel {R} := mkch { ch_loc : bytes; ch_sn : bytes; ch_lat : Q; ch_lon : Q; ch_elev : Q;
                             ch_start : Z; ch_end : Z; ch_response : R }.
Record station {R} := mkst { st_name : bytes; st_channels : list (@channel R); st_lat : Q; st_lon : Q; st_elev : Q;
                             st_start : Z; st_end : Z }.
Record network {R} := mknet { net_name : bytes; net_stations : list (@station R); net_start : Z; net_end : Z }.
Arguments channel R : clear implicits.
Arguments station R : clear implicits.
Arguments network R : clear implicits.

(** [np.mean], [np.min], [np.max]; the latter raise for an empty list. *)
Definition meanQ (l : list Q) : Q := (fold_right Qplus 0 l / inject_Z (Z.of_nat (length l)))%Q.
Definition minZ (l : list Z) : option Z := match l with [] => None | x :: r => Some (fold_left Z.min r x) end.
Definition maxZ (l : list Z) : option Z := match l with [] => None | x :: r => Some (fold_left Z.max r x) end.

Definition hour_ns : Z := 3600 * 1000000000.
Definition end_of_time : Z := 253402300799 * 1000000000.      (* 9999-12-31T23:59:59 *)

Section Inventory.
  Context {R : Type}.
  Variable response : R.
  Variable c : coords.
  Variable rows : list srow.

  Definition in_net (n : bytes) (r : srow) : bool := eqb_bytes (r_net r) n.
  Definition in_sta (n s : bytes) (r : srow) : bool := in_net n r && eqb_bytes (r_sta r) s.
  Definition in_loc (n s l : bytes) (r : srow) : bool := in_sta n s r && eqb_bytes (r_loc r) l.

  (** 238: [coords['SN'].astype(int)] fails if any is no integer. *)
  Definition int_sns : option (list (Z * cline)) :=
    fold_right (fun x acc => match py_int (c_sn x), acc with Some n, Some a => Some ((n, x) :: a) | _, _ => None end)
      (Some []) (lines c).

  (** 234-246: the first line for these codes; outer [None]: exception, inner [None]: skipped. *)
  Definition line_of (n s l sn : bytes) : option (option cline) :=
    if has_sn c && negb (has_codes c) then
      match py_int sn, int_sns with
      | Some k, Some a => Some (option_map snd (find (fun p => fst p =? k) a))
      | _, _ => None
      end
    else
      Some (find (fun x => eqb_bytes (c_net x) n && eqb_bytes (c_sta x) s && eqb_bytes (c_loc x) l) (lines c)).

  (** 247-262. *)
  Definition make_channel (l sn : bytes) (x : cline) : channel R :=
    mkch R l sn (c_lat x) (c_lon x) (c_elev x)
      (if has_times c then c_start x - hour_ns else 0)
      (if has_times c then c_end x + hour_ns else end_of_time) response.

  (** 231-263. *)
  Fixpoint make_channels (n s : bytes) (locs : list bytes) : option (list (channel R)) :=
    match locs with
    | [] => Some []
    | l :: rest =>
        match find (in_loc n s l) rows with
        | None => None
        | Some r =>
            match line_of n s l (r_sn r) with
            | None => None
            | Some None => make_channels n s rest
            | Some (Some x) => option_map (cons (make_channel l (r_sn r) x)) (make_channels n s rest)
            end
        end
    end.

  (** 224-274. *)
  Fixpoint make_stations (n : bytes) (stas : list bytes) : option (list (station R)) :=
    match stas with
    | [] => Some []
    | s :: rest =>
        match make_channels n s (unique eqb_bytes (map r_loc (filter (in_sta n s) rows))) with
        | None => None
        | Some [] => make_stations n rest
        | Some chs =>
            match minZ (map (@ch_start R) chs), maxZ (map (@ch_end R) chs) with
            | Some a, Some e =>
                option_map (cons (mkst R s chs (meanQ (map (@ch_lat R) chs)) (meanQ (map (@ch_lon R) chs))
                                   (meanQ (map (@ch_elev R) chs)) a e))
                  (make_stations n rest)
            | _, _ => None
            end
        end
    end.

  (** 220-278. *)
  Fixpoint make_networks (nets : list bytes) : option (list (network R)) :=
    match nets with
    | [] => Some []
    | n :: rest =>
        match make_stations n (unique eqb_bytes (map r_sta (filter (in_net n) rows))) with
        | None => None
        | Some sts =>
            match minZ (map (@st_start R) sts), maxZ (map (@st_end R) sts) with
            | Some a, Some e => option_map (cons (mknet R n sts a e)) (make_networks rest)
            | _, _ => None
            end
        end
    end.

  (** 211-279, after [_get_station_info]. *)
  Definition make_inventory : option (list (network R)) :=
    if negb (has_sn c) && negb (has_codes c) then None
    else if negb (has_position c) then None
    else make_networks (unique eqb_bytes (map r_net rows)).
End Inventory.

Definition make_gem_inventory {R} (text_cell : bytes -> bool) (info : source) (c : coords) (response : R)
  : option (list (network R)) :=
  match get_station_info text_cell info with
  | None => None
  | Some t => match rows_of t with None => None | Some rows => make_inventory response c rows end
  end.
