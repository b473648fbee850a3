(** The two commands that go from waveform files to directions: gemlog/xcorr.py [xcorr_all_terminal] (10-75),
    [calculate_direction_terminal] (79-115), [xcorr_all] (118-127), the joining of the tables of days (279-282)
    and the positions of stations, [get_coordinates] (470-527), for an inventory (506-518).

    Simplifications: the options are those [argparse] has read (39, 84), with numbers and times already read;
    what the commands print is left out; a file is written from its beginning to its end, after it has been made
    empty (109, 115, 75).  Reading a file with [obspy] or [pandas] is a function of its bytes. *)
From Coq Require Import String.
From Coq Require Import ZArith QArith List Bool.
From Verif Require Import Base Names Stations Windows Slowness Xcorr Directions Days.
Import ListNotations.
Open Scope Z_scope.

(** [shape[0]]. *)
Definition height (d : frame) : nat := match d with [] => O | (_, c) :: _ => length c end.
(** 282: [pd.concat] of the tables: the columns in order of first appearance, NaN where a table has no such column. *)
Definition column_in (k : bytes) (d : frame) : list (option Q) :=
  match col d k with Some c => c | None => repeat None (height d) end.
Definition join_tables (ds : list frame) : frame :=
  map (fun k => (k, flat_map (column_in k) ds)) (unique eqb_bytes (flat_map keys ds)).

(** A channel of an inventory: its code network.station.location.channel, latitude, longitude, elevation. *)
Record channel := mkch { c_code : bytes; c_lat : Q; c_lon : Q; c_elev : Q }.
(** [x.get_coordinates(s)] (508-510): the first channel with this code. *)
Fixpoint find_channel (inv : list channel) (s : bytes) : option channel :=
  match inv with [] => None | c :: r => if eqb_bytes (c_code c) s then Some c else find_channel r s end.
Definition mean (l : list Q) : Q := (qsum l / inject_Z (Z.of_nat (length l)))%Q.

Section coordinates.
(** [obspy.signal.util.util_geo_km(orig_lon, orig_lat, lon, lat)]: kilometres east and north of the origin. *)
Variable geo_km : Q -> Q -> Q -> Q -> Q * Q.
(** 516-518 and 140: network.station.location of a code; [None]: IndexError. *)
Definition place (s : bytes) : option bytes :=
  match split_on 46 s with n :: st :: l :: _ => Some (n ++ b "." ++ st ++ b "." ++ l) | _ => None end.
Fixpoint all_of {A} (l : list (option A)) : option (list A) :=
  match l with
  | [] => Some []
  | Some x :: r => match all_of r with Some m => Some (x :: m) | None => None end
  | None :: _ => None
  end.
(** 506-518, then the identifiers of 140; x and y only. *)
Definition get_coordinates (inv : list channel) : option locations :=
  match all_of (map (fun c => find_channel inv (c_code c)) inv) with
  | None => None
  | Some cs =>
      let lons := map c_lon cs in
      let lats := map c_lat cs in
      match all_of (map (fun c => place (c_code c)) inv) with
      | None => None
      | Some ids => Some (combine ids (map (fun c => geo_km (mean lons) (mean lats) (c_lon c) (c_lat c)) cs))
      end
  end.
End coordinates.

(** The files: their contents by name. *)
Definition store := bytes -> option bytes.
Definition write (st : store) (n t : bytes) : store := fun m => if eqb_bytes m n then Some t else st m.

(** A command: the contents of all files after each of its steps, and whether it ended without an exception. *)
Record run := mkrun { moments : list store; succeeded : bool }.
Definition after (st : store) (r : run) : store := last (moments r) st.
Definition stop : run := mkrun [] false.
(** The file is made empty, then written byte by byte. *)
Definition writing (st : store) (n t : bytes) : list store :=
  map (fun k => write st n (firstn k t)) (seq 0 (Datatypes.S (length t))).

Section commands.
(** [open(…, 'w')] succeeds for this name. *)
Variable writable : bytes -> bool.

(** ** [calculate_direction_terminal] *)
Variable geo_km : Q -> Q -> Q -> Q -> Q * Q.
(** [pd.read_csv], [obspy.read_inventory], [DataFrame.to_csv] with the columns added by 174-175. *)
Variable read_csv : bytes -> option frame.
Variable read_inventory : bytes -> option (list channel).
Variable results_csv : frame -> list (option arrival) -> bytes.

Record direction_options := mkdo { d_input : option bytes; d_locations : option bytes; d_output : option bytes }.

(** 79-115. *)
Definition calculate_direction (st : store) (o : direction_options) : run :=
  match d_input o, d_locations o, d_output o with
  | Some i, Some l, Some out =>
      match st i with
      | None => stop                                                     (* 98-101 *)
      | Some ti =>
        match read_csv ti with
        | None => stop
        | Some d =>
          match st l with
          | None => stop                                                 (* 102-105 *)
          | Some tl =>
            match read_inventory tl with
            | None => stop
            | Some inv =>
              match get_coordinates geo_km inv with
              | None => stop
              | Some ls =>
                if writable out then
                  let st' := write st out [] in                          (* 108-110 *)
                  match invert_for_slowness d (height d) ls with
                  | None => mkrun [st'] false                            (* 114 *)
                  | Some res => mkrun (st' :: writing st out (results_csv d res)) true   (* 115 *)
                  end
                else stop                                                (* 111-112 *)
              end
            end
          end
        end
      end
  | _, _, _ => stop                                                      (* 90-95 *)
  end.

(** ** [xcorr_all] and [xcorr_all_terminal] *)
Context {S : Type}.
(** Numbers given with -L, -H, -w, -p, -u; [None] is NaN. *)
Record analysis := mka { a_fl : option Q; a_fh : option Q; a_win : option Q; a_overlap : option Q; a_upsample : option Q }.
(** [xcorr_one_day] (311-333) of the data of one day. *)
Variable one_day : analysis -> list (bytes * list (Z * S)) -> option frame.
Variable search : bytes -> bytes -> option bool.
Variable read_waveforms : bytes -> option (list (bytes * list (Z * S))).

(** 118-127, 279-282.  [None]: an exception; [Some None]: Python's [None]. *)
Definition xcorr_all (st : store) (files : list bytes) (t1 t2 : Z) (ids excl : option (list bytes)) (a : analysis)
  : option (option frame) :=
  if validate_inputs (a_fl a) (a_fh a) (a_win a) (a_overlap a) (a_upsample a) then
    match loop_through_days (fun n => match st n with Some t => read_waveforms t | None => None end)
            (one_day a) search files t1 t2 ids excl with
    | None => None
    | Some [] => Some None
    | Some outs => Some (Some (join_tables outs))
    end
  else None.

(** [DataFrame.to_csv] of the table of lags. *)
Variable lags_csv : frame -> bytes.
(** Times that cannot be read are [None]. *)
Record lag_options := mklo { l_files : list bytes; l_output : option bytes; l_include : option bytes; l_exclude : option bytes;
  l_t1 : option Z; l_t2 : option Z; l_analysis : analysis }.

(** 10-75; 41-48: [split(',')]. *)
Definition calc_lags (st : store) (o : lag_options) : run :=
  match l_output o, l_t1 o, l_t2 o with
  | Some out, Some t1, Some t2 =>
      match xcorr_all st (l_files o) t1 t2 (option_map (split_on 44) (l_include o)) (option_map (split_on 44) (l_exclude o)) (l_analysis o) with
      | Some (Some d) => if writable out then mkrun (writing st out (lags_csv d)) true else stop   (* 75 *)
      | _ => stop                                                        (* 75: [None.to_csv] raises *)
      end
  | _, _, _ => stop                                                      (* 50-60 *)
  end.
End commands.
