(** The positions of the sensors of a stream and of given numbers: gemlog/xcorr.py [get_coordinates] (470-527), the
    branches for a stream (484-505) and for arrays (519-525).  The branch for an inventory is in [Commands].

    Simplifications: of a trace only the codes and the coordinates are kept; a coordinate a trace does not have is
    [None], and reading it raises, so that the bare [except] (495) catches it.  [None] as a result: an exception.
    [obspy.signal.array_analysis.get_geometry] is not part of gemlog; it is modelled after its documentation. *)
From Coq Require Import String.
From Coq Require Import ZArith QArith List Bool.
From Verif Require Import Base Slowness Commands.
Import ListNotations.
Open Scope Z_scope.

(** [tr.stats.network], [.station], [.location] and [tr.stats.coordinates]. *)
Record placed := mkpl { p_net : bytes; p_sta : bytes; p_loc : bytes;
  p_lon : option Q; p_lat : option Q; p_elev : option Q; p_x : option Q; p_y : option Q }.
(** A row of the result (526): x and y in km, z in m, and the three codes. *)
Record position := mkpos { q_x : Q; q_y : Q; q_z : Q; q_net : bytes; q_sta : bytes; q_loc : bytes }.

Section stream.
(** [obspy.signal.util.util_geo_km]. *)
Variable geo_km : Q -> Q -> Q -> Q -> Q * Q.
(** 489-490: [get_geometry(x, coordsys = 'lonlat', return_center = True)]: for each trace the kilometres from the
    average longitude and latitude and the height above the average elevation; then these averages. *)
Definition get_geometry (st : list placed) : option (list (Q * Q * Q) * (Q * Q * Q)) :=
  match all_of (map p_lon st), all_of (map p_lat st), all_of (map p_elev st) with
  | Some lons, Some lats, Some els =>
      Some (map (fun p => (geo_km (mean lons) (mean lats) (fst (fst p)) (snd (fst p)), (snd p - mean els)%Q)) (combine (combine lons lats) els),
            (mean lons, mean lats, mean els))
  | _, _, _ => None
  end.
(** 485-501: x, y, z: from the geometry, with the height of its centre added again (491-493), or, where that raises, the
    coordinates as they are (499-501). *)
Definition stream_xyz (st : list placed) : option (list (Q * Q * Q)) :=
  match get_geometry st with
  | Some (g, c) => Some (map (fun p => (fst p, (snd p + snd c)%Q)) g)
  | None =>
      match all_of (map p_x st), all_of (map p_y st), all_of (map p_elev st) with
      | Some xs, Some ys, Some zs => Some (combine (combine xs ys) zs)
      | _, _, _ => None
      end
  end.
(** 503-505, 526: with the codes of the traces. *)
Definition stream_coordinates (st : list placed) : option (list position) :=
  match stream_xyz st with
  | Some g => Some (map (fun p => mkpos (fst (fst (fst p))) (snd (fst (fst p))) (snd (fst p)) (p_net (snd p)) (p_sta (snd p)) (p_loc (snd p))) (combine g st))
  | None => None
  end.
End stream.

(** 140: the identifier [invert_for_slowness] makes of a row, with x and y (the form [Slowness] reads). *)
Definition located (q : position) : bytes * (Q * Q) := (q_net q ++ b "." ++ q_sta q ++ b "." ++ q_loc q, (q_x q, q_y q)).

(** 519-526: two arrays: columns of different lengths raise (526). *)
Definition array_coordinates (x y : list Q) : option (list (Q * Q)) :=
  if Nat.eqb (length x) (length y) then Some (combine x y) else None.
