(** Directions of arrival as numbers: gemlog/xcorr.py [invert_for_slowness] (131-176) over the real numbers,
    with the angle (172) and the square root (173) that [Slowness] leaves out.

    Exact arithmetic on real numbers; NaN is [None].  The matrix inverse (163) is the one of a 2 by 2
    matrix; a singular matrix raises LinAlgError.  Zeros have no sign here: what [np.arctan2] gives when
    its first argument is a zero and the second is not positive depends on the signs of the zeros, so it is
    a parameter. *)
From Coq Require Import String.
From Coq Require Import QArith Qreals Reals List Bool.
From Verif Require Import Base Scan Names Stations Gps Slowness Windows Xcorr Directions.
Import ListNotations.
Open Scope R_scope.

Definition rsum (l : list R) : R := fold_right Rplus 0 l.

(** Rows of G (150-159): differences of consecutive stations, without the one that closes the ring. *)
Fixpoint rrows (ps : list (R * R)) : list (R * R) :=
  match ps with
  | p :: (q :: _) as r => (fst p - fst q, snd p - snd q) :: rrows r
  | _ => []
  end.

(** 163, 171: [inv(G.T @ G) @ G.T @ lags]. *)
Definition rsolve (g : list (R * R)) (lags : list R) : option (R * R) :=
  let a := rsum (map (fun r => fst r * fst r) g) in
  let h := rsum (map (fun r => fst r * snd r) g) in
  let c := rsum (map (fun r => snd r * snd r) g) in
  let det := a * c - h * h in
  let u := rsum (map (fun rt => fst (fst rt) * snd rt) (combine g lags)) in
  let v := rsum (map (fun rt => snd (fst rt) * snd rt) (combine g lags)) in
  if Req_EM_T det 0 then None else Some ((c * u - h * v) / det, (a * v - h * u) / det).

(** [np.arctan2 y x]: the C function.  [south] is its value for a zero and a negative number, [still] for
    two zeros. *)
Definition arctan2 (south still : R) (y x : R) : R :=
  if Rlt_dec 0 x then atan (y / x)
  else if Rlt_dec 0 y then (if Req_EM_T x 0 then PI / 2 else atan (y / x) + PI)
  else if Rlt_dec y 0 then (if Req_EM_T x 0 then - (PI / 2) else atan (y / x) - PI)
  else if Req_EM_T x 0 then still else south.

(** 172-173. *)
Definition bearing_of (south still : R) (s : R * R) : R * R :=
  (arctan2 south still (- fst s) (- snd s) * 180 / PI, sqrt (fst s * fst s + snd s * snd s)).

(** A data frame: its columns; [None] is NaN. *)
Definition rframe := list (bytes * list (option R)).
Fixpoint rcol (d : rframe) (k : bytes) : option (list (option R)) :=
  match d with [] => None | (n, c) :: r => if eqb_bytes n k then Some c else rcol r k end.

(** Locations with their identifier network.station.location (140), which is assumed unique. *)
Definition rlocations := list (bytes * (R * R)).
Fixpoint rlocate (ls : rlocations) (i : bytes) : option (R * R) :=
  match ls with [] => None | (n, p) :: r => if eqb_bytes n i then Some p else rlocate r i end.
Fixpoint rlocate_all (ls : rlocations) (ids : list bytes) : option (list (R * R)) :=
  match ids with
  | [] => Some []
  | i :: r => match rlocate ls i, rlocate_all ls r with Some p, Some l => Some (p :: l) | _, _ => None end
  end.

(** 170: the columns of the lags and one line of them. *)
Fixpoint rlag_columns (d : rframe) (ks : list bytes) : option (list (list (option R))) :=
  match ks with
  | [] => Some []
  | k :: r => match rcol d k, rlag_columns d r with Some c, Some l => Some (c :: l) | _, _ => None end
  end.
Fixpoint rline (cs : list (list (option R))) (i : nat) : option (list R) :=
  match cs with
  | [] => Some []
  | c :: r => match nth_error c i, rline r i with Some (Some x), Some l => Some (x :: l) | _, _ => None end
  end.

(** 131-176.  [n]: number of lines.  [None]: an exception; a line (backazimuth in degrees, slowness) is
    [None] where it is NaN.  [short_ids] and [lag_keys] are those of [Slowness]. *)
Definition find_directions (south still : R) (d : rframe) (n : nat) (ls : rlocations) : option (list (option (R * R))) :=
  match short_ids (map fst d) with
  | None | Some [] => None
  | Some ids =>
      match rlocate_all ls ids, rlag_columns d (lag_keys ids) with
      | Some ps, Some cs =>
          match rsolve (rrows ps) (map (fun _ => 0) (rrows ps)) with
          | None => None
          | Some _ =>
              Some (map (fun i => match rline cs i with
                                  | None => None
                                  | Some lags => option_map (bearing_of south still) (rsolve (rrows ps) lags)
                                  end) (seq 0 n))
          end
      | _, _ => None
      end
  end.

(** Tables and places of rational numbers, as real numbers. *)
Definition real_table (d : list (bytes * list (option Q))) : list (bytes * list (option R)) :=
  map (fun nc => (fst nc, map (option_map Q2R) (snd nc))) d.
Definition real_places (ls : list (bytes * (Q * Q))) : list (bytes * (R * R)) :=
  map (fun nc => (fst nc, (Q2R (fst (snd nc)), Q2R (snd (snd nc))))) ls.
Definition real_points (ps : list (Q * Q)) : list (R * R) := map (fun p => (Q2R (fst p), Q2R (snd p))) ps.

(** 329-333, then 131-176: [Directions.directions] with the angles and roots.  [None]: an exception. *)
Definition bearings {S : Type} (south still : R) (prepare : list S -> list S) (std : list S -> Q)
  (correlate : list S -> list S -> Z -> Z * Q) (dt : Q) (maxshift : option Q)
  (st : list (bytes * list (Q * S))) (win overlap : Q) (ls : list (bytes * (Q * Q)))
  : option (list Q * list (option (R * R))) :=
  match apply_function_windows (analyse prepare std correlate dt maxshift) st win overlap with
  | None => None
  | Some r => match find_directions south still (real_table (table r)) (length (fst r)) (real_places ls) with
              | None => None
              | Some res => Some (fst r, res)
              end
  end.
