(** Inversion of time lags for slowness: gemlog/xcorr.py [invert_for_slowness] (131-176), and the names
    of the columns made by [xcorr_function] (335-366).

    Exact arithmetic.  The matrix inverse (163) is the one of a 2 by 2 matrix; a singular matrix raises
    LinAlgError.  The angle (172) and the square root (173) are not modelled: the result is the vector
    whose angle clockwise from north is the backazimuth, and the square of the slowness. *)
From Coq Require Import String.
From Coq Require Import ZArith QArith List Bool.
From Verif Require Import Base Scan Names Stations Gps.
Import ListNotations.
Open Scope Q_scope.

Definition qsum (l : list Q) : Q := fold_right Qplus 0 l.

(** Rows of G (150-159): differences of consecutive stations, without the one that closes the ring. *)
Fixpoint rows (ps : list (Q * Q)) : list (Q * Q) :=
  match ps with
  | p :: (q :: _) as r => (fst p - fst q, snd p - snd q) :: rows r
  | _ => []
  end.

(** 163, 171: [inv(G.T @ G) @ G.T @ lags]. *)
Definition solve (g : list (Q * Q)) (lags : list Q) : option (Q * Q) :=
  let a := qsum (map (fun r => fst r * fst r) g) in
  let h := qsum (map (fun r => fst r * snd r) g) in
  let c := qsum (map (fun r => snd r * snd r) g) in
  let det := a * c - h * h in
  let u := qsum (map (fun rt => fst (fst rt) * snd rt) (combine g lags)) in
  let v := qsum (map (fun rt => snd (fst rt) * snd rt) (combine g lags)) in
  if Qeq_bool det 0 then None else Some ((c * u - h * v) / det, (a * v - h * u) / det).

Record arrival := mkarr { toward : Q * Q; slowness2 : Q }.
Definition arrival_of (s : Q * Q) : arrival :=
  mkarr (- fst s, - snd s) (fst s * fst s + snd s * snd s).

(** A data frame: its columns; [None] is NaN. *)
Definition frame := list (bytes * list (option Q)).
Definition keys (d : frame) : list bytes := map fst d.
Fixpoint col (d : frame) (k : bytes) : option (list (option Q)) :=
  match d with [] => None | (n, c) :: r => if eqb_bytes n k then Some c else col r k end.

(** 135-138: [key.split('_')[1]] of the columns with "rms" in their name; [None]: IndexError. *)
Fixpoint short_ids (ks : list bytes) : option (list bytes) :=
  match ks with
  | [] => Some []
  | k :: r =>
      if part_of (b "rms") k
      then match nth_error (split_on 95 k) 1, short_ids r with Some i, Some l => Some (i :: l) | _, _ => None end
      else short_ids r
  end.

(** Locations with their identifier network.station.location (140), which is assumed unique. *)
Definition locations := list (bytes * (Q * Q)).
Fixpoint locate (ls : locations) (i : bytes) : option (Q * Q) :=
  match ls with [] => None | (n, p) :: r => if eqb_bytes n i then Some p else locate r i end.
Fixpoint locate_all (ls : locations) (ids : list bytes) : option (list (Q * Q)) :=
  match ids with
  | [] => Some []
  | i :: r => match locate ls i, locate_all ls r with Some p, Some l => Some (p :: l) | _, _ => None end
  end.

(** 150-152, without the last one. *)
Fixpoint lag_keys (ids : list bytes) : list bytes :=
  match ids with
  | i :: (j :: _) as r => (b "lag_" ++ i ++ b "_" ++ j) :: lag_keys r
  | _ => []
  end.
Fixpoint lag_columns (d : frame) (ks : list bytes) : option (list (list (option Q))) :=
  match ks with
  | [] => Some []
  | k :: r => match col d k, lag_columns d r with Some c, Some l => Some (c :: l) | _, _ => None end
  end.
(** Line [i] of the columns; [None]: some value is NaN or there is no such line. *)
Fixpoint line (cs : list (list (option Q))) (i : nat) : option (list Q) :=
  match cs with
  | [] => Some []
  | c :: r => match nth_error c i, line r i with Some (Some x), Some l => Some (x :: l) | _, _ => None end
  end.

(** 131-176.  [n]: number of lines.  [None]: an exception; a line is [None] where its result is NaN. *)
Definition invert_for_slowness (d : frame) (n : nat) (ls : locations) : option (list (option arrival)) :=
  match short_ids (keys d) with
  | None | Some [] => None
  | Some ids =>
      match locate_all ls ids, lag_columns d (lag_keys ids) with
      | Some ps, Some cs =>
          match solve (rows ps) (map (fun _ => 0) (rows ps)) with
          | None => None
          | Some _ =>
              Some (map (fun i => match line cs i with
                                  | None => None
                                  | Some lags => option_map arrival_of (solve (rows ps) lags)
                                  end) (seq 0 n))
          end
      | _, _ => None
      end
  end.

(** Names of the items of [xcorr_function] (348-365) for stations [ids] (353-361), in order. *)
Fixpoint pair_items (first : bytes) (ids : list bytes) : list bytes :=
  match ids with
  | [] => []
  | i :: r =>
      let j := match r with [] => first | j :: _ => j end in
      (b "rms_" ++ i) :: (b "lag_" ++ i ++ b "_" ++ j) :: (b "r_" ++ i ++ b "_" ++ j) :: pair_items first r
  end.
Definition item_names (ids : list bytes) : list bytes :=
  b "mean_coef" :: pair_items (match ids with i :: _ => i | [] => [] end) ids ++ [b "consistency"].
