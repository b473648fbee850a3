(** Model of gemlog/core.py [_interp_time] (1275-1315): resampling of the timed samples to 100 samples
    per second.  [scipy.interpolate.CubicSpline] is a parameter; doubles are rationals; the conversion to
    int32 (1309) is not bounded. *)
From Coq Require Import ZArith QArith Qround List Bool.
From Verif Require Import Base Process.
Import ListNotations.
Open Scope Q_scope.

(** A trace: time of its first sample and its samples (1310-1313); the interval is always 0.01 s. *)
Record trace := mktr { tr_start : Q; tr_data : list Z }.

(** Lines 1280-1282: rows with a time. *)
Definition timed_points (rows : list (option Q * option Q)) : list (Q * option Q) :=
  flat_map (fun r => match fst r with Some t => [(t, snd r)] | None => [] end) rows.

(** Lines 1285-1286; [None] is an infinite limit, or in the result an IndexError. *)
Definition first_from (t1 : option Q) (ts : list Q) : option Q :=
  find (fun t => match t1 with Some l => Qle_bool (l - (1 # 100) - (1 # 1000)) t | None => true end) ts.
Definition last_upto (t2 : option Q) (ts : list Q) : option Q :=
  find (fun t => match t2 with Some l => Qle_bool t (l + (1 # 100) + (1 # 1000)) | None => true end) (rev ts).

(** [np.where(c)[0]]: positions, counted from [i], where [c] holds. *)
Fixpoint where_ (i : nat) (c : list bool) : list nat :=
  match c with [] => [] | true :: r => i :: where_ (S i) r | false :: r => where_ (S i) r end.
(** [np.diff]. *)
Fixpoint diffs (l : list Q) : list Q := match l with x :: ((y :: _) as r) => (y - x) :: diffs r | _ => [] end.
Definition at_ (ts : list Q) (i : nat) : Q := nth i ts 0.

(** Lines 1287-1288. *)
Definition breaks_raw (min_step max_step : Q) (ts : list Q) : list nat :=
  where_ 0 (map (fun d => Qltb max_step d || Qltb d min_step) (diffs ts)).
Definition breaks (min_step max_step t1 t2 : Q) (ts : list Q) : list nat :=
  filter (fun i => Qltb t1 (at_ ts i) && Qltb (at_ ts (S i)) t2) (breaks_raw min_step max_step ts).

(** Lines 1289-1293: start and end times of the continuous chunks. *)
Definition chunks (min_step max_step t1 t2 : Q) (ts : list Q) : list (Q * Q) :=
  let bs := breaks min_step max_step t1 t2 ts in
  filter (fun c => negb (Qeq_bool (fst c) (snd c)))
    (combine (t1 :: map (fun i => at_ ts (S i)) bs) (map (at_ ts) bs ++ [t2])).

(** [np.round(x, 2)]. *)
Definition round2 (x : Q) : Q := inject_Z (np_round (x * 100)) * (1 # 100).

(** Line 1308.  [np.trunc] and [np.floor] differ only for a negative length; [np.arange] is empty then. *)
Definition grid (s e : Q) : list Q :=
  map (fun k => round2 (s + inject_Z (Z.of_nat k) * (1 # 100))) (seq 0 (Z.to_nat (Qfloor ((e - s) / (1 # 100))))).

Section Spline.
  Variable spline : list (Q * option Q) -> option (Q -> Q).     (* [None]: CubicSpline raises *)

  (** Line 1298. *)
  Definition near (s e : Q) (pts : list (Q * option Q)) : list (Q * option Q) :=
    filter (fun p => Qle_bool (s - (1 # 100) - (1 # 1000)) (fst p) && Qle_bool (fst p) (e + (1 # 100) - (1 # 1000))) pts.

  (** Lines 1297-1314; [None] is the IndexError of [t_interp[0]] (1311). *)
  Fixpoint resample (pts : list (Q * option Q)) (cs : list (Q * Q)) : option (list trace) :=
    match cs with
    | [] => Some []
    | (s, e) :: rest =>
        match spline (near s e pts) with
        | None => resample pts rest
        | Some f =>
            match grid s e with
            | [] => None
            | (t0 :: _) as g =>
                match resample pts rest with
                | Some trs => Some (mktr t0 (map (fun t => np_round (f t)) g) :: trs)
                | None => None
                end
            end
        end
    end.

  (** [_interp_time] (1275-1315); [None]: it raises. *)
  Definition interp_time (rows : list (option Q * option Q)) (t1 t2 : option Q) (min_step max_step : Q) : option (list trace) :=
    let pts := timed_points rows in
    let ts := map fst pts in
    match first_from t1 ts, last_upto t2 ts with
    | Some a, Some z => resample pts (chunks min_step max_step a z ts)
    | _, _ => None
    end.

  (** The call made everywhere in the package (1268, 1546). *)
  Definition interp (rows : list (option Q * option Q)) : option (list trace) := interp_time rows None None 0 (25 # 1000).
End Spline.
