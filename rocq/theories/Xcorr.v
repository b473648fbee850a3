(** Lags between sensors: gemlog/xcorr.py [xcorr_function] (335-366), [upsample_stream] (529-536) and the
    parameters of [xcorr_one_day] (311-321).  What obspy and numpy compute from samples (detrending and
    tapering, standard deviation, correlation and its maximum, the spline) are parameters. *)
From Coq Require Import String.
From Coq Require Import ZArith QArith Qround List Bool.
From Verif Require Import Base Windows Huddle Slowness.
Import ListNotations.
Open Scope Z_scope.

Section xcorr.
Variable D : Type.
(** [detrend('linear')], then [taper(0.05, 'hann')] (346-347). *)
Variable prepare : D -> D.
(** [Trace.std] (357). *)
Variable std : D -> Q.
(** [xcorr_max(correlate(a, c, m), abs_max = False)] (359): shift and value. *)
Variable correlate : D -> D -> Z -> Z * Q.

Record sensor := mks { s_net : bytes; s_sta : bytes; s_loc : bytes; s_delta : Q; s_data : D }.
(** 355-356. *)
Definition short_id (s : sensor) : bytes := s_net s ++ b "." ++ s_sta s ++ b "." ++ s_loc s.

Inductive item := Num (q : Q) | Flag (f : bool).
Definition items := list (bytes * item).
(** Assigning to an item of a dictionary. *)
Fixpoint set (d : items) (k : bytes) (v : item) : items :=
  match d with
  | [] => [(k, v)]
  | (k', v') :: r => if eqb_bytes k' k then (k', v) :: r else (k', v') :: set r k v
  end.

(** The loop 351-363: the items, the sum of [shift/len(st)] and the sum of [value/len(st)] (the item
    [mean_coef] is put in front at the end). *)
Fixpoint ring (first : sensor) (l : list sensor) : list (sensor * sensor) :=
  match l with
  | [] => []
  | s :: r => (s, match r with [] => first | t :: _ => t end) :: ring first r
  end.
Definition pair_step (maxlag : Z) (dt : Q) (n : Z) (acc : items * Q * Q) (p : sensor * sensor) : items * Q * Q :=
  let '(d, consistency, mean) := acc in
  let (tr1, tr2) := p in
  let ID1 := short_id tr1 in let ID2 := short_id tr2 in
  let pair_name := ID1 ++ b "_" ++ ID2 in
  let d := set d (b "rms_" ++ ID1) (Num (std (prepare (s_data tr1)))) in
  let (shift, value) := correlate (prepare (s_data tr1)) (prepare (s_data tr2)) maxlag in
  let d := set d (b "lag_" ++ pair_name) (Num (inject_Z shift * dt)) in
  let d := set d (b "r_" ++ pair_name) (Num value) in
  (d, consistency + inject_Z shift / inject_Z n, mean + value / inject_Z n)%Q.

(** [None]: IndexError, no traces (345).  [maxshift]: [args.get('maxshift_seconds')]. *)
Definition xcorr_function (st : list sensor) (maxshift : option Q) : option items :=
  match st with
  | [] => None
  | s :: _ =>
      let maxshift_seconds := match maxshift with Some m => m | None => 1%Q end in
      let dt := s_delta s in
      let n := Z.of_nat (length st) in
      let maxlag := rint (maxshift_seconds / dt) in
      let '(d, consistency, mean) := fold_left (pair_step maxlag dt n) (ring s st) ([], 0%Q, 0%Q) in
      Some ((b "mean_coef", Num mean) ::
            set d (b "consistency") (Flag (Qle_bool (Qabs.Qabs consistency) (inject_Z n))))
  end.
End xcorr.

(** [upsample_stream] (529-536) for one trace; [spline] is [scipy.interpolate.CubicSpline] of the samples at
    0, 1, 2, ...; [None]: ValueError, fewer than two samples. *)
Section upsample.
Variable spline : list Q -> Q -> Q.
Definition upsample_times (npts : nat) (N : Q) : list Q :=
  map (fun k => inject_Z (Z.of_nat k) / N)%Q (seq 0 (Z.to_nat (Qceiling (N * inject_Z (Z.of_nat npts - 1))))).
Definition upsample (delta : Q) (data : list Q) (N : Q) : option (Q * list Q) :=
  match data with
  | _ :: _ :: _ => Some ((delta / N)%Q, map (spline data) (upsample_times (length data) N))
  | _ => None
  end.
End upsample.

(** The parameters of [xcorr_one_day] (313-318); [None]: not given. *)
Record parameters := mkp { p_fl : option Q; p_fh : option Q; p_win : option Q; p_overlap : option Q; p_ratio : option Q }.
Definition default (o : option Q) (d : Q) : Q := match o with Some x => x | None => d end.
Record chosen := mkc { c_fl : Q; c_fh : Q; c_win : Q; c_overlap : Q; c_ratio : Q }.
(** [None]: an exception (also for a missing ratio, which cannot be compared with 1). *)
Definition choose (a : parameters) : option chosen :=
  let fl := default (p_fl a) 5 in
  let fh := default (p_fh a) 40 in
  let win := default (p_win a) 5 in
  let overlap := default (p_overlap a) 0 in
  match (match p_overlap a with Some _ => p_ratio a | None => Some 1%Q end) with
  | None => None
  | Some ratio =>
      if validate_inputs (Some fl) (Some fh) (Some win) (Some overlap) (Some ratio)
      then Some (mkc fl fh win overlap ratio) else None
  end.
(** [if upsample_ratio != 1: st = upsample_stream(st, args['upsample_ratio'])] (320-321), for one trace: the
    ratio in effect is [args['upsample_ratio']] whenever it differs from the default 1. *)
Definition resample (spline : list Q -> Q -> Q) (c : chosen) (delta : Q) (data : list Q) : option (Q * list Q) :=
  if Qeq_bool (c_ratio c) 1 then Some (delta, data) else upsample spline delta data (c_ratio c).
