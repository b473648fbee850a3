(** Noise spectra: gemlog/gemlog_aux.py [gem_noise] (206-254), [ims_noise] (256-307) and [_noise_spectrum_helper] (311-342).

    Numbers are real numbers, NaN or minus infinity (rounding is idealised away).  The tables of the package are arguments.
    The spline of scipy and the integration of scipy are parameters.  Not modelled: warnings of numpy; [freq] given as a single
    number. *)
From Coq Require Import String.
From Coq Require Import ZArith QArith Qreals Reals List Bool.
From Verif Require Import Base Names Reference.
Import ListNotations.
Open Scope R_scope.

Inductive num := Num (x : R) | MinusInf | NaN.

(** [np.sqrt] (327, 328). *)
Definition np_sqrt (v : num) : num :=
  match v with Num x => if Rlt_dec x 0 then NaN else Num (sqrt x) | _ => NaN end.
(** [10*np.log10] (332, 333). *)
Definition ten_log10 (v : num) : num :=
  match v with
  | Num x => if Rlt_dec x 0 then NaN else if Req_EM_T x 0 then MinusInf else Num (10 * (ln x / ln 10))
  | _ => NaN
  end.

Inductive exn := ValueError | Unsupported | InvalidModel | BadTable.

(** The dictionary that is returned (340-342). *)
Record answer := mkanswer { freqs : list R; spectrum : list num; type : bytes; spectrum_units : bytes;
  band_min : option R; band_max : option R; noise : num; noise_units : bytes }.

Section scipy.
(** [scipy.interpolate.CubicSpline(x, y, extrapolate = False)] (314); [None]: it raises. *)
Variable spline : list R -> list R -> option (R -> num).
(** [scipy.integrate.quad(f, a, b)[0]] (317). *)
Variable quad : (R -> num) -> R -> R -> num.

(** [_noise_spectrum_helper] (311-342). *)
Definition noise_spectrum_helper (freq_in power_in : list R) (freq_out : option (list R)) (spectype : bytes)
    (freq_min freq_max : option R) : exn + answer :=
  let freq_out := match freq_out with None => freq_in | Some l => l end in
  match spline freq_in power_in with
  | None => inl BadTable
  | Some spec_function =>
      let power := map spec_function freq_out in
      let n := match freq_min, freq_max with Some lo, Some hi => quad spec_function lo hi | _, _ => NaN end in
      if eqb_bytes (lower spectype) (b "power")
      then inr (mkanswer freq_out power spectype (b "Pa^2/Hz") freq_min freq_max n (b "Pa^2"))
      else if eqb_bytes (firstn 3 (lower spectype)) (b "amp")
      then inr (mkanswer freq_out (map np_sqrt power) spectype (b "Pa/sqrt(Hz)") freq_min freq_max (np_sqrt n) (b "Pa"))
      else if eqb_bytes (lower spectype) (b "db")
      then inr (mkanswer freq_out (map ten_log10 power) spectype (b "dB Pa/sqrt(Hz)") freq_min freq_max (ten_log10 n) (b "dB Pa"))
      else inl Unsupported
  end.

(** [gem_noise] (206-254); [table]: the columns f and amp of the file of the package (247).  [float] of the version is that of
    decimal literals. *)
Definition gem_noise (table : list (R * R)) (freq : option (list R)) (spectype version : bytes)
    (freq_min freq_max : option R) : exn + answer :=
  match dec_float version with
  | None => inl ValueError
  | Some v =>
      if Qle_bool (97 # 100) v
      then noise_spectrum_helper (map fst table) (map (fun r => snd r ^ 2) table) freq spectype freq_min freq_max
      else inl Unsupported
  end.

(** A row of the table of the IMS models (294-295). *)
Record ims_row := mkims { im_f : R; im_min : R; im_med : R; im_max : R }.
(** 297-304. *)
Definition ims_column (model : bytes) : option (ims_row -> R) :=
  let m := lower model in
  if eqb_bytes m (b "low") || eqb_bytes m (b "min") then Some im_min
  else if eqb_bytes m (b "med") then Some im_med
  else if eqb_bytes m (b "high") || eqb_bytes m (b "hi") || eqb_bytes m (b "max") then Some im_max
  else None.
(** [ims_noise] (256-307). *)
Definition ims_noise (table : list ims_row) (model : bytes) (freq : option (list R)) (spectype : bytes)
    (freq_min freq_max : option R) : exn + answer :=
  match ims_column model with
  | None => inl InvalidModel
  | Some c => noise_spectrum_helper (map im_f table) (map (fun r => Rpower 10 (c r)) table) freq spectype freq_min freq_max
  end.
End scipy.
