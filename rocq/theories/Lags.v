(** What gemlog/gemlog_aux.py [check_lags] (32-68) asks of obspy: pieces of traces (54) and the correlation of two of them
    (56).  Arithmetic is exact and the square root a parameter, as in [Correlate].

    Not modelled: sampling intervals that are no whole number of nanoseconds, traces with different ones, masked samples. *)
From Coq Require Import ZArith QArith List Bool.
From Verif Require Import Base Database Correlate.
Import ListNotations.
Open Scope Z_scope.

(** obspy's [round_away]: to the nearest whole number, halves away from zero. *)
Definition round_away (num den : Z) : Z := Z.sgn num * ((2 * Z.abs num + den) / (2 * den)).

(** gemlog_aux.py 54: [Stream.slice] of one trace, with samples every [dt] nanoseconds.  The limits go to the nearest samples
    ([Trace._ltrim], then [Trace._rtrim] from the new start on); [None]: no samples are left and the trace is dropped. *)
Definition slice_nearest (dt : Z) (tr : trace) (a e : Z) : option trace :=
  let i := Z.max 0 (round_away (a - tr_start tr) dt) in
  let rest := skipn (Z.to_nat i) (tr_data tr) in
  let s := tr_start tr + i * dt in
  let kept := if e <? s then [] else firstn (Z.to_nat (round_away (e - s) dt + 1)) rest in
  match kept with
  | [] => None
  | _ => Some (mktrace (tr_station tr) (tr_location tr) s (s + (Z.of_nat (length kept) - 1) * dt) kept)
  end.

Section lags.
  Variable root : Q -> Q.
  (** The result for two pieces with different numbers of samples. *)
  Variable other : trace -> trace -> Z -> option (Z * Q).
  (** gemlog_aux.py 56: [xcorr_max(correlate(x, y, maxshift))]. *)
  Definition correlate_traces (x y : trace) (maxshift : Z) : option (Z * Q) :=
    if Nat.eqb (length (tr_data x)) (length (tr_data y)) then Some (find_shift_abs root (tr_data x) (tr_data y) maxshift)
    else other x y maxshift.
End lags.
