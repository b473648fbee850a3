(** Correlation of two sensors: gemlog/xcorr.py [xcorr_function] 345-347 and 359.

    [correlate] and [xcorr_max] are obspy's (obspy.signal.cross_correlation), [detrend] and [taper] are methods of
    obspy's streams; they are described here as their source computes them, in exact arithmetic.
    Simplified: the two traces have the same number of samples (as traces sliced alike have). *)
From Coq Require Import ZArith QArith Qround Qabs List Bool.
From Verif Require Import Base.
Import ListNotations.
Open Scope Q_scope.

Definition qadd (l : list Q) : Q := fold_right Qplus 0 l.
Definition qlen {A} (l : list A) : Q := inject_Z (Z.of_nat (length l)).
Definition positions {A} (l : list A) : list Q := map (fun i => inject_Z (Z.of_nat i)) (seq 0 (length l)).

(** [st.detrend('linear')] (346): subtracts the line with the least sum of squared differences. *)
Definition detrend (x : list Q) : list Q :=
  let n := qlen x in
  let middle := qadd (positions x) / n in
  let spread := qadd (map (fun i => (i - middle) * (i - middle)) (positions x)) in
  let slope := qadd (map (fun iv => (fst iv - middle) * snd iv) (combine (positions x) x)) / spread in
  let average := qadd x / n in
  map (fun iv => snd iv - (average + slope * (fst iv - middle))) (combine (positions x) x).

(** [st.taper(0.05, 'hann')] (347): the first and last twentieth of the samples, rounded down, are multiplied by
    the sides of a window; [side] of the length of a side and the distance from the end. *)
Section taper.
Variable side : nat -> nat -> Q.
Definition factors (n : nat) : list Q :=
  let wlen := Nat.div n 20 in
  map (side wlen) (seq 0 wlen) ++ repeat 1 (n - 2 * wlen) ++ map (side wlen) (rev (seq 0 wlen)).
Definition taper (x : list Q) : list Q := map (fun fv => fst fv * snd fv) (combine (factors (length x)) x).
(** 346-347. *)
Definition prepared (x : list Q) : list Q := taper (detrend x).
End taper.

(** obspy's [correlate(a, b, shift)]: means removed, [a] padded with zeros on both sides, divided by the norm. *)
Section correlate.
(** [x ** 0.5]. *)
Variable root : Q -> Q.
Definition demean (x : list Q) : list Q := map (fun v => v - qadd x / qlen x) x.
Definition dot (x y : list Q) : Q := qadd (map (fun p => fst p * snd p) (combine x y)).
Definition pad (m : nat) (x : list Q) : list Q := repeat 0 m ++ x ++ repeat 0 m.
Definition eps : Q := 1 # (2 ^ 52).
Definition correlation (a b : list Q) (m : nat) : list Q :=
  let a := demean a in let b := demean b in
  let cc := map (fun k => dot (skipn k (pad m a)) b) (seq 0 (2 * m + 1)) in
  let norm := root (dot a a * dot b b) in
  if Qle_bool norm eps then map (fun _ => 0) cc else map (fun c => c / norm) cc.

(** obspy's [xcorr_max(cc, abs_max = False)]: the first place of the largest value, from the middle. *)
Fixpoint first_max (best : Q) (at_ i : nat) (l : list Q) : nat * Q :=
  match l with
  | [] => (at_, best)
  | x :: r => if Qltb best x then first_max x i (S i) r else first_max best at_ (S i) r
  end.
Definition xcorr_max (cc : list Q) : Z * Q :=
  match cc with
  | [] => (0%Z, 0)
  | x :: r => let (k, v) := first_max x 0 1 r in ((Z.of_nat k - (Z.of_nat (length cc) - 1) / 2)%Z, v)
  end.
(** obspy's [xcorr_max(cc)], as gemlog_aux.py [check_lags] (59) calls it: the first place of the value that is largest in
    size, and that value. *)
Definition xcorr_max_abs (cc : list Q) : Z * Q :=
  match map Qabs cc with
  | [] => (0%Z, 0)
  | x :: r => let k := fst (first_max x 0 1 r) in ((Z.of_nat k - (Z.of_nat (length cc) - 1) / 2)%Z, nth k cc 0)
  end.
Definition find_shift_abs (a b : list Q) (maxshift : Z) : Z * Q := xcorr_max_abs (correlation a b (Z.to_nat maxshift)).
(** 359. *)
Definition find_shift (a b : list Q) (maxshift : Z) : Z * Q := xcorr_max (correlation a b (Z.to_nat maxshift)).
End correlate.
