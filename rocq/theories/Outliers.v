(** Removing outlying GPS positions: gemlog/gem_network.py [_remove_outliers] (387-392).

    A table of positions is a list of (latitude, longitude); numbers are exact, missing values (NaN)
    are not modelled. *)
From Coq Require Import ZArith QArith Qabs List Bool.
From Verif Require Import Base.
Import ListNotations.
Open Scope Q_scope.

Notation point := (Q * Q)%type (only parsing).

Fixpoint sumQ (l : list Q) : Q := match l with [] => 0 | x :: r => x + sumQ r end.
Definition count (l : list Q) : Q := inject_Z (Z.of_nat (length l)).
Definition mean (l : list Q) : Q := sumQ l / count l.

(** [np.std(x)**2] (388): population variance. *)
Definition variance (l : list Q) : Q := mean (map (fun x => (x - mean l) * (x - mean l)) l).

(** [np.median] (388): the middle of the sorted values, or the mean of the two in the middle. *)
Fixpoint insert (x : Q) (l : list Q) : list Q :=
  match l with
  | [] => [x]
  | y :: r => if Qle_bool x y then x :: l else y :: insert x r
  end.
Fixpoint sort (l : list Q) : list Q := match l with [] => [] | x :: r => insert x (sort r) end.
Definition median (l : list Q) : Q :=
  let s := sort l in
  let n := length s in
  if Nat.even n then (nth (n / 2 - 1) s 0 + nth (n / 2) s 0) / 2 else nth (n / 2) s 0.

(** [np.abs(x - np.median(l)) < N * (1e-5 + np.std(l))] (388).  The standard deviation is the square
    root of [variance l]; the comparison is made without it: with t = |x - median| / N - 1e-5, t is
    smaller than the root iff t is negative or its square is smaller than the variance (N > 0). *)
Definition close (N : Q) (l : list Q) (x : Q) : bool :=
  let t := Qabs (x - median l) / N - (1 # 100000) in
  Qltb t 0 || Qltb (t * t) (variance l).

(** One evaluation of line 388: the rows kept. *)
Definition pass (N : Q) (x : list point) : list point :=
  filter (fun p => close N (map fst x) (fst p) && close N (map snd x) (snd p)) x.

(** The recursion (389-392); [fuel] bounds its depth. *)
Fixpoint remove_fuel (fuel : nat) (N : Q) (x : list point) : list point :=
  let w := pass N x in
  if (length w <? length x)%nat then
    match fuel with O => x | S f => remove_fuel f N w end
  else x.
Definition remove_outliers (N : Q) (x : list point) : list point := remove_fuel (length x) N x.
