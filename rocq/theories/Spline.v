(** Model of [scipy.interpolate.CubicSpline] as called in gemlog/core.py [_interp_time] (1300), with scipy's default
    boundary condition ("not-a-knot") and extrapolation.  Simplifications: doubles are rationals; the system of
    equations for the slopes is solved by elimination without row exchanges, where scipy calls a banded solver of
    LAPACK ([Qred] only writes a number in lowest terms). *)
From Coq Require Import ZArith QArith Qreduction List Bool.
From Verif Require Import Base Process.
Import ListNotations.
Open Scope Q_scope.

(** A sample: time and value (core.py 1281-1282). *)
Definition knot := (Q * Q)%type.
(** Distance in time, and mean slope, from a sample to the next (core.py 1300: [np.diff(x)], [np.diff(y) / np.diff(x)]). *)
Definition gap (p q : knot) : Q := fst q - fst p.
Definition rise (p q : knot) : Q := (snd q - snd p) / gap p q.

(** One equation [a s' + b s + c s'' = d] for the slopes [s'], [s], [s''] at three samples in a row (core.py 1300). *)
Record row := mkrow { r_before : Q; r_here : Q; r_after : Q; r_right : Q }.

(** Core.py 1300: the second derivatives before and after the middle sample agree. *)
Definition inner_row (p q r : knot) : row :=
  mkrow (gap q r) (2 * (gap p q + gap q r)) (gap p q) (3 * (gap q r * rise p q + gap p q * rise q r)).
(** Core.py 1300: the third derivatives agree at the second sample, and at the last but one. *)
Definition first_row (p q r : knot) : row :=
  let d := gap p r in
  mkrow 0 (gap q r) d (((gap p q + 2 * d) * gap q r * rise p q + gap p q * gap p q * rise q r) / d).
Definition last_row (p q r : knot) : row :=
  let d := gap p r in
  mkrow d (gap p q) 0 ((gap q r * gap q r * rise p q + (2 * d + gap q r) * gap p q * rise q r) / d).

(** Core.py 1300: the equations from the second sample on, for four or more samples. *)
Fixpoint inner_rows (p q : knot) (l : list knot) : list row :=
  match l with
  | [] => []
  | r :: l' => inner_row p q r :: match l' with [] => [last_row p q r] | _ :: _ => inner_rows q r l' end
  end.

(** Core.py 1300: all equations.  Three samples give a parabola. *)
Definition equations (pts : list knot) : list row :=
  match pts with
  | [p; q; r] => [mkrow 0 1 1 (2 * rise p q); inner_row p q r; mkrow 1 1 0 (2 * rise q r)]
  | p :: q :: ((r :: _) as l) => first_row p q r :: inner_rows p q l
  | _ => []
  end.

(** Core.py 1300: elimination downwards and substitution upwards; the slope before the first of [rows] is [d - c s]
    with [s] the slope of the first. *)
Fixpoint eliminate (c d : Q) (rows : list row) : list Q :=
  match rows with
  | [] => []
  | r :: rows' =>
      let p := r_here r - r_before r * c in
      let c' := Qred (r_after r / p) in
      let d' := Qred ((r_right r - r_before r * d) / p) in
      let ss := eliminate c' d' rows' in
      Qred (d' - c' * hd 0 ss) :: ss
  end.

(** Core.py 1300: the slopes.  Two samples give a straight line. *)
Definition slopes (pts : list knot) : list Q :=
  match pts with
  | [p; q] => [rise p q; rise p q]
  | _ => eliminate 0 0 (equations pts)
  end.

(** Core.py 1300, 1309: a piece of the spline: where it starts, and its polynomial in the time since then. *)
Record piece := mkpiece { p_from : Q; p_c3 : Q; p_c2 : Q; p_c1 : Q; p_c0 : Q }.
Definition piece_at (p : piece) (t : Q) : Q :=
  let u := t - p_from p in ((p_c3 p * u + p_c2 p) * u + p_c1 p) * u + p_c0 p.
(** Core.py 1300: the piece with given values and slopes at both ends. *)
Definition piece_between (p q : knot) (s s' : Q) : piece :=
  let t := (s + s' - 2 * rise p q) / gap p q in
  mkpiece (fst p) (Qred (t / gap p q)) (Qred ((rise p q - s) / gap p q - t)) s (snd p).
Fixpoint pieces (pts : list knot) (ss : list Q) : list piece :=
  match pts, ss with
  | p :: ((q :: _) as pts'), s :: ((s' :: _) as ss') => piece_between p q s s' :: pieces pts' ss'
  | _, _ => []
  end.

(** Core.py 1309: the value at a time, from the last piece that starts by then, or the first one. *)
Fixpoint spline_at (ps : list piece) (t : Q) : Q :=
  match ps with
  | [] => 0
  | p :: ps' =>
      match ps' with
      | [] => piece_at p t
      | p' :: _ => if Qltb t (p_from p') then piece_at p t else spline_at ps' t
      end
  end.

(** Core.py 1300: the samples if all have a value; whether the times increase. *)
Fixpoint knots (pts : list (Q * option Q)) : option (list knot) :=
  match pts with
  | [] => Some []
  | (t, Some v) :: pts' => option_map (cons (t, v)) (knots pts')
  | (_, None) :: _ => None
  end.
Fixpoint increasing (pts : list knot) : bool :=
  match pts with p :: ((q :: _) as pts') => Qltb (fst p) (fst q) && increasing pts' | _ => true end.

(** Core.py 1300; [None]: an exception. *)
Definition cubic_spline (pts : list (Q * option Q)) : option (Q -> Q) :=
  match knots pts with
  | Some ks =>
      if (2 <=? length ks)%nat && increasing ks
      then let ps := pieces ks (slopes ks) in Some (spline_at ps)
      else None
  | None => None
  end.
