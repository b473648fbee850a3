(** Model of [np.polynomial.polynomial.polyfit] as used in gemlog/core.py [_robust_regress] (1194-1196): the polynomial of
    the given degree with the least squares, or an exception (the rank warning, raised as an error, or no points).
    Simplifications: doubles are rationals, so that the rank is exact (numpy compares singular values with
    [len(x) * eps]); the columns of the least-squares problem are made orthogonal one after the other, where numpy uses
    the singular values ([Qred] only writes a number in lowest terms). *)
From Coq Require Import ZArith QArith Qreduction List Bool.
From Verif Require Import Base Process ReadSeveral Drift.
Import ListNotations.
Open Scope Q_scope.

(** Polynomials, lowest coefficient first (core.py 1196, 1197): value, sum and multiple. *)
Fixpoint poly_at (p : list Q) (x : Q) : Q := match p with [] => 0 | a :: p' => a + x * poly_at p' x end.
Fixpoint poly_plus (p q : list Q) : list Q :=
  match p, q with [], _ => q | _, [] => p | a :: p', c :: q' => Qred (a + c) :: poly_plus p' q' end.
Definition poly_times (k : Q) (p : list Q) : list Q := map (fun a => Qred (k * a)) p.
(** The column of the Vandermonde matrix with exponent [k]. *)
Definition monomial (k : nat) : list Q := repeat 0 k ++ [1].

(** Column products over the points; the column of a polynomial. *)
Definition product (pts : list point) (u v : point -> Q) : Q := fold_right (fun q s => Qred (u q * v q + s)) 0 pts.
Definition column (p : list Q) (q : point) : Q := poly_at p (fst q).

(** How much of the column [q] is in [u]. *)
Definition share (pts : list point) (u : point -> Q) (q : list Q) : Q :=
  Qred (product pts u (column q) / product pts (column q) (column q)).

(** What is left of [p] after taking out the columns [qs]. *)
Fixpoint rest (pts : list point) (p : list Q) (qs : list (list Q)) : list Q :=
  match qs with
  | [] => p
  | q :: qs' => rest pts (poly_plus p (poly_times (- share pts (column p) q) q)) qs'
  end.

(** Orthogonal columns for the exponents below [k], last one first; [None]: they are not independent (rank warning). *)
Fixpoint columns (pts : list point) (k : nat) : option (list (list Q)) :=
  match k with
  | O => Some []
  | S k' =>
      match columns pts k' with
      | None => None
      | Some qs =>
          let r := rest pts (monomial k') qs in
          if Qeq_bool (product pts (column r) (column r)) 0 then None else Some (r :: qs)
      end
  end.

(** [polyfit(x, y, degree)] under [warnings.simplefilter("error")] (1194-1196). *)
Definition polyfit (degree : nat) (pts : list point) : option (list Q) :=
  match columns pts (S degree) with
  | None => None
  | Some qs => Some (fold_right (fun q p => poly_plus (poly_times (share pts snd q) q) p) [] qs)
  end.

(** The two degrees in use (1125 with the default of 1183; 1177). *)
Definition polyfit3 (pts : list point) : option cubic :=
  match polyfit 3 pts with Some [a; c; d; e] => Some (mkcubic a c d e) | _ => None end.
Definition polyfit1 (pts : list point) : option linear :=
  match polyfit 1 pts with Some [a; c] => Some (mklinear a c) | _ => None end.
