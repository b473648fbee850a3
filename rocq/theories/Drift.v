(** Model of gemlog/core.py [_calculate_drift] (1097-1173), [_detect_step] (1176-1181) and
    [_robust_regress] (1183-1208).  Least squares ([np.polynomial.polynomial.polyfit]) is a parameter;
    doubles are rationals; [np.std] occurs only in the comparison [abs r > z*std], which is written
    [r^2 > z^2*var] (both sides are non-negative). *)
From Coq Require Import ZArith QArith Qabs List Bool.
From Verif Require Import Base Process ReadSeveral.
Import ListNotations.
Open Scope Q_scope.

Definition point := (Q * Q)%type.        (* GPS clock [msPPS], GPS time [t] *)

Definition qsum (l : list Q) : Q := fold_right Qplus 0 l.
Definition count (l : list Q) : Q := inject_Z (Z.of_nat (length l)).
Definition mean (l : list Q) : Q := qsum l / count l.
(** [np.std(l)**2]: population variance. *)
Definition var (l : list Q) : Q := mean (map (fun r => (r - mean l) * (r - mean l)) l).

Section Regress.
  Variable P : Type.                              (* fitted models *)
  Variable fit : list point -> option P.          (* [polyfit] of a fixed degree; [None]: it raises *)
  Variable eval : P -> Q -> Q.

  (** Line 1199: [y - Polynomial(reg)(x)]. *)
  Definition resid (p : P) (q : point) : Q := snd q - eval p (fst q).

  (** Line 1202: beyond [z] standard deviations, on all points [pts]. *)
  Definition z_outlier (z : Q) (p : P) (pts : list point) (q : point) : bool :=
    Qltb (z * z * var (map (resid p) pts)) (resid p q * resid p q).
  (** Line 1204; [None] is [np.inf]. *)
  Definition mad_outlier (mad : option Q) (p : P) (q : point) : bool :=
    match mad with Some m => Qltb m (Qabs (resid p q)) | None => false end.

  (** Lines 1202-1204: which test applies. *)
  Definition outlier (z : Q) (mad : option Q) (p : P) (pts : list point) : point -> bool :=
    if existsb (z_outlier z p pts) pts then z_outlier z p pts else mad_outlier mad p.

  (** Outcome of [_robust_regress]: an exception, the result (model and retained points), or, for the
      model only, the recursion bound. *)
  Inductive regression := Raised | Done (p : P) (pts : list point) | OutOfFuel.

  (** [_robust_regress] (1183-1208); [depth = None] is [np.inf], the default.  [np.max] of no residuals
      raises (1208). *)
  Fixpoint robust (fuel : nat) (z : Q) (mad : option Q) (depth : option nat) (pts : list point) : regression :=
    match fuel with
    | O => OutOfFuel
    | S fuel' =>
        match fit pts with
        | None => Raised
        | Some p =>
            let out := outlier z mad p pts in
            let again := match depth with Some O => false | _ => true end in
            if existsb out pts && again
            then robust fuel' z mad (match depth with Some (S d) => Some d | o => o end)
                        (filter (fun q => negb (out q)) pts)
            else match pts with [] => Raised | _ => Done p pts end
        end
    end.

  Definition robust_regress (z : Q) (mad : option Q) (depth : option nat) (pts : list point) : regression :=
    robust (S (length pts)) z mad depth pts.
End Regress.

Arguments Raised {P}.
Arguments Done {P} _ _.
Arguments OutOfFuel {P}.

(** Polynomials of degree 3 and 1, lowest coefficient first as returned by [polyfit]. *)
Record cubic := mkcubic { c0 : Q; c1 : Q; c2 : Q; c3 : Q }.
Definition eval3 (p : cubic) (x : Q) : Q := c0 p + c1 p * x + c2 p * (x * x) + c3 p * (x * x * x).
Record linear := mklinear { l0 : Q; l1 : Q }.
Definition eval1 (p : linear) (x : Q) : Q := l0 p + l1 p * x.

(** Consecutive differences ([np.diff]). *)
Fixpoint qdiff (l : list Q) : list Q :=
  match l with x :: ((y :: _) as r) => (y - x) :: qdiff r | _ => [] end.

Section Drift.
  Variable fit3 : list point -> option cubic.
  Variable fit1 : list point -> option linear.

  (** [_detect_step] (1176-1181); [None]: the straight-line fit raises. *)
  Definition detect_step (pts : list point) : option bool :=
    match robust_regress linear fit1 eval1 4 None None pts with
    | Done p kept => Some (existsb (fun d => Qltb (1 # 4) (Qabs d)) (qdiff (map (resid linear eval1 p) kept)))
    | _ => None
    end.

  (** The clock values and times of the fixes. *)
  Definition fix_points (L : tables) : list point := map (fun e => (msPPS (fst e), inject_Z (snd e))) (gps L).

  (** First and last elements ([0] for an empty list, which does not occur where they are used). *)
  Definition first_q (l : list Q) : Q := hd 0 l.
  Definition last_q (l : list Q) : Q := last l 0.
  Definition span (l : list Q) : Q := last_q l - first_q l.

  (** Line 1112. *)
  Definition sufficient (L : tables) : bool :=
    Qltb ((1024 # 1000000) * span (map fst (data L)) / (span (map snd (fix_points L)) + (1 # 1000000000))) 2.

  (** Line 1129: [num / den > 2] with numpy's division by zero (inf, -inf or nan). *)
  Definition ratio_over_2 (num den : Q) : bool :=
    if Qeq_bool den 0 then Qltb 0 num else Qltb 2 (num / den).

  (** [np.max(np.abs(resid))]. *)
  Definition max_abs (l : list Q) : Q := fold_right (fun r m => if Qltb m (Qabs r) then Qabs r else m) 0 l.

  (** The part of the header computed here that later steps use (1157-1172); the position and the
      statistics that are only displayed are left out.  [h_mad = None] is NaN. *)
  Record hinfo := mkhi { h_start : Q; h_end : Q; h_fit : cubic; h_gps : nat; h_nonoutliers : nat; h_mad : option Q }.

  (** Lines 1124-1139: the regression and its acceptance; [None]: rejected or raised. *)
  Definition accepted_fit (L : tables) : option (cubic * list point) :=
    match robust_regress cubic fit3 eval3 4 (Some (1 # 100)) None (fix_points L) with
    | Done p kept =>
        if ratio_over_2 ((1024 # 1000000) * span (map fst (data L))) (span (map fst kept))
           || Nat.ltb (length kept) 10
           || Qltb (1 # 100) (max_abs (map (resid cubic eval3 p) kept))
        then None else Some (p, kept)
    | _ => None
    end.

  Definition nominal : Q := 1024 # 1000000.

  (** Lines 1141-1154: no drift. *)
  Definition zero_drift (L : tables) : cubic * nat * option Q :=
    match fix_points L with
    | [] => (mkcubic 0 nominal 0 0, O, None)
    | pts =>
        let starts := map (fun q => snd q - nominal * fst q) pts in
        let d0 := mean starts in
        (mkcubic d0 nominal 0 0, length pts, Some (max_abs (map (fun s => s - d0) starts)))
    end.

  (** [_calculate_drift] (1097-1173). *)
  Definition calculate_drift (L : tables) (require_gps : bool) : hinfo + failure :=
    let any_gps := negb (Nat.eqb (length (gps L)) 0) in
    let enough := any_gps && sufficient L in
    let header r := match r with (p, n, m) =>
        mkhi (first_q (map fst (data L))) (last_q (map fst (data L))) p (length (gps L)) n m end in
    if require_gps && negb any_gps then inr (Exn NoGPS)
    else if require_gps && negb enough then inr InadequateGPS
    else match (if require_gps then detect_step (fix_points L) else Some false) with
         | None => inr (Exn OtherExn)
         | Some true => inr DiscontinuousGPS
         | Some false =>
             match (if enough then accepted_fit L else None) with
             | Some (p, kept) => inl (header (p, length kept, Some (max_abs (map (resid cubic eval3 p) kept))))
             | None => if enough && require_gps then inr InadequateGPS
                       else inl (header (zero_drift L))
             end
         end.
End Drift.
