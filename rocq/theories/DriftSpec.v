(** What a user may expect from the clock-drift estimate of one file. *)
From Coq Require Import ZArith QArith Qabs List Bool.
From Verif Require Import Base UnwrapSpec Process ReadSeveral Drift.
Import ListNotations.
Open Scope Q_scope.

(** [l'] is obtained from [l] by leaving out elements. *)
Inductive subsequence {A} : list A -> list A -> Prop :=
| sub_nil : subsequence [] []
| sub_keep x l' l : subsequence l' l -> subsequence (x :: l') (x :: l)
| sub_drop x l' l : subsequence l' l -> subsequence l' (x :: l).

(** Sum, number of elements, average, average squared deviation. *)
Fixpoint sum_of (l : list Q) : Q := match l with [] => 0 | x :: r => x + sum_of r end.
Definition number {A} (l : list A) : Q := inject_Z (Z.of_nat (length l)).
Definition is_mean (l : list Q) (m : Q) : Prop := number l * m == sum_of l.
Definition is_variance (l : list Q) (v : Q) : Prop :=
  exists m, is_mean l m /\ number l * v == sum_of (map (fun x => (x - m) * (x - m)) l).

Section Regression.
  Variable P : Type.
  Variable fit : list point -> option P.
  Variable eval : P -> Q -> Q.

  Definition residual (p : P) (q : point) : Q := snd q - eval p (fst q).
  Definition residuals (p : P) (pts : list point) : list Q := map (residual p) pts.

  (** Farther from the fit than [z] standard deviations (squared, to avoid roots). *)
  Definition beyond_z (z : Q) (p : P) (pts : list point) (q : point) : Prop :=
    exists v, is_variance (residuals p pts) v /\ z * z * v < residual p q * residual p q.
  (** Farther from the fit than the absolute limit. *)
  Definition beyond_limit (lim : option Q) (p : P) (q : point) : Prop :=
    exists m, lim = Some m /\ m < Qabs (residual p q).

  (** One pass: exactly the points that satisfy [Out] are left out, and at least one does. *)
  Inductive without (Out : point -> Prop) : list point -> list point -> Prop :=
  | wo_nil : without Out [] []
  | wo_keep q l l' : ~ Out q -> without Out l l' -> without Out (q :: l) (q :: l')
  | wo_drop q l l' : Out q -> without Out l l' -> without Out (q :: l) l'.
  Definition pass (Out : point -> Prop) (pts kept : list point) : Prop :=
    Exists Out pts /\ without Out pts kept.

  (** Repeated passes until no point is beyond either limit. *)
  Inductive pruned (z : Q) (lim : option Q) : list point -> P -> list point -> Prop :=
  | pruned_stop pts p : fit pts = Some p -> pts <> [] ->
      Forall (fun q => ~ beyond_z z p pts q) pts -> Forall (fun q => ~ beyond_limit lim p q) pts ->
      pruned z lim pts p pts
  | pruned_z pts p kept p' final : fit pts = Some p -> pass (beyond_z z p pts) pts kept ->
      pruned z lim kept p' final -> pruned z lim pts p' final
  | pruned_limit pts p kept p' final : fit pts = Some p -> Forall (fun q => ~ beyond_z z p pts q) pts ->
      pass (beyond_limit lim p) pts kept -> pruned z lim kept p' final -> pruned z lim pts p' final.

  (** Least squares: no other model has a smaller sum of squared residuals. *)
  Definition sse (p : P) (pts : list point) : Q := sum_of (map (fun q => residual p q * residual p q) pts).
  Definition best (p : P) (pts : list point) : Prop := forall p', sse p pts <= sse p' pts.
  (** The models include their own vertical shifts. *)
  Definition shiftable : Prop := forall p c, exists p', forall x, eval p' x == eval p x + c.
End Regression.

(** The times of the samples and of the fixes. *)
Definition sample_clock (L : tables) : list Q := map fst (data L).
Definition fixes (L : tables) : list point := map (fun e => (msPPS (fst e), inject_Z (snd e))) (gps L).

(** [l] begins with [a] and ends with [b]. *)
Definition from_to (l : list Q) (a b : Q) : Prop := hd_error l = Some a /\ exists l', l = l' ++ [b].

(** The fixes span more than half of the time of the samples (1.024 ms per count), to within a
    nanosecond; or the last fix is earlier than the first. *)
Definition covers (L : tables) : Prop :=
  exists a b s e, from_to (sample_clock L) a b /\ from_to (map snd (fixes L)) s e /\
    ((s <= e /\ (1024 # 1000000) * (b - a) < 2 * (e - s + (1 # 1000000000))) \/
     (e < s /\ 2 * (e - s + (1 # 1000000000)) < (1024 # 1000000) * (b - a))).

(** The clock values of the kept fixes span at least 1/2000 (0.000512) of the clock range of the samples. *)
Definition spread_out (L : tables) (kept : list point) : Prop :=
  exists a b s e, from_to (sample_clock L) a b /\ from_to (map fst kept) s e /\
    ((s == e /\ b <= a) \/ (s < e /\ (1024 # 1000000) * (b - a) <= 2 * (e - s)) \/
     (e < s /\ 2 * (e - s) <= (1024 # 1000000) * (b - a))).

Definition smooth (p : linear) (kept : list point) : Prop :=
  chain (fun q q' => Qabs (residual linear eval1 p q' - residual linear eval1 p q) <= 1 # 4) kept.

(** A good fit: ten fixes or more left, none more than 0.01 s from the curve. *)
Definition good_fit (fit3 : list point -> option cubic) (L : tables) (p : cubic) (kept : list point) : Prop :=
  pruned cubic fit3 eval3 4 (Some (1 # 100)) (fixes L) p kept /\
  (10 <= length kept)%nat /\ Forall (fun q => Qabs (residual cubic eval3 p q) <= 1 # 100) kept /\ spread_out L kept.

Definition no_step (fit1 : list point -> option linear) (L : tables) : Prop :=
  exists p kept, pruned linear fit1 eval1 4 None (fixes L) p kept /\ smooth p kept.
Definition step (fit1 : list point -> option linear) (L : tables) : Prop :=
  exists p kept, pruned linear fit1 eval1 4 None (fixes L) p kept /\ ~ smooth p kept.
Definition line_fails (fit1 : list point -> option linear) (L : tables) : Prop :=
  forall p kept, ~ pruned linear fit1 eval1 4 None (fixes L) p kept.

(** The header of a file with samples from [a] to [b]. *)
Definition describes (L : tables) (h : hinfo) : Prop :=
  from_to (sample_clock L) (h_start h) (h_end h) /\ h_gps h = length (gps L).

(** The nominal clock: 1.024 ms per count, starting where the fixes say on average. *)
Definition nominal_clock (L : tables) (h : hinfo) : Prop :=
  c1 (h_fit h) = 1024 # 1000000 /\ c2 (h_fit h) = 0 /\ c3 (h_fit h) = 0 /\
  (fixes L = [] -> c0 (h_fit h) = 0 /\ h_nonoutliers h = 0%nat) /\
  (fixes L <> [] -> sum_of (map (residual cubic eval3 (h_fit h)) (fixes L)) == 0 /\ h_nonoutliers h = length (gps L)).
