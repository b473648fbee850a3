(** What a user may expect of noise spectra. *)
From Coq Require Import String.
From Coq Require Import ZArith Reals List.
From Verif Require Import Base UnwrapSpec Noise.
Import ListNotations.
Open Scope R_scope.

(** [s] is the word [w] (in small letters), whatever its case. *)
Definition spelled (w s : bytes) : Prop := Forall2 (fun d c => c = d \/ (65 <= c <= 90 /\ d = c + 32)%Z) w s.

(** Power, amplitude or decibels. *)
Inductive kind := Power | Amplitude | Decibels.
(** How the user asks for it. *)
Definition asks (k : kind) (s : bytes) : Prop :=
  match k with
  | Power => spelled (b "power") s
  | Amplitude => exists s1 s2, s = s1 ++ s2 /\ spelled (b "amp") s1
  | Decibels => spelled (b "db") s
  end.
Definition units_of (k : kind) : bytes * bytes :=
  match k with
  | Power => (b "Pa^2/Hz", b "Pa^2")
  | Amplitude => (b "Pa/sqrt(Hz)", b "Pa")
  | Decibels => (b "dB Pa/sqrt(Hz)", b "dB Pa")
  end.

(** The number [v] stands for the power [p]. *)
Inductive stands_for : kind -> num -> R -> Prop :=
| sf_power p : stands_for Power (Num p) p
| sf_amplitude x : 0 <= x -> stands_for Amplitude (Num x) (x * x)
| sf_decibels x : stands_for Decibels (Num x) (Rpower 10 (x / 10))
| sf_nothing : stands_for Decibels MinusInf 0.
(** [v] stands for what [p], a power, is; it is NaN if [p] is, or if [p] is negative and no amplitude has that power. *)
Definition converts (k : kind) (p v : num) : Prop :=
  (exists x, p = Num x /\ stands_for k v x) \/
  (v = NaN /\ (p = NaN \/ k <> Power /\ exists x, p = Num x /\ x < 0)).

(** The frequencies of a table. *)
Definition usable_table (xs : list R) : Prop := (2 <= length xs)%nat /\ chain Rlt xs.
Definition within (xs : list R) (x : R) : Prop := exists a c, In a xs /\ In c xs /\ a <= x <= c.

(** What is relied on of the spline: through two or more points in increasing order there is one; it has the given values there,
    some value in between and none outside. *)
Definition spline_contract (spline : list R -> list R -> option (R -> num)) : Prop :=
  forall xs ys, usable_table xs -> length ys = length xs -> exists f, spline xs ys = Some f /\
    (forall i x y, nth_error xs i = Some x -> nth_error ys i = Some y -> f x = Num y) /\
    (forall x, within xs x -> exists y, f x = Num y) /\
    (forall x, ~ within xs x -> f x = NaN).

(** What is relied on of the integration, for a band and a function [f]: it finds the integral. *)
Definition integrates (quad : (R -> num) -> R -> R -> num) (f : R -> num) (lo hi : R) : Prop :=
  exists g (pr : Riemann_integrable g lo hi), (forall x, lo <= x <= hi -> f x = Num (g x)) /\ quad f lo hi = Num (RiemannInt pr).
