(** C60: the dots drawn of lags. *)
From Coq Require Import String.
From Coq Require Import ZArith QArith List Bool Lia Lqa.
From Verif Require Import Base Database DatabaseSpec DatabaseProps Commands StreamPlacesProps PlotLags.
Import ListNotations.
Open Scope Z_scope.

(** ** What is meant *)
(** Lags of [n] stations: in every window as many shifts and correlations as stations, and the sum of the shifts. *)
Definition lags_of (n : nat) (f : found) : Prop :=
  entries (fun _ ls vs => length ls = n /\ length vs = n) (f_t f) (f_lag f) (f_coef f) (f_sum f).
(** A line of dots of station [i]: for every window the value of that station, [up] higher for each station, and no dot
    where only consistent windows are wanted and the shifts of the window do not add up to zero. *)
Definition dots (use : bool) (up : Q) (i : nat) (shifts : list (list Z)) (values : list (list Q)) (line : list (option Q)) : Prop :=
  length line = length values /\ length line = length shifts /\
  forall k ls vs, nth_error shifts k = Some ls -> nth_error values k = Some vs ->
    if use && negb (fold_right Z.add 0 ls =? 0) then nth_error line k = Some None
    else exists v w, nth_error line k = Some (Some v) /\ nth_error vs i = Some w /\ (v == w + inject_Z (Z.of_nat i) * up)%Q.
(** The first three stations, in order. *)
Definition three_lines (use : bool) (up : Q) (shifts : list (list Z)) (values : list (list Q)) (p : list (list (option Q))) : Prop :=
  exists a c d, p = [a; c; d] /\ dots use up 0 shifts values a /\ dots use up 1 shifts values c /\ dots use up 2 shifts values d.

(** ** Proofs *)
Lemma sums_of n f : lags_of n f -> f_sum f = map (fold_right Z.add 0) (f_lag f) /\ length (f_coef f) = length (f_lag f) /\
  Forall (fun c => length c = n) (f_lag f) /\ Forall (fun c => length c = n) (f_coef f).
Proof.
  unfold lags_of. induction 1 as [|t ls vs ts lags vals sums [A B] E (S & L & F1 & F2)]; [repeat split; constructor|].
  cbn. rewrite S, L. repeat split; constructor; assumption.
Qed.
Lemma row_found n cols i : (i < n)%nat -> Forall (fun c => length c = n) cols ->
  exists r, station_row n cols i = Some r /\ Forall2 (fun c v => nth_error c i = Some v) cols r.
Proof.
  intros L F. unfold station_row. rewrite (proj2 (Nat.ltb_lt _ _) L).
  induction F as [|c cols E F (r & A & B)]; [exists []; split; [reflexivity|constructor]|]. cbn [map all_of].
  destruct (nth_error c i) as [v|] eqn:N; [|apply nth_error_None in N; lia]. rewrite A. exists (v :: r). split; [reflexivity|constructor; assumption].
Qed.
Lemma all2_length {A B} (P : A -> B -> Prop) l m : Forall2 P l m -> length l = length m.
Proof. induction 1; cbn; congruence. Qed.
Lemma all2_nth {A B} (P : A -> B -> Prop) l m k x : Forall2 P l m -> nth_error l k = Some x -> exists y, nth_error m k = Some y /\ P x y.
Proof. intros F. revert k. induction F as [|a c l m H F IH]; intros [|k] E; try discriminate; [injection E as <-; exists c; auto|apply IH; exact E]. Qed.
Lemma line_found use n i shifts cols up : (i < n)%nat -> length cols = length shifts -> Forall (fun c => length c = n) cols ->
  exists r l, station_row n cols i = Some r /\ scaled use (map (fold_right Z.add 0) shifts) r = Some l /\
    dots use up i shifts cols (map (option_map (fun x => x + inject_Z (Z.of_nat i) * up)%Q) l).
Proof.
  intros L E F. destruct (row_found n cols i L F) as (r & R & V). exists r. pose proof (all2_length _ _ _ V) as LV. unfold scaled.
  destruct use.
  - rewrite (proj2 (Nat.eqb_eq _ _)) by (rewrite map_length; congruence). eexists. split; [exact R|]. split; [reflexivity|].
    split; [rewrite !map_length, combine_length, map_length; lia|]. split; [rewrite !map_length, combine_length, map_length; lia|].
    intros k ls vs Ks Kv. destruct (all2_nth _ _ _ k vs V Kv) as (w & Kr & W). cbn [andb].
    assert (C : nth_error (combine (map (fold_right Z.add 0) shifts) r) k = Some (fold_right Z.add 0 ls, w)).
    { clear - Ks Kr. revert k r Ks Kr. induction shifts as [|s shifts IH]; intros [|k] [|x r] Ks Kr; try discriminate; cbn in *.
      - injection Ks as ->. injection Kr as ->. reflexivity.
      - apply IH; assumption. }
    assert (G := map_nth_error (option_map (fun x => x + inject_Z (Z.of_nat i) * up)%Q) k _
      (map_nth_error (fun p => match multiplier (fst p) with Some c => Some (c * snd p)%Q | None => None end) k _ C)).
    cbn [fst snd] in G. unfold multiplier in G. destruct (fold_right Z.add 0 ls =? 0); cbn [negb] in *.
    + do 2 eexists. split; [exact G|]. split; [exact W|]. ring.
    + exact G.
  - eexists. split; [exact R|]. split; [reflexivity|]. split; [rewrite !map_length; lia|]. split; [rewrite !map_length; lia|].
    intros k ls vs Ks Kv. destruct (all2_nth _ _ _ k vs V Kv) as (w & Kr & W). cbn [andb].
    assert (G := map_nth_error (option_map (fun x => x + inject_Z (Z.of_nat i) * up)%Q) k _ (map_nth_error (fun x => Some (1 * x)%Q) k _ Kr)).
    do 2 eexists. split; [exact G|]. split; [exact W|]. ring.
Qed.
Lemma panel_found use n shifts cols up : (3 <= n)%nat -> length cols = length shifts -> Forall (fun c => length c = n) cols ->
  exists p, panel use n cols (map (fold_right Z.add 0) shifts) up = Some p /\ three_lines use up shifts cols p.
Proof.
  intros L E F. unfold panel. cbn [seq map].
  destruct (line_found use n 0 shifts cols up ltac:(lia) E F) as (r0 & l0 & -> & -> & D0).
  destruct (line_found use n 1 shifts cols up ltac:(lia) E F) as (r1 & l1 & -> & -> & D1).
  destruct (line_found use n 2 shifts cols up ltac:(lia) E F) as (r2 & l2 & -> & -> & D2).
  cbn [all_of]. eexists. split; [reflexivity|]. do 3 eexists. split; [reflexivity|]. auto.
Qed.

(** ** C60 *)
(** What [check_lags] finds can be drawn, if there are three stations or more. *)
Theorem C60_lags_drawable bandpass cut cor read fuel DB win shift fl fh f st n t0 tmax :
  lag_input read DB st n t0 tmax -> 0 < win -> check_lags bandpass cut cor read fuel DB win shift fl fh = Some f -> lags_of n f.
Proof.
  intros L W E. destruct (C60_lags _ _ _ _ _ _ _ _ _ _ _ _ _ _ _ L W E) as (_ & _ & _ & _ & X). unfold lags_of.
  induction X as [|t ls vs ts lags vals sums (p & _ & A) X IH]; constructor; [|exact IH]. destruct A as (A & B & _). split; assumption.
Qed.
(** The dots: lags on the left, correlations on the right, the second table above; stations one sixth of a sample apart. *)
Theorem C60_dots n0 f0 n1 f1 use : lags_of n0 f0 -> lags_of n1 f1 -> (3 <= n0)%nat -> (3 <= n1)%nat ->
  exists p, plot_lags n0 f0 n1 f1 use = Some p /\
    three_lines use (1 # 6) (f_lag f1) (map (map inject_Z) (f_lag f1)) (u_lags p) /\ three_lines use 0 (f_lag f1) (f_coef f1) (u_coefs p) /\
    three_lines use (1 # 6) (f_lag f0) (map (map inject_Z) (f_lag f0)) (l_lags p) /\ three_lines use 0 (f_lag f0) (f_coef f0) (l_coefs p).
Proof.
  intros H0 H1 L0 L1. destruct (sums_of n0 f0 H0) as (S0 & E0 & A0 & B0). destruct (sums_of n1 f1 H1) as (S1 & E1 & A1 & B1).
  assert (M : forall n l, Forall (fun c : list Z => length c = n) l -> Forall (fun c => length c = n) (map (map inject_Z) l)).
  { intros n l F. induction F as [|c l X F IH]; constructor; [rewrite map_length; exact X|exact IH]. }
  unfold plot_lags. rewrite S0, S1.
  destruct (panel_found use n1 (f_lag f1) (map (map inject_Z) (f_lag f1)) (1 # 6) L1 (map_length _ _) (M _ _ A1)) as (a & -> & PA).
  destruct (panel_found use n0 (f_lag f0) (map (map inject_Z) (f_lag f0)) (1 # 6) L0 (map_length _ _) (M _ _ A0)) as (c & -> & PC).
  destruct (panel_found use n1 (f_lag f1) (f_coef f1) 0 L1 E1 B1) as (d & -> & PD).
  destruct (panel_found use n0 (f_lag f0) (f_coef f0) 0 L0 E0 B0) as (e & -> & PE).
  eexists. split; [reflexivity|]. cbn [u_lags u_coefs l_lags l_coefs]. auto.
Qed.
(** Not true: that the lags of two stations can be drawn; three lines are always drawn. *)
Theorem C60_two_stations_refuted n0 f0 n1 f1 use : (n0 < 3 \/ n1 < 3)%nat -> plot_lags n0 f0 n1 f1 use = None.
Proof.
  assert (P : forall n cols sums up, (n < 3)%nat -> panel use n cols sums up = None).
  { intros n cols sums up L. unfold panel. apply all_of_none with (x := 2%nat); [cbn; auto|].
    unfold station_row. rewrite (proj2 (Nat.ltb_ge _ _)) by lia. reflexivity. }
  intros [L|L]; unfold plot_lags; rewrite !(P _ _ _ _ L); [|reflexivity].
  destruct (panel use n1 (map (map inject_Z) (f_lag f1)) (f_sum f1) (1 # 6)); reflexivity.
Qed.

(** ** A case: three stations, two windows, the second one inconsistent. *)
Definition case_f : found := mkfound [10; 20] [[1; 2; -3]; [1; 2; 3]] [[1 # 2; 1 # 3; 1 # 4]; [1; 1; 1]]%Q [0; 6].
Example C60_dots_case : lags_of 3 case_f /\ (3 <= 3)%nat /\
  option_map (fun p => map (map (option_map Qred)) (u_lags p)) (plot_lags 3 case_f 3 case_f true) =
    Some [[Some 1; None]; [Some (13 # 6); None]; [Some (-8 # 3); None]]%Q.
Proof.
  split; [|split; [lia|vm_compute; reflexivity]]. unfold lags_of, case_f. cbn [f_t f_lag f_coef f_sum].
  change 6 with (fold_right Z.add 0 [1; 2; 3]). change [0; _] with [fold_right Z.add 0 [1; 2; -3]; fold_right Z.add 0 [1; 2; 3]].
  repeat constructor.
Qed.
(** The table of two stations of [C60_lags_case] cannot be drawn. *)
Example C60_two_stations_case : exists f, lag_input read2 two st2 2 0 (3000 * sec) /\
  check_lags (fun _ _ tr => tr) cut1 cor1 read2 9 two (1000 * sec) 10 (1 # 2) 20 = Some f /\ lags_of 2 f /\ plot_lags 2 f 2 f true = None.
Proof.
  destruct C60_lags_case as (I & _ & E). eexists. split; [exact I|]. split; [exact E|].
  split; [exact (C60_lags_drawable _ _ _ _ _ _ _ _ _ _ _ _ _ _ _ I (eq_refl : 0 < 1000 * sec) E)|apply C60_two_stations_refuted; left; lia].
Qed.

Print Assumptions C60_lags_drawable.
Print Assumptions C60_dots.
Print Assumptions C60_two_stations_refuted.
