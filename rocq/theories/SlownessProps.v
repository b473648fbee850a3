(** C40: the inversion for slowness. *)
From Coq Require Import String.
From Coq Require Import ZArith QArith List Bool Lia Lqa.
From Verif Require Import Lib Base Scan Names Stations Gps Slowness SlownessSpec SlownessProofs.
Import ListNotations.
Open Scope Q_scope.

(** A table of cross-correlation results, whose columns are those of [xcorr_function] after the time column. *)
Definition results_of (ids : list bytes) (d : list (bytes * list (option Q))) : Prop :=
  map fst d = b "t_mid" :: item_names ids /\ NoDup (map fst d).

Lemma table_solved d ls ids ps : results_of ids d -> ids <> [] -> Forall plain ids -> NoDup (map fst ls) ->
  Forall2 (fun i p => In (i, p) ls) ids ps ->
  short_ids (keys d) = Some ids /\ locate_all ls ids = Some ps.
Proof.
  intros [K ND] N F L P. split; [|apply locate_all_in; assumption].
  unfold keys. rewrite K. apply short_ids_table; assumption.
Qed.

Lemma solve_both ps t t' : (exists s, solve (rows ps) t = Some s) <-> (exists s, solve (rows ps) t' = Some s).
Proof. rewrite !solve_some. reflexivity. Qed.

Lemma not_collinear ps t : ~ collinear ps <-> exists s, solve (rows ps) t = Some s.
Proof. rewrite solve_some, det_zero, collinear_rows. reflexivity. Qed.

(** Any lags give the least-squares plane wave, and those of a plane wave give that wave. *)
Theorem C40_slowness d n ls ids ps w lags :
  results_of ids d -> Forall plain ids -> NoDup (map fst ls) -> Forall2 (fun i p => In (i, p) ls) ids ps ->
  ~ collinear ps -> (w < n)%nat -> neighbours (recorded d w) (combine ids ps) lags ->
  exists res a v, invert_for_slowness d n ls = Some res /\ length res = n /\ nth_error res w = Some (Some a) /\
    toward a = (- fst v, - snd v) /\ slowness2 a == fst v * fst v + snd v * snd v /\
    (forall s m m', misfit v ps lags m -> misfit s ps lags m' -> m <= m') /\
    (forall s, plane_wave s ps lags -> fst v == fst s /\ snd v == snd s).
Proof.
  intros T F L P C W NB. pose proof (Forall2_length_eq _ _ _ P) as LEN.
  assert (N : ids <> []).
  { intros ->. inversion P; subst. apply C. exists 1, 1, 0. split; [intros [X _]; discriminate X|constructor]. }
  destruct (table_solved d ls ids ps T N F L P) as [E1 E2]. destruct T as [K ND].
  destruct (recorded_line d w ids ps lags ND LEN NB) as (cs & E3 & E4 & E5).
  unfold invert_for_slowness. rewrite E1, E2, E3. destruct ids as [|i0 ids]; [congruence|].
  destruct (proj1 (not_collinear ps (map (fun _ => 0) (rows ps))) C) as (s0 & ->).
  destruct (proj1 (not_collinear ps lags) C) as (v & V).
  eexists. exists (arrival_of v), v. split; [reflexivity|]. split; [rewrite map_length, seq_length; reflexivity|].
  split.
  { erewrite map_nth_error; [|apply (nth_error_nth' _ 0%nat); rewrite seq_length; exact W].
    rewrite seq_nth by exact W. cbn [plus]. rewrite E4, V. reflexivity. }
  split; [reflexivity|]. split; [reflexivity|]. split.
  - intros s m m' M M'. destruct (misfit_rss _ _ _ _ M) as [R1 _], (misfit_rss _ _ _ _ M') as [R2 _].
    rewrite R1, R2. apply solve_least; assumption.
  - intros s PW. apply plane_rows in PW. destruct v as [x y], s as [x' y']. cbn [fst snd] in *.
    pose proof (solve_normal _ _ _ _ V) as SN. pose proof (exact_sums _ _ _ _ PW) as ES.
    apply (normal_unique (rows ps)).
    + apply (proj1 (solve_some _ lags)). exists (x, y). exact V.
    + destruct SN as (_ & SN & _), ES. lra.
    + destruct SN as (_ & _ & SN), ES. lra.
Qed.

(** It raises exactly if a station is not located or all stations are on one line (so with fewer than three). *)
Theorem C40_refused d n ls ids :
  results_of ids d -> Forall plain ids -> NoDup (map fst ls) ->
  invert_for_slowness d n ls = None <->
  ~ exists ps, Forall2 (fun i p => In (i, p) ls) ids ps /\ ~ collinear ps.
Proof.
  intros [K ND] F L. unfold invert_for_slowness, keys. rewrite K.
  destruct ids as [|i0 ids0].
  { change (short_ids (b "t_mid" :: item_names [])) with (Some (@nil bytes)). split; [|reflexivity]. intros _ (ps & P & C).
    inversion P; subst. apply C. exists 1, 1, 0. split; [intros [X _]; discriminate X|constructor]. }
  set (ids := i0 :: ids0) in *. rewrite short_ids_table by (assumption || discriminate).
  change (match ids with [] => None | _ :: _ => match locate_all ls ids with Some ps => match lag_columns d (lag_keys ids) with
    | Some cs => match solve (rows ps) (map (fun _ => 0) (rows ps)) with Some _ => Some (map (fun i => match line cs i with Some lags => option_map arrival_of (solve (rows ps) lags) | None => None end) (seq 0 n)) | None => None end
    | None => None end | None => None end end = None <-> ~ (exists ps, Forall2 (fun i p => In (i, p) ls) ids ps /\ ~ collinear ps)).
  destruct (columns_exist d ids K) as (cs & ->). unfold ids at 1.
  destruct (locate_all ls ids) as [ps|] eqn:E.
  - pose proof (locate_all_some _ _ _ E) as P.
    destruct (solve (rows ps) (map (fun _ => 0) (rows ps))) as [s0|] eqn:V.
    + split; [discriminate|]. intros X. exfalso. apply X. exists ps. split; [exact P|].
      apply (not_collinear ps (map (fun _ => 0) (rows ps))). exists s0. exact V.
    + split; [|reflexivity]. intros _ (qs & Q1 & Q2). rewrite (locate_all_in ls ids qs L Q1) in E. injection E as ->.
      apply (not_collinear ps (map (fun _ => 0) (rows ps))) in Q2. destruct Q2 as (s & Q2). congruence.
  - split; [|reflexivity]. intros _ (qs & Q1 & Q2). rewrite (locate_all_in ls ids qs L Q1) in E. discriminate E.
Qed.

Theorem C40_few_stations d n ls ids :
  results_of ids d -> Forall plain ids -> NoDup (map fst ls) -> (length ids < 3)%nat -> invert_for_slowness d n ls = None.
Proof.
  intros T F L LT. apply (C40_refused d n ls ids T F L). intros (ps & P & C). apply C.
  rewrite (Forall2_length_eq _ _ _ P) in LT. apply two_collinear. exact LT.
Qed.

(** Three stations, a wave with slowness (1, 2); two windows, the second with a lag missing. *)
Definition case_ids := [b "XX.A."; b "XX.B."; b "XX.C."].
Definition case_ps : list (Q * Q) := [(0, 0); (3, 0); (1, 4)].
Definition case_table : list (bytes * list (option Q)) :=
  combine (b "t_mid" :: item_names case_ids)
    [ [Some 5; Some 10]; [Some 1; Some 1];
      [Some 1; Some 1]; [Some (-3); Some 1]; [Some 1; Some 1];
      [Some 1; Some 1]; [Some (-6); None]; [Some 1; Some 1];
      [Some 1; Some 1]; [Some 9; Some 0]; [Some 1; Some 1];
      [Some 0; Some 1] ].
Example C40_case :
  results_of case_ids case_table /\ Forall plain case_ids /\ ~ collinear case_ps /\
  neighbours (recorded case_table 0) (combine case_ids case_ps) [-3; -6] /\ plane_wave (1, 2) case_ps [-3; -6] /\
  (exists a, invert_for_slowness case_table 2 (combine case_ids case_ps) = Some [Some a; None] /\
     fst (toward a) == -1 /\ snd (toward a) == -2 /\ slowness2 a == 5) /\
  invert_for_slowness case_table 2 (combine case_ids [(0, 0); (3, 0); (7, 0)]) = None.
Proof.
  split.
  { split; [reflexivity|]. vm_compute. repeat (constructor; [cbn; intuition discriminate|]). constructor. }
  split.
  { repeat constructor; vm_compute; intuition discriminate. }
  split.
  { intros C. apply (proj1 (collinear_rows _)) in C. apply det_zero in C. vm_compute in C. discriminate C. }
  split.
  { apply nb_cons; [|apply nb_cons; [|apply nb_one]].
    - exists [Some (-3); Some 1]. split; [vm_compute; tauto|reflexivity].
    - exists [Some (-6); None]. split; [vm_compute; tauto|reflexivity]. }
  split.
  { apply nb_cons; [|apply nb_cons; [|apply nb_one]]; reflexivity. }
  split.
  { eexists. split; [vm_compute; reflexivity|]. repeat split. }
  vm_compute. reflexivity.
Qed.

Print Assumptions C40_slowness.
Print Assumptions C40_refused.
Print Assumptions C40_few_stations.
