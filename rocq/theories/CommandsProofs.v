(** Lemmas about the commands that find lags and directions. *)
From Coq Require Import String.
From Coq Require Import ZArith QArith List Bool Lia Lqa.
From Verif Require Import Base Lib Names NamesProofs Stations StationsSpec StationsProofs Gps GpsProofs InventorySpec Windows
  Slowness SlownessSpec SlownessProofs SlownessProps Xcorr XcorrProofs Directions DirectionsProps Days Commands CommandsSpec.
Import ListNotations.
Open Scope Z_scope.

(** * Joining tables *)
Lemma fo_exists {A} (dec : forall x y : A, {x = y} + {x <> y}) (l : list A) : forall seen, exists m, first_occurrences seen l m.
Proof.
  induction l as [|x l IH]; intros seen; [exists []; constructor|]. destruct (in_dec dec x seen) as [I|N].
  - destruct (IH seen) as (m & M). exists m. apply fo_old; assumption.
  - destruct (IH (x :: seen)) as (m & M). exists (x :: m). apply fo_new; assumption.
Qed.
Definition bytes_dec : forall x y : bytes, {x = y} + {x <> y} := list_eq_dec Z.eq_dec.
Lemma fo_in {A} (l m : list A) seen : first_occurrences seen l m -> forall x, In x m -> In x l /\ ~ In x seen.
Proof.
  induction 1 as [|seen y l m N F IH|seen y l m I F IH]; intros x X; [destruct X| |].
  - destruct X as [<-|X]; [split; [left; reflexivity|exact N]|]. destruct (IH x X) as [H1 H2]. split; [right; exact H1|]. intros J. apply H2. right. exact J.
  - destruct (IH x X). split; [right; assumption|assumption].
Qed.
Lemma fo_seen {A} (l m : list A) seen : first_occurrences seen l m -> forall seen', (forall x, In x seen <-> In x seen') -> first_occurrences seen' l m.
Proof.
  induction 1 as [|seen y l m N F IH|seen y l m I F IH]; intros seen' E; [constructor| |].
  - apply fo_new; [rewrite <- E; exact N|]. apply IH. intros x. cbn [In]. rewrite E. reflexivity.
  - apply fo_old; [apply E; exact I|]. apply IH. exact E.
Qed.
Lemma unique_app (k1 k2 : list bytes) : NoDup k1 -> exists ext, unique eqb_bytes (k1 ++ k2) = k1 ++ ext /\ first_occurrences k1 k2 ext.
Proof.
  intros ND. destruct (fo_exists bytes_dec k2 k1) as (ext & X). exists ext. split; [|exact X].
  apply (fo_det (k1 ++ k2) _ []); [apply (unique_spec eqb_bytes eqb_bytes_iff)|].
  apply fo_app; [apply fo_new_list; [exact ND|intros x _ []]|]. apply (fo_seen _ _ k1 X). intros x. rewrite app_nil_r, <- in_rev. reflexivity.
Qed.
Lemma unique_in (l : list bytes) x : In x (unique eqb_bytes l) <-> In x l.
Proof.
  pose proof (unique_spec eqb_bytes eqb_bytes_iff l) as F. split; [intros I; apply (fo_in _ _ _ F x I)|].
  assert (G : forall (l m : list bytes) seen, first_occurrences seen l m -> In x l -> In x seen \/ In x m).
  { clear. induction 1 as [|seen y l m N F IH|seen y l m I F IH]; intros X; [destruct X| |].
    - destruct X as [<-|X]; [right; left; reflexivity|]. destruct (IH X) as [[<-|H]|H]; [right; left; reflexivity|left; exact H|right; right; exact H].
    - destruct X as [<-|X]; [left; exact I|auto]. }
  intros I. destruct (G l _ [] F I) as [[]|H]. exact H.
Qed.
Lemma fo_nodup {A} (l m : list A) seen : first_occurrences seen l m -> NoDup m.
Proof.
  induction 1 as [|seen y l m N F IH|seen y l m I F IH]; [constructor| |exact IH]. constructor; [|exact IH].
  intros J. apply (fo_in _ _ _ F y J). left. reflexivity.
Qed.
Lemma unique_nodup (l : list bytes) : NoDup (unique eqb_bytes l).
Proof. apply (fo_nodup l _ []). apply (unique_spec eqb_bytes eqb_bytes_iff). Qed.

Lemma join_keys ds : keys (join_tables ds) = unique eqb_bytes (flat_map keys ds).
Proof. unfold keys at 1, join_tables. rewrite map_map. cbn [fst]. apply map_id. Qed.
Lemma col_map (f : bytes -> list (option Q)) ks k : In k ks -> col (map (fun k => (k, f k)) ks) k = Some (f k).
Proof.
  induction ks as [|x ks IH]; intros I; [destruct I|]. cbn [map col]. destruct (eqb_bytes x k) eqn:E; [apply eqb_bytes_iff in E; subst; reflexivity|].
  destruct I as [->|I]; [rewrite (proj2 (eqb_bytes_iff k k) eq_refl) in E; discriminate|]. apply IH. exact I.
Qed.
Lemma col_not_in d k : ~ In k (keys d) -> col d k = None.
Proof.
  induction d as [|[x c] d IH]; intros N; [reflexivity|]. cbn [col]. destruct (eqb_bytes x k) eqn:E.
  - apply eqb_bytes_iff in E. subst. destruct N. left. reflexivity.
  - apply IH. intros I. apply N. right. exact I.
Qed.
Lemma col_join ds k : In k (flat_map keys ds) -> col (join_tables ds) k = Some (flat_map (column_in k) ds).
Proof. intros I. unfold join_tables. apply (col_map (fun k => flat_map (column_in k) ds)). apply unique_in. exact I. Qed.
Lemma col_some_in d k c : col d k = Some c -> In (k, c) d.
Proof.
  induction d as [|[x y] d IH]; [discriminate|]. cbn [col]. destruct (eqb_bytes x k) eqn:E.
  - intros H. injection H as ->. apply eqb_bytes_iff in E. subst. left. reflexivity.
  - intros H. right. apply IH. exact H.
Qed.
Lemma column_length d k : has_lines (height d) d -> length (column_in k d) = height d.
Proof.
  intros H. unfold column_in. destruct (col d k) as [c|] eqn:E; [|apply repeat_length]. apply col_some_in in E.
  unfold has_lines in H. rewrite Forall_forall in H. exact (H _ E).
Qed.

(** Lines of columns put below one another. *)
Lemma line_app ks (f g : bytes -> list (option Q)) n i : (forall k, length (f k) = n) -> 
  line (map (fun k => f k ++ g k) ks) i = if (i <? n)%nat then line (map f ks) i else line (map g ks) (i - n).
Proof.
  intros L. destruct (i <? n)%nat eqn:E.
  - apply Nat.ltb_lt in E. induction ks as [|k ks IH]; [reflexivity|]. cbn [map line]. rewrite nth_error_app1 by (rewrite L; exact E). rewrite IH. reflexivity.
  - apply Nat.ltb_ge in E. induction ks as [|k ks IH]; [reflexivity|]. cbn [map line]. rewrite nth_error_app2 by (rewrite L; exact E). rewrite L, IH. reflexivity.
Qed.
Section lines.
Context {B : Type}.
Variable g : option (list Q) -> B.
Definition lines_of (cs : list (list (option Q))) (n : nat) : list B := map (fun i => g (line cs i)) (seq 0 n).
Lemma lines_app ks (f h : bytes -> list (option Q)) n m : (forall k, length (f k) = n) ->
  lines_of (map (fun k => f k ++ h k) ks) (n + m) = lines_of (map f ks) n ++ lines_of (map h ks) m.
Proof.
  intros L. unfold lines_of. rewrite seq_app, map_app. f_equal.
  - apply map_ext_in. intros i I. apply in_seq in I. rewrite (line_app ks f h n i L). replace (i <? n)%nat with true by (symmetry; apply Nat.ltb_lt; lia). reflexivity.
  - cbn [plus]. rewrite <- (Nat.add_0_r n) at 1. rewrite <- (map_map (fun i => i) (fun i => g (line _ i))).
    replace (seq (n + 0) m) with (map (fun i => (n + i)%nat) (seq 0 m)).
    + rewrite !map_map. apply map_ext. intros i. rewrite (line_app ks f h n _ L). replace (n + i <? n)%nat with false by (symmetry; apply Nat.ltb_ge; lia).
      replace (n + i - n)%nat with i by lia. reflexivity.
    + clear. generalize 0%nat as a. induction m as [|m IH]; intros a; [reflexivity|]. cbn [seq map]. rewrite IH. f_equal. f_equal. lia.
Qed.
Lemma lines_join ks ds : Forall (fun d => has_lines (height d) d) ds ->
  lines_of (map (fun k => flat_map (column_in k) ds) ks) (list_sum (map height ds)) =
  flat_map (fun d => lines_of (map (fun k => column_in k d) ks) (height d)) ds.
Proof.
  induction 1 as [|d ds H F IH]; [reflexivity|]. cbn [map flat_map list_sum fold_right]. rewrite <- IH.
  change (fold_right Init.Nat.add 0%nat (map height ds)) with (list_sum (map height ds)).
  apply (lines_app ks (fun k => column_in k d) (fun k => flat_map (column_in k) ds)). intros k. apply column_length. exact H.
Qed.
Lemma nth_error_repeat_in {A} n i : (i < n)%nat -> forall x : A, nth_error (repeat x n) i = Some x.
Proof. revert n. induction i as [|i IH]; intros [|n] L x; try lia; [reflexivity|]. cbn. apply IH. lia. Qed.
Lemma lines_none ks d k : In k ks -> ~ In k (keys d) -> lines_of (map (fun k => column_in k d) ks) (height d) = repeat (g None) (height d).
Proof.
  intros I N. unfold lines_of. assert (E : forall i, (i < height d)%nat -> line (map (fun k => column_in k d) ks) i = None).
  { intros i L. induction ks as [|x ks IH]; [destruct I|]. cbn [map line]. destruct I as [->|I].
    - unfold column_in. rewrite (col_not_in _ _ N). rewrite (nth_error_repeat_in (height d) i L). reflexivity.
    - rewrite (IH I). destruct (nth_error (column_in x d) i) as [[q|]|]; reflexivity. }
  transitivity (map (fun _ : nat => g None) (seq 0 (height d))).
  - apply map_ext_in. intros i J. apply in_seq in J. rewrite E by lia. reflexivity.
  - clear E N I. generalize 0%nat as a. induction (height d) as [|n IH]; intros a; [reflexivity|]. cbn [seq map repeat]. f_equal. apply IH.
Qed.
End lines.

Lemma joined_length k (l : list frame) : Forall (fun d => has_lines (height d) d) l -> length (flat_map (column_in k) l) = list_sum (map height l).
Proof. induction 1 as [|x l H F IH]; [reflexivity|]. cbn [flat_map map list_sum fold_right]. rewrite app_length, IH, column_length by exact H. reflexivity. Qed.
Lemma height_join d ds : Forall (fun d => has_lines (height d) d) (d :: ds) -> d <> [] -> height (join_tables (d :: ds)) = list_sum (map height (d :: ds)).
Proof.
  intros F N. destruct d as [|[k0 c0] d']; [congruence|]. set (d := (k0, c0) :: d') in *.
  assert (E : exists r, unique eqb_bytes (flat_map keys (d :: ds)) = k0 :: r).
  { pose proof (unique_spec eqb_bytes eqb_bytes_iff (flat_map keys (d :: ds))) as U. unfold d in U at 1. cbn [flat_map keys map fst app] in U.
    change (keys d) with (k0 :: keys d'). cbn [flat_map app] in *. inversion U as [|? ? ? m NI U'|? ? ? ? I]; subst; [exists m; symmetry; assumption|destruct I]. }
  destruct E as (r & E).
  transitivity (length (flat_map (column_in k0) (d :: ds))).
  { transitivity (height (map (fun k => (k, flat_map (column_in k) (d :: ds))) (k0 :: r))); [|reflexivity].
    f_equal. unfold join_tables. f_equal. exact E. }
  apply joined_length. exact F.
Qed.

(** * Stations of joined tables *)
Lemma short_ids_app_none l ext : (forall k, In k ext -> part_of (b "rms") k = false) -> short_ids (l ++ ext) = short_ids l.
Proof.
  intros H. induction l as [|k l IH]; cbn [app].
  - induction ext as [|k ext IH]; [reflexivity|]. rewrite short_ids_cons_no by (apply H; left; reflexivity). apply IH. intros x I. apply H. right. exact I.
  - cbn [short_ids]. rewrite IH. reflexivity.
Qed.
(** Names of columns, and the stations of those with "rms". *)
Inductive stations : list bytes -> list bytes -> Prop :=
| sta_nil : stations [] []
| sta_no k ks ids : part_of (b "rms") k = false -> stations ks ids -> stations (k :: ks) ids
| sta_yes i ks ids : plain i -> stations ks ids -> stations ((b "rms_" ++ i) :: ks) (i :: ids).
Lemma stations_short ks ids : stations ks ids -> short_ids ks = Some ids.
Proof.
  induction 1 as [|k ks ids P H IH|i ks ids P H IH]; [reflexivity| |]; [rewrite short_ids_cons_no by exact P; exact IH|].
  rewrite short_ids_cons_yes by exact P. rewrite IH. reflexivity.
Qed.
Lemma stations_app ks ids ks' ids' : stations ks ids -> stations ks' ids' -> stations (ks ++ ks') (ids ++ ids').
Proof. intros H G. induction H; cbn [app]; [exact G|apply sta_no; assumption|apply sta_yes; assumption]. Qed.
Lemma plain_lag i j : plain i -> plain j -> part_of (b "rms") (b "lag_" ++ i ++ b "_" ++ j) = false.
Proof.
  intros [_ P] [_ R]. apply no_rms. change (b "lag_" ++ i ++ b "_" ++ j) with ([108; 97; 103; 95] ++ i ++ [95] ++ j).
  repeat apply not_in_app; try assumption; cbn; intuition discriminate.
Qed.
Lemma plain_r i j : plain i -> plain j -> part_of (b "rms") (b "r_" ++ i ++ b "_" ++ j) = false.
Proof.
  intros [_ P] [_ R]. apply no_rms. change (b "r_" ++ i ++ b "_" ++ j) with ([114; 95] ++ i ++ [95] ++ j).
  repeat apply not_in_app; try assumption; cbn; intuition discriminate.
Qed.
Lemma stations_pairs f ids : plain f -> Forall plain ids -> stations (pair_items f ids) ids.
Proof.
  intros PF F. induction F as [|i ids P F IH]; [constructor|]. cbn [pair_items]. set (j := match ids with [] => f | j :: _ => j end).
  assert (PJ : plain j) by (unfold j; destruct F; assumption).
  apply sta_yes; [exact P|]. apply sta_no; [apply plain_lag; assumption|]. apply sta_no; [apply plain_r; assumption|]. exact IH.
Qed.
Lemma stations_table ids : Forall plain ids -> stations (b "t_mid" :: item_names ids) ids.
Proof.
  intros F. apply sta_no; [vm_compute; reflexivity|]. unfold item_names. apply sta_no; [vm_compute; reflexivity|].
  assert (E : stations (pair_items (match ids with i :: _ => i | [] => [] end) ids ++ [b "consistency"]) (ids ++ [])); [|rewrite app_nil_r in E; exact E].
  apply stations_app; [|apply sta_no; [vm_compute; reflexivity|constructor]].
  destruct F as [|i ids P F]; [constructor|]. apply stations_pairs; [exact P|constructor; assumption].
Qed.
Lemma stations_rms ks ids i : stations ks ids -> plain i -> (In (b "rms_" ++ i) ks <-> In i ids).
Proof.
  intros H [Pi _]. induction H as [|k ks ids P H IH|j ks ids P H IH]; cbn [In]; [reflexivity| |].
  - rewrite <- IH. split; [|auto]. intros [->|X]; [|exact X]. exfalso.
    assert (E : part_of (b "rms") (b "rms_" ++ i) = true) by (apply part_of_iff; exists [], (b "_" ++ i); reflexivity). congruence.
  - rewrite IH. split; (intros [E|X]; [left|right; exact X]); [apply (app_inv_head (b "rms_")) in E; exact E|rewrite E; reflexivity].
Qed.
Lemma stations_plain ks ids : stations ks ids -> Forall plain ids.
Proof. induction 1; auto. Qed.
Lemma stations_first seen seen_ids ks m : first_occurrences seen ks m -> forall ids, stations ks ids ->
  (forall i, plain i -> In (b "rms_" ++ i) seen <-> In i seen_ids) -> exists ids', stations m ids' /\ first_occurrences seen_ids ids ids'.
Proof.
  intros F. revert seen_ids. induction F as [seen|seen x l m N F IH|seen x l m I F IH]; intros seen_ids ids St Se.
  - inversion St; subst. exists []. split; constructor.
  - inversion St as [|? ? ? P St'|i ? ids0 P St']; subst.
    + destruct (IH seen_ids ids St') as (ids' & A & C).
      { intros i Pi. cbn [In]. rewrite <- (Se i Pi). split; [|auto]. intros [->|X]; [|exact X]. exfalso.
        assert (E : part_of (b "rms") (b "rms_" ++ i) = true) by (apply part_of_iff; exists [], (b "_" ++ i); reflexivity). congruence. }
      exists ids'. split; [apply sta_no; assumption|exact C].
    + destruct (IH (i :: seen_ids) ids0 St') as (ids' & A & C).
      { intros j Pj. cbn [In]. rewrite <- (Se j Pj). split; (intros [E|X]; [left|right; exact X]); [apply (app_inv_head (b "rms_")) in E; exact E|rewrite E; reflexivity]. }
      exists (i :: ids'). split; [apply sta_yes; assumption|]. apply fo_new; [|exact C]. rewrite <- (Se i P). exact N.
  - inversion St as [|? ? ? P St'|i ? ids0 P St']; subst.
    + apply IH; assumption.
    + destruct (IH seen_ids ids0 St' Se) as (ids' & A & C). exists ids'. split; [exact A|]. apply fo_old; [|exact C]. apply (Se i P). exact I.
Qed.

(** * Lag columns *)
Lemma lag_columns_map d ks : (forall k, In k ks -> In k (keys d)) -> lag_columns d ks = Some (map (fun k => column_in k d) ks).
Proof.
  induction ks as [|k ks IH]; intros H; [reflexivity|]. cbn [lag_columns map]. rewrite IH by (intros x I; apply H; right; exact I).
  unfold column_in at 2. destruct (col_exists d k (H k (or_introl eq_refl))) as (c & ->). reflexivity.
Qed.
Lemma lag_columns_join ds ks : (forall k, In k ks -> In k (flat_map keys ds)) -> lag_columns (join_tables ds) ks = Some (map (fun k => flat_map (column_in k) ds) ks).
Proof.
  induction ks as [|k ks IH]; intros H; [reflexivity|]. cbn [lag_columns map]. rewrite IH by (intros x I; apply H; right; exact I).
  rewrite col_join by (apply H; left; reflexivity). reflexivity.
Qed.
Lemma lag_columns_none d ks k : In k ks -> ~ In k (keys d) -> lag_columns d ks = None.
Proof.
  intros I N. induction ks as [|x ks IH]; [destruct I|]. cbn [lag_columns]. destruct I as [->|I]; [rewrite (col_not_in _ _ N); reflexivity|].
  rewrite (IH I). destruct (col d x); reflexivity.
Qed.
(** Every station of two or more is in a lag. *)
Lemma lag_key_of ids c : In c ids -> (2 <= length ids)%nat -> exists i j, In (b "lag_" ++ i ++ b "_" ++ j) (lag_keys ids) /\ In i ids /\ In j ids /\ (c = i \/ c = j).
Proof.
  induction ids as [|x ids IH]; intros I L; [destruct I|]. destruct ids as [|y ids]; [cbn in L; lia|].
  change (lag_keys (x :: y :: ids)) with ((b "lag_" ++ x ++ b "_" ++ y) :: lag_keys (y :: ids)).
  destruct I as [<-|I].
  - exists x, y. split; [left; reflexivity|]. cbn; auto.
  - destruct I as [<-|I].
    + exists x, y. split; [left; reflexivity|]. cbn; auto.
    + destruct ids as [|z ids]; [destruct I|]. destruct (IH (or_intror I)) as (i & j & K & Ii & Ij & E); [cbn; lia|].
      exists i, j. split; [right; exact K|]. split; [right; exact Ii|]. split; [right; exact Ij|exact E].
Qed.
Lemma pair_lag f ids i j : Forall plain ids -> plain f -> plain i -> plain j -> In (b "lag_" ++ i ++ b "_" ++ j) (pair_items f ids) ->
  (exists l r, ids = l ++ i :: j :: r) \/ (exists l, ids = l ++ [i] /\ j = f).
Proof.
  intros F PF [Pi _] [Pj _]. induction F as [|x ids P F IH]; [intros []|]. cbn [pair_items]. set (y := match ids with [] => f | y :: _ => y end).
  intros [E|[E|[E|I]]]; [discriminate E| |discriminate E|].
  - apply app_inv_head in E. apply (split_at 95) in E; [|exact (proj1 P)|exact Pi]. destruct E as [-> Ey]. unfold y in Ey. destruct ids as [|y' ids].
    + right. exists []. split; [reflexivity|symmetry; exact Ey].
    + left. exists [], ids. rewrite Ey. reflexivity.
  - destruct (IH I) as [(l & r & ->)|(l & -> & E)]; [left; exists (x :: l), r; reflexivity|right; exists (x :: l); split; [reflexivity|exact E]].
Qed.
Lemma table_lag ids i j : Forall plain ids -> plain i -> plain j -> In (b "lag_" ++ i ++ b "_" ++ j) (b "t_mid" :: item_names ids) -> follows ids i j.
Proof.
  intros F Pi Pj [E|[E|I]]; [discriminate E|discriminate E|]. apply in_app_iff in I as [I|[I|[]]]; [|discriminate I].
  destruct ids as [|f ids]; [destruct I|]. apply (pair_lag f (f :: ids) i j F) in I; [|inversion F; assumption|exact Pi|exact Pj].
  destruct I as [I|(l & E & ->)]; [left; exact I|right; exists l, ids; split; [exact E|reflexivity]].
Qed.
Lemma follows_in ids i j : follows ids i j -> In i ids /\ In j ids.
Proof.
  intros [(l & r & ->)|(l & r & E & E')]; [split; apply in_or_app; right; cbn; auto|]. split.
  - rewrite E. apply in_or_app. right. left. reflexivity.
  - rewrite E'. left. reflexivity.
Qed.
