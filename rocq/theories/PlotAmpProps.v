(** C60: the amplitudes drawn. *)
From Coq Require Import String.
From Coq Require Import ZArith QArith List Bool Lia Permutation.
From Verif Require Import Base UnwrapSpec Names NamesProofs Select SelectProofs Stations StationsSpec StationsProofs Database DatabaseSpec DatabaseProofs DatabaseProps DirectionsProps CommandsProofs PlotAmp.
Import ListNotations.
Open Scope Z_scope.

(** ** What is meant *)
(** [m] is what is left of [l] if only the elements with [P] are kept. *)
Inductive kept {A} (P : A -> Prop) : list A -> list A -> Prop :=
| kept_nil : kept P [] []
| kept_in x l m : P x -> kept P l m -> kept P (x :: l) (x :: m)
| kept_out x l m : ~ P x -> kept P l m -> kept P (x :: l) m.
(** The line of a station: a point for each of its rows, in order, at the start of the row and the logarithm of its amplitude. *)
Definition line_of {V} (log10 : Q -> V) (DB : list row) (sta : bytes) (line : list (Z * V)) : Prop :=
  exists rs, kept (fun r => r_station r = sta) DB rs /\ Forall2 (fun r p => p = (r_t1 r, log10 (r_amp r))) rs line.

(** ** Proofs *)
Lemma rows_kept DB sta : kept (fun r => r_station r = sta) DB (rows_at DB sta).
Proof.
  unfold rows_at. induction DB as [|r DB IH]; [constructor|]. cbn [filter]. destruct (eqb_bytes (r_station r) sta) eqn:E.
  - apply eqb_bytes_iff in E. constructor; assumption.
  - constructor; [|exact IH]. intros X. apply eqb_bytes_iff in X. congruence.
Qed.
Lemma kept_det {A} (P : A -> Prop) l m m' : kept P l m -> kept P l m' -> m = m'.
Proof. intros K. revert m'. induction K as [|x l m H K IH|x l m H K IH]; intros m' K'; inversion K'; subst; try contradiction; [reflexivity|f_equal; auto|auto]. Qed.
Lemma line_found {V} (log10 : Q -> V) DB sta line : line_of log10 DB sta line <-> line = amp_line log10 DB sta.
Proof.
  unfold line_of, amp_line. split.
  - intros (rs & K & F). rewrite <- (kept_det _ _ _ _ K (rows_kept DB sta)). clear K. induction F; [reflexivity|]. cbn. congruence.
  - intros ->. exists (rows_at DB sta). split; [apply rows_kept|]. induction (rows_at DB sta); constructor; auto.
Qed.
Lemma comes_le x y : comes_before x y -> le_bytes x y = true.
Proof.
  intros (p & [(c & r & -> & ->)|(a & c & r & s & -> & -> & L)]); induction p as [|z p IH]; cbn [app le_bytes].
  - reflexivity.
  - rewrite Z.ltb_irrefl, ?Z.eqb_refl. exact IH.
  - rewrite (proj2 (Z.ltb_lt _ _) L). reflexivity.
  - rewrite Z.ltb_irrefl, ?Z.eqb_refl. exact IH.
Qed.
Lemma sorted_already l : chain comes_before l -> sort_by le_bytes l = l.
Proof.
  induction l as [|x l IH]; intros C; [reflexivity|]. change (sort_by le_bytes (x :: l)) with (put le_bytes x (sort_by le_bytes l)).
  destruct l as [|y l]; [reflexivity|]. destruct C as [H C]. rewrite (IH C). cbn [put]. rewrite (comes_le _ _ H). reflexivity.
Qed.
Lemma sorted_chain l : NoDup l -> sort_by le_bytes l = l -> chain comes_before l.
Proof.
  intros N E. assert (C : chain (fun x y => le_bytes x y = true) l).
  { rewrite <- E. apply sort_chain; [auto|]. intros x y X. destruct (le_bytes_total x y); congruence. }
  clear E. induction l as [|x l IH]; [exact I|]. inversion N as [|? ? X Y]; subst. destruct l as [|y l]; [exact I|]. destruct C as [H C].
  split; [|apply IH; assumption]. destruct (le_comes _ _ H) as [->|K]; [destruct X; left; reflexivity|exact K].
Qed.

(** ** C60 *)
(** Printed: every station once, in order of first appearance, with the quartile of the amplitudes of all its rows. *)
Theorem C60_amplitudes_printed quartile DB : exists stas, first_occurrences [] (map r_station DB) stas /\
  Forall2 (fun sta p => fst p = sta /\ exists rs, kept (fun r => r_station r = sta) DB rs /\ snd p = quartile (map r_amp rs)) stas (amp_printed quartile DB).
Proof.
  exists (stations_of DB). split; [apply (unique_spec eqb_bytes eqb_bytes_iff)|]. unfold amp_printed.
  induction (stations_of DB) as [|s l IH]; constructor; [|exact IH]. split; [reflexivity|]. exists (rows_at DB s). split; [apply rows_kept|reflexivity].
Qed.
(** Drawn: the line of every station, in order of first appearance. *)
Theorem C60_amplitudes_drawn {V} (log10 : Q -> V) DB : exists stas, first_occurrences [] (map r_station DB) stas /\
  Forall2 (line_of log10 DB) stas (map snd (amp_legend log10 DB)).
Proof.
  exists (stations_of DB). split; [apply (unique_spec eqb_bytes eqb_bytes_iff)|]. unfold amp_legend.
  assert (L : length (sort_by le_bytes (stations_of DB)) = length (stations_of DB)) by (apply Permutation_length; apply sort_perm).
  revert L. generalize (sort_by le_bytes (stations_of DB)). induction (stations_of DB) as [|s l IH]; intros [|z m] L; try discriminate; [constructor|].
  cbn. constructor; [apply line_found; reflexivity|apply IH; injection L as L; exact L].
Qed.
(** The names of the legend belong to the lines if the stations first appear in the order of their names; if they do not,
    the names are those of the stations in another order than that of the lines. *)
Theorem C60_legend {V} (log10 : Q -> V) DB stas : first_occurrences [] (map r_station DB) stas ->
  (map fst (amp_legend log10 DB) = stas <-> chain comes_before stas) /\ Permutation (map fst (amp_legend log10 DB)) stas /\
  (chain comes_before stas -> Forall (fun p => line_of log10 DB (fst p) (snd p)) (amp_legend log10 DB)).
Proof.
  intros F. assert (stas = stations_of DB) as -> by (exact (fo_det _ _ [] _ F (unique_spec eqb_bytes eqb_bytes_iff (map r_station DB)))). clear F.
  assert (ND : NoDup (stations_of DB)) by (apply (fo_nodup (map r_station DB) _ []); apply (unique_spec eqb_bytes eqb_bytes_iff)).
  assert (E : map fst (amp_legend log10 DB) = sort_by le_bytes (stations_of DB)).
  { unfold amp_legend. assert (L : length (sort_by le_bytes (stations_of DB)) = length (map (amp_line log10 DB) (stations_of DB))) by (rewrite map_length; apply Permutation_length; apply sort_perm).
    revert L. generalize (map (amp_line log10 DB) (stations_of DB)). induction (sort_by le_bytes (stations_of DB)) as [|s l IH]; intros [|z m] L; try discriminate; [reflexivity|].
    cbn. f_equal. apply IH. injection L as L. exact L. }
  rewrite E. split; [|split].
  - split; [apply sorted_chain; exact ND|apply sorted_already].
  - apply sort_perm.
  - intros C. unfold amp_legend. rewrite (sorted_already _ C). clear. induction (stations_of DB) as [|s l IH]; constructor; [apply line_found; reflexivity|exact IH].
Qed.

(** Not true: that the legend names the station of each line.  The names are sorted, the lines are not. *)
Definition late_folder : list (bytes * option (list trace)) :=
  [(b "2020-01-01_077.mseed", Some [mktrace (b "077") [] 1000 2000 [1; 2]%Q]); (b "2020-01-02_014.mseed", Some [mktrace (b "014") [] 5000 6000 [3; 4]%Q])].
Theorem C60_legend_refuted : ~ forall amp files DB, NoDup (map fst files) -> make_db amp files = Some DB ->
  Forall (fun p => line_of (fun x => x) DB (fst p) (snd p)) (amp_legend (fun x => x) DB).
Proof.
  intros H. assert (N : NoDup (map fst late_folder)) by (repeat constructor; cbn; intuition discriminate).
  destruct (make_db amp1 late_folder) as [DB|] eqn:E; [|vm_compute in E; discriminate].
  specialize (H amp1 late_folder DB N E). vm_compute in E. injection E as <-.
  inversion H as [|p l P _]. subst. apply line_found in P. vm_compute in P. discriminate.
Qed.

(** ** A case: the table of [C60_case], whose stations appear in order. *)
Example C60_legend_case : exists DB, make_db amp1 folder = Some DB /\ first_occurrences [] (map r_station DB) [b "AAA"; b "BBB"] /\
  chain comes_before [b "AAA"; b "BBB"] /\ amp_legend (fun x => x) DB = [(b "AAA", [(1000, 1%Q)]); (b "BBB", [(2000, 1%Q)])].
Proof.
  eexists. split; [exact (proj2 C60_case)|]. split; [|split; [|vm_compute; reflexivity]].
  - cbn [map r_station]. constructor; [intros []|]. constructor; [intros [X|[]]; discriminate|]. constructor.
  - split; [|exact I]. exists []. right. exists 65, 66, [65; 65], [66; 66]. repeat split; reflexivity.
Qed.

Print Assumptions C60_amplitudes_printed.
Print Assumptions C60_amplitudes_drawn.
Print Assumptions C60_legend.
Print Assumptions C60_legend_refuted.
