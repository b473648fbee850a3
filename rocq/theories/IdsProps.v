(** C41: the channels that take part in a cross-correlation. *)
From Coq Require Import String.
From Coq Require Import ZArith List Bool Lia Permutation.
From Verif Require Import Lib Base Stations StationsProofs Names NamesProofs Select SelectProofs Gps UnwrapSpec Ids IdsSpec IdsProofs.
Import ListNotations.
Open Scope Z_scope.

(** Exactly the channels asked for and not excluded, each once, in order; it raises exactly if a pattern is invalid. *)
Theorem C41_channels : forall search data ids excl,
  match channels search data ids excl with
  | Some out => NoDup out /\ ascending (fun x y => le_bytes x y = true) out /\
      (forall x, In x out <-> asked search data ids x /\ ~ excluded search excl x) /\ ~ invalid search data ids excl
  | None => invalid search data ids excl
  end.
Proof.
  intros search data ids excl. unfold channels. destruct (check_input_ids search data ids excl) as [out|] eqn:E; cbn [option_map].
  - destruct (check_some _ _ _ _ _ E) as (C1 & C2 & C3). split; [|split; [|split]].
    + eapply Permutation_NoDup; [symmetry; apply sort_perm|exact C1].
    + apply chain_ascending; [intros x y z; apply le_bytes_trans|].
      apply (sort_chain le_bytes (fun x y => le_bytes x y = true)); [auto|]. intros x y. apply le_bytes_total.
    + intros x. rewrite <- C2. split; apply Permutation_in; [|symmetry]; apply sort_perm.
    + exact C3.
  - apply check_none. exact E.
Qed.

Lemma le_bytes_antisym x : forall y, le_bytes x y = true -> le_bytes y x = true -> x = y.
Proof.
  induction x as [|a x IH]; intros [|c y] H1 H2; cbn in H1, H2; try congruence.
  destruct (Z.ltb_spec a c), (Z.ltb_spec c a); try congruence; try lia.
  f_equal; [lia|]. apply IH; assumption.
Qed.
Lemma ascending_unique l : forall m, ascending (fun x y => le_bytes x y = true) l -> ascending (fun x y => le_bytes x y = true) m ->
  NoDup l -> NoDup m -> (forall x, In x l <-> In x m) -> l = m.
Proof.
  induction l as [|x l IH]; intros m L M NL NM E.
  - destruct m as [|y m]; [reflexivity|]. destruct (proj2 (E y) (or_introl eq_refl)).
  - destruct m as [|y m]; [destruct (proj1 (E x) (or_introl eq_refl))|].
    cbn [ascending] in L, M. destruct L as [L1 L2], M as [M1 M2]. inversion NL; inversion NM; subst.
    rewrite Forall_forall in L1, M1.
    assert (XY : x = y).
    { destruct (proj1 (E x) (or_introl eq_refl)) as [->|Hx]; [reflexivity|].
      destruct (proj2 (E y) (or_introl eq_refl)) as [->|Hy]; [reflexivity|].
      apply le_bytes_antisym; [apply L1; exact Hy|apply M1; exact Hx]. }
    subst y. f_equal. apply IH; auto. intros z. split; intros Z.
    + destruct (proj1 (E z) (or_intror Z)) as [->|Z']; [contradiction|exact Z'].
    + destruct (proj2 (E z) (or_intror Z)) as [->|Z']; [contradiction|exact Z'].
Qed.

Lemma asked_same search data data' ids x : (forall y, In y data <-> In y data') -> asked search data ids x <-> asked search data' ids x.
Proof. intros E. unfold asked. destruct ids as [[|i l]|]; [apply E| |apply E]. setoid_rewrite E. reflexivity. Qed.

(** The order and repetition of the files do not matter. *)
Theorem C41_order_free : forall search data data' ids excl, (forall x, In x data <-> In x data') ->
  channels search data ids excl = channels search data' ids excl.
Proof.
  intros search data data' ids excl E.
  pose proof (C41_channels search data ids excl) as H. pose proof (C41_channels search data' ids excl) as H'.
  assert (V : invalid search data ids excl <-> invalid search data' ids excl).
  { unfold invalid. setoid_rewrite E. setoid_rewrite (asked_same search data data' ids _ E). reflexivity. }
  destruct (channels search data ids excl) as [l|], (channels search data' ids excl) as [m|]; [| | |reflexivity].
  - destruct H as (A1 & A2 & A3 & _), H' as (B1 & B2 & B3 & _). f_equal. apply ascending_unique; auto.
    intros x. rewrite A3, B3, (asked_same search data data' ids x E). reflexivity.
  - destruct H as (_ & _ & _ & N). tauto.
  - destruct H' as (_ & _ & _ & N). tauto.
Qed.

(** Command-line lists: the texts between the commas. *)
Fixpoint joined (l : list bytes) : bytes :=
  match l with [] => [] | [x] => x | x :: r => x ++ b "," ++ joined r end.
Theorem C41_command_line : forall l, l <> [] -> Forall (fun s => ~ In 44 s) l -> listed (Some (joined l)) = Some l.
Proof.
  intros l N F. unfold listed. cbn [option_map]. f_equal. destruct F as [|x l X F]; [congruence|]. clear N.
  revert x X. induction F as [|y l Y F IH]; intros x X; [apply split_on_none; exact X|].
  change (joined (x :: y :: l)) with (x ++ [44] ++ joined (y :: l)). rewrite split_on_app by exact X. rewrite (IH y Y). reflexivity.
Qed.

(** Without special characters, [re.search] looks for a part of the text. *)
Definition literal_search (p s : bytes) : option bool := Some (part_of p s).

Definition case_data := [b "XX.121..HDF"; b "XX.123..HDF"; b "XX.121..HDF"; b "YY.212.01.HDF"].
Example C41_case :
  channels literal_search case_data None (Some [b "YY"]) = Some [b "XX.121..HDF"; b "XX.123..HDF"] /\
  channels literal_search case_data (Some [b "123"; b "YY.212.01.HDF"; b "1"]) (Some [b "212"]) =
    Some [b "XX.121..HDF"; b "XX.123..HDF"] /\
  channels (fun p s => if eqb_bytes p (b "(") then None else literal_search p s) case_data (Some [b "("]) None = None /\
  begins_like_id (b "YY.212.01.HDF") /\ ~ begins_like_id (b "212") /\ listed (Some (b "121,122")) = Some [b "121"; b "122"].
Proof.
  split; [vm_compute; reflexivity|]. split; [vm_compute; reflexivity|]. split; [vm_compute; reflexivity|].
  split; [apply conventional_iff; vm_compute; reflexivity|]. split; [apply conventional_false; vm_compute; reflexivity|].
  vm_compute. reflexivity.
Qed.

(** A full identifier is not checked against the data. *)
Theorem C41_in_data_refuted : exists search data ids out x,
  channels search data (Some ids) None = Some out /\ In x out /\ ~ In x data.
Proof.
  exists literal_search, case_data, [b "XX.999..HDF"], [b "XX.999..HDF"], (b "XX.999..HDF").
  split; [vm_compute; reflexivity|]. split; [left; reflexivity|]. vm_compute. intuition discriminate.
Qed.
(** Asking for or excluding a station also takes those whose identifier contains its name. *)
Theorem C41_only_named_refuted :
  channels literal_search case_data (Some [b "21"]) None = Some [b "XX.121..HDF"; b "YY.212.01.HDF"] /\
  channels literal_search case_data None (Some [b "12"]) = Some [].
Proof. split; vm_compute; reflexivity. Qed.

Print Assumptions C41_channels.
Print Assumptions C41_order_free.
Print Assumptions C41_command_line.
Print Assumptions C41_in_data_refuted.
Print Assumptions C41_only_named_refuted.
