(** C21: merging of short gaps. *)
From Coq Require Import ZArith List Bool Lia.
From Verif Require Import Base UnwrapSpec UnwrapProofs ReadSeveralProofs Stream StreamSpec StreamProofs.
Import ListNotations.
Open Scope Z_scope.

(** The samples after merging are the samples before, and the values that fill gaps of at most three
    sampling intervals. *)
Theorem C21_samples_after_merging st k v : in_order st ->
  (sample (merge_gaps st) k v <-> sample st k v \/ fills (sample st) k v).
Proof.
  intros O. destruct st as [|tr r]; [|rewrite merge_gaps_joins by exact O; apply joins_samples; exact O].
  split; [auto|]. intros [H|(i & j & a & z & H & _)]; [exact H|destruct (sample_nil _ _ H)].
Qed.

(** The traces are again in order, and more than three sampling intervals apart. *)
Theorem C21_remaining_gaps st : in_order st ->
  in_order (merge_gaps st) /\ chain (fun x y => gend x + 3 < gs y) (merge_gaps st).
Proof.
  intros O. destruct st as [|tr r]; [repeat split; constructor|]. rewrite merge_gaps_joins by exact O.
  destruct (joins_order r tr O) as [F C]. repeat split; [exact F| |exact C]. eapply chain_imp; [|exact C]. cbn. intros; lia.
Qed.

(** Two consecutive traces become one exactly if they are at most three intervals apart. *)
Theorem C21_joined_iff x y : in_order [x; y] ->
  (length (merge_gaps [x; y]) = 1%nat <-> gs y - gend x <= 3).
Proof.
  intros O. rewrite merge_gaps_joins by exact O. cbn [joins]. destruct (gs y - gend x <=? 3) eqn:G; cbn.
  - apply Z.leb_le in G. tauto.
  - apply Z.leb_gt in G. split; [discriminate|lia].
Qed.

(** Every time inside a short gap has a value afterwards, no time inside a longer one has. *)
Theorem C21_short_gaps_filled st i j k : in_order st ->
  (exists a, sample st i a) -> (exists z, sample st j z) -> i < k < j -> (forall m w, i < m < j -> ~ sample st m w) ->
  ((exists v, sample (merge_gaps st) k v) <-> j - i <= 3).
Proof.
  intros O (a & Si) (z & Sj) R Nb. split.
  - intros (v & S). apply C21_samples_after_merging in S as [S|(i' & j' & a' & z' & Si' & Sj' & R' & D & Nb' & _)]; [|  |exact O].
    + destruct (Nb k v R S).
    + assert (i' = i). { destruct (Z.lt_trichotomy i i') as [L|[L|L]]; [exfalso|auto|exfalso].
        - destruct (Z.lt_ge_cases i' j); [exact (Nb i' a' ltac:(lia) Si')|lia].
        - exact (Nb' i a ltac:(lia) Si). }
      assert (j' = j). { destruct (Z.lt_trichotomy j j') as [L|[L|L]]; [exfalso|auto|exfalso].
        - exact (Nb' j z ltac:(lia) Sj).
        - exact (Nb j' z' ltac:(lia) Sj'). }
      lia.
  - intros D. eexists. apply C21_samples_after_merging; [exact O|]. right. exists i, j, a, z. repeat split; try eassumption; try lia.
Qed.

(** Merging again changes nothing. *)
Theorem C21_idempotent st : in_order st -> merge_gaps (merge_gaps st) = merge_gaps st.
Proof.
  intros O. destruct (C21_remaining_gaps st O) as [O' C]. destruct (merge_gaps st) as [|tr r] eqn:E; [reflexivity|].
  rewrite merge_gaps_joins by exact O'. clear E O O'. revert tr C. induction r as [|y r IH]; intros tr C; [reflexivity|].
  destruct C as [C1 C]. cbn [joins]. rewrite (proj2 (Z.leb_gt _ _)) by lia. f_equal. apply IH. exact C.
Qed.

Definition ex_st : stream := [mkg 100 [1;2;4]; mkg 105 [-8;9]; mkg 107 [0]; mkg 111 [5;5]].
Example C21_case : in_order ex_st /\ merge_gaps ex_st = [mkg 100 [1;2;4;0;-4;-8;9;0]; mkg 111 [5;5]].
Proof. split; [|vm_compute; reflexivity]. split; [repeat constructor; discriminate|vm_compute; repeat split; lia]. Qed.

(** Without order the first property fails: of two overlapping traces with different data only the part of
    the second after the first remains; even the samples of the first before the overlap are lost. *)
Theorem C21_overlap_refuted :
  merge_gaps [mkg 0 [1;2;3;4;5]; mkg 3 [9;9;9;9]] = [mkg 5 [9;9]].
Proof. vm_compute. reflexivity. Qed.

Print Assumptions C21_samples_after_merging.
Print Assumptions C21_remaining_gaps.
Print Assumptions C21_joined_iff.
Print Assumptions C21_short_gaps_filled.
Print Assumptions C21_idempotent.
