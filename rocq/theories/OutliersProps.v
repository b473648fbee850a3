(** C34: removing outlying GPS positions. *)
From Coq Require Import ZArith QArith Qabs List Bool Lia Lqa Permutation.
From Verif Require Import Base Outliers OutliersSpec UnwrapProofs OutliersProofs.
Import ListNotations.
Open Scope Q_scope.

(** C34.  For every table and every multiple [N] > 0 the result is the table without some of its
    rows, reached by passes that each drop exactly the rows not within [N (1e-5 + std)] of the median
    in both coordinates, and another pass would drop nothing. *)
Theorem C34_fixed_point : forall N x, 0 < N ->
  sublist (remove_outliers N x) x /\
  passes N x (remove_outliers N x) /\
  one_pass N (remove_outliers N x) (remove_outliers N x).
Proof.
  intros N x NP. destruct (remove_fuel_spec (length x) N x (le_n _) NP) as (A & B & C).
  fold (remove_outliers N x) in A, B, C. split; [exact A|]. split; [exact B|].
  rewrite <- C at 2. apply pass_is. exact NP.
Qed.

(** Applying it again changes nothing. *)
Theorem C34_idempotent : forall N x, 0 < N ->
  remove_outliers N (remove_outliers N x) = remove_outliers N x.
Proof.
  intros N x NP. destruct (remove_fuel_spec (length x) N x (le_n _) NP) as (_ & _ & C).
  fold (remove_outliers N x) in C. rewrite remove_equation at 1. rewrite C, Nat.ltb_irrefl. reflexivity.
Qed.

(** A non-empty table is never emptied, for every multiple of at least 5/2 (the code uses 5). *)
Theorem C34_never_empty : forall N x, (5 # 2) <= N -> x <> [] -> remove_outliers N x <> [].
Proof. intros N x NP NE. apply remove_fuel_nonempty; assumption. Qed.

(** Every single pass with the multiple the code uses keeps at least seven rows out of eight. *)
Theorem C34_pass_keeps_most : forall x y, one_pass 5 x y -> (7 * length x <= 8 * length y)%nat.
Proof.
  intros x y H. assert (P5 : 0 < 5) by lra. rewrite (one_pass_pass 5 x y P5 H).
  assert (P1 : 1 < 5) by lra. assert (M := pass_most 5 x P1). unfold cnt in M.
  assert (E1 : (5 - 1) * (5 - 1) - 2 == inject_Z 14) by reflexivity.
  assert (E2 : (5 - 1) * (5 - 1) == inject_Z 16) by reflexivity.
  rewrite E1, E2, <- !inject_Z_mult, <- Zle_Qle in M. lia.
Qed.

(** So a table of at most 16 positions is returned as it is. *)
Theorem C34_small_tables : forall x, (length x <= 16)%nat -> remove_outliers 5 x = x.
Proof.
  intros x L. rewrite remove_equation, (pass_small x L), Nat.ltb_irrefl. reflexivity.
Qed.

(** The rows kept do not depend on the order of the table. *)
Theorem C34_order_free : forall N x y, 0 < N -> Permutation x y ->
  Permutation (remove_outliers N x) (remove_outliers N y).
Proof. intros N x y NP P. apply remove_perm; assumption. Qed.

(** Not true: that every position far from all others is removed.  Nineteen fixes in one place and
    one a quarter of the globe away: all twenty are kept. *)
Definition crowd (n : nat) (p : point) (q : point) : list point := repeat p n ++ [q].
Theorem C34_few_fixes_refuted :
  exists x p, In p x /\ (forall q, In q x -> q = p \/ 90 <= Qabs (fst p - fst q)) /\
    (length (filter (fun q => Qltb (Qabs (fst p - fst q)) 90) x) = 1)%nat /\
    (length x = 20)%nat /\ remove_outliers 5 x = x.
Proof.
  exists (crowd 19 (0, 0) (90, 0)), (90, 0). split; [|split; [|split; [|split]]].
  - apply in_or_app. right. left. reflexivity.
  - intros q H. apply in_app_or in H. destruct H as [H|[H|[]]].
    + apply repeat_spec in H. subst. right. vm_compute. discriminate.
    + left. symmetry. exact H.
  - vm_compute. reflexivity.
  - reflexivity.
  - vm_compute. reflexivity.
Qed.

(** A case: thirty fixes in one place, two together a little apart, and one elsewhere: the one
    elsewhere is dropped in the first pass, and the next ones in the second. *)
Definition here : point := ((43 # 1), (- (116 # 1))).
Definition nearby : point := ((430004 # 10000), (- (116 # 1))).
Definition elsewhere : point := ((44 # 1), (- (116 # 1))).
Definition fixes := repeat here 60 ++ [elsewhere; nearby].
Example C34_case :
  pass 5 fixes = repeat here 60 ++ [nearby] /\
  remove_outliers 5 fixes = repeat here 60 /\ fixes <> [] /\ 0 < 5.
Proof. split; [|split; [|split]]; [vm_compute; reflexivity..|discriminate|reflexivity]. Qed.

Print Assumptions C34_fixed_point.
Print Assumptions C34_idempotent.
Print Assumptions C34_never_empty.
Print Assumptions C34_pass_keeps_most.
Print Assumptions C34_small_tables.
Print Assumptions C34_order_free.
Print Assumptions C34_few_fixes_refuted.
