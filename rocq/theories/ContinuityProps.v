(** C72: a look for discontinuities. *)
From Coq Require Import String.
From Coq Require Import ZArith List Bool Lia Permutation.
From Verif Require Import Base Lib UnwrapSpec Select SelectProofs Stations Stream StreamSpec StreamProofs Patch PatchProofs CommandsProofs CardProofs Continuity ContinuitySpec.
Import ListNotations.
Open Scope Z_scope.

Lemma eqb_iff x y : eqb_bytes x y = true <-> x = y.
Proof. unfold eqb_bytes. destruct (list_eq_dec Z.eq_dec x y); split; congruence. Qed.
Lemma read_some files : read_files (map Some files) = Some (concat files).
Proof. induction files as [|f r IH]; [reflexivity|]. cbn [map read_files concat]. rewrite IH. reflexivity. Qed.
Lemma recorded_sample files id k v : recorded files id k v <-> sample (with_id id (concat files)) k v.
Proof.
  unfold recorded, sample, with_id. split.
  - intros (f & tr & i & If & It & N & E). exists tr, i. split; [|auto]. apply in_map_iff. exists (id, tr). split; [reflexivity|].
    apply filter_In. split; [apply in_concat; eauto|apply eqb_iff; reflexivity].
  - intros (tr & i & It & N & E). apply in_map_iff in It as ([id' tr'] & X & It). cbn [snd] in X. subst tr'.
    apply filter_In in It as [It Q]. apply eqb_iff in Q. cbn [fst] in Q. subst id'. apply in_concat in It as (f & If & It). exists f, tr, i. auto.
Qed.
Lemma present_has files id k : present files id k <-> exists v, sample (with_id id (concat files)) k v.
Proof. split; intros (v & H); exists v; apply recorded_sample, H. Qed.

(** The traces of a stream whose traces are apart are its stretches. *)
Lemma has_trace st k : Forall (fun tr => gd tr <> []) st -> (exists v, sample st k v) <-> exists tr, In tr st /\ gs tr <= k <= gend tr.
Proof.
  intros F. split.
  - intros (v & tr & i & It & N & ->). exists tr. split; [exact It|]. assert (i < length (gd tr))%nat by (apply nth_error_Some; congruence). unfold gend. lia.
  - intros (tr & It & R). unfold gend in R. destruct (nth_error (gd tr) (Z.to_nat (k - gs tr))) as [v|] eqn:E.
    + exists v, tr, (Z.to_nat (k - gs tr)). split; [exact It|]. split; [exact E|lia].
    + apply nth_error_None in E. lia.
Qed.
Lemma apart_tail l : forall u, chain (fun x y => gend x + 1 < gs y) (u :: l) -> (forall t, In t (u :: l) -> gs t <= gend t) ->
  forall w, In w l -> gend u + 1 < gs w.
Proof.
  induction l as [|c l IH]; intros u C Le w H; [destruct H|]. destruct C as [L C]. destruct H as [<-|H]; [exact L|].
  specialize (IH c C ltac:(intros; apply Le; right; assumption) w H). specialize (Le c ltac:(cbn; auto)). lia.
Qed.
Lemma filled_le st : Forall (fun tr => gd tr <> []) st -> forall t, In t st -> gs t <= gend t.
Proof. intros F t It. rewrite Forall_forall in F. specialize (F t It). unfold gend. destruct (gd t); [contradiction|]. cbn [length]. lia. Qed.
Lemma apart_sep st x y : apart st -> In x st -> In y st -> x = y \/ gend x + 1 < gs y \/ gend y + 1 < gs x.
Proof.
  intros [F C]. pose proof (filled_le _ F) as Le. clear F. induction st as [|t st IH]; intros Hx Hy; [destruct Hx|].
  destruct Hx as [->|Hx]; destruct Hy as [->|Hy].
  - left. reflexivity.
  - right. left. exact (apart_tail _ _ C Le y Hy).
  - right. right. exact (apart_tail _ _ C Le x Hx).
  - apply IH; [destruct st; [exact Logic.I|apply C]|intros; apply Le; right; assumption|exact Hx|exact Hy].
Qed.

Lemma le_not_after x : forall y, le_bytes x y = true <-> not_after x y.
Proof.
  induction x as [|a x IH]; intros [|c y]; cbn [le_bytes not_after]; try (split; (reflexivity || discriminate || contradiction || auto); fail).
  destruct (Z.ltb_spec a c); [split; auto|]. destruct (Z.ltb_spec c a); [split; [discriminate|intros [X|[X _]]; lia]|].
  rewrite IH. split; [intros X; right; split; [lia|exact X]|intros [X|[_ X]]; [lia|exact X]].
Qed.

Section files.
Variable files : list (list (bytes * gtrace)).
Hypothesis P : proper files.

Let part (id : bytes) := merge_split (with_id id (concat files)).
Lemma part_spec id : apart (part id) /\ forall k, present files id k <-> exists tr, In tr (part id) /\ gs tr <= k <= gend tr.
Proof.
  destruct P as [F U]. destruct (merge_split_spec (with_id id (concat files))) as [A E].
  - intros tr It. unfold with_id in It. apply in_map_iff in It as ([id' tr'] & X & It). cbn [snd] in X. subst tr'.
    apply filter_In in It as [It _]. apply in_concat in It as (f & If & It). exact (F f id' tr If It).
  - intros k v w X Y. apply recorded_sample in X, Y. exact (U id k v w X Y).
  - split; [exact A|]. intros k. rewrite present_has, <- has_trace by apply A. split; intros (v & H); exists v; apply E, H.
Qed.
Lemma part_stretch id a z : stretch files (id, a, z) <-> exists tr, In tr (part id) /\ gs tr = a /\ gend tr = z.
Proof.
  destruct (part_spec id) as [A E]. cbn [stretch]. split.
  - intros (L & In_ & Na & Nz). destruct (proj1 (E a) (In_ a ltac:(lia))) as (tr & It & R). exists tr. split; [exact It|].
    assert (Ga : gs tr = a). { destruct (Z.eq_dec (gs tr) a) as [X|X]; [exact X|]. destruct Na. apply E. exists tr. split; [exact It|lia]. }
    split; [exact Ga|]. destruct (Z.eq_dec (gend tr) z) as [X|X]; [exact X|exfalso]. destruct (Z_lt_dec (gend tr) z) as [Y|Y].
    + destruct (proj1 (E (gend tr + 1)) (In_ (gend tr + 1) ltac:(lia))) as (t' & It' & R').
      destruct (apart_sep _ _ _ A It It') as [<-|[Z|Z]]; lia.
    + apply Nz, E. exists tr. split; [exact It|lia].
  - intros (tr & It & <- & <-). pose proof (filled_le _ (proj1 A) tr It). split; [lia|]. split; [intros k R; apply E; eauto|].
    split; intros X; apply E in X as (t' & It' & R'); (destruct (apart_sep _ _ _ A It It') as [<-|[Z|Z]]; [lia|lia|]).
    + pose proof (filled_le _ (proj1 A) t' It'). lia.
    + pose proof (filled_le _ (proj1 A) t' It'). lia.
Qed.

Let ids := sort_by le_bytes (unique eqb_bytes (map fst (concat files))).
Lemma ids_in id : In id ids <-> exists f tr, In f files /\ In (id, tr) f.
Proof.
  unfold ids. split.
  - intros I. apply (Permutation_in _ (sort_perm _ _)) in I. apply (proj1 (unique_in _ _)) in I. apply in_map_iff in I as ([id' tr] & X & I). cbn [fst] in X. subst id'.
    apply in_concat in I as (f & If & It). eauto.
  - intros (f & tr & If & It). apply (Permutation_in _ (Permutation_sym (sort_perm _ _))). apply (proj2 (unique_in _ _)). apply in_map_iff. exists (id, tr).
    split; [reflexivity|]. apply in_concat. eauto.
Qed.
Lemma merged_in t : In t (merge_split_ids (concat files)) <-> In (snd t) (part (fst t)).
Proof.
  unfold merge_split_ids. rewrite in_flat_map. split.
  - intros (id & _ & I). apply in_map_iff in I as (tr & <- & I). exact I.
  - intros I. exists (fst t). split; [|apply in_map_iff; exists (snd t); split; [destruct t; reflexivity|exact I]].
    apply ids_in. destruct (part_spec (fst t)) as [A E]. pose proof (filled_le _ (proj1 A) _ I) as L.
    assert (X : present files (fst t) (gs (snd t))) by (apply E; exists (snd t); split; [exact I|lia]).
    destruct X as (v & f & tr & i & If & It & _). eauto.
Qed.
Definition line_of (t : bytes * gtrace) : bytes * Z * Z := (fst t, gs (snd t), gend (snd t)).
Lemma lines_in l : In l (map line_of (merge_split_ids (concat files))) <-> stretch files l.
Proof.
  destruct l as [[id a] z]. rewrite part_stretch, in_map_iff. split.
  - intros ([id' tr] & X & I). unfold line_of in X. cbn [fst snd] in X. injection X as <- <- <-. apply merged_in in I. exists tr. auto.
  - intros (tr & I & <- & <-). exists (id, tr). split; [reflexivity|]. apply merged_in. exact I.
Qed.

Lemma lines_chain : chain goes_first (map line_of (merge_split_ids (concat files))).
Proof.
  unfold merge_split_ids. fold ids.
  assert (C : chain (fun x y => le_bytes x y = true) ids).
  { unfold ids. apply sort_chain; [auto|]. intros x y X. apply le_not_after. rewrite <- not_true_iff_false in X. 
    assert (T : forall x y, ~ not_after x y -> not_after y x).
    { clear. induction x as [|a x IH]; intros [|c y] N; cbn [not_after] in *; auto. destruct (Z.lt_trichotomy a c) as [L|[->|L]]; [destruct N; auto| |auto].
      right. split; [reflexivity|]. apply IH. intros H. apply N. auto. }
    apply T. intros Y. apply X, le_not_after, Y. }
  assert (N : NoDup ids) by (unfold ids; apply (Permutation_NoDup (Permutation_sym (sort_perm _ _))), unique_nodup).
  assert (Tr : forall x y z, not_after x y -> not_after y z -> not_after x z).
  { clear. induction x as [|a x IH]; intros [|c y] [|e z]; cbn [not_after]; auto; try contradiction.
    intros [X|[-> X]] [Y|[-> Y]]; [left; lia|left; exact X|left; exact Y|right; split; [reflexivity|eauto]]. }
  revert C N. generalize ids as l. induction l as [|id l IH]; intros C N; [exact Logic.I|]. cbn [flat_map]. rewrite map_app, map_map.
  inversion N as [|? ? Ni Nl]; subst. assert (Cl : chain (fun x y => le_bytes x y = true) l) by (destruct l; [exact Logic.I|apply C]).
  specialize (IH Cl Nl).
  assert (Al : Forall (fun id' => not_after id id') l).
  { apply (chain_all (fun x y => not_after x y)); [exact Tr|]. revert C. clear. generalize (id :: l). intros m.
    induction m as [|x [|y m] IH]; [auto|auto|]. intros [X C]. split; [apply le_not_after, X|apply IH, C]. }
  rewrite Forall_forall in Al. destruct (part_spec id) as [[F Ac] _]. fold (part id). revert Ac. clear F. induction (part id) as [|tr p IHp]; intros Ac; [exact IH|].
  cbn [map app]. assert (Ap : chain (fun x y => gend x + 1 < gs y) p) by (destruct p; [exact Logic.I|apply Ac]). specialize (IHp Ap).
  destruct p as [|t' p].
  - cbn [map app] in *. destruct (map line_of (flat_map _ l)) as [|[[id' a'] z'] r] eqn:E; [exact Logic.I|]. split; [|exact IHp].
    change (goes_first (id, gs tr, gend tr) (id', a', z')). right. assert (I : In id' l).
    { assert (X : In (id', a', z') (map line_of (flat_map (fun id => map (pair id) (part id)) l))) by (unfold part; rewrite E; left; reflexivity).
      apply in_map_iff in X as ([i t] & X & Y). injection X as -> _ _. apply in_flat_map in Y as (i & Il & Y). apply in_map_iff in Y as (t0 & Y & _).
      injection Y as <- _. exact Il. }
    split; [intros ->; contradiction|apply Al, I].
  - cbn [map app] in *. split; [|exact IHp]. change (goes_first (id, gs tr, gend tr) (id, gs t', gend t')). left. split; [reflexivity|]. destruct Ac as [X _]. lia.
Qed.
End files.

(** If anything is printed, it is the list of all stretches, in order. *)
Theorem C72_lines files : proper files -> exists lines, check_discontinuity (map Some files) = Some lines /\ chain goes_first lines /\
  forall l, In l lines <-> stretch files l /\ exists l', stretch files l' /\ l' <> l.
Proof.
  intros P. unfold check_discontinuity. rewrite read_some. cbv zeta. eexists. split; [reflexivity|].
  pose proof (lines_chain files P) as C. pose proof (lines_in files P) as I. change (fun t : bytes * gtrace => (fst t, gs (snd t), gend (snd t))) with line_of.
  destruct (merge_split_ids (concat files)) as [|x [|y r]] eqn:E.
  - cbn [length Nat.ltb Nat.leb]. split; [exact Logic.I|]. intros l. split; [intros []|]. intros (X & _). apply I in X. exact X.
  - cbn [length Nat.ltb Nat.leb]. split; [exact Logic.I|]. intros l. split; [intros []|]. intros (X & l' & X' & D).
    apply I in X, X'. cbn [map In] in X, X'. destruct X as [<-|[]], X' as [<-|[]]. destruct (D eq_refl).
  - cbn [length Nat.ltb Nat.leb]. split; [exact C|]. intros l. rewrite I. split; [|tauto]. intros X. split; [exact X|].
    assert (D : line_of x <> line_of y).
    { destruct C as [G _]. intros Q. rewrite <- Q in G. pose proof (proj1 (I (line_of x)) ltac:(left; reflexivity)) as St. destruct (line_of x) as [[id a] z].
      cbn [goes_first] in G. destruct St as [L _]. destruct G as [[_ G]|[G _]]; [lia|contradiction]. }
    assert (Dec : {line_of x = l} + {line_of x <> l}) by (repeat decide equality).
    destruct Dec as [<-|Dx]; [exists (line_of y); split; [apply I; right; left; reflexivity|congruence]|exists (line_of x); split; [apply I; left; reflexivity|exact Dx]].
Qed.

(** Nothing is printed exactly if all samples are of one id and there are no gaps. *)
Theorem C72_silent_iff files : proper files -> (check_discontinuity (map Some files) = Some [] <-> continuous files).
Proof.
  intros P. destruct (C72_lines files P) as (lines & E & _ & I). rewrite E.
  assert (St : forall id k, present files id k -> exists a z, stretch files (id, a, z) /\ a <= k <= z).
  { intros id k H. destruct (part_spec files P id) as [A Ep]. apply Ep in H as (tr & It & R). exists (gs tr), (gend tr). split; [|exact R].
    apply part_stretch; [exact P|]. eauto. }
  split.
  - intros X. injection X as ->. intros id k id' k' H H'. destruct (St id k H) as (a & z & S1 & R1). destruct (St id' k' H') as (a' & z' & S2 & R2).
    assert (Q : (id', a', z') = (id, a, z)).
    { assert (Dec : {(id', a', z') = (id, a, z)} + {(id', a', z') <> (id, a, z)}) by (repeat decide equality). destruct Dec as [Q|N]; [exact Q|].
      destruct (proj2 (I (id, a, z))). split; [exact S1|]. exists (id', a', z'). auto. }
    injection Q as -> -> ->. split; [reflexivity|]. intros m R. apply S1. lia.
  - intros C. f_equal. destruct lines as [|l r]; [reflexivity|exfalso].
    destruct (proj1 (I l) ltac:(left; reflexivity)) as (S1 & l' & S2 & N). destruct l as [[id a] z], l' as [[id' a'] z'].
    pose proof S1 as (L1 & H1 & B1 & F1). pose proof S2 as (L2 & H2 & B2 & F2).
    destruct (C id a id' a' (H1 a ltac:(lia)) (H2 a' ltac:(lia))) as [<- M1]. destruct (C id a' id a (H2 a' ltac:(lia)) (H1 a ltac:(lia))) as [_ M2].
    assert (a = a'). { destruct (Z.lt_trichotomy a a') as [X|[X|X]]; [|exact X|]; exfalso; [apply B2, M1; lia|apply B1, M2; lia]. }
    destruct (C id z id z' (H1 z ltac:(lia)) (H2 z' ltac:(lia))) as [_ M3]. destruct (C id z' id z (H2 z' ltac:(lia)) (H1 z ltac:(lia))) as [_ M4].
    assert (z = z'). { destruct (Z.lt_trichotomy z z') as [X|[X|X]]; [|exact X|]; exfalso; [apply F1, M3; lia|apply F2, M4; lia]. }
    subst. apply N. reflexivity.
Qed.
(** A file that cannot be read: nothing is printed, the exception is raised. *)
Theorem C72_raises_iff files : check_discontinuity files = None <-> In None files.
Proof.
  unfold check_discontinuity. assert (X : read_files files = None <-> In None files).
  { induction files as [|[s|] r IH]; cbn [read_files In]; [split; [discriminate|tauto]| |tauto].
    destruct (read_files r); split; [discriminate| |intros _; right; apply IH; reflexivity|reflexivity].
    intros [Y|Y]; [discriminate|]. apply IH in Y. discriminate Y. }
  destruct (read_files files); [|tauto]. split; [discriminate|]. intros I. apply X in I. discriminate.
Qed.

(** Three files of one logger, given in any order, that overlap by a sample and have a gap. *)
Definition gap_files : list (list (bytes * gtrace)) :=
  [[(b ".077", mkg 10 [5; 6])]; [(b ".077", mkg 0 [1; 2; 3])]; [(b ".077", mkg 2 [3; 4])]].
Example C72_case : proper gap_files /\ check_discontinuity (map Some gap_files) = Some [(b ".077", 0, 3); (b ".077", 10, 11)].
Proof.
  split; [|vm_compute; reflexivity]. split.
  - intros f id tr If It. cbn [gap_files In] in If. destruct If as [<-|[<-|[<-|[]]]]; destruct It as [It|[]]; injection It as _ <-; discriminate.
  - assert (V : forall id k v, recorded gap_files id k v -> v = match k with 10 => 5 | 11 => 6 | 0 => 1 | 1 => 2 | 2 => 3 | 3 => 4 | _ => 0 end).
    { intros id k v (f & tr & i & If & It & N & ->). cbn [gap_files In] in If.
      destruct If as [<-|[<-|[<-|[]]]]; destruct It as [It|[]]; injection It as _ <-; cbn [gs gd] in *;
        (destruct i as [|[|[|i]]]; cbn in N; try discriminate N; try (injection N as <-; reflexivity); destruct i; discriminate N). }
    intros id k v w X Y. apply V in X, Y. congruence.
Qed.
(** Two loggers without any gap: lines are printed although nothing is discontinuous. *)
Theorem C72_two_loggers_refuted : ~ forall files, proper files ->
  (forall id k k', present files id k -> present files id k' -> forall m, k <= m <= k' -> present files id m) ->
  check_discontinuity (map Some files) = Some [].
Proof.
  intros H. set (files := [[(b ".077", mkg 0 [1])]; [(b ".078", mkg 0 [1])]]).
  assert (V : forall id k v, recorded files id k v -> k = 0 /\ v = 1).
  { intros id k v (f & tr & i & If & It & N & ->). cbn [files In] in If.
    destruct If as [<-|[<-|[]]]; destruct It as [It|[]]; injection It as _ <-; cbn [gs gd] in *; (destruct i as [|i]; [injection N as <-; split; reflexivity|destruct i; discriminate N]). }
  assert (X : check_discontinuity (map Some files) = Some []).
  - apply H.
    + split.
      * intros f id tr If It. cbn [files In] in If. destruct If as [<-|[<-|[]]]; destruct It as [It|[]]; injection It as _ <-; discriminate.
      * intros id k v w A B. apply V in A as [_ ->], B as [_ ->]. reflexivity.
    + intros id k k' (v & A) (w & B) m R. pose proof (V _ _ _ A) as [-> _]. pose proof (V _ _ _ B) as [-> _]. replace m with 0 by lia. exists v. exact A.
  - vm_compute in X. discriminate X.
Qed.

Print Assumptions C72_lines.
Print Assumptions C72_silent_iff.
Print Assumptions C72_raises_iff.
Print Assumptions C72_two_loggers_refuted.
