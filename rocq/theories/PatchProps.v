(** C54: filling short gaps before the plots of a huddle test. *)
From Coq Require Import ZArith List Bool Lia.
From Verif Require Import Base UnwrapSpec Stream StreamSpec StreamProofs Patch PatchSpec PatchProofs.
Import ListNotations.
Open Scope Z_scope.

Section any_spline.
Variable spline : list (Z * Z) -> Z -> Z.

(** Every sample is kept; the result is in order; what is new lies in gaps, all of it within the limit of a
    short gap. *)
Theorem C54_samples L st r : in_order st -> interpolate_stream spline L st = Some r ->
  in_order r /\ (forall k v, sample st k v -> sample r k v) /\
  (forall k, has (sample r) k <-> has (sample st) k \/
     exists i j u v, gap (sample st) i j /\ i < k < j /\ short L (sample st) u v /\ near L u v i j).
Proof.
  intros O E. pose proof (interpolate_spec spline L st O) as H. rewrite E in H. destruct H as (A & _ & B & C & _). auto.
Qed.

(** All gaps shorter than the limit are filled. *)
Theorem C54_short_filled L st r i j k : in_order st -> interpolate_stream spline L st = Some r ->
  gap (sample st) i j -> i < k < j -> j - i < L -> has (sample r) k.
Proof.
  intros O E G R S. destruct (C54_samples _ _ _ O E) as (_ & _ & D). apply D. right. exists i, j, i, j.
  split; [exact G|]. split; [exact R|]. split; [split; assumption|]. unfold near. lia.
Qed.

(** Gaps longer than the limit stay as they are, and nothing is added before or after the record. *)
Theorem C54_long_kept L st r i j k : in_order st -> interpolate_stream spline L st = Some r ->
  gap (sample st) i j -> i < k < j -> L < j - i -> ~ has (sample r) k.
Proof.
  intros O E G R S H. destruct (C54_samples _ _ _ O E) as (_ & _ & D). apply D in H as [H|(i' & j' & u & v & G' & R' & [Gs Ls] & [N1 N2])].
  - destruct G as (_ & _ & _ & Nb). exact (Nb k R H).
  - destruct (gap_unique _ _ _ _ _ k G G') as [<- <-]; [exact R|exact R'|].
    (* [u, v] is before or after the gap, or the gap itself *)
    pose proof G as (Hi & Hj & _ & Nb). pose proof Gs as (Hu & Hv & _ & Nb'). destruct (Z_le_dec v i) as [C|C]; [lia|].
    destruct (Z_le_dec j u) as [C'|C']; [lia|]. destruct (Z_lt_dec u i) as [X|X].
    + apply (Nb' i); [lia|exact Hi].
    + destruct (Z.eq_dec u i) as [->|X']; [|apply (Nb u); [lia|exact Hu]].
      destruct (Z_lt_dec v j) as [Y|Y]; [apply (Nb v); [lia|exact Hv]|lia].
Qed.
Theorem C54_ends_kept L st r k : in_order st -> interpolate_stream spline L st = Some r -> has (sample r) k ->
  exists a c, has (sample st) a /\ has (sample st) c /\ a <= k <= c.
Proof.
  intros O E H. destruct (C54_samples _ _ _ O E) as (_ & _ & D). apply D in H as [H|(i & j & _ & _ & (Hi & Hj & _) & R & _)].
  - exists k, k. split; [exact H|]. split; [exact H|lia].
  - exists i, j. split; [exact Hi|]. split; [exact Hj|lia].
Qed.

(** A gap of exactly the limit is filled if and only if it is next to a single sample that a short gap
    separates from the rest. *)
Theorem C54_exact_limit L st r i j k : in_order st -> interpolate_stream spline L st = Some r ->
  gap (sample st) i j -> i < k < j -> j - i = L ->
  (has (sample r) k <-> (exists u, short L (sample st) u i) \/ (exists v, short L (sample st) j v)).
Proof.
  intros O E G R S. destruct (C54_samples _ _ _ O E) as (_ & _ & D). pose proof G as (Hi & Hj & _ & Nb). split.
  - intros H. apply D in H as [H|(i' & j' & u & v & G' & R' & [Gs Ls] & [N1 N2])]; [destruct (Nb k R H)|].
    destruct (gap_unique _ _ _ _ _ k G G') as [<- <-]; [exact R|exact R'|].
    pose proof Gs as (Hu & Hv & _ & Nb'). destruct (Z_le_dec v i) as [C|C].
    + left. exists u. replace i with v by lia. split; assumption.
    + destruct (Z_le_dec j u) as [C'|C']; [right; exists v; replace j with u by lia; split; assumption|exfalso].
      destruct (Z_lt_dec u i) as [X|X]; [apply (Nb' i); [lia|exact Hi]|].
      destruct (Z.eq_dec u i) as [->|X']; [|apply (Nb u); [lia|exact Hu]].
      destruct (Z_lt_dec v j) as [Y|Y]; [apply (Nb v); [lia|exact Hv]|lia].
  - intros [(u & Su)|(v & Sv)]; apply D; right.
    + exists i, j, u, i. split; [exact G|]. split; [exact R|]. split; [exact Su|]. destruct Su as [(_ & _ & X & _) _]. unfold near. lia.
    + exists i, j, j, v. split; [exact G|]. split; [exact R|]. split; [exact Sv|]. destruct Sv as [(_ & _ & X & _) _]. unfold near. lia.
Qed.

(** New values are those of the spline through the samples within the limit of a short gap. *)
Theorem C54_values L st r k w : in_order st -> interpolate_stream spline L st = Some r -> sample r k w -> ~ has (sample st) k ->
  exists u v s ks, short L (sample st) u v /\ u - L < k < v + L /\
    support L (sample st) (sample r) u v s ks /\ w = spline ks (k - s).
Proof.
  intros O E H N. pose proof (interpolate_spec spline L st O) as I. rewrite E in I. destruct I as (_ & _ & _ & _ & V).
  apply V in H as [H|(i & j & u & v & s & ks & _ & R & S & [N1 N2] & P & W)]; [destruct N; exists w; exact H|].
  exists u, v, s, ks. split; [exact S|]. split; [lia|]. auto.
Qed.

(** It raises exactly if near some short gap nothing is left to fill after the short gaps before it. *)
Theorem C54_raises_iff L st : in_order st ->
  (interpolate_stream spline L st = None <->
   exists u v, short L (sample st) u v /\ forall i j, gap (sample st) i j -> near L u v i j ->
     exists u' v', short L (sample st) u' v' /\ v' <= u /\ near L u' v' i j).
Proof.
  intros O. pose proof (interpolate_spec spline L st O) as H. destruct (interpolate_stream spline L st) as [r|].
  - destruct H as (_ & K & _). split; [discriminate|]. intros (u & v & X). destruct (K u v X).
  - split; [intros _; exact H|reflexivity].
Qed.

(** So it does not raise if after every short gap there is data for longer than the limit, or no short gap
    that ends within the limit. *)
Theorem C54_spaced L st : in_order st ->
  (forall u v u' v', short L (sample st) u v -> short L (sample st) u' v' -> v <= u' -> v + L < v') ->
  exists r, interpolate_stream spline L st = Some r.
Proof.
  intros O Sp. destruct (interpolate_stream spline L st) as [r|] eqn:E; [eauto|exfalso].
  apply (C54_raises_iff L st O) in E as (u & v & S & K). pose proof S as [G Ls].
  assert (N : near L u v u v). { destruct G as (_ & _ & X & _). unfold near. lia. }
  destruct (K u v G N) as (u' & v' & S' & Le & [_ N']). specialize (Sp _ _ _ _ S' S Le). lia.
Qed.
End any_spline.

(** A short gap is filled, a long one is kept. *)
Definition constant : list (Z * Z) -> Z -> Z := fun ks t => Z.of_nat (length ks) * 100 + t.
Example C54_case : interpolate_stream constant 10 [mkg 0 [1;2;3]; mkg 5 [6;7;8]; mkg 40 [1;1]] =
  Some [mkg 0 [1;2;3;603;604;6;7;8]; mkg 40 [1;1]].
Proof. vm_compute. reflexivity. Qed.
Example C54_case_order : in_order [mkg 0 [1;2;3]; mkg 5 [6;7;8]; mkg 40 [1;1]].
Proof. split; [repeat (apply Forall_cons; [discriminate|]); constructor|cbn; lia]. Qed.

(** Two short gaps close together: AttributeError. *)
Theorem C54_close_gaps_refuted : ~ forall st, in_order st -> exists r, interpolate_stream constant 10 st = Some r.
Proof.
  intros H. destruct (H [mkg 0 [1;2;3]; mkg 5 [6;7;8]; mkg 10 [1;1]]) as (r & E).
  - split; [repeat (apply Forall_cons; [discriminate|]); constructor|cbn; lia].
  - vm_compute in E. discriminate.
Qed.

(** A gap of exactly the limit after a single sample is filled. *)
Theorem C54_below_limit_refuted : ~ forall st r i j k, in_order st -> interpolate_stream constant 10 st = Some r ->
  gap (sample st) i j -> i < k < j -> has (sample r) k -> j - i < 10.
Proof.
  intros H. set (st := [mkg 0 [1]; mkg 3 [2]; mkg 13 [3]]).
  assert (O : in_order st) by (split; [repeat (apply Forall_cons; [discriminate|]); constructor|cbn; lia]).
  assert (G : gap (sample st) 3 13).
  { split; [exists 2, (mkg 3 [2]), 0%nat; cbn; auto|]. split; [exists 3, (mkg 13 [3]), 0%nat; cbn; auto|]. split; [lia|].
    intros m R (v & t & i & [<-|[<-|[<-|[]]]] & N & E); cbn [gs gd] in N, E; (destruct i as [|[|i]]; [lia|discriminate|discriminate]). }
  destruct (interpolate_stream constant 10 st) as [r|] eqn:E; [|vm_compute in E; discriminate].
  assert (X : has (sample r) 5); [|specialize (H st r 3 13 5 O E G); lia].
  vm_compute in E. injection E as <-. eexists. exists (mkg 0 [1; 301; 302; 2; 304; 305; 306; 307; 308; 309; 310; 311; 312; 3]), 5%nat. cbn. split; [auto|]. split; reflexivity.
Qed.

Print Assumptions C54_samples.
Print Assumptions C54_short_filled.
Print Assumptions C54_long_kept.
Print Assumptions C54_ends_kept.
Print Assumptions C54_exact_limit.
Print Assumptions C54_values.
Print Assumptions C54_raises_iff.
Print Assumptions C54_spaced.
Print Assumptions C54_close_gaps_refuted.
Print Assumptions C54_below_limit_refuted.
