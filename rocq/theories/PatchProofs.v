(** Proofs about filling short gaps. *)
From Coq Require Import ZArith List Bool Lia Permutation.
From Verif Require Import Base UnwrapSpec UnwrapProofs ReadSeveralProofs Stream StreamSpec StreamProofs ConvertProofs Patch PatchSpec.
Import ListNotations.
Open Scope Z_scope.

(** * Value of a merged trace at a time *)
Definition mat (m : mtrace) (p : Z) : option Z :=
  if p <? ms m then None else match nth_error (md m) (Z.to_nat (p - ms m)) with Some o => o | None => None end.

Lemma mat_at m i : mat m (ms m + Z.of_nat i) = match nth_error (md m) i with Some o => o | None => None end.
Proof.
  unfold mat. destruct (Z.ltb_spec (ms m + Z.of_nat i) (ms m)); [lia|].
  replace (Z.to_nat (ms m + Z.of_nat i - ms m)) with i by lia. reflexivity.
Qed.
Lemma mat_range m p v : mat m p = Some v -> ms m <= p <= mend m.
Proof.
  unfold mat, mend. destruct (Z.ltb_spec p (ms m)); [discriminate|].
  destruct (nth_error (md m) (Z.to_nat (p - ms m))) eqn:E; [|discriminate]. intros _.
  assert (Z.to_nat (p - ms m) < length (md m))%nat by (apply nth_error_Some; congruence). lia.
Qed.
Lemma mat_unmasked tr p v : mat (unmasked tr) p = Some v <-> tsample tr p v.
Proof.
  unfold mat, unmasked, tsample. cbn [ms md]. destruct (Z.ltb_spec p (gs tr)).
  - split; [discriminate|]. intros (i & _ & E). lia.
  - rewrite nth_error_map. split.
    + destruct (nth_error (gd tr) (Z.to_nat (p - gs tr))) eqn:E; [|discriminate]. intros X. cbn in X.
      exists (Z.to_nat (p - gs tr)). split; [congruence|lia].
    + intros (i & N & E). replace (Z.to_nat (p - gs tr)) with i by lia. rewrite N. reflexivity.
Qed.
Lemma mat_nth m i o : nth_error (md m) i = Some o -> mat m (ms m + Z.of_nat i) = o.
Proof. rewrite mat_at. intros ->. reflexivity. Qed.

Lemma nth_ext_error {A} (l m : list A) : (forall i, nth_error l i = nth_error m i) -> l = m.
Proof.
  revert m. induction l as [|x l IH]; intros [|y m] H; [reflexivity|specialize (H O); discriminate|specialize (H O); discriminate|].
  f_equal; [specialize (H O); cbn in H; congruence|]. apply IH. intros i. exact (H (S i)).
Qed.
Lemma nth_skipn {A} n (l : list A) i : nth_error (skipn n l) i = nth_error l (n + i).
Proof. revert l. induction n as [|n IH]; intros [|x l]; cbn; [reflexivity|reflexivity|destruct i; reflexivity|apply IH]. Qed.
Lemma nth_firstn {A} n (l : list A) i : nth_error (firstn n l) i = if (i <? n)%nat then nth_error l i else None.
Proof.
  revert l i. induction n as [|n IH]; intros [|x l] [|i]; cbn [firstn nth_error]; try reflexivity.
  - destruct (S i <? S n)%nat; reflexivity.
  - rewrite IH. reflexivity.
Qed.

Lemma mend_length m : Z.of_nat (length (md m)) = mend m - ms m + 1.
Proof. unfold mend. lia. Qed.

Lemma mat_app s l r p : mat (mkm s (l ++ r)) p =
  if p <? s + Z.of_nat (length l) then mat (mkm s l) p else mat (mkm (s + Z.of_nat (length l)) r) p.
Proof.
  unfold mat. cbn [ms md]. destruct (Z.ltb_spec p s), (Z.ltb_spec p (s + Z.of_nat (length l))); try lia; [reflexivity| |].
  - rewrite nth_error_app1 by lia. reflexivity.
  - rewrite nth_error_app2 by lia. replace (Z.to_nat (p - s) - length l)%nat with (Z.to_nat (p - (s + Z.of_nat (length l)))) by lia. reflexivity.
Qed.
Lemma mat_none s n p : mat (mkm s (repeat None n)) p = None.
Proof.
  unfold mat. cbn [ms md]. destruct (p <? s); [reflexivity|].
  destruct (nth_error (repeat None n) (Z.to_nat (p - s))) as [o|] eqn:E; [|reflexivity].
  apply nth_error_In in E. apply repeat_spec in E. exact E.
Qed.
Lemma mat_firstn m n p : mat (mkm (ms m) (firstn n (md m))) p = if p <? ms m + Z.of_nat n then mat m p else None.
Proof.
  unfold mat. cbn [ms md]. rewrite nth_firstn. destruct (Z.ltb_spec p (ms m)).
  - destruct (p <? _); reflexivity.
  - destruct (Z.ltb_spec p (ms m + Z.of_nat n)), (Nat.ltb_spec (Z.to_nat (p - ms m)) n); try lia; reflexivity.
Qed.

(** * Merging traces that agree *)
Section merging.
Variable F : Z -> Z -> Prop.
Hypothesis functional : forall p v w, F p v -> F p w -> v = w.

(** [lt] is the merger of the traces [seen]. *)
Definition merged (lt : mtrace) (seen : list gtrace) : Prop :=
  (forall p v, mat lt p = Some v <-> sample seen p v) /\
  (forall t, In t seen -> ms lt <= gs t /\ gend t <= mend lt) /\
  (exists t, In t seen /\ gend t = mend lt) /\ (exists t, In t seen /\ gs t = ms lt) /\
  (forall p v, sample seen p v -> F p v) /\ (forall t, In t seen -> gd t <> []).

Lemma merged_covered lt seen s p : merged lt seen -> (forall t, In t seen -> gs t <= s) -> s <= p <= mend lt ->
  exists v, mat lt p = Some v /\ F p v.
Proof.
  intros (V & B & (t & I & E) & _ & A & _) Le R. specialize (Le t I).
  destruct (tsample_at t p) as (v & (i & N & P)); [lia|]. exists v.
  assert (sample seen p v) by (exists t, i; auto). split; [apply V; assumption|apply A; assumption].
Qed.

Lemma merged_step lt seen tr : merged lt seen -> (forall t, In t seen -> gs t <= gs tr) ->
  gd tr <> [] -> (forall p v, tsample tr p v -> F p v) ->
  merged (add Masked lt (unmasked tr)) (seen ++ [tr]).
Proof.
  intros M Le N A. pose proof M as (V & B & (te & Ie & Ee) & (tb & Ib & Eb) & AS & NS).
  pose proof (gd_length_pos _ N) as P. pose proof (Le tb Ib) as Lb.
  pose proof (mend_length lt) as LL. pose proof (mend_unmasked tr) as EU.
  assert (LB : ms lt <= mend lt) by (pose proof (B te Ie); pose proof (gd_length_pos _ (NS te Ie)); lia).
  assert (C : forall p, gs tr <= p <= mend lt -> p <= gend tr -> exists v, mat lt p = Some v /\ tsample tr p v).
  { intros p R R'. destruct (merged_covered lt seen (gs tr) p M Le R) as (v & H & HF). exists v. split; [exact H|].
    destruct (tsample_at tr p) as (w & W); [lia|]. rewrite (functional p v w HF (A _ _ W)). exact W. }
  set (m := add Masked lt (unmasked tr)).
  assert (G : (forall p v, mat m p = Some v <-> mat lt p = Some v \/ tsample tr p v) /\ ms m = ms lt /\ mend m = Z.max (mend lt) (gend tr)).
  { subst m. unfold add. rewrite EU. cbn [ms md unmasked] in *. destruct (Z.leb_spec 0 (gs tr - mend lt - 1)) as [D|D].
    - cbn [fill ms]. split; [|split; [reflexivity|]].
      + intros p v. rewrite mat_app, mat_app, mat_none, repeat_length, LL.
        replace (mkm (ms lt) (md lt)) with lt by (destruct lt; reflexivity).
        replace (ms lt + (mend lt - ms lt + 1) + Z.of_nat (Z.to_nat (gs tr - mend lt - 1))) with (gs tr) by lia.
        change (mkm (gs tr) (map Some (gd tr))) with (unmasked tr).
        destruct (Z.ltb_spec p (ms lt + (mend lt - ms lt + 1))).
        * split; [auto|]. intros [H'|H']; [exact H'|]. apply tsample_range in H'. lia.
        * destruct (Z.ltb_spec p (gs tr)).
          -- split; [discriminate|]. intros [H'|H']; [apply mat_range in H'; lia|apply tsample_range in H'; lia].
          -- rewrite mat_unmasked. split; [auto|]. intros [H'|H']; [apply mat_range in H'; lia|exact H'].
      + unfold mend at 1. cbn [ms md fill]. rewrite !app_length, repeat_length, map_length. unfold gend in *. lia.
    - set (n := Z.to_nat (- (gs tr - mend lt - 1))). destruct (Z.ltb_spec (mend lt) (gend tr)) as [D'|D'].
      + set (keep := (length (md lt) - n)%nat).
        assert (KE : Z.of_nat keep = gs tr - ms lt) by lia.
        assert (E : skipn keep (md lt) = firstn n (map Some (gd tr))).
        { apply nth_ext_error. intros i. rewrite nth_skipn, nth_firstn. destruct (Nat.ltb_spec i n) as [Q|Q].
          - destruct (C (gs tr + Z.of_nat i)) as (v & H1 & (i' & N' & E')); [lia|lia|]. assert (i' = i) as -> by lia.
            rewrite nth_error_map, N'. cbn. replace (gs tr + Z.of_nat i) with (ms lt + Z.of_nat (keep + i)) in H1 by lia.
            rewrite mat_at in H1. destruct (nth_error (md lt) (keep + i)) as [o|]; [congruence|discriminate].
          - apply nth_error_None. lia. }
        rewrite E, eq_data_refl. cbn [ms]. split; [|split; [reflexivity|]].
        * intros p v. rewrite mat_app, mat_firstn, firstn_length.
          replace (ms lt + Z.of_nat (min keep (length (md lt)))) with (gs tr) by lia.
          change (mkm (gs tr) (map Some (gd tr))) with (unmasked tr).
          replace (ms lt + Z.of_nat keep) with (gs tr) by lia. destruct (Z.ltb_spec p (gs tr)).
          -- split; [auto|]. intros [H'|H']; [exact H'|apply tsample_range in H'; lia].
          -- rewrite mat_unmasked. split; [auto|]. intros [H'|H']; [|exact H']. pose proof (mat_range _ _ _ H') as R.
             destruct (C p) as (w & W1 & W2); [lia|lia|]. replace v with w by congruence. exact W2.
        * unfold mend at 1. cbn [ms md]. rewrite app_length, firstn_length, map_length. unfold gend in *. lia.
      + set (n1 := Z.to_nat (gs tr - ms lt)).
        assert (E : firstn (length (map Some (gd tr))) (skipn n1 (md lt)) = map Some (gd tr)).
        { apply nth_ext_error. intros i. rewrite nth_firstn, nth_skipn, map_length. destruct (Nat.ltb_spec i (length (gd tr))) as [Q|Q].
          - destruct (C (gs tr + Z.of_nat i)) as (v & H1 & (i' & N' & E')); [unfold gend in *; lia|unfold gend; lia|]. assert (i' = i) as -> by lia.
            rewrite nth_error_map, N'. cbn. replace (gs tr + Z.of_nat i) with (ms lt + Z.of_nat (n1 + i)) in H1 by lia.
            rewrite mat_at in H1. destruct (nth_error (md lt) (n1 + i)) as [o|]; [congruence|discriminate].
          - symmetry. apply nth_error_None. rewrite map_length. lia. }
        rewrite E, eq_data_refl. split; [|split; [reflexivity|lia]].
        intros p v. split; [auto|]. intros [H'|H']; [exact H'|]. pose proof (tsample_range _ _ _ H') as R.
        destruct (C p) as (w & W1 & W2); [lia|lia|]. rewrite (tsample_unique _ _ _ _ H' W2). exact W1. }
  destruct G as (GV & GS & GE). split; [|split; [|split; [|split; [|split]]]].
  - intros p v. rewrite GV, V, sample_app, sample_cons. split; [tauto|]. intros [H|[H|H]]; [auto|auto|destruct (sample_nil _ _ H)].
  - intros t I. rewrite GS, GE. apply in_app_or in I as [I|[<-|[]]]; [specialize (B t I); lia|lia].
  - rewrite GE. destruct (Z.max_spec (mend lt) (gend tr)) as [[X ->]|[X ->]].
    + exists tr. split; [apply in_or_app; right; left; reflexivity|reflexivity].
    + exists te. split; [apply in_or_app; auto|exact Ee].
  - exists tb. rewrite GS. split; [apply in_or_app; auto|exact Eb].
  - intros p v H. apply sample_app in H as [H|H]; [apply AS; exact H|]. apply sample_cons in H as [H|H]; [apply A; exact H|destruct (sample_nil _ _ H)].
  - intros t I. apply in_app_or in I as [I|[<-|[]]]; [apply NS; exact I|exact N].
Qed.

Lemma merged_one tr : gd tr <> [] -> (forall p v, tsample tr p v -> F p v) -> merged (unmasked tr) [tr].
Proof.
  intros N A. split; [|split; [|split; [|split; [|split]]]].
  - intros p v. rewrite mat_unmasked, sample_cons. split; [auto|]. intros [H|H]; [exact H|destruct (sample_nil _ _ H)].
  - intros t [<-|[]]. rewrite mend_unmasked. cbn. lia.
  - exists tr. rewrite mend_unmasked. cbn. auto.
  - exists tr. cbn. auto.
  - intros p v H. apply sample_cons in H as [H|H]; [apply A; exact H|destruct (sample_nil _ _ H)].
  - intros t [<-|[]]. exact N.
Qed.

Lemma merged_fold r : forall lt seen, merged lt seen -> chain (fun x y => gs x <= gs y) r ->
  (forall t, In t seen -> forall x, In x r -> gs t <= gs x) -> (forall x, In x r -> gd x <> []) ->
  (forall p v, sample r p v -> F p v) -> merged (fold_left (add Masked) (map unmasked r) lt) (seen ++ r).
Proof.
  induction r as [|x r IH]; intros lt seen M C Le N A; [rewrite app_nil_r; exact M|].
  cbn [map fold_left]. replace (seen ++ x :: r) with ((seen ++ [x]) ++ r) by (rewrite <- app_assoc; reflexivity). apply IH.
  - apply merged_step; [exact M|intros t I; apply Le; [exact I|left; reflexivity]|apply N; left; reflexivity|].
    intros p v H. apply A. apply sample_cons. auto.
  - eapply chain_tail; exact C.
  - intros t I y Iy. apply in_app_or in I as [I|[<-|[]]]; [apply Le; [exact I|right; exact Iy]|].
    clear - C Iy. revert x C. induction r as [|z r IH]; intros x C; [destruct Iy|]. destruct C as [C1 C].
    destruct Iy as [<-|Iy]; [exact C1|]. specialize (IH Iy z C). lia.
  - intros y I. apply N. right. exact I.
  - intros p v H. apply A. apply sample_cons. auto.
Qed.
End merging.

(** * Sorting *)
Lemma insert_unmasked x l : exists k m, l = k ++ m /\ insert (unmasked x) (map unmasked l) = map unmasked (k ++ x :: m) /\
  (chain (fun x y => gs x <= gs y) l -> chain (fun x y => gs x <= gs y) (k ++ x :: m)).
Proof.
  induction l as [|y l (k & m & E & I & C)]; [exists [], []; cbn; auto|]. cbn [map insert].
  destruct (before (unmasked x) (unmasked y)) eqn:B.
  - exists [], (y :: l). split; [reflexivity|]. split; [reflexivity|]. intros H. split; [|exact H].
    unfold before in B. cbn [ms unmasked] in B. apply orb_prop in B as [B|B]; [apply Z.ltb_lt in B; lia|].
    apply andb_prop in B as [B _]. apply Z.eqb_eq in B. lia.
  - exists (y :: k), m. subst l. split; [reflexivity|]. cbn [app map]. rewrite I. split; [reflexivity|]. intros H.
    specialize (C (chain_tail _ _ _ H)). unfold before in B. cbn [ms unmasked] in B. apply orb_false_elim in B as [B _]. apply Z.ltb_ge in B.
    destruct k as [|z k]; cbn [app] in *; [split; [lia|exact C]|]. destruct H as [H _]. split; [exact H|exact C].
Qed.
Lemma sort_unmasked l : exists l', Permutation l l' /\ sort (map unmasked l) = map unmasked l' /\ chain (fun x y => gs x <= gs y) l'.
Proof.
  induction l as [|x l (l' & P & E & C)]; [exists []; repeat split; constructor|]. cbn [map sort fold_right]. fold (sort (map unmasked l)).
  rewrite E. destruct (insert_unmasked x l') as (k & m & -> & I & C'). exists (k ++ x :: m). split; [|split; [exact I|exact (C' C)]].
  apply Permutation_cons_app. exact P.
Qed.
Lemma sample_perm l m p v : Permutation l m -> sample l p v -> sample m p v.
Proof. intros P (t & i & I & N & E). exists t, i. split; [eapply Permutation_in; eassumption|auto]. Qed.

Definition functional (R : Z -> Z -> Prop) : Prop := forall p v w, R p v -> R p w -> v = w.
Definition filled (st : stream) : Prop := forall t, In t st -> gd t <> [].

Lemma merge_agree st : st <> [] -> filled st -> functional (sample st) ->
  exists m, merge Masked (map unmasked st) = [m] /\ merged (sample st) m st.
Proof.
  intros N0 N Fu. destruct (sort_unmasked st) as (l & P & E & C). unfold merge. rewrite E.
  destruct l as [|x l]; [apply Permutation_sym, Permutation_nil in P; contradiction|]. cbn [map].
  eexists. split; [reflexivity|].
  assert (N' : forall t, In t (x :: l) -> gd t <> []) by (intros t I; apply N; eapply Permutation_in; [apply Permutation_sym; exact P|exact I]).
  assert (A : forall p v, sample (x :: l) p v -> sample st p v) by (intros p v; apply sample_perm, Permutation_sym, P).
  assert (M : merged (sample st) (fold_left (add Masked) (map unmasked l) (unmasked x)) ([x] ++ l)).
  { apply merged_fold; [exact Fu| | | | |].
    - apply merged_one; [apply N'; left; reflexivity|]. intros p v H. apply A, sample_cons. auto.
    - eapply chain_tail; exact C.
    - intros t [<-|[]] y Iy. clear - C Iy. revert x C. induction l as [|z r IH]; intros x C; [destruct Iy|]. destruct C as [C1 C].
      destruct Iy as [<-|Iy]; [exact C1|]. specialize (IH Iy z C). lia.
    - intros y I. apply N'. right. exact I.
    - intros p v H. apply A, sample_cons. auto. }
  cbn [app] in M. destruct M as (V & B & (te & Ie & Ee) & (tb & Ib & Eb) & _ & _).
  split; [|split; [|split; [|split; [|split]]]].
  - intros p v. rewrite V. split; apply sample_perm; [apply Permutation_sym|]; exact P.
  - intros t I. apply B. eapply Permutation_in; eassumption.
  - exists te. split; [eapply Permutation_in; [apply Permutation_sym|]; eassumption|exact Ee].
  - exists tb. split; [eapply Permutation_in; [apply Permutation_sym|]; eassumption|exact Eb].
  - auto.
  - exact N.
Qed.

(** * Splitting *)
Lemma split_from_sample l : forall s cur p v,
  sample (split_from s cur l) p v <-> mat (mkm (s - Z.of_nat (length cur)) (map Some (rev cur) ++ l)) p = Some v.
Proof.
  induction l as [|[a|] l IH]; intros s cur p v; cbn [split_from].
  - rewrite app_nil_r. change (mkm (s - Z.of_nat (length cur)) (map Some (rev cur))) with (unmasked (mkg (s - Z.of_nat (length cur)) (rev cur))).
    rewrite mat_unmasked. destruct cur as [|c cur].
    + split; [intros H; destruct (sample_nil _ _ H)|]. intros (i & H & _). destruct i; discriminate.
    + rewrite sample_cons. split; [intros [H|H]; [exact H|destruct (sample_nil _ _ H)]|auto].
  - rewrite IH. cbn [length rev]. rewrite map_app, <- app_assoc. cbn [map app].
    replace (s + 1 - Z.of_nat (S (length cur))) with (s - Z.of_nat (length cur)) by lia. reflexivity.
  - rewrite sample_app, IH. cbn [length rev map app Z.of_nat]. rewrite mat_app, map_length, rev_length.
    replace (s - Z.of_nat (length cur) + Z.of_nat (length cur)) with s by lia.
    assert (H1 : sample (match cur with [] => [] | _ => [mkg (s - Z.of_nat (length cur)) (rev cur)] end) p v <->
      mat (mkm (s - Z.of_nat (length cur)) (map Some (rev cur))) p = Some v).
    { change (mkm (s - Z.of_nat (length cur)) (map Some (rev cur))) with (unmasked (mkg (s - Z.of_nat (length cur)) (rev cur))).
      rewrite mat_unmasked. destruct cur as [|c cur].
      + split; [intros H; destruct (sample_nil _ _ H)|]. intros (i & H & _). destruct i; discriminate.
      + rewrite sample_cons. split; [intros [H|H]; [exact H|destruct (sample_nil _ _ H)]|auto]. }
    rewrite H1. assert (H2 : mat (mkm s (None :: l)) p = mat (mkm (s + 1 - 0) l) p).
    { change (None :: l) with ([None] ++ l). rewrite mat_app. cbn [length]. replace (s + 1 - 0) with (s + Z.of_nat 1) by lia.
      destruct (Z.ltb_spec p (s + Z.of_nat 1)); [|reflexivity]. change [None] with (repeat (@None Z) 1). rewrite mat_none.
      unfold mat. cbn [ms]. destruct (Z.ltb_spec p (s + Z.of_nat 1)); [reflexivity|lia]. }
    rewrite H2. destruct (Z.ltb_spec p s).
    + split; [|auto]. intros [X|X]; [exact X|]. apply mat_range in X. cbn [ms] in X. lia.
    + split; [|auto]. intros [H'|H']; [|exact H']. apply mat_range in H'. unfold mend in H'. cbn [ms md] in H'.
      rewrite map_length, rev_length in H'. lia.
Qed.
Lemma split_sample m p v : sample (split_one m) p v <-> mat m p = Some v.
Proof.
  unfold split_one. rewrite split_from_sample. cbn [length rev map app Z.of_nat]. rewrite Z.sub_0_r. destruct m; reflexivity.
Qed.

(** Traces with samples, in order, with at least one sample missing between them. *)
Definition apart (st : stream) : Prop := Forall (fun tr => gd tr <> []) st /\ chain (fun x y => gend x + 1 < gs y) st.

Lemma apart_order st : apart st -> in_order st.
Proof. intros [F C]. split; [exact F|]. eapply chain_imp; [|exact C]. cbn. intros; lia. Qed.
Lemma split_from_apart l : forall s cur, apart (split_from s cur l) /\
  match split_from s cur l with [] => True | x :: _ => s - Z.of_nat (length cur) <= gs x end.
Proof.
  induction l as [|[a|] l IH]; intros s cur; cbn [split_from].
  - destruct cur as [|c cur]; [repeat split; constructor|]. split; [|cbn; lia]. split; [|exact I]. constructor; [|constructor].
    cbn. intros E. apply (f_equal (@length Z)) in E. rewrite app_length in E. cbn in E. lia.
  - destruct (IH (s + 1) (a :: cur)) as [A B]. split; [exact A|]. destruct (split_from (s + 1) (a :: cur) l); [exact I|]. cbn [length] in B. lia.
  - destruct (IH (s + 1) []) as [A B]. cbn [length Z.of_nat] in B. destruct cur as [|c cur].
    + cbn [app length Z.of_nat]. split; [exact A|]. destruct (split_from (s + 1) [] l); [exact I|]. lia.
    + cbn [app]. split; [|cbn; lia]. destruct A as [A1 A2]. split.
      * constructor; [|exact A1]. cbn. intros E. apply (f_equal (@length Z)) in E. rewrite app_length in E. cbn in E. lia.
      * destruct (split_from (s + 1) [] l) as [|y r]; [exact I|]. split; [|exact A2]. unfold gend. cbn [gs gd]. rewrite rev_length. lia.
Qed.

Lemma merge_split_spec st : filled st -> functional (sample st) ->
  apart (merge_split st) /\ forall p v, sample (merge_split st) p v <-> sample st p v.
Proof.
  intros N Fu. unfold merge_split. destruct st as [|x st].
  - split; [repeat split; constructor|]. intros p v. reflexivity.
  - destruct (merge_agree (x :: st)) as (m & E & V & _); [discriminate|exact N|exact Fu|]. rewrite E. cbn [flat_map]. rewrite app_nil_r.
    split; [apply split_from_apart|]. intros p v. rewrite split_sample. apply V.
Qed.
Lemma order_filled st : in_order st -> filled st.
Proof. intros [F _] t I. rewrite Forall_forall in F. apply F, I. Qed.
Lemma order_functional st : in_order st -> functional (sample st).
Proof. intros O p v w. apply sample_unique, O. Qed.

(** * Gaps of a stream *)
Lemma gap_unique R i j i' j' p : gap R i j -> gap R i' j' -> i < p < j -> i' < p < j' -> i = i' /\ j = j'.
Proof.
  intros (Hi & Hj & _ & Nb) (Hi' & Hj' & _ & Nb') P P'. split.
  - destruct (Z.lt_trichotomy i i') as [C|[C|C]]; [|exact C|]; exfalso; [apply (Nb i'); [lia|exact Hi']|apply (Nb' i); [lia|exact Hi]].
  - destruct (Z.lt_trichotomy j j') as [C|[C|C]]; [|exact C|]; exfalso; [apply (Nb' j); [lia|exact Hj]|apply (Nb j'); [lia|exact Hj']].
Qed.
Lemma gap_imp R R' i j : (forall p, has R p <-> has R' p) -> gap R i j -> gap R' i j.
Proof.
  intros E (Hi & Hj & L & Nb). split; [apply E, Hi|]. split; [apply E, Hj|]. split; [exact L|]. intros m R0 H. apply (Nb m R0), E, H.
Qed.
Lemma has_dec st p : has (sample st) p \/ ~ has (sample st) p.
Proof.
  induction st as [|x st IH].
  - right. intros (v & H). destruct (sample_nil _ _ H).
  - destruct IH as [(v & H)|H]; [left; exists v; apply sample_cons; auto|].
    destruct (Z_le_dec (gs x) p); [destruct (Z_le_dec p (gend x))|].
    + left. destruct (tsample_at x p) as (v & V); [lia|]. exists v. apply sample_cons. auto.
    + right. intros (v & V). apply sample_cons in V as [V|V]; [apply tsample_range in V; lia|apply H; exists v; exact V].
    + right. intros (v & V). apply sample_cons in V as [V|V]; [apply tsample_range in V; lia|apply H; exists v; exact V].
Qed.
Lemma below st a : forall n p, has (sample st) a -> ~ has (sample st) p -> p = a + Z.of_nat n ->
  exists i, a <= i < p /\ has (sample st) i /\ forall m, i < m <= p -> ~ has (sample st) m.
Proof.
  induction n as [|n IH]; intros p Ha Np E; [exfalso; apply Np; replace p with a by lia; exact Ha|].
  destruct (has_dec st (p - 1)) as [H|H].
  - exists (p - 1). split; [lia|]. split; [exact H|]. intros m R. replace m with p by lia. exact Np.
  - destruct (IH (p - 1) Ha H) as (i & Ri & Hi & Nb); [lia|]. exists i. split; [lia|]. split; [exact Hi|].
    intros m R. destruct (Z.eq_dec m p) as [->|]; [exact Np|apply Nb; lia].
Qed.
Lemma above st c : forall n p, has (sample st) c -> ~ has (sample st) p -> c = p + Z.of_nat n ->
  exists j, p < j <= c /\ has (sample st) j /\ forall m, p <= m < j -> ~ has (sample st) m.
Proof.
  induction n as [|n IH]; intros p Hc Np E; [exfalso; apply Np; replace p with c by lia; exact Hc|].
  destruct (has_dec st (p + 1)) as [H|H].
  - exists (p + 1). split; [lia|]. split; [exact H|]. intros m R. replace m with p by lia. exact Np.
  - destruct (IH (p + 1) Hc H) as (j & Rj & Hj & Nb); [lia|]. exists j. split; [lia|]. split; [exact Hj|].
    intros m R. destruct (Z.eq_dec m p) as [->|]; [exact Np|apply Nb; lia].
Qed.
Lemma gap_around st a c p : has (sample st) a -> has (sample st) c -> a < p < c -> ~ has (sample st) p ->
  exists i j, gap (sample st) i j /\ a <= i /\ j <= c /\ i < p < j.
Proof.
  intros Ha Hc R N. destruct (below st a (Z.to_nat (p - a)) p Ha N) as (i & Ri & Hi & Ni); [lia|].
  destruct (above st c (Z.to_nat (c - p)) p Hc N) as (j & Rj & Hj & Nj); [lia|]. exists i, j.
  split; [|lia]. split; [exact Hi|]. split; [exact Hj|]. split; [lia|]. intros m Rm.
  destruct (Z_le_dec m p); [apply Ni; lia|apply Nj; lia].
Qed.

Lemma in_trace pre x post p : gs x <= p <= gend x -> has (sample (pre ++ x :: post)) p.
Proof.
  intros R. destruct (tsample_at x p R) as (v & V). exists v. apply sample_app. right. apply sample_cons. auto.
Qed.
Lemma apart_cons x st : apart (x :: st) -> gd x <> [] /\ apart st.
Proof. intros [F C]. inversion F; subst. split; [assumption|]. split; [assumption|]. eapply chain_tail; exact C. Qed.
Lemma apart_pair pre x y post : apart (pre ++ x :: y :: post) ->
  gs x <= gend x /\ gend x + 1 < gs y /\ gs y <= gend y /\ gap (sample (pre ++ x :: y :: post)) (gend x) (gs y).
Proof.
  intros A. assert (B : apart (x :: y :: post) /\ forall p v, sample pre p v -> p < gs x).
  { revert A. clear. induction pre as [|z pre IH]; intros A; cbn [app] in A; [split; [exact A|intros p v H; destruct (sample_nil _ _ H)]|].
    destruct (apart_cons _ _ A) as [Nz A']. destruct (IH A') as [B1 B2]. split; [exact B1|]. intros p v H.
    apply sample_cons in H as [H|H]; [|exact (B2 _ _ H)]. apply tsample_range in H.
    pose proof (after_head z (pre ++ x :: y :: post) (gs x) (hd 0 (gd x)) (apart_order _ A)) as Af.
    assert (sample (pre ++ x :: y :: post) (gs x) (hd 0 (gd x))).
    { apply sample_app. right. apply sample_cons. left. apply first_sample. apply apart_cons in B1. tauto. }
    specialize (Af H0). lia. }
  destruct B as [B Lt]. destruct (apart_cons _ _ B) as [Nx By]. destruct (apart_cons _ _ By) as [Ny _].
  pose proof (gd_length_pos _ Nx) as Px. pose proof (gd_length_pos _ Ny) as Py. destruct B as [_ [C _]].
  split; [exact Px|]. split; [exact C|]. split; [exact Py|]. split; [apply in_trace; lia|]. split.
  - replace (pre ++ x :: y :: post) with ((pre ++ [x]) ++ y :: post) by (rewrite <- app_assoc; reflexivity). apply in_trace. lia.
  - split; [exact C|]. intros m R (v & V). apply sample_app in V as [V|V]; [specialize (Lt _ _ V); lia|].
    apply sample_cons in V as [V|V]; [apply tsample_range in V; lia|]. pose proof (from_head y post m v (apart_order _ By) V). lia.
Qed.

(** The end of a gap that comes after the start of [x], up to the start of the next trace. *)
Lemma gap_end pre x y post u v : apart (pre ++ x :: y :: post) -> gap (sample (pre ++ x :: y :: post)) u v ->
  gs x < v -> v <= gs y -> u = gend x /\ v = gs y.
Proof.
  intros A G L1 L2. destruct (apart_pair _ _ _ _ A) as (Px & Pxy & Py & G'). pose proof G as (Hu & Hv & L & Nb). pose proof G' as (_ & _ & _ & Nb').
  assert (v = gs y) as ->.
  { destruct (Z_le_dec v (gend x)) as [C|C].
    - exfalso. apply (Nb (v - 1)); [lia|]. apply in_trace. lia.
    - destruct (Z_lt_dec v (gs y)) as [D|D]; [exfalso; apply (Nb' v); [lia|exact Hv]|lia]. }
  split; [|reflexivity]. destruct (gap_unique _ _ _ _ _ (gs y - 1) G G'); [lia|lia|assumption].
Qed.
(** A gap ends at or before the start of [x], or after the end of [x]. *)
Lemma gap_start pre x y post u v : apart (pre ++ x :: y :: post) -> gap (sample (pre ++ x :: y :: post)) u v ->
  v <= gend x -> v <= gs x.
Proof.
  intros A G R. destruct (Z_le_dec v (gs x)) as [C|C]; [exact C|exfalso]. pose proof G as (_ & _ & L & Nb).
  apply (Nb (v - 1)); [lia|]. apply in_trace. lia.
Qed.

(** * The new trace *)
Lemma knots_in l : forall t p v, In (p, v) (knots_from t l) <-> exists i, nth_error l i = Some (Some v) /\ p = t + Z.of_nat i.
Proof.
  induction l as [|[a|] l IH]; intros t p v; cbn [knots_from].
  - split; [intros []|]. intros (i & N & _). destruct i; discriminate.
  - cbn [In]. rewrite IH. split.
    + intros [E|(i & N & E)]; [injection E as -> ->; exists O; split; [reflexivity|lia]|exists (S i); split; [exact N|lia]].
    + intros ([|i] & N & E); [left; cbn in N; f_equal; [lia|congruence]|right; exists i; split; [exact N|lia]].
  - rewrite IH. split.
    + intros (i & N & E). exists (S i). split; [exact N|lia].
    + intros ([|i] & N & E); [discriminate|exists i; split; [exact N|lia]].
Qed.
Lemma knots_order l : forall t, chain (fun p q => fst p < fst q) (knots_from t l).
Proof.
  induction l as [|[a|] l IH]; intros t; cbn [knots_from]; [exact I| |apply IH].
  specialize (IH (t + 1)). destruct (knots_from (t + 1) l) as [|[p v] r] eqn:E; [exact I|]. split; [|exact IH]. cbn [fst].
  assert (In (p, v) (knots_from (t + 1) l)) as H by (rewrite E; left; reflexivity). apply knots_in in H as (i & _ & H). lia.
Qed.
Lemma fill_length f l : forall t, length (fill_from f t l) = length l.
Proof. induction l as [|[a|] l IH]; intros t; cbn; [reflexivity| |]; rewrite IH; reflexivity. Qed.
Lemma fill_nth f l : forall t i, nth_error (fill_from f t l) i =
  match nth_error l i with None => None | Some (Some v) => Some v | Some None => Some (f (t + Z.of_nat i)) end.
Proof.
  induction l as [|[a|] l IH]; intros t [|i]; cbn [fill_from nth_error]; try reflexivity.
  - rewrite IH. replace (t + 1 + Z.of_nat i) with (t + Z.of_nat (S i)) by lia. reflexivity.
  - replace (t + Z.of_nat 0) with t by lia. reflexivity.
  - rewrite IH. replace (t + 1 + Z.of_nat i) with (t + Z.of_nat (S i)) by lia. reflexivity.
Qed.
Lemma fill_sample f m p v : tsample (mkg (ms m) (fill_from f 0 (md m))) p v <->
  ms m <= p <= mend m /\ (mat m p = Some v \/ (mat m p = None /\ v = f (p - ms m))).
Proof.
  unfold tsample, mend. cbn [gs gd]. split.
  - intros (i & N & ->). rewrite fill_nth in N. rewrite mat_at. replace (0 + Z.of_nat i) with (ms m + Z.of_nat i - ms m) in N by lia.
    destruct (nth_error (md m) i) as [o|] eqn:E; [|discriminate].
    assert (i < length (md m))%nat by (apply nth_error_Some; congruence). split; [lia|].
    destruct o as [a|]; [left; congruence|right; split; [reflexivity|congruence]].
  - intros [R H]. exists (Z.to_nat (p - ms m)). split; [|lia]. rewrite fill_nth.
    replace (0 + Z.of_nat (Z.to_nat (p - ms m))) with (p - ms m) by lia. unfold mat in H. destruct (Z.ltb_spec p (ms m)); [lia|].
    destruct (nth_error (md m) (Z.to_nat (p - ms m))) as [o|] eqn:E; [|apply nth_error_None in E; lia].
    destruct H as [->|[-> ->]]; reflexivity.
Qed.
Lemma masked_iff m : existsb masked (md m) = true <-> exists p, ms m <= p <= mend m /\ mat m p = None.
Proof.
  rewrite existsb_exists. unfold mend. split.
  - intros (o & I & M). destruct o; [discriminate|]. apply In_nth_error in I as (i & N). exists (ms m + Z.of_nat i).
    assert (i < length (md m))%nat by (apply nth_error_Some; congruence). split; [lia|]. apply mat_nth, N.
  - intros (p & R & M). exists None. split; [|reflexivity]. unfold mat in M. destruct (Z.ltb_spec p (ms m)); [lia|].
    destruct (nth_error (md m) (Z.to_nat (p - ms m))) as [o|] eqn:E; [|apply nth_error_None in E; lia]. subst o. eapply nth_error_In. exact E.
Qed.

Lemma last_cons {A} (l : list A) : forall x y, last (y :: l) x = last l y.
Proof.
  induction l as [|z l IH]; intros x y; [reflexivity|]. change (last (z :: l) x = last (z :: l) y). rewrite !IH. reflexivity.
Qed.

(** * The loop *)
Section loop.
Variable spline : list (Z * Z) -> Z -> Z.
Variable L : Z.
Variable st1 : stream.
Hypothesis A1 : apart st1.
Let R := sample st1.

(** Nothing is left to fill near the short gap from [u] to [v] after the short gaps before it. *)
Definition stuck (u v : Z) : Prop :=
  short L R u v /\ forall i j, gap R i j -> near L u v i j ->
    exists u' v', short L R u' v' /\ v' <= u /\ near L u' v' i j.

Definition invariant (st : stream) (T : Z) : Prop :=
  filled st /\ functional (sample st) /\ (forall p v, R p v -> sample st p v) /\
  (forall p, has (sample st) p <-> has R p \/ exists i j u v, gap R i j /\ i < p < j /\ short L R u v /\ v <= T /\ near L u v i j) /\
  (forall p w, sample st p w -> R p w \/ exists i j u v s ks, gap R i j /\ i < p < j /\ short L R u v /\ near L u v i j /\
     support L R (sample st) u v s ks /\ w = spline ks (p - s)).

Lemma support_more (R1 R2 : Z -> Z -> Prop) u v s ks : (forall p w, R1 p w -> R2 p w) -> support L R R1 u v s ks -> support L R R2 u v s ks.
Proof. intros H (C & A & B). split; [exact C|]. split; [|exact B]. intros t w I. destruct (A t w I) as [X Y]. split; [apply H, X|exact Y]. Qed.

Lemma step pre x y post st : st1 = pre ++ x :: y :: post -> gs y - gend x < L -> invariant st (gs x) ->
  match patch spline L x y st with
  | None => stuck (gend x) (gs y)
  | Some tr => ~ stuck (gend x) (gs y) /\ invariant (st ++ [tr]) (gs y)
  end.
Proof.
  intros E1 Sh (N & Fu & Keep & Dom & Val). pose proof A1 as A. rewrite E1 in A.
  destruct (apart_pair _ _ _ _ A) as (Px & Pxy & Py & G). rewrite <- E1 in G. fold R in G.
  set (u := gend x) in *. set (v := gs y) in *.
  assert (SG : short L R u v) by (split; [exact G|lia]). pose proof G as (Gu & Gv & _ & _).
  unfold patch. cbv zeta. fold u. fold v. set (w := filter nonempty (map (clip (u - L) (v + L)) st)).
  assert (Sw : forall p a, sample w p a <-> u - L <= p <= v + L /\ sample st p a) by (intros; apply clip_samples).
  assert (Hst : forall p, has R p -> has (sample st) p) by (intros p (a & H); exists a; apply Keep, H).
  assert (Nw : w <> []).
  { intros E. destruct (Hst u Gu) as (a & H). assert (X : sample w u a) by (apply Sw; split; [lia|exact H]). rewrite E in X. destruct (sample_nil _ _ X). }
  destruct (merge_agree w Nw) as (m & Em & V & B & (te & Ie & Ee) & (tb & Ib & Eb) & _ & NW).
  { intros t I. apply filter_In in I as [_ I]. apply nonempty_spec, I. }
  { intros p a a' H H'. apply Sw in H as [_ H]. apply Sw in H' as [_ H']. exact (Fu _ _ _ H H'). }
  rewrite Em.
  assert (V' : forall p a, mat m p = Some a <-> u - L <= p <= v + L /\ sample st p a) by (intros; rewrite V; apply Sw).
  assert (Hb : has (sample st) (ms m) /\ u - L <= ms m <= v + L).
  { assert (sample w (ms m) (hd 0 (gd tb))) as X by (exists tb, O; destruct (first_sample tb (NW tb Ib)) as (i & Hi & Ei); split; [exact Ib|]; split; [destruct (gd tb) eqn:D; [destruct (NW tb Ib D)|reflexivity]|lia]).
    apply Sw in X as [X1 X2]. split; [eexists; exact X2|exact X1]. }
  assert (He : has (sample st) (mend m) /\ u - L <= mend m <= v + L).
  { destruct (last_sample te (NW te Ie)) as (i & Hi & Ei). assert (sample w (mend m) (last (gd te) 0)) as X by (exists te, i; split; [exact Ie|]; split; [exact Hi|lia]).
    apply Sw in X as [X1 X2]. split; [eexists; exact X2|exact X1]. }
  destruct Hb as [Hb Rb]. destruct He as [He Re].
  assert (In_m : forall p, has (sample st) p -> u - L <= p <= v + L -> ms m <= p <= mend m).
  { intros p (a & H) Rp. apply (mat_range m p a). apply V'. auto. }
  (* a hole lies in a gap of the record near this one *)
  assert (Hole : forall p, ms m <= p <= mend m -> mat m p = None ->
    ~ has (sample st) p /\ exists i j, gap R i j /\ i < p < j /\ near L u v i j).
  { intros p Rp Mp. assert (Np : ~ has (sample st) p).
    { intros (a & H). assert (mat m p = Some a) by (apply V'; split; [lia|exact H]). congruence. }
    split; [exact Np|]. assert (NpR : ~ has R p) by (intros H; apply Np, Hst, H).
    assert (Lo : exists a, has R a /\ ms m <= a < p).
    { pose proof Hb as Hb'. apply Dom in Hb' as [H|(i & j & u' & v' & G1 & R1 & S1 & T1 & N1)].
      - exists (ms m). split; [exact H|]. destruct (Z.eq_dec (ms m) p) as [C|C]; [rewrite C in H; contradiction|lia].
      - exists j. pose proof G1 as (_ & Hj & _ & _). split; [exact Hj|]. destruct (Z_lt_dec j p) as [C|C]; [lia|exfalso].
        destruct (Z.eq_dec j p) as [->|D]; [contradiction|]. apply Np, Dom. right. exists i, j, u', v'. split; [exact G1|]. split; [lia|auto]. }
    assert (Hi : exists c, has R c /\ p < c <= mend m).
    { pose proof He as He'. apply Dom in He' as [H|(i & j & u' & v' & G1 & R1 & S1 & T1 & N1)].
      - exists (mend m). split; [exact H|]. destruct (Z.eq_dec (mend m) p) as [C|C]; [rewrite C in H; contradiction|lia].
      - exists i. pose proof G1 as (Hi & _ & _ & _). split; [exact Hi|]. destruct (Z_lt_dec p i) as [C|C]; [lia|exfalso].
        destruct (Z.eq_dec i p) as [->|D]; [contradiction|]. apply Np, Dom. right. exists i, j, u', v'. split; [exact G1|]. split; [lia|auto]. }
    destruct Lo as (a & Ha & Ra). destruct Hi as (c & Hc & Rc). destruct (gap_around st1 a c p Ha Hc) as (i & j & G1 & B1 & B2 & B3); [lia|exact NpR|].
    exists i, j. split; [exact G1|]. split; [exact B3|]. unfold near. lia. }
  destruct (existsb masked (md m)) eqn:Mk.
  - apply masked_iff in Mk as (p & Rp & Mp). destruct (Hole p Rp Mp) as (Np & i & j & G1 & B1 & N1). split.
    + intros [_ St]. destruct (St i j G1 N1) as (u' & v' & S1 & T1 & N2). apply Np, Dom. right. exists i, j, u', v'.
      split; [exact G1|]. split; [exact B1|]. split; [exact S1|]. split; [|exact N2].
      destruct S1 as [G2 _]. unfold R in G2. rewrite E1 in G2. exact (gap_start _ _ _ _ _ _ A G2 T1).
    + set (ks := knots_from 0 (md m)). set (tr := mkg (ms m) (fill_from (spline ks) 0 (md m))).
      assert (Tr : forall q a, sample (st ++ [tr]) q a <-> sample st q a \/ tsample tr q a).
      { intros q a. rewrite sample_app, sample_cons. split; [intros [H|[H|H]]; [auto|auto|destruct (sample_nil _ _ H)]|tauto]. }
      assert (Tm : forall q a, tsample tr q a -> ms m <= q <= mend m /\ (sample st q a \/ (mat m q = None /\ a = spline ks (q - ms m)))).
      { intros q a H. apply fill_sample in H as [H1 [H2|H2]]; [|auto]. split; [exact H1|]. apply V' in H2. tauto. }
      assert (Ht : forall q, ms m <= q <= mend m -> has (tsample tr) q).
      { intros q Rq. destruct (mat m q) as [a|] eqn:D; [exists a|eexists]; apply fill_sample; split; [exact Rq|auto|exact Rq|right; auto]. }
      assert (Mono : forall q a, sample st q a -> sample (st ++ [tr]) q a) by (intros q a H; apply Tr; auto).
      split; [|split; [|split; [|split]]].
      * intros t I. apply in_app_or in I as [I|[<-|[]]]; [apply N, I|]. cbn [gd tr]. intros E.
        apply (f_equal (@length Z)) in E. rewrite fill_length in E. unfold mend in Rp. cbn in E. lia.
      * intros q a a' H H'. apply Tr in H as [H|H], H' as [H'|H'].
        -- exact (Fu _ _ _ H H').
        -- apply Tm in H' as [Rq [H'|[H' _]]]; [exact (Fu _ _ _ H H')|]. apply Hole in H' as [H' _]; [|exact Rq]. destruct H'. exists a. exact H.
        -- apply Tm in H as [Rq [H|[H _]]]; [exact (Fu _ _ _ H H')|]. apply Hole in H as [H _]; [|exact Rq]. destruct H. exists a'. exact H'.
        -- exact (tsample_unique _ _ _ _ H H').
      * intros q a H. apply Mono, Keep, H.
      * intros q. split.
        -- intros (a & H). apply Tr in H as [H|H].
           ++ assert (has (sample st) q) as X by (exists a; exact H). apply Dom in X as [X|(i' & j' & u' & v' & X1 & X2 & X3 & X4 & X5)]; [auto|].
              right. exists i', j', u', v'. split; [exact X1|]. split; [exact X2|]. split; [exact X3|]. split; [lia|exact X5].
           ++ apply Tm in H as [Rq [H|[H _]]].
              ** assert (has (sample st) q) as X by (exists a; exact H). apply Dom in X as [X|(i' & j' & u' & v' & X1 & X2 & X3 & X4 & X5)]; [auto|].
                 right. exists i', j', u', v'. split; [exact X1|]. split; [exact X2|]. split; [exact X3|]. split; [lia|exact X5].
              ** apply Hole in H as (_ & i' & j' & X1 & X2 & X3); [|exact Rq]. right. exists i', j', u, v.
                 split; [exact X1|]. split; [exact X2|]. split; [exact SG|]. split; [lia|exact X3].
        -- intros [(a & H)|(i' & j' & u' & v' & X1 & X2 & X3 & X4 & X5)]; [exists a; apply Mono, Keep, H|].
           destruct (Z_le_dec v' (gs x)) as [C|C].
           ++ assert (has (sample st) q) as (a & H) by (apply Dom; right; exists i', j', u', v'; auto 8). exists a. apply Mono, H.
           ++ destruct X3 as [X3 _]. unfold R in X3. rewrite E1 in X3. destruct (gap_end _ _ _ _ _ _ A X3) as [E2 E3]; [lia|exact X4|].
              subst u' v'. unfold near in X5. fold u in X5. fold v in X5. pose proof X1 as (Hi' & Hj' & _ & _).
              pose proof (In_m i' (Hst _ Hi')). pose proof (In_m j' (Hst _ Hj')).
              destruct (Ht q) as (a & H'); [lia|]. exists a. apply Tr. auto.
      * assert (Sup : support L R (sample (st ++ [tr])) u v (ms m) ks).
        { split; [apply knots_order|]. split.
          - intros t a I. apply knots_in in I as (k & Nk & Ek). assert (mat m (ms m + t) = Some a) as X.
            { replace (ms m + t) with (ms m + Z.of_nat k) by lia. apply mat_nth, Nk. }
            apply V' in X as [X1 X2]. split; [apply Mono, X2|exact X1].
          - intros q a H Rq. assert (mat m q = Some a) as X by (apply V'; split; [exact Rq|apply Keep, H]).
            pose proof (mat_range _ _ _ X) as Rm. apply knots_in. exists (Z.to_nat (q - ms m)). split; [|lia].
            unfold mat in X. destruct (Z.ltb_spec q (ms m)); [lia|]. destruct (nth_error (md m) (Z.to_nat (q - ms m))); [congruence|discriminate]. }
        assert (Old : forall q a, sample st q a -> R q a \/ exists i j u v s ks, gap R i j /\ i < q < j /\ short L R u v /\ near L u v i j /\
          support L R (sample (st ++ [tr])) u v s ks /\ a = spline ks (q - s)).
        { intros q a H. apply Val in H as [H|(i' & j' & u' & v' & s' & k' & X1 & X2 & X3 & X4 & X5 & X6)]; [auto|].
          right. exists i', j', u', v', s', k'. apply (support_more _ _ _ _ _ _ Mono) in X5. auto 8. }
        intros q a H. apply Tr in H as [H|H]; [exact (Old _ _ H)|]. apply Tm in H as [Rq [H|[H ->]]]; [exact (Old _ _ H)|].
        right. apply Hole in H as (_ & i' & j' & X1 & X2 & X3); [|exact Rq]. exists i', j', u, v, (ms m), ks. auto 8.
  - split; [exact SG|]. intros i j G1 N1. pose proof G1 as (Hi & Hj & Lij & Nb).
    assert (X : has (sample st) (i + 1)).
    { destruct (mat m (i + 1)) as [a|] eqn:D; [apply V' in D as [_ D]; exists a; exact D|exfalso].
      unfold near in N1. pose proof (In_m i (Hst _ Hi)). pose proof (In_m j (Hst _ Hj)).
      assert (existsb masked (md m) = true) by (apply masked_iff; exists (i + 1); split; [lia|exact D]). congruence. }
    apply Dom in X as [X|(i' & j' & u' & v' & X1 & X2 & X3 & X4 & X5)]; [destruct (Nb (i + 1)); [lia|exact X]|].
    destruct (gap_unique _ _ _ _ _ (i + 1) G1 X1) as [-> ->]; [lia|lia|]. exists u', v'. split; [exact X3|]. split; [lia|exact X5].
Qed.

Lemma loop l : forall pre x st, st1 = pre ++ x :: l -> invariant st (gs x) ->
  match patches spline L (x :: l) st with
  | None => exists u v, stuck u v
  | Some st' => invariant st' (gs (last l x)) /\ forall u v, gs x < v -> ~ stuck u v
  end.
Proof.
  induction l as [|y l IH]; intros pre x st E Inv.
  - cbn [patches last]. split; [exact Inv|]. intros u v Lv [[(_ & (a & H) & Luv & Nb) _] _]. unfold R in *. rewrite E in *.
    apply sample_app in H as [H|H].
    + pose proof (apart_order _ A1) as O. clear - O H Lv. induction pre as [|z pre IH]; [destruct (sample_nil _ _ H)|].
      cbn [app] in O. apply sample_cons in H as [H|H]; [|exact (IH H (order_tail _ _ O))]. apply tsample_range in H.
      assert (sample (pre ++ [x]) (gs x) (hd 0 (gd x))) as X.
      { apply sample_app. right. apply sample_cons. left. apply first_sample.
        destruct O as [F _]. rewrite Forall_forall in F. apply F. right. apply in_or_app. right. left. reflexivity. }
      pose proof (after_head _ _ _ _ O X). lia.
    + apply sample_cons in H as [H|H]; [|destruct (sample_nil _ _ H)]. apply tsample_range in H.
      apply (Nb (v - 1)); [lia|]. apply in_trace. lia.
  - assert (E' : st1 = (pre ++ [x]) ++ y :: l) by (rewrite <- app_assoc; exact E). pose proof A1 as A. rewrite E in A.
    destruct (apart_pair _ _ _ _ A) as (Px & Pxy & Py & G). rewrite <- E in G. fold R in G.
    change (patches spline L (x :: y :: l) st) with
      (if gs y - gend x <? L then match patch spline L x y st with None => None | Some tr => patches spline L (y :: l) (st ++ [tr]) end
       else patches spline L (y :: l) st).
    assert (La : gs (last (y :: l) x) = gs (last l y)).
    { rewrite last_cons. reflexivity. }
    assert (Ends : forall u v, gap R u v -> gs x < v -> v <= gs y -> u = gend x /\ v = gs y).
    { intros u v Gu L1 L2. unfold R in Gu. rewrite E in Gu. exact (gap_end _ _ _ _ _ _ A Gu L1 L2). }
    destruct (Z.ltb_spec (gs y - gend x) L) as [C|C].
    + pose proof (step _ _ _ _ st E C Inv) as St. destruct (patch spline L x y st) as [tr|]; [|eauto].
      destruct St as [NS Inv']. specialize (IH _ _ _ E' Inv'). destruct (patches spline L (y :: l) (st ++ [tr])); [|exact IH].
      destruct IH as [I1 I2]. rewrite La. split; [exact I1|]. intros u v Lv St. destruct (Z_lt_dec (gs y) v) as [D|D]; [exact (I2 _ _ D St)|].
      pose proof St as [[Gu _] _]. destruct (Ends u v Gu Lv) as [-> ->]; [lia|exact (NS St)].
    + assert (Inv' : invariant st (gs y)).
      { destruct Inv as (N & Fu & Keep & Dom & Val). split; [exact N|]. split; [exact Fu|]. split; [exact Keep|]. split; [|exact Val].
        intros p. rewrite Dom. split; (intros [H|(i' & j' & u' & v' & X1 & X2 & X3 & X4 & X5)]; [auto|right; exists i', j', u', v'; split; [exact X1|]; split; [exact X2|]; split; [exact X3|]; split; [|exact X5]]).
        - lia.
        - destruct (Z_le_dec v' (gs x)) as [D|D]; [exact D|exfalso]. destruct X3 as [X3 X3']. destruct (Ends u' v' X3) as [-> ->]; lia. }
      specialize (IH _ _ _ E' Inv'). destruct (patches spline L (y :: l) st); [|exact IH].
      destruct IH as [I1 I2]. rewrite La. split; [exact I1|]. intros u v Lv St. destruct (Z_lt_dec (gs y) v) as [D|D]; [exact (I2 _ _ D St)|].
      pose proof St as [[Gu Gl] _]. destruct (Ends u v Gu Lv) as [-> ->]; lia.
Qed.
End loop.

(** * Together *)
Section together.
Variable spline : list (Z * Z) -> Z -> Z.
Variable L : Z.
Variable st : stream.
Hypothesis O : in_order st.

Lemma has_same (R1 R2 : Z -> Z -> Prop) : (forall p v, R1 p v <-> R2 p v) -> forall p, has R1 p <-> has R2 p.
Proof. intros H p. split; intros (v & V); exists v; apply H, V. Qed.

Lemma started st1 : apart st1 -> match st1 with [] => True | x :: _ => invariant spline L st1 st1 (gs x) end.
Proof.
  intros A. destruct st1 as [|x l]; [exact I|]. pose proof (apart_order _ A) as Or. split; [apply order_filled, Or|]. split; [apply order_functional, Or|].
  split; [auto|]. split; [|auto]. intros p. split; [auto|]. intros [H|(i & j & u & v & _ & _ & [((a & Ha) & _ & Luv & _) _] & T & _)]; [exact H|].
  pose proof (from_head _ _ _ _ Or Ha). lia.
Qed.

Lemma interpolate_spec : match interpolate_stream spline L st with
  | None => exists u v, stuck L st u v
  | Some r => in_order r /\ (forall u v, ~ stuck L st u v) /\ (forall p v, sample st p v -> sample r p v) /\
      (forall p, has (sample r) p <-> has (sample st) p \/ exists i j u v, gap (sample st) i j /\ i < p < j /\ short L (sample st) u v /\ near L u v i j) /\
      (forall p w, sample r p w -> sample st p w \/ exists i j u v s ks, gap (sample st) i j /\ i < p < j /\ short L (sample st) u v /\ near L u v i j /\
        support L (sample st) (sample r) u v s ks /\ w = spline ks (p - s))
  end.
Proof.
  destruct (merge_split_spec st (order_filled _ O) (order_functional _ O)) as [A E].
  unfold interpolate_stream. set (st1 := merge_split st) in *. cbv zeta.
  assert (H1 : forall p, has (sample st1) p <-> has (sample st) p) by (apply has_same, E).
  assert (G1 : forall i j, gap (sample st1) i j <-> gap (sample st) i j).
  { intros i j. split; apply gap_imp; [exact H1|]. intros p. symmetry. apply H1. }
  assert (S1 : forall i j, short L (sample st1) i j <-> short L (sample st) i j) by (intros; unfold short; rewrite G1; tauto).
  assert (K1 : forall u v, stuck L st1 u v -> stuck L st u v).
  { intros u v [X Y]. split; [apply S1, X|]. intros i j Gi Ni. destruct (Y i j (proj2 (G1 _ _) Gi) Ni) as (u' & v' & Z1 & Z2). exists u', v'. rewrite <- S1. auto. }
  assert (K2 : forall u v, stuck L st u v -> stuck L st1 u v).
  { intros u v [X Y]. split; [apply S1, X|]. intros i j Gi Ni. destruct (Y i j (proj1 (G1 _ _) Gi) Ni) as (u' & v' & Z1 & Z2). exists u', v'. rewrite S1. auto. }
  assert (Case : match (match patches spline L st1 st1 with None => None | Some s => Some (merge_split s) end) with
    | None => exists u v, stuck L st1 u v
    | Some r => in_order r /\ (forall u v, ~ stuck L st1 u v) /\ (forall p v, sample st1 p v -> sample r p v) /\
      (forall p, has (sample r) p <-> has (sample st1) p \/ exists i j u v, gap (sample st1) i j /\ i < p < j /\ short L (sample st1) u v /\ near L u v i j) /\
      (forall p w, sample r p w -> sample st1 p w \/ exists i j u v s ks, gap (sample st1) i j /\ i < p < j /\ short L (sample st1) u v /\ near L u v i j /\
        support L (sample st1) (sample r) u v s ks /\ w = spline ks (p - s))
    end).
  { clearbody st1. clear - A. destruct st1 as [|x l].
    - cbn. split; [split; constructor|]. assert (Nn : forall p, ~ has (sample []) p) by (intros p (v & V); destruct (sample_nil _ _ V)).
      split; [intros u v [[(X & _) _] _]; exact (Nn _ X)|]. split; [auto|]. split; [|intros p w V; destruct (sample_nil _ _ V)].
      intros p. split; [auto|]. intros [H|(i & j & u & v & (X & _) & _)]; [exact H|destruct (Nn _ X)].
    - pose proof (loop spline L (x :: l) A l [] x (x :: l) eq_refl (started _ A)) as Lp.
      destruct (patches spline L (x :: l) (x :: l)) as [s|]; [|exact Lp]. destruct Lp as [(N & Fu & Keep & Dom & Val) St].
      destruct (merge_split_spec s N Fu) as [Ar Er]. split; [apply apart_order, Ar|]. split; [|split; [|split]].
      + intros u v K. apply (St u v); [|exact K]. destruct K as [[((a & Ha) & _ & Luv & _) _] _]. pose proof (from_head _ _ _ _ (apart_order _ A) Ha). lia.
      + intros p v H. apply Er, Keep, H.
      + intros p. rewrite (has_same _ _ Er p), Dom. split; (intros [H|(i & j & u & v & X1 & X2 & X3 & X4)]; [auto|right; exists i, j, u, v]).
        * tauto.
        * split; [exact X1|]. split; [exact X2|]. split; [exact X3|]. split; [|exact X4].
          destruct X3 as [(_ & Hv & Luv & Nb) _]. clear - A Hv Nb Luv.
          assert (La : forall l x p a, in_order (x :: l) -> sample (x :: l) p a -> p <= gs (last l x) \/ gs (last l x) < p <= gend (last l x)).
          { clear. induction l as [|y l IH]; intros x p a Or H.
            - apply sample_cons in H as [H|H]; [|destruct (sample_nil _ _ H)]. apply tsample_range in H. cbn. lia.
            - assert (La : last (y :: l) x = last l y).
              { apply last_cons. }
              rewrite La. apply sample_cons in H as [H|H]; [|exact (IH y p a (order_tail _ _ Or) H)]. apply tsample_range in H.
              pose proof (order_next _ _ _ Or). assert (sample (y :: l) (gs y) (hd 0 (gd y))) as X.
              { apply sample_cons. left. apply first_sample. exact (order_head _ _ (order_tail _ _ Or)). }
              destruct (IH y _ _ (order_tail _ _ Or) X); lia. }
          destruct Hv as (a & Ha). destruct (La l x v a (apart_order _ A) Ha) as [C|C]; [exact C|exfalso].
          apply (Nb (v - 1)); [lia|]. destruct l as [|y l]; [apply (in_trace [] x []); cbn in C; lia|].
          assert (D : exists pre, x :: y :: l = pre ++ [last (y :: l) x]).
          { exists (x :: removelast (y :: l)). cbn [app]. f_equal. apply app_removelast_last. discriminate. }
          destruct D as (pre & ->). apply in_trace. lia.
      + intros p w H. apply Er in H. apply Val in H as [H|(i & j & u & v & s' & ks & X1 & X2 & X3 & X4 & X5 & X6)]; [auto|].
        right. exists i, j, u, v, s', ks. apply (support_more _ _ _ (sample (merge_split s))) in X5; [auto 8|]. intros q a. apply Er. }
  assert (One : forall x, st1 = [x] -> patches spline L st1 st1 = Some st1 /\ merge_split st1 = st1).
  { intros x Ex. rewrite Ex. split; [reflexivity|]. rewrite Ex in A. unfold merge_split, merge, sort. cbn [map fold_right insert fold_left flat_map].
    rewrite app_nil_r. unfold split_one, unmasked. cbn [ms md]. destruct A as [F _]. inversion F as [|? ? Nx _]; subst.
    rewrite <- (app_nil_r (map Some (gd x))), split_some, app_nil_r. cbn [split_from]. destruct (rev (gd x)) as [|c r] eqn:Er.
    - apply (f_equal (@rev Z)) in Er. rewrite rev_involutive in Er. contradiction.
    - rewrite <- Er, rev_length, rev_involutive. replace (gs x + Z.of_nat (length (gd x)) - Z.of_nat (length (gd x))) with (gs x) by lia. destruct x; reflexivity. }
  assert (Same : match st1 with [_] => Some st1 | _ => match patches spline L st1 st1 with None => None | Some s => Some (merge_split s) end end =
    match patches spline L st1 st1 with None => None | Some s => Some (merge_split s) end).
  { destruct st1 as [|x [|y l]] eqn:Ex; [reflexivity| |reflexivity]. destruct (One x eq_refl) as [-> ->]. reflexivity. }
  rewrite Same. clear Same One. destruct (patches spline L st1 st1) as [s|].
  - destruct Case as (C1 & C2 & C3 & C4 & C5). split; [exact C1|]. split; [|split; [|split]].
    + intros u v K. exact (C2 u v (K2 u v K)).
    + intros p v H. apply C3, E, H.
    + intros p. rewrite C4, H1. split; (intros [H|(i & j & u & v & X1 & X2 & X3 & X4)]; [auto|right; exists i, j, u, v]).
      * rewrite <- G1, <- S1. auto.
      * rewrite G1, S1. auto.
    + intros p w H. apply C5 in H as [H|(i & j & u & v & s' & ks & X1 & X2 & X3 & X4 & X5 & X6)]; [left; apply E, H|].
      right. exists i, j, u, v, s', ks. rewrite <- G1, <- S1. split; [exact X1|]. split; [exact X2|]. split; [exact X3|]. split; [exact X4|].
      split; [|exact X6]. destruct X5 as (Y1 & Y2 & Y3). split; [exact Y1|]. split; [exact Y2|]. intros q a Hq. apply Y3, E, Hq.
  - destruct Case as (u & v & K). exists u, v. exact (K1 u v K).
Qed.
End together.
