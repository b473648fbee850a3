(** Proofs about joining the files of a day. *)
From Coq Require Import String.
From Coq Require Import ZArith List Bool Lia Permutation.
From Verif Require Import Base UnwrapSpec UnwrapProofs ReadSeveralProofs Names NamesProofs Stations StationsSpec StationsProofs Gps GpsProofs
  Stream StreamSpec StreamProofs Daily DailySpec.
Import ListNotations.
Open Scope Z_scope.

(** * Names *)
Lemma join_split s : join_dots (split_on 46 s) = s.
Proof.
  induction s as [|c s IH]; [reflexivity|]. cbn [split_on]. pose proof (split_on_nonempty 46 s) as N.
  destruct (Z.eqb_spec c 46) as [->|C]; destruct (split_on 46 s) as [|h t]; try congruence.
  - change (b "." ++ join_dots (h :: t) = 46 :: s). rewrite IH. reflexivity.
  - destruct t; cbn [join_dots app] in *; rewrite <- IH; reflexivity.
Qed.
Lemma cut_named day rest name : named day rest name -> cut name = day ++ b "," ++ rest.
Proof.
  intros (time & -> & T & N & ND & _). unfold cut. rewrite (app_assoc day time). change (b ".") with [46].
  rewrite (split_on_app 46 (day ++ time) rest N). cbn [hd tl]. rewrite join_split. f_equal.
  destruct T as [->|(t & ->)]; [rewrite app_nil_r, split_on_none by exact ND; reflexivity|].
  change (b "T") with [84]. rewrite split_on_app by exact ND. reflexivity.
Qed.
Lemma named_parts day rest name : named day rest name -> ~ In 44 day /\ ~ In 44 rest.
Proof.
  intros (time & -> & _ & _ & _ & C). split; intros H; apply C; apply in_or_app; [left; exact H|right]. apply in_or_app. right.
  apply in_or_app. right. exact H.
Qed.
Lemma group_named day rest name : named day rest name ->
  (nth 0 (split_on 44 (cut name)) [], nth 1 (split_on 44 (cut name)) []) = (day, rest).
Proof.
  intros N. rewrite (cut_named _ _ _ N). destruct (named_parts _ _ _ N) as [A B]. change (b ",") with [44].
  rewrite split_on_app by exact A. rewrite split_on_none by exact B. reflexivity.
Qed.
Lemma named_unique day rest day' rest' name : named day rest name -> named day' rest' name -> day = day' /\ rest = rest'.
Proof. intros A B. apply group_named in A. apply group_named in B. rewrite A in B. injection B as -> ->. auto. Qed.

(** * Groups *)
Section groups.
Variable infiles : list bytes.
Hypothesis all : forall n, In n infiles -> exists day rest, named day rest n.

Lemma groups_in day rest : In (day, rest) (groups infiles) <-> exists n, In n infiles /\ named day rest n.
Proof.
  unfold groups. rewrite in_map_iff. pose proof (unique_spec eqb_bytes eqb_bytes_iff (map cut infiles)) as U.
  destruct (fo_in (list_eq_dec Z.eq_dec) _ _ _ U) as (U1 & U2 & _). split.
  - intros (c & E & I). apply U1 in I as [I _]. apply in_map_iff in I as (n & <- & I). exists n. split; [exact I|].
    destruct (all n I) as (day' & rest' & N). rewrite (group_named _ _ _ N) in E. injection E as <- <-. exact N.
  - intros (n & I & N). exists (cut n). split; [apply group_named; exact N|]. apply U2; [apply in_map; exact I|intros []].
Qed.
Lemma groups_nodup : NoDup (groups infiles).
Proof.
  unfold groups. pose proof (unique_spec eqb_bytes eqb_bytes_iff (map cut infiles)) as U.
  destruct (fo_in (list_eq_dec Z.eq_dec) _ _ _ U) as (U1 & _ & U3). revert U1 U3. generalize (unique eqb_bytes (map cut infiles)) as l.
  induction l as [|c l IH]; intros U1 U3; [constructor|]. inversion U3 as [|? ? N3 U3']; subst. cbn [map].
  assert (Back : forall c, (In c (map cut infiles)) -> c = fst (nth 0 (split_on 44 c) [], nth 1 (split_on 44 c) []) ++ b "," ++ snd (nth 0 (split_on 44 c) [], nth 1 (split_on 44 c) [])).
  { intros x I. apply in_map_iff in I as (n & <- & I). destruct (all n I) as (d & r & N). rewrite (group_named _ _ _ N). apply cut_named, N. }
  constructor; [|apply IH; [intros x H; apply U1; right; exact H|exact U3']].
  intros H. apply in_map_iff in H as (c' & E & I). apply N3.
  rewrite (Back c (proj1 (U1 c (or_introl eq_refl)))), <- E, <- (Back c' (proj1 (U1 c' (or_intror I)))). exact I.
Qed.
Lemma out_name_inj day rest day' rest' : In (day, rest) (groups infiles) -> In (day', rest') (groups infiles) ->
  out_name day rest = out_name day' rest' -> (day, rest) = (day', rest').
Proof.
  intros I I' E. apply groups_in in I as (n & _ & (t & _ & _ & N & ND & _)). apply groups_in in I' as (n' & _ & (t' & _ & _ & N' & ND' & _)).
  unfold out_name in E. change (b "T00_00_00.") with ([84] ++ b "00_00_00.") in E. rewrite <- !app_assoc in E.
  pose proof (f_equal (split_on 84) E) as X. rewrite !split_on_app in X by assumption. injection X as Ed _. subst day'.
  apply app_inv_head in E. apply app_inv_head in E. apply app_inv_head in E. rewrite E. reflexivity.
Qed.
End groups.

(** * Files of a group *)
Lemma in_glob_iff day suffix name : in_glob day suffix name = true <-> visible name /\ exists mid, name = day ++ mid ++ suffix.
Proof.
  unfold in_glob. rewrite !andb_true_iff, negb_true_iff. split.
  - intros [[S H] E]. apply starts_with_true in S as (r & ->). rewrite skipn_app, Nat.sub_diag, skipn_all in E. cbn [skipn app] in E.
    apply ends_with_iff in E as (mid & ->). split; [|exists mid; reflexivity]. intros r X. rewrite X in H. discriminate.
  - intros [V (mid & ->)]. split; [split|].
    + apply starts_with_app.
    + destruct (day ++ mid ++ suffix) as [|c r]; [reflexivity|]. cbn. apply Z.eqb_neq. intros ->. exact (V r eq_refl).
    + rewrite skipn_app, Nat.sub_diag, skipn_all. cbn [skipn app]. apply ends_with_iff. exists mid. reflexivity.
Qed.
Lemma own_group day rest name : visible name -> named day rest name -> in_glob day rest name = true.
Proof.
  intros V (time & -> & _). apply in_glob_iff. split; [exact V|]. exists (time ++ b "."). rewrite <- app_assoc. reflexivity.
Qed.
Lemma count_none (s : bytes) : ~ In 46 s -> count_occ Z.eq_dec s 46 = 0%nat.
Proof. intros N. apply count_occ_not_In. exact N. Qed.

Lemma suffix_shape x r1 r2 c1 c2 : r1 = x ++ r2 -> count_occ Z.eq_dec r1 46 = count_occ Z.eq_dec r2 46 ->
  network r1 c1 -> network r2 c2 -> length c1 = length c2 -> x = [].
Proof.
  intros E C (t1 & E1 & N1) (t2 & E2 & N2) L. assert (Nx : ~ In 46 x).
  { rewrite E, count_occ_app in C. apply count_occ_not_In with (eq_dec := Z.eq_dec). lia. }
  rewrite E1 in E. rewrite E2 in E. assert (Nx2 : ~ In 46 (x ++ c2)) by (intros H; apply in_app_or in H; tauto).
  rewrite (app_assoc x c2) in E. pose proof (f_equal (split_on 46) E) as X. change (b ".") with [46] in X. rewrite !split_on_app in X by assumption.
  injection X as X _. apply (f_equal (@length Z)) in X. rewrite app_length in X. destruct x; [reflexivity|cbn in X; lia].
Qed.
Lemma app_compare {A} (a : list A) : forall c r s, a ++ r = c ++ s -> (exists x, r = x ++ s) \/ (exists x, s = x ++ r).
Proof.
  induction a as [|y a IH]; intros c r s E; [left; exists c; exact E|]. destruct c as [|z c]; [right; exists (y :: a); symmetry; exact E|].
  injection E as _ E. exact (IH c r s E).
Qed.
Lemma shape_exact names day rest name : same_shape names -> In name names ->
  (exists n, In n names /\ named day rest n) -> (in_glob day rest name = true <-> named day rest name).
Proof.
  intros (d & n & c & Sh) I (n0 & I0 & N0). destruct (Sh name I) as (V & day1 & rest1 & c1 & N1 & D1 & C1 & W1 & L1).
  destruct (Sh n0 I0) as (_ & day2 & rest2 & c2 & N2 & D2 & C2 & W2 & L2). destruct (named_unique _ _ _ _ _ N0 N2) as [<- <-].
  split; [|intros N; apply own_group; assumption]. intros G. apply in_glob_iff in G as [_ (mid & E)].
  pose proof N1 as (time & E1 & _ & _). rewrite E in E1. assert (day = day1) as <-.
  { apply (f_equal (firstn (length day))) in E1. rewrite firstn_app, Nat.sub_diag, firstn_all, firstn_O, app_nil_r in E1.
    rewrite D2, <- D1, firstn_app, Nat.sub_diag, firstn_all, firstn_O, app_nil_r in E1. exact E1. }
  replace (day ++ time ++ b "." ++ rest1) with ((day ++ time ++ b ".") ++ rest1) in E1 by (rewrite <- !app_assoc; reflexivity).
  rewrite app_assoc in E1. destruct (app_compare _ _ _ _ E1) as [(x & X)|(x & X)].
  - rewrite (suffix_shape x _ _ _ _ X) in X by (eassumption || congruence). cbn in X. subst rest. exact N1.
  - rewrite (suffix_shape x _ _ _ _ X) in X by (eassumption || congruence). cbn in X. subst rest1. exact N1.
Qed.

(** * Joining *)
Lemma value_tsample tr k v : value_at tr k v <-> tsample tr k v.
Proof. reflexivity. Qed.

Lemma ginsert_spec x l : Permutation (x :: l) (ginsert x l) /\
  (chain (fun x y => gbefore x y = true) l -> chain (fun x y => gbefore x y = true) (ginsert x l)) /\
  (exists h t, ginsert x l = h :: t /\ (h = x \/ exists t', l = h :: t')).
Proof.
  induction l as [|y l (P & C & h & t & E & H)]; cbn [ginsert].
  - split; [reflexivity|]. split; [auto|]. exists x, []. auto.
  - destruct (gbefore x y) eqn:B.
    + split; [reflexivity|]. split; [intros H'; split; [exact B|exact H']|]. exists x, (y :: l). auto.
    + split; [rewrite perm_swap, P; reflexivity|]. split; [|exists y, (ginsert x l); split; [reflexivity|right; exists l; reflexivity]].
      intros H'. specialize (C (chain_tail _ _ _ H')). rewrite E in *. split; [|exact C]. destruct H as [->|(t' & ->)]; [|apply H'].
      unfold gbefore in *. apply orb_false_elim in B as [B1 B2]. apply Z.ltb_ge in B1.
      destruct (Z.eqb_spec (gs x) (gs y)) as [Q|Q]; cbn in B2.
      * apply Z.leb_gt in B2. apply orb_true_iff. right. apply andb_true_iff. split; [apply Z.eqb_eq; lia|apply Z.leb_le; lia].
      * apply orb_true_iff. left. apply Z.ltb_lt. lia.
Qed.
Lemma gsort_spec l : Permutation l (gsort l) /\ chain (fun x y => gbefore x y = true) (gsort l).
Proof.
  induction l as [|x l [P C]]; [split; constructor|]. cbn [gsort fold_right]. fold (gsort l). destruct (ginsert_spec x (gsort l)) as (P' & C' & _).
  split; [eapply perm_trans; [apply perm_skip; exact P|exact P']|exact (C' C)].
Qed.

Lemma last_at tr : gd tr <> [] -> tsample tr (gend tr) (last (gd tr) 0).
Proof. apply last_sample. Qed.

Lemma joined_more ts tr r : (forall t, In t ts -> gd t <> []) -> gd tr <> [] -> (forall t, In t ts -> gbefore t tr = true) ->
  joined ts r -> gd r <> [] -> joined (ts ++ [tr]) (add_latest r tr) /\ gd (add_latest r tr) <> [].
Proof.
  intros N Nt B J Nr. pose proof J as ((ta & Ia & Ea) & (tz & Iz & Ez) & Ra & Fu & Va).
  assert (Bs : forall t, In t ts -> gs t <= gs tr).
  { intros t I. specialize (B t I). unfold gbefore in B. apply orb_prop in B as [B|B]; [apply Z.ltb_lt in B; lia|].
    apply andb_prop in B as [B _]. apply Z.eqb_eq in B. lia. }
  assert (Be : forall t, In t ts -> gs t = gs tr -> gend t <= gend tr).
  { intros t I E. specialize (B t I). unfold gbefore in B. apply orb_prop in B as [B|B]; [apply Z.ltb_lt in B; lia|].
    apply andb_prop in B as [_ B]. apply Z.leb_le in B. lia. }
  pose proof (gd_length_pos _ Nt) as Pt. pose proof (gd_length_pos _ Nr) as Pr. pose proof (Bs _ Ia) as Ba.
  (* the values of the result *)
  assert (V : gs (add_latest r tr) = gs r /\ gend (add_latest r tr) = Z.max (gend r) (gend tr) /\ gd (add_latest r tr) <> [] /\
    forall k v, tsample (add_latest r tr) k v ->
      (k < gs tr /\ k <= gend r /\ tsample r k v) \/ (gend r < k < gs tr /\ v = last (gd r) 0) \/
      (gs tr <= k /\ gend r < gend tr /\ tsample tr k v) \/ (gend tr <= gend r /\ tsample r k v)).
  { unfold add_latest. destruct (Z.leb_spec 0 (gs tr - gend r - 1)) as [D|D]; [|destruct (Z.ltb_spec (gend r) (gend tr)) as [D'|D']].
    - split; [reflexivity|]. split; [|split].
      + unfold gend at 1. cbn [gs gd]. rewrite !app_length, repeat_length. unfold gend in *. lia.
      + cbn. destruct (gd r); [congruence|discriminate].
      + intros k v (i & H & ->). cbn [gs gd] in *. destruct (Nat.ltb_spec i (length (gd r))) as [C|C].
        * left. rewrite nth_error_app1 in H by exact C. unfold gend in *. split; [lia|]. split; [lia|]. exists i. auto.
        * rewrite nth_error_app2 in H by exact C. destruct (Nat.ltb_spec (i - length (gd r)) (Z.to_nat (gs tr - gend r - 1))) as [C'|C'].
          -- right. left. rewrite nth_error_app1 in H by (rewrite repeat_length; exact C'). apply nth_error_In, repeat_spec in H.
             unfold gend in *. split; [lia|exact H].
          -- rewrite nth_error_app2 in H by (rewrite repeat_length; exact C'). rewrite repeat_length in H. right. right. left.
             unfold gend in *. split; [lia|]. split; [lia|]. exists (i - length (gd r) - Z.to_nat (gs tr - (gs r + Z.of_nat (length (gd r)) - 1) - 1))%nat. split; [exact H|lia].
    - set (n := (length (gd r) - Z.to_nat (- (gs tr - gend r - 1)))%nat).
      assert (En : Z.of_nat n = gs tr - gs r) by (subst n; unfold gend in *; lia).
      assert (Ln : length (firstn n (gd r)) = n) by (rewrite firstn_length; lia).
      split; [reflexivity|]. split; [|split].
      + unfold gend at 1. cbn [gs gd]. rewrite app_length, Ln. unfold gend in *. lia.
      + cbn. destruct (firstn n (gd r)); [exact Nt|discriminate].
      + intros k v (i & H & ->). cbn [gs gd] in *. destruct (Nat.ltb_spec i n) as [C|C].
        * left. rewrite nth_error_app1 in H by lia. assert (X : nth_error (gd r) i = Some v).
          { rewrite <- (firstn_skipn n (gd r)), nth_error_app1 by lia. exact H. }
          split; [lia|]. split; [lia|]. exists i. auto.
        * rewrite nth_error_app2 in H by lia. rewrite Ln in H. right. right. left. split; [lia|]. split; [lia|]. exists (i - n)%nat. split; [exact H|lia].
    - split; [reflexivity|]. split; [lia|]. split; [exact Nr|]. intros k v H. right. right. right. split; [exact D'|exact H]. }
  destruct V as (Vs & Ve & Vn & V). split; [|exact Vn].
  (* the trace that reaches furthest *)
  assert (Far : forall k t, furthest ts k t -> k < gs tr \/ gend tr <= gend t -> furthest (ts ++ [tr]) k t).
  { intros k t (I & Le & M) C. split; [apply in_or_app; auto|]. split; [exact Le|]. intros t' I' Le'. apply in_app_or in I' as [I'|[<-|[]]]; [apply M; assumption|].
    pose proof (Bs t I). lia. }
  split; [|split; [|split; [|split]]].
  - exists ta. rewrite Vs. split; [apply in_or_app; auto|exact Ea].
  - rewrite Ve. destruct (Z.max_spec (gend r) (gend tr)) as [[X ->]|[X ->]].
    + exists tr. split; [apply in_or_app; right; left; reflexivity|reflexivity].
    + exists tz. split; [apply in_or_app; auto|exact Ez].
  - intros t I. rewrite Vs, Ve. apply in_app_or in I as [I|[<-|[]]]; [specialize (Ra t I); lia|lia].
  - intros k Rk. apply tsample_at. exact Rk.
  - intros k v H. apply V in H as [(C1 & C2 & H)|[(C1 & ->)|[(C1 & C2 & H)|(C1 & H)]]].
    + apply Va in H as (t & Ft & Ht). exists t. split; [apply Far; auto|exact Ht].
    + destruct (Va (gend r) (last (gd r) 0) (last_at r Nr)) as (t & Ft & Ht). exists t.
      (* [t] reaches to the end of [r] *)
      assert (gend t = gend r) as Et.
      { destruct Ft as (I & Le & M). pose proof (Ra t I). pose proof (Ra tz Iz). pose proof (gd_length_pos _ (N tz Iz)).
        destruct (M tz Iz) as [X|[X _]]; lia. }
      split; [|rewrite Z.min_r by lia; rewrite Z.min_r in Ht by lia; exact Ht].
      apply Far; [|left; lia]. destruct Ft as (I & Le & M). split; [exact I|]. split; [lia|]. intros t' I' Le'.
      pose proof (Ra t' I'). pose proof (gd_length_pos _ (N t' I')). apply M; [exact I'|lia].
    + exists tr. split; [|pose proof (tsample_range _ _ _ H); rewrite Z.min_l by lia; exact H].
      split; [apply in_or_app; right; left; reflexivity|]. split; [exact C1|]. intros t' I' Le'. apply in_app_or in I' as [I'|[<-|[]]]; [|right; lia].
      pose proof (Ra t' I'). left. lia.
    + destruct (Va k v H) as (t & Ft & Ht). exists t. split; [|exact Ht]. pose proof (tsample_range _ _ _ H) as Rk.
      destruct (Z_lt_dec k (gs tr)) as [X|X]; [apply Far; auto|]. apply Far; [exact Ft|]. right.
      destruct Ft as (I & Le & M). pose proof (Ra tz Iz). pose proof (gd_length_pos _ (N tz Iz)). pose proof (Bs tz Iz).
      destruct (M tz Iz); lia.
Qed.

Lemma joined_one tr : gd tr <> [] -> joined [tr] tr.
Proof.
  intros N. pose proof (gd_length_pos _ N). split; [exists tr; cbn; auto|]. split; [exists tr; cbn; auto|]. split; [intros t [<-|[]]; lia|].
  split; [intros k R; apply tsample_at; exact R|]. intros k v H'. pose proof (tsample_range _ _ _ H') as R. exists tr. split.
  - split; [left; reflexivity|]. split; [lia|]. intros t [<-|[]] _. lia.
  - rewrite Z.min_l by lia. exact H'.
Qed.
Lemma gbefore_trans x y z : gbefore x y = true -> gbefore y z = true -> gbefore x z = true.
Proof.
  unfold gbefore. rewrite !orb_true_iff, !andb_true_iff, !Z.ltb_lt, !Z.eqb_eq, !Z.leb_le. lia.
Qed.
Lemma joined_fold r : forall ts tr, (forall t, In t ts -> gd t <> []) -> (forall t, In t r -> gd t <> []) ->
  (forall t u, In t ts -> In u r -> gbefore t u = true) -> chain (fun x y => gbefore x y = true) r ->
  joined ts tr -> gd tr <> [] -> joined (ts ++ r) (fold_left add_latest r tr).
Proof.
  induction r as [|x r IH]; intros ts tr N Nr B C J Nt; [rewrite app_nil_r; exact J|]. cbn [fold_left].
  replace (ts ++ x :: r) with ((ts ++ [x]) ++ r) by (rewrite <- app_assoc; reflexivity).
  destruct (joined_more ts x tr N (Nr x (or_introl eq_refl))) as [J' N']; [intros t I; apply B; [exact I|left; reflexivity]|exact J|exact Nt|].
  apply IH; [| | | |exact J'|exact N'].
  - intros t I. apply in_app_or in I as [I|[<-|[]]]; [apply N, I|apply Nr; left; reflexivity].
  - intros t I. apply Nr. right. exact I.
  - intros t u I Iu. apply in_app_or in I as [I|[<-|[]]]; [apply B; [exact I|right; exact Iu]|].
    clear - C Iu. revert x C. induction r as [|z r IH]; intros x C; [destruct Iu|]. destruct C as [C1 C].
    destruct Iu as [<-|Iu]; [exact C1|]. eapply gbefore_trans; [exact C1|]. exact (IH Iu z C).
  - eapply chain_tail; exact C.
Qed.
Lemma joined_perm ts us r : Permutation ts us -> joined ts r -> joined us r.
Proof.
  intros P ((ta & Ia & Ea) & (tz & Iz & Ez) & Ra & Fu & Va).
  assert (Q : forall t, In t us <-> In t ts) by (intros t; split; apply Permutation_in; [apply Permutation_sym|]; exact P).
  split; [exists ta; rewrite Q; auto|]. split; [exists tz; rewrite Q; auto|]. split; [intros t I; apply Ra, Q, I|]. split; [exact Fu|].
  intros k v H. destruct (Va k v H) as (t & (I & Le & M) & Ht). exists t. split; [|exact Ht]. split; [apply Q, I|]. split; [exact Le|].
  intros t' I'. apply M, Q, I'.
Qed.
Lemma merge_latest_spec l : l <> [] -> (forall t, In t l -> gd t <> []) -> exists r, merge_latest l = Some r /\ joined l r.
Proof.
  intros N0 N. unfold merge_latest. destruct (gsort_spec l) as [P C]. destruct (gsort l) as [|x r]; [apply Permutation_sym, Permutation_nil in P; contradiction|].
  eexists. split; [reflexivity|]. apply (joined_perm (x :: r)); [apply Permutation_sym; exact P|].
  assert (N' : forall t, In t (x :: r) -> gd t <> []) by (intros t I; apply N; eapply Permutation_in; [apply Permutation_sym; exact P|exact I]).
  change (x :: r) with ([x] ++ r). apply joined_fold.
  - intros t [<-|[]]. apply N'. left. reflexivity.
  - intros t I. apply N'. right. exact I.
  - intros t u [<-|[]] Iu. clear - C Iu. revert x C. induction r as [|z r IH]; intros x C; [destruct Iu|]. destruct C as [C1 C].
    destruct Iu as [<-|Iu]; [exact C1|]. eapply gbefore_trans; [exact C1|]. exact (IH Iu z C).
  - eapply chain_tail; exact C.
  - apply joined_one, N'. left. reflexivity.
  - apply N'. left. reflexivity.
Qed.

(** * The loop *)
Lemma read_all_spec l s : read_all l = Some s -> forall t, In t s <-> exists f u, In (f, Some u) l /\ In t u.
Proof.
  revert s. induction l as [|[f [u|]] l IH]; intros s E t; cbn in E; [|destruct (read_all l) as [s'|] eqn:D; [|discriminate]|discriminate].
  - injection E as <-. split; [intros []|]. intros (f & u & [] & _).
  - injection E as <-. rewrite in_app_iff, (IH s' eq_refl). split.
    + intros [H|(f' & u' & I & H)]; [exists f, u; cbn; auto|exists f', u'; cbn; auto].
    + intros (f' & u' & [I|I] & H); [injection I as <- <-; auto|right; exists f', u'; auto].
Qed.
Lemma read_all_some l : (forall f c, In (f, c) l -> exists u, c = Some u) -> exists s, read_all l = Some s.
Proof.
  induction l as [|[f c] l IH]; intros H; [exists []; reflexivity|]. cbn. destruct (H f c (or_introl eq_refl)) as (u & ->).
  destruct IH as (s & E); [intros f' c' I; apply (H f' c'); right; exact I|]. rewrite E. eauto.
Qed.
Lemma read_group_spec dir day suffix s : read_group dir day suffix = Some s ->
  forall t, In t s <-> exists f u, In (f, Some u) dir /\ in_glob day suffix f = true /\ In t u.
Proof.
  unfold read_group. intros E t. assert (E' : read_all (filter (fun f => in_glob day suffix (fst f)) dir) = Some s).
  { destruct (filter _ dir); [discriminate|exact E]. }
  rewrite (read_all_spec _ _ E' t). split; intros (f & u & I & H).
  - apply filter_In in I as [I G]. exists f, u. auto.
  - exists f, u. rewrite filter_In. tauto.
Qed.

Lemma write_groups_spec dir gr out : write_groups dir gr = (out, true) ->
  map fst out = map (fun g => out_name (fst g) (snd g)) gr /\
  Forall2 (fun g o => exists s, read_group dir (fst g) (snd g) = Some s /\ merge_latest s = Some (snd o) /\ fst o = out_name (fst g) (snd g)) gr out.
Proof.
  revert out. induction gr as [|[d s] gr IH]; intros out E; cbn in E.
  - injection E as <-. split; [reflexivity|constructor].
  - destruct (read_group dir d s) as [st|] eqn:R; [|discriminate]. destruct (merge_latest st) as [tr|] eqn:M; [|discriminate].
    destruct (write_groups dir gr) as [o ok] eqn:W. injection E as <- ->. destruct (IH o eq_refl) as [F G]. split; [cbn; rewrite F; reflexivity|].
    constructor; [exists st; auto|exact G].
Qed.
Lemma write_groups_ok dir gr : (forall d s, In (d, s) gr -> exists st tr, read_group dir d s = Some st /\ merge_latest st = Some tr) ->
  exists out, write_groups dir gr = (out, true).
Proof.
  induction gr as [|[d s] gr IH]; intros H; [exists []; reflexivity|]. cbn.
  destruct (H d s (or_introl eq_refl)) as (st & tr & -> & ->). destruct IH as (out & ->); [intros d' s' I; apply H; right; exact I|]. eauto.
Qed.

(** * Names of converted files *)
Lemma lower_no c s : c < 65 -> In c (lower s) -> In c s.
Proof.
  intros L I. unfold lower in I. apply in_map_iff in I as (x & E & I). destruct ((65 <=? x) && (x <=? 90)) eqn:C; [|subst; exact I].
  apply andb_prop in C as [C _]. apply Z.leb_le in C. lia.
Qed.
