(** Proofs about conversions. *)
From Coq Require Import ZArith QArith Qround List Bool Lia Lqa.
From Verif Require Import Lib Base UnwrapSpec UnwrapProofs ReadSeveralProofs SegmentsProofs InterpProofs Stream StreamSpec StreamProofs StreamProps Convert ConvertSpec.
Import ListNotations.
Open Scope Z_scope.

(** * Cutting streams *)

Lemma order_app s t : in_order (s ++ t) <-> in_order s /\ in_order t /\ forall k l v w, sample s k v -> sample t l w -> k < l.
Proof.
  induction s as [|x s IH]; cbn [app].
  - split; [intros O; repeat split; [constructor|apply O|apply O|intros k l v w H; destruct (sample_nil _ _ H)]|tauto].
  - split.
    + intros O. apply order_tail in O as O'. apply IH in O' as (Os & Ot & B). split; [|split; [exact Ot|]].
      * destruct O as [F C]. split; [constructor; [inversion F; assumption|apply Os]|]. destruct s as [|y s]; [exact I|].
        split; [apply C|apply Os].
      * intros k l v w Hk Hl. apply sample_cons in Hk as [Hk|Hk]; [|exact (B _ _ _ _ Hk Hl)].
        apply tsample_range in Hk. pose proof (after_head x (s ++ t) l w O). rewrite sample_app in H. specialize (H (or_intror Hl)). lia.
    + intros (Os & Ot & B). assert (O' : in_order (s ++ t)).
      { apply IH. split; [eapply order_tail; exact Os|]. split; [exact Ot|]. intros k l v w Hk Hl. eapply B; [|exact Hl]. apply sample_cons. right. exact Hk. }
      split; [constructor; [eapply order_head; exact Os|apply O']|]. destruct s as [|y s].
      * destruct t as [|z t]; [exact I|]. split; [|apply O']. eapply B; [apply sample_cons; left; apply last_sample; eapply order_head; exact Os|].
        apply sample_cons. left. apply first_sample. eapply order_head. exact Ot.
      * cbn [app] in *. split; [eapply order_next; exact Os|apply O'].
Qed.

Lemma nth_error_skipn {A} (l : list A) n i : nth_error (skipn n l) i = nth_error l (n + i).
Proof. revert l. induction n as [|n IH]; intros l; [reflexivity|]. destruct l as [|x l]; [destruct i; reflexivity|]. cbn. apply IH. Qed.
Lemma nth_error_firstn {A} (l : list A) n i : nth_error (firstn n l) i = if (i <? n)%nat then nth_error l i else None.
Proof.
  revert l i. induction n as [|n IH]; intros l i; [destruct i; reflexivity|]. destruct l as [|x l]; [cbn [firstn]; destruct i as [|i]; [reflexivity|]; cbn [nth_error]; destruct (S i <? S n)%nat; reflexivity|].
  destruct i as [|i]; [reflexivity|]. cbn [firstn nth_error]. rewrite IH. reflexivity.
Qed.

Lemma clip_sample a z tr k v : tsample (clip a z tr) k v <-> a <= k <= z /\ tsample tr k v.
Proof.
  unfold tsample, clip. cbn [gs gd]. split.
  - intros (i & N & ->). rewrite nth_error_firstn, nth_error_skipn in N. destruct (Nat.ltb_spec i (Z.to_nat (z - Z.max a (gs tr) + 1))) as [L|L]; [|discriminate].
    split; [lia|]. exists (Z.to_nat (a - gs tr) + i)%nat. split; [exact N|lia].
  - intros (R & i & N & ->). exists (i - Z.to_nat (a - gs tr))%nat. rewrite nth_error_firstn, nth_error_skipn. split; [|lia].
    rewrite (proj2 (Nat.ltb_lt _ _)) by lia. rewrite <- N. f_equal. lia.
Qed.

Lemma nonempty_spec tr : nonempty tr = true <-> gd tr <> [].
Proof. unfold nonempty. destruct (gd tr); split; congruence. Qed.

Lemma clip_samples a z st k v : sample (filter nonempty (map (clip a z) st)) k v <-> a <= k <= z /\ sample st k v.
Proof.
  induction st as [|x st IH]; cbn [map filter].
  - split; [intros H; destruct (sample_nil _ _ H)|intros [_ H]; exact H].
  - assert (E : sample (filter nonempty (clip a z x :: map (clip a z) st)) k v <-> tsample (clip a z x) k v \/ sample (filter nonempty (map (clip a z) st)) k v).
    { cbn [filter]. destruct (nonempty (clip a z x)) eqn:N; [apply sample_cons|]. split; [auto|]. intros [(i & X & _)|H]; [|exact H].
      unfold nonempty in N. destruct (gd (clip a z x)); [destruct i; discriminate|discriminate]. }
    cbn [filter] in E. rewrite E, IH, clip_sample, sample_cons. tauto.
Qed.

Lemma clip_order a z st : in_order st -> in_order (filter nonempty (map (clip a z) st)).
Proof.
  intros O. induction st as [|x st IH]; cbn [map filter]; [exact O|]. specialize (IH (order_tail _ _ O)).
  destruct (nonempty (clip a z x)) eqn:N; [|exact IH]. apply nonempty_spec in N.
  change (clip a z x :: filter nonempty (map (clip a z) st)) with ([clip a z x] ++ filter nonempty (map (clip a z) st)).
  apply order_app. split; [split; [constructor; [exact N|constructor]|exact I]|]. split; [exact IH|]. intros k l v w Hk Hl.
  apply sample_cons in Hk as [Hk|Hk]; [|destruct (sample_nil _ _ Hk)]. apply clip_sample in Hk as [_ Hk]. apply clip_samples in Hl as [_ Hl].
  apply tsample_range in Hk. apply (after_head _ _ _ _ O) in Hl. lia.
Qed.

(** * Times *)

Lemma qceil_spec x k : qceil x <= k <-> (x <= inject_Z k)%Q.
Proof.
  unfold qceil. pose proof (Qfloor_le (- x)) as A. pose proof (Qlt_floor (- x)) as B. rewrite inject_Z_plus in B. change (inject_Z 1) with 1%Q in B.
  split.
  - intros H. assert (inject_Z (- k) <= inject_Z (Qfloor (- x)))%Q as X by (rewrite <- Zle_Qle; lia). rewrite inject_Z_opp in X. lra.
  - intros H. assert (inject_Z (- k) < inject_Z (Qfloor (- x) + 1))%Q as X by (rewrite inject_Z_opp, inject_Z_plus; change (inject_Z 1) with 1%Q; lra).
    rewrite <- Zlt_Qlt in X. lia.
Qed.
Lemma qfloor_spec x k : k <= Qfloor x <-> (inject_Z k <= x)%Q.
Proof.
  pose proof (Qfloor_le x) as A. pose proof (Qlt_floor x) as B. rewrite inject_Z_plus in B. change (inject_Z 1) with 1%Q in B. split.
  - intros H. rewrite Zle_Qle in H. lra.
  - intros H. assert (inject_Z k < inject_Z (Qfloor x + 1))%Q as X by (rewrite inject_Z_plus; change (inject_Z 1) with 1%Q; lra).
    rewrite <- Zlt_Qlt in X. lia.
Qed.

Lemma slice_samples st a z k v : sample (slice st a z) k v <-> ((a <= inject_Z k)%Q /\ (inject_Z k <= z)%Q) /\ sample st k v.
Proof. unfold slice. rewrite clip_samples, <- qceil_spec, <- qfloor_spec. tauto. Qed.
Lemma slice_order st a z : in_order st -> in_order (slice st a z).
Proof. apply clip_order. Qed.

(** Nearest sample. *)
Lemma round_away_bounds x : (inject_Z (round_away x) <= x + (1 # 2))%Q /\ (x - (1 # 2) <= inject_Z (round_away x))%Q.
Proof.
  unfold round_away. destruct (Qle_bool 0 x).
  - pose proof (Qfloor_le (x + (1 # 2))) as A. pose proof (Qlt_floor (x + (1 # 2))) as B. rewrite inject_Z_plus in B. change (inject_Z 1) with 1%Q in B. lra.
  - pose proof (Qfloor_le (- x + (1 # 2))) as A. pose proof (Qlt_floor (- x + (1 # 2))) as B. rewrite inject_Z_plus in B. change (inject_Z 1) with 1%Q in B.
    rewrite inject_Z_opp. lra.
Qed.

(** Trimming, when the end is not reached: everything from the sample nearest to the start. *)
Lemma trim_samples st a z : in_order st -> (a <= z)%Q ->
  (forall k v, sample st k v -> (inject_Z k + 1 <= z)%Q) ->
  exists st' n, trim st a z = Some st' /\ in_order st' /\ (forall k v, sample st' k v <-> n <= k /\ sample st k v) /\
    n <= qceil a /\ (forall h, (a == inject_Z h)%Q -> n = h).
Proof.
  intros O Az Hz. destruct st as [|tr r].
  - exists [], (qceil a). split; [reflexivity|]. split; [exact O|]. split; [intros k v; split; [intros H; destruct (sample_nil _ _ H)|intros [_ H]; exact H]|].
    split; [lia|]. intros h E. assert (qceil a <= h) by (apply qceil_spec; lra). assert (h <= qceil a); [|lia].
    assert (~ qceil a <= h - 1) as X; [|lia]. rewrite qceil_spec. unfold Z.sub. rewrite inject_Z_plus. change (inject_Z (-(1))) with (-1)%Q. lra.
  - set (n := gs tr + round_away (a - inject_Z (gs tr))). set (e := gend tr + round_away (z - inject_Z (gend tr))).
    assert (En : (inject_Z n <= a + (1 # 2))%Q /\ (a - (1 # 2) <= inject_Z n)%Q).
    { unfold n. rewrite inject_Z_plus. pose proof (round_away_bounds (a - inject_Z (gs tr))). lra. }
    assert (Ee : (inject_Z e <= z + (1 # 2))%Q /\ (z - (1 # 2) <= inject_Z e)%Q).
    { unfold e. rewrite inject_Z_plus. pose proof (round_away_bounds (z - inject_Z (gend tr))). lra. }
    assert (Be : forall k v, sample (tr :: r) k v -> k <= e).
    { intros k v H. apply Hz in H. assert (inject_Z k < inject_Z (e + 1))%Q as X by (rewrite inject_Z_plus; change (inject_Z 1) with 1%Q; lra).
      rewrite <- Zlt_Qlt in X. lia. }
    assert (Na : n <= qceil a).
    { assert (~ qceil a + 1 <= n) as X; [|lia]. intros X. rewrite Zle_Qle, inject_Z_plus in X. change (inject_Z 1) with 1%Q in X.
      pose proof (proj1 (qceil_spec a (qceil a)) (Z.le_refl _)). lra. }
    assert (Ln : n <= e).
    { pose proof (round_away_bounds (a - inject_Z (gs tr))) as Ra.
      destruct (Z.le_gt_cases n e); [assumption|exfalso].
      assert (X : (inject_Z (e + 1) <= inject_Z n)%Q) by (rewrite <- Zle_Qle; lia). rewrite inject_Z_plus in X. change (inject_Z 1) with 1%Q in X.
      (* a = z with both exactly half-way *)
      assert (Eq : (a == z)%Q) by lra. assert (E1 : (inject_Z n == a + (1 # 2))%Q) by lra.
      assert (N := order_head _ _ O). pose proof (first_sample _ N) as Fs. pose proof (last_sample _ N) as Ls.
      assert (S1 := Hz (gs tr) _ (proj2 (sample_cons _ _ _ _) (or_introl Fs))). assert (S2 := Hz (gend tr) _ (proj2 (sample_cons _ _ _ _) (or_introl Ls))).
      unfold n, e, round_away in *.
      assert (Qle_bool 0 (a - inject_Z (gs tr)) = true) as Q1 by (apply Qle_bool_iff; lra).
      assert (Qle_bool 0 (z - inject_Z (gend tr)) = true) as Q2 by (apply Qle_bool_iff; lra).
      rewrite Q1, Q2 in *. rewrite !inject_Z_plus in *.
      assert (F1 : Qfloor (a - inject_Z (gs tr) + (1 # 2)) = Qfloor (z + (1 # 2) - inject_Z (gs tr))) by (apply Qfloor_comp; lra).
      assert (F2 : Qfloor (z + (1 # 2) - inject_Z (gs tr)) = Qfloor (z + (1 # 2)) - gs tr).
      { rewrite <- Z.add_opp_r, <- floor_plus. apply Qfloor_comp. rewrite inject_Z_opp. lra. }
      assert (F3 : Qfloor (z - inject_Z (gend tr) + (1 # 2)) = Qfloor (z + (1 # 2)) - gend tr).
      { rewrite <- Z.add_opp_r, <- floor_plus. apply Qfloor_comp. rewrite inject_Z_opp. lra. }
      rewrite F1, F2 in *. rewrite F3 in *. lia. }
    exists (filter nonempty (map (clip n e) (tr :: r))), n. split; [|split; [apply clip_order; exact O|split; [|split; [exact Na|]]]].
    + unfold trim. fold n. fold e. rewrite (proj2 (Z.ltb_ge _ _)) by exact Ln. reflexivity.
    + intros k v. rewrite clip_samples. split; [tauto|]. intros [A B]. split; [|exact B]. split; [exact A|exact (Be _ _ B)].
    + intros h E. assert (~ n + 1 <= h) as X1 by (intros X; rewrite Zle_Qle, inject_Z_plus in X; change (inject_Z 1) with 1%Q in X; lra).
      assert (~ h + 1 <= n) as X2 by (intros X; rewrite Zle_Qle, inject_Z_plus in X; change (inject_Z 1) with 1%Q in X; lra). lia.
Qed.

(** * Gap filling of a growing record *)

(** As [fills], for gaps that begin at a time in [C]. *)
Definition fills_if (C : Z -> Prop) (S : Z -> Z -> Prop) (k v : Z) : Prop :=
  exists i j a z, C i /\ S i a /\ S j z /\ i < k < j /\ j - i <= 3 /\ (forall m w, i < m < j -> ~ S m w) /\
    v = Z.quot (a * (j - i) + (k - i) * (z - a)) (j - i).
Definition record (C : Z -> Prop) (D : stream) (k v : Z) : Prop := sample D k v \/ fills_if C (sample D) k v.

Definition ends (st : stream) (e : Z) : Prop := (exists v, sample st e v) /\ forall k v, sample st k v -> k <= e.

Lemma ends_unique st e e' : ends st e -> ends st e' -> e = e'.
Proof. intros [[v V] A] [[w W] B]. apply A in W. apply B in V. lia. Qed.

Lemma last_cons {A} (l : list A) x y : last (y :: l) x = last l y.
Proof. revert x y. induction l as [|z l IH]; intros x y; [reflexivity|]. change (last (z :: l) x = last (z :: l) y). rewrite !IH. reflexivity. Qed.

Lemma ends_last x st : in_order (x :: st) -> ends (x :: st) (gend (last st x)).
Proof.
  revert x. induction st as [|y st IH]; intros x O.
  - split; [eexists; apply sample_cons; left; apply last_sample; eapply order_head; exact O|].
    intros k v H. apply sample_cons in H as [H|H]; [apply tsample_range in H; cbn; lia|destruct (sample_nil _ _ H)].
  - destruct (IH y (order_tail _ _ O)) as [[v V] B]. rewrite last_cons.
    split; [exists v; apply sample_cons; right; exact V|]. intros k w H. apply sample_cons in H as [H|H]; [|exact (B _ _ H)].
    apply tsample_range in H. pose proof (after_head _ _ _ _ O V). lia.
Qed.

Lemma end_time_ends p e : in_order p -> ends p e -> end_time p = Some (inject_Z e).
Proof.
  intros O E. destruct p as [|x r]; [destruct E as [[v V] _]; destruct (sample_nil _ _ V)|]. cbn. rewrite (ends_unique _ _ _ E (ends_last _ _ O)). reflexivity.
Qed.
Lemma ends_exists p : in_order p -> p <> [] -> exists e, ends p e.
Proof. intros O N. destruct p as [|x r]; [congruence|]. eexists. apply ends_last. exact O. Qed.
Lemma ends_nonempty p e : ends p e -> p <> [].
Proof. intros [[v V] _] ->. destruct (sample_nil _ _ V). Qed.

Lemma sample_dec st k : in_order st -> (exists v, sample st k v) \/ (forall v, ~ sample st k v).
Proof.
  intros O. induction st as [|x st IH]; [right; intros v; apply sample_nil|].
  destruct (IH (order_tail _ _ O)) as [[v V]|N]; [left; exists v; apply sample_cons; auto|].
  destruct (Z_le_dec (gs x) k) as [A|A], (Z_le_dec k (gend x)) as [B|B].
  { destruct (tsample_at x k) as (v & V); [lia|]. left. exists v. apply sample_cons. auto. }
  all: right; intros v V; apply sample_cons in V as [V|V]; [apply tsample_range in V; lia|exact (N v V)].
Qed.

Lemma record_unique C D k v w : in_order D -> record C D k v -> record C D k w -> v = w.
Proof.
  intros O [H|(i & j & a & z & _ & Si & Sj & R & D1 & Nb & E)] [H'|(i' & j' & a' & z' & _ & Si' & Sj' & R' & D1' & Nb' & E')].
  - exact (sample_unique _ _ _ _ O H H').
  - destruct (Nb' k v R' H).
  - destruct (Nb k w R H').
  - assert (i = i') as <-. { destruct (Z.lt_trichotomy i i') as [L|[L|L]]; [exfalso; exact (Nb i' a' ltac:(lia) Si')|exact L|exfalso; exact (Nb' i a ltac:(lia) Si)]. }
    assert (j = j') as <-. { destruct (Z.lt_trichotomy j j') as [L|[L|L]]; [exfalso; exact (Nb' j z ltac:(lia) Sj)|exact L|exfalso; exact (Nb j' z' ltac:(lia) Sj')]. }
    rewrite (sample_unique _ _ _ _ O Si Si') in E. rewrite (sample_unique _ _ _ _ O Sj Sj') in E. congruence.
Qed.

(** All of a gap is filled, or nothing. *)
Lemma record_whole_gap C D i j k m v : in_order D -> (exists a, sample D i a) -> (exists z, sample D j z) ->
  (forall m w, i < m < j -> ~ sample D m w) -> i < k < j -> i < m < j -> record C D k v -> exists w, record C D m w.
Proof.
  intros O (a & Si) (z & Sj) Nb R Rm [H|(i' & j' & a' & z' & Ci & Si' & Sj' & R' & D1 & Nb' & E)]; [destruct (Nb k v R H)|].
  assert (i = i') as <-. { destruct (Z.lt_trichotomy i i') as [L|[L|L]]; [exfalso; exact (Nb i' a' ltac:(lia) Si')|exact L|exfalso; exact (Nb' i a ltac:(lia) Si)]. }
  assert (j = j') as <-. { destruct (Z.lt_trichotomy j j') as [L|[L|L]]; [exfalso; exact (Nb' j z ltac:(lia) Sj)|exact L|exfalso; exact (Nb j' z' ltac:(lia) Sj')]. }
  eexists. right. exists i, j, a', z'. split; [exact Ci|]. repeat split; try eassumption; try lia.
Qed.

(** A part [p] of the record from [g] on, merged with later samples [N]. *)
Lemma merge_record C D N p g : in_order (D ++ N) -> in_order p ->
  (forall k v, sample p k v <-> g <= k /\ record C D k v) -> (exists e, ends p e /\ ends D e) ->
  in_order (p ++ N) /\
  forall k v, sample (merge_gaps (p ++ N)) k v <-> g <= k /\ record (fun i => C i \/ g <= i) (D ++ N) k v.
Proof.
  intros O Op Hp (e & Ep & Ed). apply order_app in O as O'. destruct O' as (Od & On & B).
  assert (OpN : in_order (p ++ N)).
  { apply order_app. split; [exact Op|]. split; [exact On|]. intros k l v w Hk Hl. apply Ep in Hk. destruct Ed as [[u U] _]. specialize (B _ _ _ _ U Hl). lia. }
  split; [exact OpN|]. intros k v. rewrite C21_samples_after_merging by exact OpN.
  destruct Ep as [[ve Ve] Pmax]. destruct Ed as [[vd Vd] Dmax].
  assert (Ge : g <= e) by (apply Hp in Ve; lia).
  assert (Nlt : forall l w, sample N l w -> e < l) by (intros l w Hl; exact (B _ _ _ _ Vd Hl)).
  assert (Dp : forall k v, g <= k -> sample D k v -> sample p k v) by (intros; apply Hp; split; [assumption|left; assumption]).
  split.
  - intros [H|(i & j & a & z & Si & Sj & R & D1 & Nb & E)].
    + apply sample_app in H as [H|H].
      * apply Hp in H as [A [H|(i & j & a & z & Ci & Si & Sj & R & D1 & Nb & E)]]; (split; [exact A|]); [left; apply sample_app; left; exact H|].
        right. exists i, j, a, z. split; [left; exact Ci|]. split; [apply sample_app; left; exact Si|]. split; [apply sample_app; left; exact Sj|].
        split; [exact R|]. split; [exact D1|]. split; [|exact E]. intros m w Hm Sm. apply sample_app in Sm as [Sm|Sm]; [exact (Nb m w Hm Sm)|].
        apply Nlt in Sm. apply Dmax in Sj. lia.
      * pose proof (Nlt _ _ H). split; [lia|]. left. apply sample_app. right. exact H.
    + assert (Gi : g <= i) by (apply sample_app in Si as [Si|Si]; [apply Hp in Si; lia|apply Nlt in Si; lia]).
      split; [lia|]. right. exists i, j, a, z. split; [right; exact Gi|].
      assert (SiD : sample (D ++ N) i a /\ sample (D ++ N) j z).
      { apply sample_app in Sj as [Sj|Sj].
        - assert (Si' : sample p i a) by (apply sample_app in Si as [Si|Si]; [exact Si|apply Nlt in Si; apply Pmax in Sj; lia]).
          apply Hp in Si' as [_ Ri]. apply Hp in Sj as [_ Rj].
          assert (Np : forall m w, i < m < j -> ~ record C D m w).
          { intros m w Hm Rm. apply (Nb m w Hm). apply sample_app. left. apply Hp. split; [lia|exact Rm]. }
          split; apply sample_app; left.
          + destruct Ri as [Ri|(i0 & j0 & a0 & z0 & Ci & Si0 & Sj0 & R0 & D0 & Nb0 & E0)]; [exact Ri|exfalso].
            destruct (Z.eq_dec (i + 1) j0) as [Q|Q]; [apply (Np (i + 1) z0); [lia|]; left; rewrite Q; exact Sj0|].
            destruct (record_whole_gap C D i0 j0 i (i + 1) a Od (ex_intro _ _ Si0) (ex_intro _ _ Sj0) Nb0 R0) as (w & W); [lia| |exact (Np (i + 1) w ltac:(lia) W)].
            right. exists i0, j0, a0, z0. tauto.
          + destruct Rj as [Rj|(i0 & j0 & a0 & z0 & Ci & Si0 & Sj0 & R0 & D0 & Nb0 & E0)]; [exact Rj|exfalso].
            destruct (Z.eq_dec (j - 1) i0) as [Q|Q]; [apply (Np (j - 1) a0); [lia|]; left; rewrite Q; exact Si0|].
            destruct (record_whole_gap C D i0 j0 j (j - 1) z Od (ex_intro _ _ Si0) (ex_intro _ _ Sj0) Nb0 R0) as (w & W); [lia| |exact (Np (j - 1) w ltac:(lia) W)].
            right. exists i0, j0, a0, z0. tauto.
        - split; [|apply sample_app; right; exact Sj]. apply sample_app in Si as [Si|Si]; [|apply sample_app; right; exact Si].
          apply sample_app. left. assert (i = e) as ->.
          { pose proof (Pmax _ _ Si). destruct (Z.eq_dec i e); [assumption|exfalso]. apply (Nb e ve); [apply Nlt in Sj; lia|]. apply sample_app. left. exact Ve. }
          apply Hp in Si as [_ Ri]. rewrite (record_unique C D e a vd Od Ri) by (left; exact Vd). exact Vd. }
      destruct SiD as [A1 A2]. split; [exact A1|]. split; [exact A2|]. split; [exact R|]. split; [exact D1|]. split; [|exact E].
      intros m w Hm Sm. apply (Nb m w Hm). apply sample_app. apply sample_app in Sm as [Sm|Sm]; [|right; exact Sm]. left. apply Dp; [lia|exact Sm].
  - intros [Gk [H|(i & j & a & z & Ci & Si & Sj & R & D1 & Nb & E)]].
    + left. apply sample_app. apply sample_app in H as [H|H]; [left; apply Dp; assumption|right; exact H].
    + assert (NbD : forall m w, i < m < j -> ~ sample D m w) by (intros m w Hm Sm; apply (Nb m w Hm); apply sample_app; left; exact Sm).
      apply sample_app in Sj as [Sj|Sj].
      * assert (Si' : sample D i a) by (apply sample_app in Si as [Si|Si]; [exact Si|apply Nlt in Si; apply Dmax in Sj; lia]).
        destruct Ci as [Ci|Ci]; [left; apply sample_app; left; apply Hp; split; [exact Gk|]; right; exists i, j, a, z; repeat split; auto; lia|].
        destruct (sample_dec p k Op) as [[w W]|Nk].
        { left. apply sample_app. left. assert (v = w); [|subst; exact W]. apply Hp in W as [_ [W|W]]; [destruct (NbD k w R W)|].
          apply (record_unique (fun _ => True) D k v w Od); right.
          - exists i, j, a, z. repeat split; auto; lia.
          - destruct W as (i' & j' & a' & z' & _ & X). exists i', j', a', z'. split; [exact I|exact X]. }
        right. exists i, j, a, z. split; [apply sample_app; left; apply Dp; assumption|]. split; [apply sample_app; left; apply Dp; [lia|assumption]|].
        split; [exact R|]. split; [exact D1|]. split; [|exact E]. intros m w Hm Sm. apply sample_app in Sm as [Sm|Sm].
        -- apply Hp in Sm as [_ Rm]. destruct (record_whole_gap C D i j m k w Od (ex_intro _ _ Si') (ex_intro _ _ Sj) NbD Hm R Rm) as (u & U).
           apply (Nk u). apply Hp. split; [exact Gk|exact U].
        -- apply Nlt in Sm. apply Dmax in Sj. lia.
      * right. exists i, j, a, z. split; [|split; [apply sample_app; right; exact Sj|]].
        { apply sample_app in Si as [Si|Si]; [|apply sample_app; right; exact Si]. apply sample_app. left.
          assert (i = e) as ->. { pose proof (Dmax _ _ Si). destruct (Z.eq_dec i e); [assumption|exfalso]. apply (NbD e vd); [apply Nlt in Sj; lia|exact Vd]. }
          apply Dp; assumption. }
        split; [exact R|]. split; [exact D1|]. split; [|exact E]. intros m w Hm Sm. apply sample_app in Sm as [Sm|Sm].
        -- pose proof (Pmax _ _ Sm). apply sample_app in Si as [Si|Si]; [|apply Nlt in Si; lia].
           pose proof (Dmax _ _ Si). destruct (Z.eq_dec i e) as [->|Q]; [lia|]. apply (NbD e vd); [apply Nlt in Sj; lia|exact Vd].
        -- apply (Nb m w Hm). apply sample_app. right. exact Sm.
Qed.

Lemma record_stable (C C' : Z -> Prop) D N e k v : in_order (D ++ N) -> ends D e -> k < e -> (forall i, C i -> C' i) -> (forall i, C' i -> i < k -> C i) ->
  (record C D k v <-> record C' (D ++ N) k v).
Proof.
  intros O [[ve Ve] Dmax] Hk C1 C2. apply order_app in O as (Od & On & B).
  assert (Nlt : forall l w, sample N l w -> e < l) by (intros l w Hl; exact (B _ _ _ _ Ve Hl)). split.
  - intros [H|(i & j & a & z & Ci & Si & Sj & R & D1 & Nb & E)]; [left; apply sample_app; left; exact H|]. right.
    exists i, j, a, z. split; [apply C1; exact Ci|]. split; [apply sample_app; left; exact Si|]. split; [apply sample_app; left; exact Sj|].
    split; [exact R|]. split; [exact D1|]. split; [|exact E]. intros m w Hm Sm. apply sample_app in Sm as [Sm|Sm]; [exact (Nb m w Hm Sm)|].
    apply Nlt in Sm. apply Dmax in Sj. lia.
  - intros [H|(i & j & a & z & Ci & Si & Sj & R & D1 & Nb & E)].
    + apply sample_app in H as [H|H]; [left; exact H|]. apply Nlt in H. lia.
    + right. assert (NbD : forall m w, i < m < j -> ~ sample D m w) by (intros m w Hm Sm; apply (Nb m w Hm); apply sample_app; left; exact Sm).
      assert (Si' : sample D i a) by (apply sample_app in Si as [Si|Si]; [exact Si|apply Nlt in Si; lia]).
      assert (Sj' : sample D j z).
      { apply sample_app in Sj as [Sj|Sj]; [exact Sj|exfalso]. apply Nlt in Sj. exact (NbD e ve ltac:(lia) Ve). }
      exists i, j, a, z. split; [apply C2; [exact Ci|lia]|]. tauto.
Qed.

Lemma record_max C D e k v : ends D e -> record C D k v -> k <= e.
Proof. intros [_ Dm] [H|(i & j & a & z & _ & _ & Sj & R & _)]; [exact (Dm _ _ H)|]. apply Dm in Sj. lia. Qed.

Lemma merge_gaps_order p : in_order p -> in_order (merge_gaps p).
Proof.
  intros O. destruct p as [|x r]; [exact O|]. rewrite merge_gaps_joins by exact O. destruct (joins_order r x O) as [F Ch].
  split; [exact F|]. revert Ch. generalize (joins x r). clear. intros l. induction l as [|y l IH]; [auto|]. destruct l as [|z l]; [auto|]. intros [A B].
  split; [lia|]. apply IH. exact B.
Qed.

Section Loops.
  Variables M G P : Type.
  Variable gps_time : G -> Q.
  Variable read_gem : list Z -> outcome M G P.
  Variable nums : list Z.
  Variable blockdays : Q.
  Variable f : Z.
  Variable t2 : Q.
  Variable blocks : list (list Z).
  Let flen : Q := inject_Z f.
  Let per : Q := (12 * blockdays)%Q.
  Let N : nat := length blocks.
  Let D_ : Q := (day * blockdays)%Q.

  Hypothesis Hb : (0 < blockdays)%Q.
  Hypothesis Hf : 0 < f.
  Hypothesis Hdiv : divided nums per blocks.
  Hypothesis HR : forall bl, In bl blocks -> read_gem bl <> Raises.

  Definition upto {A} (g : outcome M G P -> list A) (i : nat) : list A := flat_map (fun bl => g (read_gem bl)) (firstn i blocks).
  Notation D := (upto data_of).

  Hypothesis HO : in_order (D N).
  Hypothesis Hpos : forall k v, sample (D N) k v -> 0 <= k.
  Hypothesis Hlate : forall k v, sample (D N) k v -> (inject_Z k + D_ + flen + 200 <= t2)%Q.

  Lemma firstn_next {A} (l : list A) i x : nth_error l i = Some x -> firstn (S i) l = firstn i l ++ [x].
  Proof. revert l. induction i as [|i IH]; intros [|y l] E; try discriminate; cbn in *; [congruence|]. f_equal. apply IH. exact E. Qed.

  Lemma upto_next {A} (g : outcome M G P -> list A) i bl : nth_error blocks i = Some bl -> upto g (S i) = upto g i ++ g (read_gem bl).
  Proof. intros E. unfold upto. rewrite (firstn_next _ _ _ E), flat_map_app. cbn. rewrite app_nil_r. reflexivity. Qed.

  Lemma upto_split {A} (g : outcome M G P -> list A) i : exists r, upto g N = upto g i ++ r.
  Proof.
    exists (flat_map (fun bl => g (read_gem bl)) (skipn i blocks)). unfold upto, N. rewrite firstn_all, <- flat_map_app, firstn_skipn. reflexivity.
  Qed.

  Lemma order_upto i : in_order (D i).
  Proof. destruct (upto_split data_of i) as (r & E). rewrite E in HO. apply order_app in HO. tauto. Qed.
  Lemma in_upto i k v : sample (D i) k v -> sample (D N) k v.
  Proof. destruct (upto_split data_of i) as (r & ->). intros H. apply sample_app. left. exact H. Qed.

  Lemma per_pos : (0 < per)%Q.
  Proof using Hb. unfold per. lra. Qed.

  Lemma in_blocks n : In n nums -> exists j bl, nth_error blocks j = Some bl /\ In n bl.
  Proof using Hdiv.
    destruct Hdiv as (_ & <- & _). intros I. apply in_concat in I as (bl & I & J). apply In_nth_error in I as (j & E). eauto.
  Qed.

  Definition n1_at (i : nat) (n1 : Q) : Prop := (n1 == inject_Z (hd 0%Z nums) + inject_Z (Z.of_nat i) * per)%Q.

  Lemma Qnat_le i j : (i <= j)%nat -> (inject_Z (Z.of_nat i) <= inject_Z (Z.of_nat j))%Q.
  Proof using. clear. intros. rewrite <- Zle_Qle. lia. Qed.
  Lemma Qnat_S i : (inject_Z (Z.of_nat (S i)) == inject_Z (Z.of_nat i) + 1)%Q.
  Proof using. clear. rewrite Nat2Z.inj_succ. unfold Z.succ. rewrite inject_Z_plus. reflexivity. Qed.
  Lemma mul_le a c : (a <= c)%Q -> (a * per <= c * per)%Q.
  Proof using Hb. intros. apply Qmult_le_compat_r; [assumption|]. pose proof per_pos. lra. Qed.

  Lemma n1_next i n1 : n1_at i n1 -> n1_at (S i) (n1 + per_block blockdays).
  Proof using. unfold n1_at. intros E. rewrite Qnat_S. unfold per_block. fold per. rewrite E. ring. Qed.

  Lemma more_iff i n1 : n1_at i n1 -> (more nums n1 = true <-> (i < N)%nat).
  Proof using Hb Hdiv read_gem f P M G.
    clear HR HO Hpos Hlate.
    unfold n1_at. intros E. unfold more. rewrite existsb_exists. pose proof per_pos as Pp. split.
    - intros (n & I & L). apply Qle_bool_iff in L. destruct (in_blocks n I) as (j & bl & Ej & J).
      destruct Hdiv as (_ & _ & _ & B). destruct (B j bl n Ej J) as [_ X]. unfold Z.sub in X. rewrite inject_Z_plus, inject_Z_opp in X.
      assert (j < N)%nat by (apply nth_error_Some; congruence).
      destruct (Nat.le_gt_cases i j) as [|Gt]; [lia|exfalso]. pose proof (mul_le _ _ (Qnat_le (S j) i ltac:(lia))) as Y. rewrite Qnat_S in Y. lra.
    - intros L. destruct Hdiv as (_ & C & La & B).
      assert (Nb : blocks <> []) by (intros X; unfold N in L; rewrite X in L; cbn in L; lia).
      destruct (last blocks []) as [|n bl] eqn:El; [congruence|].
      assert (El' : nth_error blocks (N - 1) = Some (n :: bl)).
      { rewrite (app_removelast_last [] Nb) at 1. pose proof (app_removelast_last [] Nb) as X. apply (f_equal (@length (list Z))) in X. rewrite app_length in X. cbn in X.
        rewrite nth_error_app2 by (unfold N; lia). replace (N - 1 - length (removelast blocks))%nat with 0%nat by (unfold N; lia). rewrite El. reflexivity. }
      exists n. split.
      + rewrite <- C. apply in_concat. exists (n :: bl). split; [eapply nth_error_In; exact El'|left; reflexivity].
      + apply Qle_bool_iff. destruct (B _ _ n El' (or_introl eq_refl)) as [X _]. unfold Z.sub in X. rewrite inject_Z_plus, inject_Z_opp in X.
        pose proof (mul_le _ _ (Qnat_le i (N - 1) ltac:(lia))). lra.
  Qed.

  Lemma filter_all {A} (p : A -> bool) l : (forall x, In x l -> p x = true) -> filter p l = l.
  Proof. induction l as [|x l IH]; intros H; [reflexivity|]. cbn. rewrite (H x (or_introl eq_refl)), IH; auto. intros y I. apply H. right. exact I. Qed.
  Lemma filter_none {A} (p : A -> bool) l : (forall x, In x l -> p x = false) -> filter p l = [].
  Proof. induction l as [|x l IH]; intros H; [reflexivity|]. cbn. rewrite (H x (or_introl eq_refl)). apply IH. intros y I. apply H. right. exact I. Qed.

  Lemma block_is i n1 bl : n1_at i n1 -> nth_error blocks i = Some bl -> block nums blockdays n1 = bl.
  Proof using Hb Hdiv read_gem f P M G.
    clear HR HO Hpos Hlate.
    unfold n1_at. intros E Ei. unfold block. set (p := fun n => _). pose proof per_pos as Pp.
    assert (Hp : forall j b' n, nth_error blocks j = Some b' -> In n b' -> p n = true <-> i = j).
    { intros j b' n Ej I. destruct Hdiv as (_ & _ & _ & B). destruct (B j b' n Ej I) as [X Y]. unfold Z.sub in X, Y. rewrite inject_Z_plus, inject_Z_opp in X, Y.
      unfold p. rewrite andb_true_iff, Qle_bool_iff, Qltb_lt. unfold per_block. fold per. split.
      - intros [A1 A2]. destruct (Nat.lt_trichotomy i j) as [L|[L|L]]; [exfalso|exact L|exfalso].
        + pose proof (mul_le _ _ (Qnat_le (S i) j ltac:(lia))) as Z1. rewrite Qnat_S in Z1. lra.
        + pose proof (mul_le _ _ (Qnat_le (S j) i ltac:(lia))) as Z1. rewrite Qnat_S in Z1. lra.
      - intros <-. lra. }
    destruct Hdiv as (_ & C & _ & _). rewrite <- C. destruct (nth_error_split _ _ Ei) as (l1 & l2 & Eb & L1).
    assert (X : forall j b', nth_error blocks j = Some b' -> j <> i -> filter p b' = []).
    { intros j b' Ej Nij. apply filter_none. intros n I. destruct (p n) eqn:Pn; [|reflexivity]. apply (Hp j b' n Ej I) in Pn. congruence. }
    assert (Y : forall l, (forall b', In b' l -> filter p b' = []) -> filter p (concat l) = []).
    { induction l as [|y l IH]; intros H; [reflexivity|]. cbn. rewrite filter_app, (H y (or_introl eq_refl)), IH; [reflexivity|]. intros b' I. apply H. right. exact I. }
    rewrite Eb at 1. rewrite concat_app. cbn [concat]. rewrite !filter_app. rewrite (filter_all p bl).
    - rewrite (Y l1), (Y l2); [cbn; apply app_nil_r| |].
      + intros b' I. apply In_nth_error in I as (j & Ej). apply (X (i + 1 + j)%nat); [|lia]. rewrite Eb, nth_error_app2 by lia.
        replace (i + 1 + j - length l1)%nat with (S j) by lia. exact Ej.
      + intros b' I. apply In_nth_error in I as (j & Ej). assert (j < length l1)%nat by (apply nth_error_Some; congruence).
        apply (X j); [|lia]. rewrite Eb, nth_error_app1 by lia. exact Ej.
    - intros n I. apply (Hp i bl n Ei I). reflexivity.
  Qed.

  (** * Reading *)

  Definition reads_upto (i : nat) : list (list Z) := firstn i blocks.

  Lemma first_block_ok i n1 : n1_at i n1 -> D i = [] -> D N <> [] ->
    exists n ev i' n1' st m g pb bl, (i < i' <= N)%nat /\ n1_at i' n1' /\
      (forall fuel, (n <= fuel)%nat -> first_block M G P read_gem nums blockdays fuel n1 = (ev, Returns (n1', (st, m, g, pb)))) /\
      nth_error blocks (i' - 1) = Some bl /\ read_gem bl = Block st m g pb /\ st <> [] /\ D i' = st /\ D (i' - 1) = [] /\
      reads_upto i ++ reads ev = reads_upto i' /\ metas ev = [] /\ gpss ev = [] /\ written ev = [].
  Proof.
    remember (N - i)%nat as d eqn:Ed. revert i n1 Ed. induction d as [|d IH]; intros i n1 Ed E1 Ei Ne.
    - exfalso. apply Ne. unfold upto. rewrite firstn_all2 by (unfold N in *; lia). unfold upto in Ei. rewrite firstn_all2 in Ei by (unfold N in *; lia). exact Ei.
    - assert (Li : (i < N)%nat) by lia. destruct (nth_error blocks i) as [bl|] eqn:Eb; [|apply nth_error_None in Eb; unfold N in Li; lia].
      assert (Mo : more nums n1 = true) by (apply (more_iff i n1 E1); exact Li).
      pose proof (block_is i n1 bl E1 Eb) as Bl. pose proof (upto_next data_of i bl Eb) as Dn. rewrite Ei in Dn. cbn [app] in Dn.
      assert (Skip : data_of (read_gem bl) = [] -> (read_gem bl = Skipped \/ exists m g pb, read_gem bl = Block [] m g pb)).
      { pose proof (HR bl (nth_error_In _ _ Eb)). destruct (read_gem bl); [auto|congruence|]. cbn. intros ->. right. eauto. }
      destruct (data_of (read_gem bl)) as [|tr r] eqn:Ed'.
      + destruct (IH (S i) (n1 + per_block blockdays)%Q ltac:(lia) (n1_next _ _ E1) Dn Ne)
          as (n & ev & i' & n1' & st & m & g & pb & bl' & Li' & E1' & Run & Eb' & Er & Ns & Ds & Dp & Rd & Me & Gp & Wr).
        exists (S n), (Read bl :: ev), i', n1', st, m, g, pb, bl'. split; [lia|]. split; [exact E1'|]. split.
        { intros fuel Lf. destruct fuel as [|fuel]; [lia|]. cbn [first_block]. rewrite Mo, Bl.
          destruct (Skip eq_refl) as [->|(? & ? & ? & ->)]; rewrite Run by lia; reflexivity. }
        repeat (split; [assumption|]). split; [|repeat split; assumption].
        cbn [reads flat_map]. rewrite <- Rd. unfold reads_upto. rewrite (firstn_next _ _ _ Eb), <- app_assoc. reflexivity.
      + destruct (read_gem bl) as [| |st m g pb] eqn:Er; try discriminate. cbn in Ed'. subst st.
        exists 1%nat, [Read bl], (S i), (n1 + per_block blockdays)%Q, (tr :: r), m, g, pb, bl.
        split; [lia|]. split; [apply n1_next; exact E1|]. split.
        { intros fuel Lf. destruct fuel as [|fuel]; [lia|]. cbn [first_block]. rewrite Mo, Bl, Er. reflexivity. }
        replace (S i - 1)%nat with i by lia. split; [exact Eb|]. split; [exact Er|]. split; [discriminate|]. split; [exact Dn|]. split; [exact Ei|].
        split; [|repeat split]. unfold reads_upto. rewrite (firstn_next _ _ _ Eb). reflexivity.
  Qed.

  Lemma skip_case (o : outcome M G P) : o <> Raises -> data_of o = [] ->
    (o = Skipped \/ exists m g pb, o = Block [] m g pb) /\ meta_of o = [] /\ gps_of o = [] /\ problems_of o = [].
  Proof. destruct o as [| |st m g pb]; intros H E; [auto|congruence|]. cbn in E. subst st. split; [right; eauto|auto]. Qed.

  Lemma ends_app_r p q e e' : in_order (p ++ q) -> ends p e -> ends q e' -> ends (p ++ q) e'.
  Proof.
    intros O [[v V] A] [[w W] B]. apply order_app in O as (_ & _ & L). split; [exists w; apply sample_app; auto|].
    intros k x H. apply sample_app in H as [H|H]; [pose proof (L _ _ _ _ H W); lia|exact (B _ _ H)].
  Qed.

  Lemma read_more_ok tt2 : forall d i n1 p C g e pbs, (N - i)%nat = d -> (i <= N)%nat -> n1_at i n1 -> in_order p ->
    (forall k v, sample p k v <-> g <= k /\ record C (D i) k v) -> ends p e -> ends (D i) e ->
    exists n ev i' n1' p' C' e' r, (forall fuel, (n <= fuel)%nat -> read_more M G P read_gem nums blockdays fuel n1 tt2 p pbs = (ev, Returns (n1', p', pbs ++ r))) /\
      (i <= i' <= N)%nat /\ n1_at i' n1' /\ in_order p' /\ (forall k v, sample p' k v <-> g <= k /\ record C' (D i') k v) /\
      ends p' e' /\ ends (D i') e' /\ (i' = N \/ (tt2 <= inject_Z e')%Q) /\ (forall m, C m -> C' m) /\ (forall m, C' m -> C m \/ g <= m) /\
      reads_upto i ++ reads ev = reads_upto i' /\ upto meta_of i ++ metas ev = upto meta_of i' /\
      upto gps_of i ++ gpss ev = upto gps_of i' /\ upto problems_of i ++ r = upto problems_of i' /\ written ev = [].
  Proof.
    induction d as [|d IH]; intros i n1 p C g e pbs Ed Li E1 Op Sp Ep Ei.
    - exists 1%nat, [], i, n1, p, C, e, []. split.
      { intros fuel Lf. destruct fuel as [|fuel]; [lia|]. cbn [read_more]. rewrite (end_time_ends _ _ Op Ep).
        destruct (more nums n1) eqn:Mo; [apply (more_iff i n1 E1) in Mo; lia|]. rewrite andb_false_r, app_nil_r. reflexivity. }
      split; [lia|]. split; [exact E1|]. split; [exact Op|]. split; [exact Sp|]. split; [exact Ep|]. split; [exact Ei|]. split; [left; lia|].
      split; [auto|]. split; [auto|]. cbn. rewrite !app_nil_r. auto.
    - destruct (Qltb (inject_Z e) tt2) eqn:Lt.
      2: { exists 1%nat, [], i, n1, p, C, e, []. split.
           { intros fuel Lf. destruct fuel as [|fuel]; [lia|]. cbn [read_more]. rewrite (end_time_ends _ _ Op Ep), Lt. cbn [andb]. rewrite app_nil_r. reflexivity. }
           apply Qltb_ge in Lt.
           split; [lia|]. split; [exact E1|]. split; [exact Op|]. split; [exact Sp|]. split; [exact Ep|]. split; [exact Ei|]. split; [right; exact Lt|].
           split; [auto|]. split; [auto|]. cbn. rewrite !app_nil_r. auto. }
      assert (Li' : (i < N)%nat) by lia. destruct (nth_error blocks i) as [bl|] eqn:Eb; [|apply nth_error_None in Eb; unfold N in Li'; lia].
      assert (Mo : more nums n1 = true) by (apply (more_iff i n1 E1); exact Li').
      pose proof (block_is i n1 bl E1 Eb) as Bl. pose proof (upto_next data_of i bl Eb) as Dn. pose proof (n1_next _ _ E1) as E1n.
      pose proof (upto_next meta_of i bl Eb) as Mn. pose proof (upto_next gps_of i bl Eb) as Gn. pose proof (upto_next problems_of i bl Eb) as Pn.
      assert (Rn : reads_upto (S i) = reads_upto i ++ [bl]) by (apply firstn_next; exact Eb).
      pose proof (HR bl (nth_error_In _ _ Eb)) as Hr.
      destruct (data_of (read_gem bl)) as [|tr rest] eqn:Ed'.
      + destruct (skip_case _ Hr Ed') as (Sk & Em & Eg & Epb). rewrite app_nil_r in Dn. rewrite Em, app_nil_r in Mn. rewrite Eg, app_nil_r in Gn. rewrite Epb, app_nil_r in Pn.
        rewrite <- Dn in Sp, Ei.
        destruct (IH (S i) (n1 + per_block blockdays)%Q p C g e pbs ltac:(lia) ltac:(lia) E1n Op Sp Ep Ei)
          as (n & ev & i' & n1' & p' & C' & e' & r & Run & Li2 & E1' & Op' & Sp' & Ep' & Ei' & Fin & C1 & C2 & R1 & R2 & R3 & R4 & R5).
        exists (S n), (Read bl :: ev), i', n1', p', C', e', r. split.
        { intros fuel Lf. destruct fuel as [|fuel]; [lia|]. cbn [read_more]. rewrite (end_time_ends _ _ Op Ep), Lt, Mo, Bl. cbn [andb].
          destruct Sk as [->|(? & ? & ? & ->)]; rewrite Run by lia; reflexivity. }
        split; [lia|]. do 8 (split; [assumption|]). rewrite <- Mn, <- Gn, <- Pn. split; [|repeat split; assumption].
        rewrite <- R1, Rn, <- app_assoc. reflexivity.
      + destruct (read_gem bl) as [| |st m gp pb] eqn:Er; try discriminate. cbn in Ed'. subst st. set (st := tr :: rest) in *.
        assert (O' : in_order (D i ++ st)) by (rewrite <- Dn; apply order_upto).
        destruct (merge_record C (D i) st p g O' Op Sp (ex_intro _ e (conj Ep Ei))) as [Opn Spn]. rewrite <- Dn in Spn.
        pose proof (proj2 (order_app _ _) (proj1 (order_app _ _) O')) as _. pose proof (proj1 (order_app _ _) O') as (_ & Ost & Bst).
        destruct (ends_exists st Ost ltac:(discriminate)) as (es & Es).
        pose proof (ends_app_r _ _ _ _ O' Ei Es) as Ei2. rewrite <- Dn in Ei2.
        assert (Lee : e < es) by (destruct Ei as [[? Ve] _], Es as [[? Ve'] _]; exact (Bst _ _ _ _ Ve Ve')).
        assert (Lge : g <= e) by (destruct Ep as [[? Ve] _]; apply Sp in Ve; tauto).
        assert (Ep2 : ends (merge_gaps (p ++ st)) es).
        { split.
          - destruct Ei2 as [[v V] _]. exists v. apply Spn. split; [lia|left; exact V].
          - intros k v H. apply Spn in H as [_ H]. exact (record_max _ _ _ _ _ Ei2 H). }
        destruct (IH (S i) (n1 + per_block blockdays)%Q (merge_gaps (p ++ st)) (fun i0 => C i0 \/ g <= i0) g es (pbs ++ pb) ltac:(lia) ltac:(lia) E1n
                   (merge_gaps_order _ Opn) Spn Ep2 Ei2)
          as (n & ev & i' & n1' & p' & C' & e' & r & Run & Li2 & E1' & Op' & Sp' & Ep' & Ei' & Fin & C1 & C2 & R1 & R2 & R3 & R4 & R5).
        exists (S n), (Read bl :: Meta m :: Gps gp :: ev), i', n1', p', C', e', (pb ++ r). split.
        { intros fuel Lf. destruct fuel as [|fuel]; [lia|]. cbn [read_more]. rewrite (end_time_ends _ _ Op Ep), Lt, Mo, Bl. cbn [andb].
          rewrite Er. unfold st at 1. rewrite Run by lia. rewrite app_assoc. reflexivity. }
        split; [lia|]. do 6 (split; [assumption|]). split; [intros m0 H; apply C1; left; exact H|].
        split; [intros m0 H; apply C2 in H; tauto|].
        change (meta_of (Block st m gp pb)) with m in Mn. change (gps_of (Block st m gp pb)) with [gp] in Gn. change (problems_of (Block st m gp pb)) with pb in Pn.
        split; [rewrite <- R1, Rn, <- app_assoc; reflexivity|]. split; [rewrite <- R2, Mn, <- app_assoc; reflexivity|].
        split; [rewrite <- R3, Gn, <- app_assoc; reflexivity|]. split; [rewrite <- R4, Pn, <- app_assoc; reflexivity|exact R5].
  Qed.

  (** * Writing *)
  Variable t1o : Q.

  Record wrote (C : Z -> Prop) (Dd : stream) (e g : Z) (p : stream) (hour : Q) (ws : stream) : Prop := {
    w_order : in_order p;
    w_sample : forall k v, sample p k v <-> g <= k /\ record C Dd k v;
    w_end : ends p e;
    w_dend : ends Dd e;
    w_out : in_order ws;
    w_win : Forall (in_window flen) ws;
    w_done : forall k v, sample ws k v <-> ((t1o <= inject_Z k)%Q /\ (inject_Z k < hour)%Q) /\ record C Dd k v;
    w_pos : (0 <= hour)%Q;
    w_from : (t1o <= hour)%Q;
    w_g : g <= qceil hour;
    w_old : forall k, g <= k -> (inject_Z k < hour)%Q -> (inject_Z k < t1o)%Q }.

  Lemma flen_pos : (0 < flen)%Q.
  Proof. unfold flen. change 0%Q with (inject_Z 0). rewrite <- Zlt_Qlt. exact Hf. Qed.

  Lemma trunc_nonneg x l : (0 <= x)%Q -> (0 < l)%Q -> trunc x l = (inject_Z (Qfloor (x / l)) * l)%Q /\ (trunc x l <= x)%Q /\ (x < trunc x l + l)%Q /\ (0 <= trunc x l)%Q /\ 0 <= Qfloor (x / l).
  Proof.
    intros Hx Hl. assert (X : (0 <= x / l)%Q) by (apply Qle_shift_div_l; [exact Hl|lra]).
    assert (E : trunc x l = (inject_Z (Qfloor (x / l)) * l)%Q) by (unfold trunc; rewrite (proj2 (Qle_bool_iff _ _) X); reflexivity).
    assert (Y : (x / l * l == x)%Q) by (field; lra). pose proof (Qfloor_le (x / l)) as A. pose proof (Qlt_floor (x / l)) as B. rewrite inject_Z_plus in B. change (inject_Z 1) with 1%Q in B.
    assert (F0 : 0 <= Qfloor (x / l)) by (apply qfloor_spec; exact X).
    assert (M1 : (inject_Z (Qfloor (x / l)) * l <= x / l * l)%Q) by (apply Qmult_le_compat_r; lra).
    assert (M2 : (x / l * l < (inject_Z (Qfloor (x / l)) + 1) * l)%Q) by (apply Qmult_lt_compat_r; assumption).
    assert (M3 : (0 <= inject_Z (Qfloor (x / l)) * l)%Q) by (apply Qmult_le_0_compat; [change 0%Q with (inject_Z 0); rewrite <- Zle_Qle; exact F0|lra]).
    split; [exact E|]. rewrite E. repeat split; lra || assumption.
  Qed.

  Lemma Qlt_int k h : (inject_Z k < inject_Z h)%Q <-> k + 1 <= h.
  Proof. rewrite <- Zlt_Qlt. lia. Qed.

  Lemma write_step C Dd e g p hour ws : wrote C Dd e g p hour ws -> (hour <= inject_Z e)%Q -> (inject_Z e + flen + 1 <= t2)%Q ->
    exists h out Hq p1, write_hour flen p hour = (out, Hq) /\ (Hq == inject_Z h)%Q /\ (hour < inject_Z h)%Q /\ (inject_Z h <= hour + flen)%Q /\
      trim p Hq t2 = Some p1 /\ in_order p1 /\ (forall k v, sample p1 k v <-> h <= k /\ record C Dd k v) /\
      in_order (ws ++ out) /\ Forall (in_window flen) (ws ++ out) /\
      (forall k v, sample (ws ++ out) k v <-> ((t1o <= inject_Z k)%Q /\ k < h) /\ record C Dd k v).
  Proof.
    intros W He Ht. pose proof flen_pos as Fp. destruct (trunc_nonneg hour flen (w_pos _ _ _ _ _ _ _ W) Fp) as (Et & T1 & T2 & T3 & T4).
    set (m := Qfloor (hour / flen)) in *. set (h := (m + 1) * f).
    assert (Eh : (trunc hour flen + flen == inject_Z h)%Q).
    { rewrite Et. unfold h, flen. rewrite inject_Z_mult, inject_Z_plus. change (inject_Z 1) with 1%Q. ring. }
    assert (Lh : (hour < inject_Z h)%Q) by (rewrite <- Eh; exact T2).
    pose proof (w_order _ _ _ _ _ _ _ W) as Op.
    destruct (trim_samples p (trunc hour flen + flen) t2 Op) as (p1 & n & Et1 & O1 & S1 & _ & Nh).
    { lra. }
    { intros k v H. apply (proj2 (w_end _ _ _ _ _ _ _ W)) in H. rewrite Zle_Qle in H. lra. }
    specialize (Nh h Eh). subst n.
    exists h, (slice p hour (trunc hour flen + flen - eps)), (trunc hour flen + flen)%Q, p1.
    assert (So : forall k v, sample (slice p hour (trunc hour flen + flen - eps)) k v <-> ((hour <= inject_Z k)%Q /\ k < h) /\ record C Dd k v).
    { intros k v. rewrite slice_samples, (w_sample _ _ _ _ _ _ _ W).
      assert (X : (inject_Z k <= trunc hour flen + flen - eps)%Q <-> k < h).
      { rewrite Eh. unfold eps. rewrite Zlt_Qlt. split; [lra|]. intros L. apply Qlt_int in L. rewrite Zle_Qle, inject_Z_plus in L. change (inject_Z 1) with 1%Q in L. lra. }
      rewrite X. pose proof (w_g _ _ _ _ _ _ _ W) as Wg. split; [tauto|]. intros [[A B] R]. split; [tauto|]. split; [|exact R].
      apply qceil_spec in A. lia. }
    pose proof (slice_order p hour (trunc hour flen + flen - eps) Op) as Oo.
    split; [reflexivity|]. split; [exact Eh|]. split; [exact Lh|]. split; [rewrite <- Eh; lra|]. split; [exact Et1|]. split; [exact O1|].
    split.
    { intros k v. rewrite S1, (w_sample _ _ _ _ _ _ _ W). split; [tauto|]. intros [A R]. split; [exact A|]. split; [|exact R].
      pose proof (w_g _ _ _ _ _ _ _ W) as Wg. assert (qceil hour <= h) by (apply qceil_spec; lra). lia. }
    split; [|split].
    - apply order_app. split; [exact (w_out _ _ _ _ _ _ _ W)|]. split; [exact Oo|]. intros k l v w A B.
      apply (w_done _ _ _ _ _ _ _ W) in A. apply So in B. rewrite Zlt_Qlt. lra.
    - apply Forall_app. split; [exact (w_win _ _ _ _ _ _ _ W)|]. apply Forall_forall. intros tr I. exists m.
      assert (Nt : gd tr <> []) by (destruct Oo as [F _]; rewrite Forall_forall in F; exact (F tr I)).
      destruct (first_sample _ Nt) as (i1 & A1 & B1). destruct (last_sample _ Nt) as (i2 & A2 & B2).
      assert (X1 : sample (slice p hour (trunc hour flen + flen - eps)) (gs tr) (hd 0 (gd tr))) by (exists tr, i1; auto).
      assert (X2 : sample (slice p hour (trunc hour flen + flen - eps)) (gend tr) (last (gd tr) 0)) by (exists tr, i2; auto).
      apply So in X1, X2. destruct X1 as [[X1 _] _], X2 as [[_ X2] _]. rewrite <- Et. split; [lra|].
      assert (Ex : ((inject_Z m + 1) * flen == inject_Z h)%Q) by (rewrite <- Eh, Et; ring). rewrite Ex, <- Zlt_Qlt. exact X2.
    - intros k v. rewrite sample_app, (w_done _ _ _ _ _ _ _ W), So. pose proof (w_from _ _ _ _ _ _ _ W) as Wf. split.
      + intros [[[A B] R]|[[A B] R]]; split; try exact R; split; [exact A| |lra|exact B]. rewrite Zlt_Qlt. lra.
      + intros [[A B] R]. destruct (Qlt_le_dec (inject_Z k) hour); [left|right]; tauto.
  Qed.

  Lemma write_files_ok (final : bool) : forall d C Dd e g p hour ws, Z.to_nat (e - Qfloor hour) = d -> wrote C Dd e g p hour ws ->
    (hour <= inject_Z e)%Q -> (inject_Z e + flen + 1 <= t2)%Q ->
    exists n ev p' hour', (forall fuel, (n <= fuel)%nat -> write_files M G flen t2 fuel final p hour = (ev, Returns (p', hour'))) /\
      reads ev = [] /\ metas ev = [] /\ gpss ev = [] /\
      (if final then in_order (ws ++ written ev) /\ Forall (in_window flen) (ws ++ written ev) /\
                     (forall k v, sample (ws ++ written ev) k v <-> (t1o <= inject_Z k)%Q /\ record C Dd k v)
       else exists g', wrote C Dd e g' p' hour' (ws ++ written ev) /\ (hour' <= inject_Z e)%Q).
  Proof.
    induction d as [d IH] using lt_wf_ind. intros C Dd e g p hour ws Ed W He Ht. pose proof flen_pos as Fp.
    assert (Hev : forall out, written (map (@Write M G) out) = out /\ reads (map (@Write M G) out) = [] /\ metas (map (@Write M G) out) = [] /\ gpss (map (@Write M G) out) = []).
    { induction out as [|x out [A [B [B' B'']]]]; [auto|]. cbn. unfold written, reads, metas, gpss in *. cbn. rewrite A, B, B', B''. auto. }
    destruct (Qle_bool (if final then hour else hour + flen) (inject_Z e)) eqn:Go.
    2: { (* nothing to do *)
      destruct final; [apply not_true_iff_false in Go; exfalso; apply Go; apply Qle_bool_iff; exact He|].
      exists 1%nat, [], p, hour. split.
      { intros fuel Lf. destruct fuel as [|fuel]; [lia|]. cbn [write_files]. rewrite (end_time_ends _ _ (w_order _ _ _ _ _ _ _ W) (w_end _ _ _ _ _ _ _ W)), Go. reflexivity. }
      repeat (split; [reflexivity|]). exists g. cbn. rewrite app_nil_r. auto. }
    destruct (write_step C Dd e g p hour ws W He Ht) as (h & out & Hq & p1 & Ew & Eh & Lh & Lh2 & Et & O1 & S1 & Ow & Ww & Sw).
    destruct (Hev out) as (E1 & E2 & E3 & E4).
    assert (Run : forall fuel, write_files M G flen t2 (S fuel) final p hour =
      let (ev, r) := match start_time p1 with None => ([], Returns (p1, Hq)) | Some s => write_files M G flen t2 fuel final p1 s end in
      (map Write out ++ ev, r)).
    { intros fuel. cbn [write_files]. rewrite (end_time_ends _ _ (w_order _ _ _ _ _ _ _ W) (w_end _ _ _ _ _ _ _ W)), Go, Ew, Et. reflexivity. }
    destruct p1 as [|x r].
    - exists 1%nat, (map Write out), [], Hq. split.
      { intros fuel Lf. destruct fuel as [|fuel]; [lia|]. rewrite Run. cbn. rewrite app_nil_r. reflexivity. }
      rewrite E1, E2, E3, E4. repeat (split; [reflexivity|]).
      assert (None_ : forall k v, record C Dd k v -> k < h).
      { intros k v R. destruct (Z.lt_ge_cases k h) as [|L]; [assumption|exfalso]. exact (sample_nil _ _ (proj2 (S1 k v) (conj L R))). }
      destruct final.
      + split; [exact Ow|]. split; [exact Ww|]. intros k v. rewrite Sw. split; [tauto|]. intros [A R]. split; [|exact R]. split; [exact A|exact (None_ _ _ R)].
      + exfalso. destruct (w_dend _ _ _ _ _ _ _ W) as [[v V] _]. pose proof (None_ e v (or_introl V)) as X. apply Qle_bool_iff in Go. rewrite Zlt_Qlt in X. lra.
    - assert (Gx : h <= gs x).
      { assert (X : sample (x :: r) (gs x) (hd 0 (gd x))) by (apply sample_cons; left; apply first_sample; exact (order_head _ _ O1)).
        apply S1 in X. tauto. }
      assert (Hx : sample (x :: r) (gs x) (hd 0 (gd x))) by (apply sample_cons; left; apply first_sample; exact (order_head _ _ O1)).
      assert (Lx : gs x <= e) by (apply S1 in Hx as [_ R]; exact (record_max _ _ _ _ _ (w_dend _ _ _ _ _ _ _ W) R)).
      assert (Xq : (inject_Z h <= inject_Z (gs x))%Q) by (rewrite <- Zle_Qle; exact Gx).
      assert (Xe : (inject_Z (gs x) <= inject_Z e)%Q) by (rewrite <- Zle_Qle; exact Lx).
      assert (W' : wrote C Dd e (gs x) (x :: r) (inject_Z (gs x)) (ws ++ out)).
      { constructor.
        - exact O1.
        - intros k v. split; [intros H; split; [exact (from_head _ _ _ _ O1 H)|apply S1 in H; tauto]|]. intros [A R]. apply S1. split; [lia|exact R].
        - split.
          + destruct (w_dend _ _ _ _ _ _ _ W) as [[v V] _]. exists v. apply S1. split; [lia|left; exact V].
          + intros k v H. apply S1 in H as [_ R]. exact (record_max _ _ _ _ _ (w_dend _ _ _ _ _ _ _ W) R).
        - exact (w_dend _ _ _ _ _ _ _ W).
        - exact Ow.
        - exact Ww.
        - intros k v. rewrite Sw. split.
          + intros [[A B] R]. split; [|exact R]. split; [exact A|]. rewrite <- Zlt_Qlt. lia.
          + intros [[A B] R]. split; [|exact R]. split; [exact A|]. rewrite <- Zlt_Qlt in B. destruct (Z.lt_ge_cases k h) as [|L]; [assumption|exfalso].
            pose proof (from_head _ _ _ _ O1 (proj2 (S1 k v) (conj L R))). lia.
        - pose proof (w_pos _ _ _ _ _ _ _ W). lra.
        - pose proof (w_from _ _ _ _ _ _ _ W). lra.
        - assert (X : ~ qceil (inject_Z (gs x)) <= gs x - 1); [|lia]. rewrite qceil_spec, <- Zle_Qle. lia.
        - intros k A B. rewrite <- Zlt_Qlt in B. lia. }
      destruct (IH (Z.to_nat (e - Qfloor (inject_Z (gs x)))) ) with (2 := eq_refl (Z.to_nat (e - Qfloor (inject_Z (gs x))))) (3 := W')
        as (n & ev & p' & hour' & Rn & R1 & R2 & R3 & Fin).
      + rewrite <- Ed, Qfloor_Z. assert (Qfloor hour < gs x); [|lia].
        assert (X : ~ gs x <= Qfloor hour); [|lia]. rewrite qfloor_spec. lra.
      + exact Xe.
      + exact Ht.
      + exists (S n), (map Write out ++ ev), p', hour'. split.
        { intros fuel Lf. destruct fuel as [|fuel]; [lia|]. rewrite Run. cbn [start_time]. rewrite Rn by lia. reflexivity. }
        assert (Wa : written (map (@Write M G) out ++ ev) = out ++ written ev) by (unfold written in *; rewrite flat_map_app, E1; reflexivity).
        rewrite Wa. unfold reads, metas, gpss in *. rewrite !flat_map_app, E2, E3, E4, R1, R2, R3. repeat (split; [reflexivity|]).
        rewrite app_assoc. exact Fin.
  Qed.

  (** * The main loop *)
  Hypothesis Hstart : exists k v, sample (D N) k v /\ (t1o <= inject_Z k)%Q.

  Lemma D_pos : (0 < D_)%Q.
  Proof. unfold D_, day. apply Qmult_lt_0_compat; [reflexivity|exact Hb]. Qed.

  Lemma late_end i e : ends (D i) e -> (inject_Z e + D_ + flen + 200 <= t2)%Q.
  Proof. intros [[v V] _]. exact (Hlate _ _ (in_upto _ _ _ V)). Qed.

  Lemma start_end e : ends (D N) e -> (t1o <= inject_Z e)%Q.
  Proof. intros [_ A]. destruct Hstart as (k & v & Sk & L). apply A in Sk. rewrite Zle_Qle in Sk. lra. Qed.

  Lemma main_ok : forall dd d i C g e p hour t1 ws n1 pbs, (N - i)%nat = dd -> Z.to_nat (Qfloor (inject_Z e / D_) - Qfloor (t1 / D_)) = d ->
    (i <= N)%nat -> n1_at i n1 -> wrote C (D i) e g p hour ws -> (0 <= t1)%Q -> ((i < N)%nat -> (t1 <= t2)%Q) ->
    ((hour <= inject_Z e)%Q \/ ((hour <= t1o)%Q /\ (t1o <= t1)%Q)) ->
    exists n ev (C' : Z -> Prop) r, (forall fuel fuel2, (n <= fuel)%nat -> (n <= fuel2)%nat ->
        main_loop M G P read_gem nums blockdays flen t2 fuel fuel2 n1 t1 p hour pbs = (ev, Returns (pbs ++ r))) /\
      reads_upto i ++ reads ev = blocks /\ upto meta_of i ++ metas ev = upto meta_of N /\
      upto gps_of i ++ gpss ev = upto gps_of N /\ upto problems_of i ++ r = upto problems_of N /\
      in_order (ws ++ written ev) /\ Forall (in_window flen) (ws ++ written ev) /\ (forall m, C m -> C' m) /\
      (forall k v, sample (ws ++ written ev) k v <-> (t1o <= inject_Z k)%Q /\ record C' (D N) k v).
  Proof.
    induction dd as [dd IHd] using lt_wf_ind. induction d as [d IH] using lt_wf_ind.
    intros i C g e p hour t1 ws n1 pbs Edd Ed Li E1 W H0 Ht He. pose proof D_pos as Dp. pose proof flen_pos as Fp.
    destruct (negb (more nums n1) || Qltb t2 t1) eqn:Stop.
    - (* the end *)
      assert (i = N) as ->.
      { destruct (more nums n1) eqn:Mo.
        - apply (more_iff i n1 E1) in Mo. specialize (Ht Mo). cbn in Stop. apply Qltb_lt in Stop. lra.
        - assert (~ (i < N)%nat) by (intros L; apply (more_iff i n1 E1) in L; congruence). lia. }
      pose proof (late_end _ _ (w_dend _ _ _ _ _ _ _ W)) as Le. pose proof (start_end _ (w_dend _ _ _ _ _ _ _ W)) as Se.
      destruct (write_files_ok true _ C (D N) e g p hour ws eq_refl W ltac:(lra) ltac:(lra)) as (n & ev & p' & hour' & Run & R1 & R2 & R3 & Ow & Ww & Sw).
      exists (S n), ev, C, []. split.
      { intros fuel fuel2 L1 L2. destruct fuel as [|fuel]; [lia|]. cbn [main_loop]. rewrite Stop, Run by lia. rewrite app_nil_r. reflexivity. }
      rewrite R1, R2, R3, !app_nil_r. split; [unfold reads_upto; apply firstn_all|]. repeat (split; [reflexivity|]). auto.
    - apply orb_false_iff in Stop as [Mo St]. apply negb_false_iff in Mo. assert (Li' : (i < N)%nat) by (apply (more_iff i n1 E1); exact Mo). specialize (Ht Li').
      set (tt2 := Qmin2 t2 (trunc t1 (day * blockdays) + day * blockdays)). fold D_ in tt2.
      destruct (trunc_nonneg t1 D_ H0 Dp) as (Et & T1 & T2 & T3 & T4).
      assert (Tt : (t1 <= tt2)%Q /\ (tt2 <= t2)%Q /\ (tt2 == t2 \/ tt2 == trunc t1 D_ + D_)%Q).
      { unfold tt2, Qmin2. destruct (Qle_bool t2 (trunc t1 D_ + D_)) eqn:Q1.
        - apply Qle_bool_iff in Q1. split; [exact Ht|]. split; [lra|left; reflexivity].
        - apply not_true_iff_false in Q1. rewrite Qle_bool_iff in Q1. split; [lra|]. split; [lra|right; reflexivity]. }
      destruct Tt as (Tt1 & Tt2 & Tt3).
      destruct (read_more_ok tt2 _ i n1 p C g e pbs eq_refl Li E1 (w_order _ _ _ _ _ _ _ W) (w_sample _ _ _ _ _ _ _ W) (w_end _ _ _ _ _ _ _ W) (w_dend _ _ _ _ _ _ _ W))
        as (n & ev & i' & n1' & p' & C' & e' & r & Run & Li2 & E1' & Op' & Sp' & Ep' & Ei' & Fin & C1 & C2 & R1 & R2 & R3 & R4 & R5).
      destruct (upto_split data_of i) as (rest & Erest).
      assert (Ex : exists rs, D i' = D i ++ rs).
      { exists (flat_map (fun bl => data_of (read_gem bl)) (firstn (i' - i) (skipn i blocks))). unfold upto. rewrite <- flat_map_app. f_equal.
        rewrite <- (firstn_skipn i blocks) at 1. rewrite firstn_app, firstn_firstn. assert (length (firstn i blocks) = i) as -> by (rewrite firstn_length; unfold N in Li; lia).
        rewrite Nat.min_r by lia. reflexivity. }
      destruct Ex as (rs & Ers).
      assert (Lee : e <= e').
      { destruct (w_dend _ _ _ _ _ _ _ W) as [[v V] _]. apply (proj2 Ei' e v). rewrite Ers. apply sample_app. left. exact V. }
      assert (Leq : (inject_Z e <= inject_Z e')%Q) by (rewrite <- Zle_Qle; exact Lee).
      assert (He' : (hour <= inject_Z e')%Q).
      { destruct He as [He|[He1 He2]]; [lra|]. destruct Fin as [->|Fin]; [|lra]. pose proof (start_end _ Ei'). lra. }
      pose proof (late_end _ _ Ei') as Le.
      assert (W' : wrote C' (D i') e' g p' hour ws).
      { constructor; try assumption; try apply W. intros k v. rewrite (w_done _ _ _ _ _ _ _ W).
        assert (X : (t1o <= inject_Z k)%Q -> (inject_Z k < hour)%Q -> (record C (D i) k v <-> record C' (D i') k v)).
        { intros A B. rewrite Ers. apply (record_stable C C' (D i) rs e).
          - rewrite <- Ers. apply order_upto.
          - exact (w_dend _ _ _ _ _ _ _ W).
          - destruct He as [He|[He1 He2]]; [|lra]. rewrite Zlt_Qlt. lra.
          - exact C1.
          - intros m Cm L. destruct (C2 m Cm) as [|Gm]; [assumption|]. exfalso.
            pose proof (w_old _ _ _ _ _ _ _ W k ltac:(lia) B). lra. }
        split; intros [[A B] R]; (split; [split; assumption|]); apply (X A B); exact R. }
      destruct (write_files_ok false _ C' (D i') e' g p' hour ws eq_refl W' He' ltac:(lra)) as (n2 & ev2 & p2 & hour2 & Run2 & Q1 & Q2 & Q3 & g2 & W2 & He2).
      destruct (trim_samples p2 hour2 t2 (w_order _ _ _ _ _ _ _ W2)) as (p3 & nn & Et3 & O3 & S3 & Nn & _).
      { lra. }
      { intros k v H. apply (proj2 (w_end _ _ _ _ _ _ _ W2)) in H. rewrite Zle_Qle in H. lra. }
      assert (Ce : qceil hour2 <= e') by (apply qceil_spec; exact He2).
      assert (W3 : wrote C' (D i') e' (Z.max nn g2) p3 hour2 (ws ++ written ev2)).
      { pose proof (w_g _ _ _ _ _ _ _ W2) as G2. constructor; try apply W2.
        - exact O3.
        - intros k v. rewrite S3, (w_sample _ _ _ _ _ _ _ W2). split; [intros (A & B & R); split; [lia|exact R]|intros [A R]; split; [lia|split; [lia|exact R]]].
        - destruct (w_end _ _ _ _ _ _ _ W2) as [[v V] A]. split; [exists v; apply S3; split; [lia|exact V]|]. intros k w H. apply S3 in H as [_ H]. exact (A _ _ H).
        - lia.
        - intros k A B. apply (w_old _ _ _ _ _ _ _ W2 k); [lia|exact B]. }
      set (t1' := trunc (tt2 + day * blockdays + second) (day * blockdays)).
      fold D_ in t1'. destruct (trunc_nonneg (tt2 + D_ + second) D_) as (Et' & U1 & U2 & U3 & U4); [unfold second; lra|exact Dp|].
      assert (Ht' : (i' < N)%nat -> (t1' <= t2)%Q).
      { intros L. destruct Fin as [->|Fin]; [lia|]. unfold t1', second in *. lra. }
      assert (Rec : exists n ev (C'' : Z -> Prop) r', (forall fuel fuel2, (n <= fuel)%nat -> (n <= fuel2)%nat ->
          main_loop M G P read_gem nums blockdays flen t2 fuel fuel2 n1' t1' p3 hour2 (pbs ++ r) = (ev, Returns ((pbs ++ r) ++ r'))) /\
        reads_upto i' ++ reads ev = blocks /\ upto meta_of i' ++ metas ev = upto meta_of N /\
        upto gps_of i' ++ gpss ev = upto gps_of N /\ upto problems_of i' ++ r' = upto problems_of N /\
        in_order ((ws ++ written ev2) ++ written ev) /\ Forall (in_window flen) ((ws ++ written ev2) ++ written ev) /\ (forall m, C' m -> C'' m) /\
        (forall k v, sample ((ws ++ written ev2) ++ written ev) k v <-> (t1o <= inject_Z k)%Q /\ record C'' (D N) k v)).
      { destruct (Nat.eq_dec i' i) as [->|Ni].
        - destruct Fin as [->|Fin]; [lia|].
          assert (e' = e) as -> by exact (ends_unique _ _ _ Ei' (w_dend _ _ _ _ _ _ _ W)).
          assert (Etq : (tt2 == (inject_Z (Qfloor (t1 / D_)) + 1) * D_)%Q).
          { destruct Tt3 as [Tt3|Tt3]; [lra|]. rewrite Tt3, Et. ring. }
          refine (IH _ _ i C' (Z.max nn g2) e p3 hour2 t1' (ws ++ written ev2) n1' (pbs ++ r) Edd eq_refl Li E1' W3 U3 Ht' (or_introl He2)).
          assert (F1 : Qfloor (t1 / D_) + 1 <= Qfloor (inject_Z e / D_)).
          { apply qfloor_spec. rewrite inject_Z_plus. change (inject_Z 1) with 1%Q. apply Qle_shift_div_l; [exact Dp|]. lra. }
          assert (F2 : Qfloor (t1 / D_) + 2 <= Qfloor (t1' / D_)).
          { apply qfloor_spec. rewrite inject_Z_plus. change (inject_Z 2) with 2%Q. apply Qle_shift_div_l; [exact Dp|].
            unfold t1'. rewrite Et'. apply Qmult_le_compat_r; [|lra].
            assert (Y : Qfloor (t1 / D_) + 2 <= Qfloor ((tt2 + D_ + second) / D_)).
            { apply qfloor_spec. rewrite inject_Z_plus. change (inject_Z 2) with 2%Q. apply Qle_shift_div_l; [exact Dp|]. unfold second. lra. }
            rewrite Zle_Qle, inject_Z_plus in Y. exact Y. }
          lia.
        - refine (IHd (N - i')%nat ltac:(lia) _ i' C' (Z.max nn g2) e' p3 hour2 t1' (ws ++ written ev2) n1' (pbs ++ r) eq_refl eq_refl ltac:(lia) E1' W3 U3 Ht' (or_introl He2)). }
      destruct Rec as (n3 & ev3 & C3 & r3 & Run3 & P1 & P2 & P3 & P4 & P5 & P6 & P7 & P8).
      exists (S (Nat.max n (Nat.max n2 n3))), (ev ++ ev2 ++ ev3), C3, (r ++ r3). split.
      { intros fuel fuel2 L1 L2. destruct fuel as [|fuel]; [lia|]. cbn [main_loop]. rewrite Mo, St. cbn [negb orb]. fold D_. fold tt2.
        rewrite Run, Run2, Et3 by lia. fold t1'. rewrite Run3 by lia. rewrite <- !app_assoc. reflexivity. }
      assert (Wa : written (ev ++ ev2 ++ ev3) = written ev2 ++ written ev3) by (unfold written in *; rewrite !flat_map_app, R5; reflexivity).
      rewrite Wa. unfold reads, metas, gpss in *. rewrite !flat_map_app, Q1, Q2, Q3. cbn [app].
      rewrite !app_assoc, R1, R2, R3, R4. split; [exact P1|]. split; [exact P2|]. split; [exact P3|]. split; [exact P4|].
      split; [exact P5|]. split; [exact P6|]. split; [intros m H; apply P7; apply C1; exact H|exact P8].
  Qed.

  Lemma no_data_no_rows j : (j <= N)%nat -> D j = [] -> upto meta_of j = [] /\ upto gps_of j = [] /\ upto problems_of j = [].
  Proof.
    induction j as [|j IH]; intros L E; [auto|]. destruct (nth_error blocks j) as [bl|] eqn:Eb; [|apply nth_error_None in Eb; unfold N in L; lia].
    rewrite (upto_next data_of j bl Eb) in E. apply app_eq_nil in E as [E1 E2]. destruct (IH ltac:(lia) E1) as (A & B & B').
    destruct (skip_case _ (HR bl (nth_error_In _ _ Eb)) E2) as (_ & X & Y & Z0).
    rewrite (upto_next meta_of j bl Eb), (upto_next gps_of j bl Eb), (upto_next problems_of j bl Eb), A, B, B', X, Y, Z0. auto.
  Qed.

  Lemma Qmax2_spec x y : (x <= Qmax2 x y)%Q /\ (y <= Qmax2 x y)%Q /\ (Qmax2 x y = x \/ Qmax2 x y = y).
  Proof.
    unfold Qmax2. destruct (Qle_bool y x) eqn:E; [apply Qle_bool_iff in E; repeat split; try lra; auto|].
    apply not_true_iff_false in E. rewrite Qle_bool_iff in E. repeat split; try lra; auto.
  Qed.

  Definition first_of (st : stream) (k : Z) : Prop := (exists v, sample st k v) /\ forall l w, sample st l w -> k <= l.
  Lemma first_unique st k l : first_of st k -> first_of st l -> k = l.
  Proof. intros [[v V] A] [[w W] B]. apply A in W. apply B in V. lia. Qed.

  Lemma convert_ok t1_arg : D N <> [] ->
    match t1_arg with
    | Some t => t = t1o /\ (0 <= t)%Q /\ (t <= t2)%Q
    | None => forall k, first_of (D N) k -> t1o = (inject_Z (qceil (inject_Z k / second)) * second)%Q
    end ->
    exists n ev (C' : Z -> Prop), (forall fuel, (n <= fuel)%nat ->
        convert M G P gps_time read_gem nums blockdays flen t1_arg t2 fuel = (ev, Returns (upto problems_of N))) /\
      reads ev = blocks /\ metas ev = upto meta_of N /\
      (exists g gs, upto gps_of N = g :: gs /\ gpss ev = filter (fun x => Qltb (t1o - second) (gps_time x)) g :: gs) /\
      in_order (written ev) /\ Forall (in_window flen) (written ev) /\ (t1_arg = None -> forall m, C' m) /\
      (forall k v, sample (written ev) k v <-> (t1o <= inject_Z k)%Q /\ record C' (D N) k v).
  Proof.
    intros Ne Ht1. destruct Hdiv as (Nn & _). destruct nums as [|n0 ns] eqn:En; [congruence|]. rewrite <- En in *.
    assert (E0 : n1_at 0 (inject_Z n0)) by (unfold n1_at; rewrite En; cbn [hd]; change (inject_Z (Z.of_nat 0)) with 0%Q; ring).
    destruct (first_block_ok 0 (inject_Z n0) E0 eq_refl Ne) as (n & ev & i & n1 & st & m & g & pb & bl & Li & E1 & Run & Eb & Er & Ns & Ds & Dp & Rd & Me & Gp & Wr).
    assert (Si : S (i - 1) = i) by lia. destruct (no_data_no_rows (i - 1)%nat ltac:(lia) Dp) as (Z1 & Z2 & Z3).
    pose proof (upto_next meta_of _ _ Eb) as Mi. pose proof (upto_next gps_of _ _ Eb) as Gi. pose proof (upto_next problems_of _ _ Eb) as Pi.
    rewrite Si, Er in Mi, Gi, Pi. rewrite Z1 in Mi. rewrite Z2 in Gi. rewrite Z3 in Pi. cbn [app] in Mi, Gi, Pi.
    assert (Ost : in_order st) by (rewrite <- Ds; apply order_upto).
    destruct st as [|tr rest] eqn:Est; [congruence|]. rewrite <- Est in *.
    assert (Fs : first_of st (gs tr)).
    { rewrite Est in *. split; [eexists; apply sample_cons; left; apply first_sample; exact (order_head _ _ Ost)|]. intros l w H. exact (from_head _ _ _ _ Ost H). }
    assert (FD : first_of (D N) (gs tr)).
    { destruct (upto_split data_of i) as (r & E). rewrite E, Ds. split; [destruct Fs as [[v V] _]; exists v; apply sample_app; left; exact V|].
      intros l w H. apply sample_app in H as [H|H]; [exact (proj2 Fs _ _ H)|]. pose proof HO as O. rewrite E, Ds in O. apply order_app in O as (_ & _ & B).
      destruct Fs as [[v V] _]. pose proof (B _ _ _ _ V H). lia. }
    set (C0 := match t1_arg with None => fun _ : Z => True | Some _ => fun _ : Z => False end).
    set (p := match t1_arg with None => merge_gaps st | Some _ => st end).
    assert (Rg : forall k v, record C0 st k v -> gs tr <= k).
    { intros k v [H|(i1 & j1 & a & z & _ & Sa & _ & R & _)]; [exact (proj2 Fs _ _ H)|]. apply (proj2 Fs) in Sa. lia. }
    assert (Op : in_order p) by (unfold p; destruct t1_arg; [exact Ost|apply merge_gaps_order; exact Ost]).
    assert (Sp : forall k v, sample p k v <-> gs tr <= k /\ record C0 st k v).
    { intros k v. assert (X : sample p k v <-> record C0 st k v).
      { unfold p, C0. destruct t1_arg.
        - unfold record. split; [auto|]. intros [H|(? & ? & ? & ? & F & _)]; [exact H|destruct F].
        - unfold record. rewrite Est in *. rewrite merge_gaps_joins, joins_samples by exact Ost. unfold fills, fills_if. split; intros [H|(i1 & j1 & a & z & H)]; auto; right; exists i1, j1, a, z; tauto. }
      rewrite X. split; [intros R; split; [exact (Rg _ _ R)|exact R]|tauto]. }
    destruct (ends_exists st Ost Ns) as (e & Ee).
    assert (Ep : ends p e).
    { split; [destruct Ee as [[v V] _]; exists v; apply Sp; split; [exact (proj2 Fs _ _ V)|left; exact V]|]. intros k v H. apply Sp in H as [_ H]. exact (record_max _ _ _ _ _ Ee H). }
    destruct p as [|x pr] eqn:Epp; [exfalso; exact (ends_nonempty _ _ Ep eq_refl)|]. rewrite <- Epp in *.
    assert (Ex : gs x = gs tr).
    { assert (X : sample p (gs x) (hd 0 (gd x))) by (rewrite Epp in *; apply sample_cons; left; apply first_sample; exact (order_head _ _ Op)).
      apply Sp in X as [X _]. destruct Fs as [[v V] _]. assert (Y : sample p (gs tr) v) by (apply Sp; split; [lia|left; exact V]).
      rewrite Epp in *. pose proof (from_head _ _ _ _ Op Y). lia. }
    set (s := inject_Z (gs tr)).
    set (t1 := match t1_arg with None => (inject_Z (qceil (s / second)) * second)%Q | Some t => t end).
    assert (Hs : (0 <= s)%Q) by (destruct FD as [[v V] _]; apply Hpos in V; unfold s; change 0%Q with (inject_Z 0); rewrite <- Zle_Qle; exact V).
    assert (T1 : t1 = t1o /\ (0 <= t1)%Q /\ (t1 <= t2)%Q).
    { unfold t1. destruct t1_arg as [t|]; [exact Ht1|]. split; [symmetry; exact (Ht1 _ FD)|].
      assert (A : (s / second <= inject_Z (qceil (s / second)))%Q) by (apply qceil_spec; lia).
      assert (B : (inject_Z (qceil (s / second)) - 1 < s / second)%Q).
      { destruct (Qlt_le_dec (inject_Z (qceil (s / second)) - 1) (s / second)) as [|L]; [assumption|exfalso].
        assert (X : qceil (s / second) <= qceil (s / second) - 1); [|lia]. apply qceil_spec. unfold Z.sub. rewrite inject_Z_plus. change (inject_Z (-(1))) with (-1)%Q. lra. }
      unfold second in *. assert (Ed : (s / 100 * 100 == s)%Q) by (field). 
      destruct FD as [[v V] _]. apply Hlate in V. fold s in V. pose proof D_pos. pose proof flen_pos. split; lra. }
    destruct T1 as (T1 & T1p & T1l). destruct (Qmax2_spec t1 s) as (X1 & X2 & X3).
    assert (W : wrote C0 (D i) e (gs tr) p (Qmax2 t1 s) []).
    { rewrite Ds. constructor; try assumption.
      - split; [constructor|exact I].
      - constructor.
      - intros k v. split; [intros H; destruct (sample_nil _ _ H)|]. intros [[A B] R]. exfalso. apply Rg in R. rewrite Zle_Qle in R. fold s in R.
        rewrite <- T1 in A. destruct X3 as [X3|X3]; rewrite X3 in B; lra.
      - lra.
      - rewrite <- T1. exact X1.
      - assert (Y : ~ qceil (Qmax2 t1 s) <= gs tr - 1); [|lia]. rewrite qceil_spec. unfold Z.sub. rewrite inject_Z_plus. fold s. change (inject_Z (-(1))) with (-1)%Q. lra.
      - intros k A B. rewrite Zle_Qle in A. fold s in A. rewrite <- T1. destruct X3 as [X3|X3]; rewrite X3 in B; lra. }
    destruct (main_ok _ _ i C0 (gs tr) e p (Qmax2 t1 s) t1 [] n1 pb eq_refl eq_refl ltac:(lia) E1 W T1p (fun _ => T1l))
      as (n2 & ev2 & C' & r & Run2 & P1 & P2 & P3 & P4 & P5 & P6 & P7 & P8).
    { destruct X3 as [X3|X3]; rewrite X3; [right; split; rewrite <- T1; lra|left]. unfold s. rewrite <- Zle_Qle. destruct Ee as [_ Ee]. destruct Fs as [[v V] _]. exact (Ee _ _ V). }
    exists (Nat.max n n2), (ev ++ Meta m :: Gps (filter (fun x0 => Qltb (t1 - second) (gps_time x0)) g) :: ev2), C'.
    cbn [app] in P5, P6, P8.
    assert (Mi' : meta_of (Block st m g pb) = m) by (rewrite Est; reflexivity).
    assert (Gi' : gps_of (Block st m g pb) = [g]) by (rewrite Est; reflexivity).
    assert (Pi' : problems_of (Block st m g pb) = pb) by (rewrite Est; reflexivity).
    rewrite Mi' in Mi. rewrite Gi' in Gi. rewrite Pi' in Pi.
    assert (Ws : written (ev ++ Meta m :: Gps (filter (fun x0 => Qltb (t1 - second) (gps_time x0)) g) :: ev2) = written ev2).
    { unfold written in *. rewrite flat_map_app, Wr. reflexivity. }
    split.
    { intros fuel Lf. unfold convert. rewrite En at 1. rewrite Run by lia. fold p. rewrite Epp at 1. cbn [start_time]. rewrite Ex. fold s. fold t1.
      rewrite Run2 by lia. rewrite <- P4, Pi. reflexivity. }
    split; [unfold reads in *; rewrite flat_map_app; cbn [flat_map app]; rewrite <- P1, <- Rd; reflexivity|].
    split; [unfold metas in *; rewrite flat_map_app; cbn [flat_map app]; rewrite <- P2, Mi, Me; reflexivity|].
    split. { exists g, (gpss ev2). split; [rewrite <- P3, Gi; reflexivity|]. unfold gpss in *. rewrite flat_map_app, Gp. rewrite T1. reflexivity. }
    rewrite Ws. split; [exact P5|]. split; [exact P6|]. split; [|exact P8].
    intros ->. intros k. apply P7. exact I.
  Qed.
End Loops.

(** * Dividing the file numbers *)

Lemma divided_exists per nums : (0 < per)%Q -> nums <> [] -> chain Z.le nums -> exists blocks, divided nums per blocks.
Proof.
  intros Hp. induction nums as [|n nums IH] using rev_ind; [congruence|]. intros _ So.
  destruct nums as [|n0 ns] eqn:En.
  - exists [[n]]. split; [discriminate|]. split; [reflexivity|]. split; [discriminate|]. intros i bl m E I. destruct i as [|[|i]]; try discriminate. injection E as <-.
    destruct I as [<-|[]]. cbn [app hd]. rewrite Z.sub_diag. change (inject_Z (Z.of_nat 0)) with 0%Q. change (inject_Z 0) with 0%Q. lra.
  - rewrite <- En in *. assert (Sn : chain Z.le nums).
    { clear -So. induction nums as [|a l IH]; [exact I|]. destruct l as [|c l]; [exact I|]. destruct So as [A B]. split; [exact A|apply IH; exact B]. }
    assert (Ln : forall m, In m nums -> m <= n).
    { clear -So. assert (X : forall l a m, chain Z.le (a :: l) -> In m (a :: l) -> a <= m).
      { induction l as [|c l IH]; intros a m C [<-|I]; try lia; [destruct I|]. destruct C as [C1 C2]. pose proof (IH c m C2 I). lia. }
      induction nums as [|a l IH]; intros m Hm; [destruct Hm|]. destruct Hm as [<-|I].
      - assert (In n ((a :: l) ++ [n])) by (apply in_or_app; right; left; reflexivity). exact (X _ _ _ So H).
      - apply IH; [|exact I]. cbn [app] in So. destruct (l ++ [n]) eqn:E; [destruct l; discriminate|]. exact (proj2 So). }
    assert (Nn : nums <> []) by congruence. destruct (IH Nn Sn) as (blocks & _ & Co & La & B).
    assert (Hd : hd 0 (nums ++ [n]) = hd 0 nums) by (rewrite En; reflexivity).
    assert (Nb : blocks <> []) by (intros ->; cbn in Co; congruence).
    set (j := Qfloor (inject_Z (n - hd 0 nums) / per)).
    pose proof (Qfloor_le (inject_Z (n - hd 0 nums) / per)) as F1. pose proof (Qlt_floor (inject_Z (n - hd 0 nums) / per)) as F2. fold j in F1, F2. rewrite inject_Z_plus in F2. change (inject_Z 1) with 1%Q in F2.
    assert (Y : (inject_Z (n - hd 0%Z nums) / per * per == inject_Z (n - hd 0%Z nums))%Q) by (field; lra).
    assert (J1 : (inject_Z j * per <= inject_Z (n - hd 0%Z nums))%Q) by (rewrite <- Y; apply Qmult_le_compat_r; lra).
    assert (J2 : (inject_Z (n - hd 0%Z nums) < (inject_Z j + 1) * per)%Q) by (rewrite <- Y; apply Qmult_lt_compat_r; lra).
    pose proof (app_removelast_last [] Nb) as Ebl. set (bs := removelast blocks) in *. set (lb := last blocks []) in *.
    assert (Lb : length blocks = S (length bs)) by (rewrite Ebl, app_length; cbn; lia).
    assert (Elb : nth_error blocks (length bs) = Some lb) by (rewrite Ebl, nth_error_app2, Nat.sub_diag by lia; reflexivity).
    assert (Lj : Z.of_nat (length bs) <= j).
    { destruct lb as [|m lb'] eqn:El; [congruence|]. assert (Im : In m nums) by (rewrite <- Co; apply in_concat; exists (m :: lb'); split; [eapply nth_error_In; exact Elb|left; reflexivity]).
      apply Ln in Im. destruct (B _ _ m Elb (or_introl eq_refl)) as [X _]. apply qfloor_spec. apply Qle_shift_div_l; [exact Hp|].
      eapply Qle_trans; [exact X|]. rewrite <- Zle_Qle. lia. }
    destruct (Z.eq_dec j (Z.of_nat (length bs))) as [Ej|Nj].
    + exists (bs ++ [lb ++ [n]]). split; [destruct nums; discriminate|]. split.
      { rewrite <- Co, Ebl, !concat_app. cbn. rewrite !app_nil_r, app_assoc. reflexivity. }
      split; [rewrite last_last; destruct lb; discriminate|]. rewrite Hd.
      intros i bl m E I. destruct (Nat.lt_ge_cases i (length bs)) as [L|L].
      * rewrite nth_error_app1 in E by exact L. apply (B i bl m); [|exact I]. rewrite Ebl, nth_error_app1 by exact L. exact E.
      * rewrite nth_error_app2 in E by exact L. destruct (i - length bs)%nat as [|q] eqn:Q; [|destruct q; discriminate]. injection E as <-.
        assert (i = length bs) as -> by lia. apply in_app_or in I as [I|[<-|[]]]; [exact (B _ _ _ Elb I)|]. rewrite <- Ej. auto.
    + set (q := Z.to_nat (j - Z.of_nat (length bs) - 1)). exists (blocks ++ repeat [] q ++ [[n]]). split; [destruct nums; discriminate|]. split.
      { rewrite !concat_app, Co. f_equal. assert (X : concat (repeat (@nil Z) q) = []) by (induction q as [|q' IHq]; [reflexivity|exact IHq]). rewrite X. reflexivity. }
      split; [rewrite app_assoc, last_last; discriminate|]. rewrite Hd.
      intros i bl m E I. destruct (Nat.lt_ge_cases i (length blocks)) as [L|L].
      * rewrite nth_error_app1 in E by exact L. exact (B _ _ _ E I).
      * rewrite nth_error_app2 in E by exact L. destruct (Nat.lt_ge_cases (i - length blocks) q) as [L'|L'].
        -- rewrite nth_error_app1 in E by (rewrite repeat_length; exact L'). apply nth_error_In, repeat_spec in E. subst bl. destruct I.
        -- rewrite nth_error_app2 in E by (rewrite repeat_length; exact L'). rewrite repeat_length in E.
           destruct (i - length blocks - q)%nat as [|q'] eqn:Q; [|destruct q'; discriminate]. injection E as <-. destruct I as [<-|[]].
           assert (Z.of_nat i = j) as -> by (unfold q in *; lia). auto.
Qed.

(** * Reading in any circumstance *)
Lemma skipn_twice {A} (l : list A) n m : skipn n (skipn m l) = skipn (n + m) l.
Proof. rewrite Nat.add_comm. revert l. induction m as [|m IH]; intros l; [reflexivity|]. destruct l as [|x l]; [rewrite !skipn_nil; reflexivity|]. cbn. apply IH. Qed.

Section Prefix.
  Variables M G P : Type.
  Variable read_gem : list Z -> outcome M G P.
  Variable nums : list Z.
  Variable blockdays : Q.
  Variable blocks : list (list Z).
  Hypothesis Hb : (0 < blockdays)%Q.
  Hypothesis Hdiv : divided nums (12 * blockdays) blocks.

  Lemma next_block i n1 : n1_at nums blockdays i n1 -> more nums n1 = true ->
    exists bl, nth_error blocks i = Some bl /\ block nums blockdays n1 = bl /\ skipn i blocks = bl :: skipn (S i) blocks.
  Proof.
    intros E1 Mo. apply (more_iff M G P read_gem nums blockdays 0 blocks Hb Hdiv i n1 E1) in Mo.
    destruct (nth_error blocks i) as [bl|] eqn:E; [|apply nth_error_None in E; lia]. exists bl. split; [reflexivity|].
    split; [exact (block_is M G P read_gem nums blockdays 0 blocks Hb Hdiv i n1 bl E1 E)|].
    clear -E. revert i E. induction blocks as [|x l IH]; intros i E; [destruct i; discriminate|]. destruct i as [|i]; [cbn in *; congruence|]. cbn in *. apply IH. exact E.
  Qed.

  (* [reads] is the next blocks, and [n1] moves on with them *)
  Definition goes_on (i : nat) (h : list (event M G)) (i' : nat) : Prop :=
    (i <= i')%nat /\ reads h = firstn (i' - i) (skipn i blocks).

  Lemma goes_refl i : goes_on i [] i.
  Proof. split; [lia|]. rewrite Nat.sub_diag. reflexivity. Qed.
  Lemma goes_app i h i' h' i'' : goes_on i h i' -> goes_on i' h' i'' -> goes_on i (h ++ h') i''.
  Proof.
    intros [A B] [A' B']. split; [lia|]. unfold reads in *. rewrite flat_map_app, B, B'.
    rewrite <- (firstn_skipn (i' - i) (skipn i blocks)) at 2. rewrite skipn_twice. replace (i' - i + i)%nat with i' by lia.
    rewrite firstn_app, firstn_firstn, Nat.min_r by lia. f_equal.
    destruct (Nat.le_gt_cases (i' - i) (length (skipn i blocks))) as [L|L].
    - rewrite firstn_length, Nat.min_l by exact L. f_equal. lia.
    - assert (skipn i' blocks = []) as -> by (apply skipn_all2; rewrite skipn_length in L; lia). rewrite !firstn_nil. reflexivity.
  Qed.
  Lemma goes_read i bl h i' : nth_error blocks i = Some bl -> skipn i blocks = bl :: skipn (S i) blocks -> goes_on (S i) h i' -> goes_on i (Read bl :: h) i'.
  Proof.
    intros E Sk [A B]. split; [lia|]. change (reads (Read bl :: h)) with (bl :: reads h). rewrite B, Sk. replace (i' - i)%nat with (S (i' - S i)) by lia. reflexivity.
  Qed.
  Lemma goes_quiet i h h' i' : reads h = [] -> goes_on i h' i' -> goes_on i (h ++ h') i'.
  Proof. intros E [A B]. split; [exact A|]. unfold reads in *. rewrite flat_map_app, E. exact B. Qed.

  Lemma first_block_goes fuel : forall i n1, n1_at nums blockdays i n1 ->
    let (h, r) := first_block M G P read_gem nums blockdays fuel n1 in
    exists i', goes_on i h i' /\ match r with Returns (n1', _) => n1_at nums blockdays i' n1' | _ => True end.
  Proof.
    induction fuel as [|fuel IH]; intros i n1 E1; cbn [first_block]; [exists i; split; [apply goes_refl|exact I]|].
    destruct (more nums n1) eqn:Mo; [|exists i; split; [apply goes_refl|exact I]].
    destruct (next_block i n1 E1 Mo) as (bl & Eb & -> & Sk). pose proof (n1_next nums blockdays i n1 E1) as En. specialize (IH (S i) _ En).
    destruct (read_gem bl) as [| |[|tr st] m g pb].
    - destruct (first_block M G P read_gem nums blockdays fuel _) as [h r]. destruct IH as (i' & Go & X). exists i'. split; [apply goes_read; assumption|exact X].
    - exists (S i). split; [apply goes_read; [assumption..|apply goes_refl]|exact I].
    - destruct (first_block M G P read_gem nums blockdays fuel _) as [h r]. destruct IH as (i' & Go & X). exists i'. split; [apply goes_read; assumption|exact X].
    - exists (S i). split; [apply goes_read; [assumption..|apply goes_refl]|exact En].
  Qed.

  Lemma read_more_goes fuel : forall i n1 tt2 p pbs, n1_at nums blockdays i n1 ->
    let (h, r) := read_more M G P read_gem nums blockdays fuel n1 tt2 p pbs in
    exists i', goes_on i h i' /\ match r with Returns (n1', _, _) => n1_at nums blockdays i' n1' | _ => True end.
  Proof.
    induction fuel as [|fuel IH]; intros i n1 tt2 p pbs E1; cbn [read_more]; [exists i; split; [apply goes_refl|exact I]|].
    destruct (end_time p) as [e|]; [|exists i; split; [apply goes_refl|exact I]].
    destruct (Qltb e tt2 && more nums n1) eqn:Go; [|exists i; split; [apply goes_refl|exact E1]]. apply andb_true_iff in Go as [_ Mo].
    destruct (next_block i n1 E1 Mo) as (bl & Eb & -> & Sk). pose proof (n1_next nums blockdays i n1 E1) as En. pose proof (fun p pbs => IH (S i) _ tt2 p pbs En) as IH'.
    destruct (read_gem bl) as [| |[|tr st] m g pb].
    - specialize (IH' p pbs). destruct (read_more M G P read_gem nums blockdays fuel _ tt2 p pbs) as [h r]. destruct IH' as (i' & Go & X). exists i'. split; [apply goes_read; assumption|exact X].
    - exists (S i). split; [apply goes_read; [assumption..|apply goes_refl]|exact I].
    - specialize (IH' p pbs). destruct (read_more M G P read_gem nums blockdays fuel _ tt2 p pbs) as [h r]. destruct IH' as (i' & Go & X). exists i'. split; [apply goes_read; assumption|exact X].
    - specialize (IH' (merge_gaps (p ++ tr :: st)) (pbs ++ pb)). destruct (read_more M G P read_gem nums blockdays fuel _ tt2 _ _) as [h r]. destruct IH' as (i' & Go & X).
      exists i'. split; [apply goes_read; [assumption..|]|exact X]. exact (goes_quiet _ [Meta m; Gps g] _ _ eq_refl Go).
  Qed.

  Lemma write_files_quiet flen t2 fuel : forall final p hour, reads (fst (write_files M G flen t2 fuel final p hour)) = [].
  Proof.
    assert (X : forall out h, reads (map (@Write M G) out ++ h) = reads h) by (intros out h; unfold reads; induction out as [|x out IH]; [reflexivity|exact IH]).
    induction fuel as [|fuel IH]; intros final p hour; cbn [write_files]; [reflexivity|].
    destruct (end_time p) as [e|]; [|reflexivity]. destruct (Qle_bool _ e); [|reflexivity]. destruct (write_hour flen p hour) as [out he].
    destruct (trim p he t2) as [p'|]; [|cbn [fst]; rewrite X; reflexivity]. destruct (start_time p') as [s|]; [|cbn [fst]; rewrite X; reflexivity].
    specialize (IH final p' s). destruct (write_files M G flen t2 fuel final p' s) as [h r]. cbn [fst] in *. rewrite X. exact IH.
  Qed.

  Lemma main_loop_goes flen t2 fuel fuel2 : forall i n1 t1 p hour pbs, n1_at nums blockdays i n1 ->
    exists i', goes_on i (fst (main_loop M G P read_gem nums blockdays flen t2 fuel fuel2 n1 t1 p hour pbs)) i'.
  Proof.
    induction fuel as [|fuel IH]; intros i n1 t1 p hour pbs E1; cbn [main_loop]; [exists i; apply goes_refl|].
    destruct (negb (more nums n1) || Qltb t2 t1).
    - pose proof (write_files_quiet flen t2 fuel2 true p hour) as Q. exists i. destruct (write_files M G flen t2 fuel2 true p hour) as [h r]. cbn [fst] in Q.
      pose proof (goes_quiet i h [] i Q (goes_refl i)) as X. rewrite app_nil_r in X. destruct r; exact X.
    - match goal with |- context [read_more _ _ _ _ _ _ _ _ ?t _ _] => set (tt2 := t) end.
      pose proof (read_more_goes fuel2 i n1 tt2 p pbs E1) as R. destruct (read_more M G P read_gem nums blockdays fuel2 n1 tt2 p pbs) as [h [[[n1' p'] pbs']| |]];
        destruct R as (i' & Go & E1'); [|exists i'; exact Go|exists i'; exact Go].
      pose proof (write_files_quiet flen t2 fuel2 false p' hour) as Q. destruct (write_files M G flen t2 fuel2 false p' hour) as [h' [[p2 hour']| |]]; cbn [fst] in Q.
      + assert (Go' : goes_on i (h ++ h') i'). { eapply goes_app; [exact Go|]. pose proof (goes_quiet i' h' [] i' Q (goes_refl i')) as X. rewrite app_nil_r in X. exact X. }
        destruct (trim p2 hour' t2) as [p3|]; [|exists i'; exact Go'].
        match goal with |- context [main_loop _ _ _ _ _ _ _ _ _ _ n1' ?t _ _ _] => set (t1' := t) end.
        destruct (IH i' n1' t1' p3 hour' pbs' E1') as (i'' & Go''). exists i''.
        destruct (main_loop M G P read_gem nums blockdays flen t2 fuel fuel2 n1' t1' p3 hour' pbs') as [h'' r]. cbn [fst] in *. rewrite app_assoc. eapply goes_app; eassumption.
      + exists i'. cbn [fst]. eapply goes_app; [exact Go|]. pose proof (goes_quiet i' h' [] i' Q (goes_refl i')) as X. rewrite app_nil_r in X. exact X.
      + exists i'. cbn [fst]. eapply goes_app; [exact Go|]. pose proof (goes_quiet i' h' [] i' Q (goes_refl i')) as X. rewrite app_nil_r in X. exact X.
  Qed.

  Lemma convert_goes gps_time flen t1_arg t2 fuel : exists i, reads (fst (convert M G P gps_time read_gem nums blockdays flen t1_arg t2 fuel)) = firstn i blocks.
  Proof.
    unfold convert. destruct nums as [|n0 ns] eqn:En; [exists 0%nat; reflexivity|]. rewrite <- En in *.
    assert (E0 : n1_at nums blockdays 0 (inject_Z n0)) by (unfold n1_at; rewrite En; cbn [hd]; change (inject_Z (Z.of_nat 0)) with 0%Q; ring).
    assert (Fin : forall h i, goes_on 0 h i -> reads h = firstn i blocks) by (intros h i [_ E]; rewrite E, Nat.sub_0_r; reflexivity).
    pose proof (first_block_goes fuel 0 (inject_Z n0) E0) as R. destruct (first_block M G P read_gem nums blockdays fuel (inject_Z n0)) as [h [[n1 [[[st m] g] pb]]| |]];
      destruct R as (i & Go & E1); [|exists i; exact (Fin _ _ Go)|exists i; exact (Fin _ _ Go)].
    destruct (start_time _) as [s|]; [|exists i; exact (Fin _ _ Go)].
    match goal with |- context [main_loop _ _ _ _ _ _ _ _ _ _ n1 ?t ?q ?hr _] => destruct (main_loop_goes flen t2 fuel fuel i n1 t q hr pb E1) as (i' & Go');
      destruct (main_loop M G P read_gem nums blockdays flen t2 fuel fuel n1 t q hr pb) as [h' r] end.
    exists i'. cbn [fst] in *. apply Fin. eapply goes_app; [exact Go|]. match goal with |- goes_on _ (?a :: ?b :: _) _ => exact (goes_quiet i [a; b] h' i' eq_refl Go') end.
  Qed.
End Prefix.

Lemma order_one_file st : in_order st -> forall a b x y k, nth_error st a = Some x -> nth_error st b = Some y ->
  gs x <= k <= gend x -> gs y <= k <= gend y -> a = b.
Proof.
  induction st as [|t st IH]; intros O a b x y k Ea Eb Hx Hy; [destruct a; discriminate|].
  assert (X : forall n z, nth_error st n = Some z -> gs z <= k -> gs t <= k <= gend t -> False).
  { intros n z E L R. apply nth_error_In in E. assert (gd z <> []) as Nz by (destruct O as [F _]; inversion F as [|? ? ? F']; subst; rewrite Forall_forall in F'; exact (F' z E)).
    destruct (first_sample _ Nz) as (i & A & B). assert (Sz : sample st (gs z) (hd 0 (gd z))) by (exists z, i; auto). pose proof (after_head _ _ _ _ O Sz). lia. }
  destruct a as [|a], b as [|b]; cbn in Ea, Eb; [reflexivity| | |f_equal; eapply IH; eauto; exact (order_tail _ _ O)].
  - injection Ea as ->. destruct (X b y Eb ltac:(lia) Hx).
  - injection Eb as ->. destruct (X a x Ea ltac:(lia) Hy).
Qed.
