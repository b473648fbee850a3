(** Proofs about instrument constants and WAV export. *)
From Coq Require Import String.
From Coq Require Import ZArith QArith Qabs Qround List Bool Lia Lqa.
From Verif Require Import Base Names NamesProofs UnwrapProofs Specs SpecsSpec.
Import ListNotations.
Open Scope Q_scope.

Lemma generation_total sn : (3 <= sn)%Z -> exists v, generation sn v.
Proof.
  intros H.
  destruct (Z_le_gt_dec sn 7); [exists (5#10); constructor; lia|].
  destruct (Z_le_gt_dec sn 14); [exists (7#10); constructor; lia|].
  destruct (Z_le_gt_dec sn 19); [exists (8#10); constructor; lia|].
  destruct (Z_le_gt_dec sn 37); [exists (82#100); constructor; lia|].
  destruct (Z_le_gt_dec sn 40); [exists (9#10); constructor; lia|].
  destruct (Z_le_gt_dec sn 43); [exists (91#100); constructor; lia|].
  destruct (Z_le_gt_dec sn 46); [exists (92#100); constructor; lia|].
  destruct (Z_le_gt_dec sn 49); [exists (98#100); constructor; lia|].
  destruct (Z_le_gt_dec sn 51); [exists (99#100); constructor; lia|].
  destruct (Z_le_gt_dec sn 54); [exists (991#1000); constructor; lia|].
  destruct (Z_le_gt_dec sn 57); [exists (992#1000); constructor; lia|].
  destruct (Z_le_gt_dec sn 107); [exists 1; constructor; lia|]. exists (101#100). constructor. lia.
Qed.

Lemma row_in sn v lo hi r : (lo <= sn)%Z /\ match hi with Some h => (sn <= h)%Z | None => True end ->
  filter (row_applies sn) ((v, lo, hi) :: r) = (v, lo, hi) :: filter (row_applies sn) r.
Proof.
  intros [A B]. cbn [filter]. unfold row_applies at 1. rewrite (proj2 (Z.leb_le lo sn) A). cbn [andb]. destruct hi as [h|]; [rewrite (proj2 (Z.leb_le sn h) B)|]; reflexivity.
Qed.
Lemma row_out sn v lo hi r : ~ ((lo <= sn)%Z /\ match hi with Some h => (sn <= h)%Z | None => True end) ->
  filter (row_applies sn) ((v, lo, hi) :: r) = filter (row_applies sn) r.
Proof.
  intros N. cbn [filter]. unfold row_applies at 1. destruct (Z.leb_spec lo sn); cbn [andb]; [|reflexivity]. destruct hi as [h|]; [destruct (Z.leb_spec sn h); [tauto|reflexivity]|tauto].
Qed.
Lemma generation_row sn v : generation sn v -> exists lo hi, filter (row_applies sn) version_table = [(v, lo, hi)].
Proof.
  intros G. unfold version_table. destruct G; repeat (first [rewrite row_out by lia | rewrite row_in by lia]); cbn [filter]; eauto.
Qed.
Lemma no_row sn : (sn < 3)%Z -> filter (row_applies sn) version_table = [].
Proof. intros G. unfold version_table. repeat (rewrite row_out by lia). reflexivity. Qed.
Lemma version_iff sn v : generation sn v <-> exists lo hi r, filter (row_applies sn) version_table = (v, lo, hi) :: r.
Proof.
  split.
  - intros G. destruct (generation_row sn v G) as (lo & hi & E). eauto.
  - intros (lo & hi & r & E). destruct (Z_lt_le_dec sn 3) as [L|L]; [rewrite no_row in E by exact L; discriminate|].
    destruct (generation_total sn L) as (w & G). destruct (generation_row sn w G) as (lo' & hi' & E'). rewrite E in E'. injection E' as -> _ _ _. exact G.
Qed.

Lemma generation_unique sn v w : generation sn v -> generation sn w -> v = w.
Proof. rewrite !version_iff. intros (a & c & r & E) (a' & c' & r' & E'). congruence. Qed.

Lemma specs_version sn s : get_gem_specs sn = Some s -> generation sn (s_version s).
Proof.
  unfold get_gem_specs. destruct (filter (row_applies sn) version_table) as [|[[v lo] hi] r] eqn:E; [discriminate|]. intros [= <-]. cbn. apply version_iff. eauto.
Qed.
Lemma specs_of sn v : generation sn v -> get_gem_specs sn =
  Some (mkspecs v ((256 # 1000) / inject_Z (2 ^ 15) / gain v) ((256 # 1000) / inject_Z (2 ^ 15) / gain v / (avcc v / 7 * (4513 # 100000000)))).
Proof. intros G. apply version_iff in G as (lo & hi & r & E). unfold get_gem_specs. rewrite E. reflexivity. Qed.

(** * Words *)
Lemma lower_letter c d : (if (65 <=? c) && (c <=? 90) then c + 32 else c)%Z = d -> (97 <= d <= 122)%Z -> same_letter c d.
Proof. unfold same_letter. destruct (Z.leb_spec 65 c), (Z.leb_spec c 90); cbn [andb]; lia. Qed.
Lemma letter_lower c d : same_letter c d -> (97 <= d <= 122)%Z -> (if (65 <=? c) && (c <=? 90) then c + 32 else c)%Z = d.
Proof. unfold same_letter. destruct (Z.leb_spec 65 c), (Z.leb_spec c 90); cbn [andb]; lia. Qed.
Lemma lower_word s t : Forall (fun d => 97 <= d <= 122)%Z t -> (lower s = t <-> same_word s t).
Proof.
  unfold lower, same_word. intros F. revert s. induction F as [|d t Hd F IH]; intros s.
  - destruct s; cbn; split; intros H; solve [reflexivity | constructor | inversion H].
  - destruct s as [|c s]; [split; intros H; inversion H|]. cbn [map]. split.
    + intros [= E1 E2]. constructor; [apply lower_letter; assumption|apply IH; exact E2].
    + intros H. inversion H; subst. f_equal; [apply letter_lower; assumption|apply IH; assumption].
Qed.
Lemma upper_word s t : Forall (fun d => 65 <= d <= 90)%Z t -> (upper s = t <-> same_word s t).
Proof.
  unfold upper, same_word. intros F. revert s. induction F as [|d t Hd F IH]; intros s.
  - destruct s; cbn; split; intros H; solve [reflexivity | constructor | inversion H].
  - destruct s as [|c s]; [split; intros H; inversion H|]. cbn [map]. unfold same_letter in *. split.
    + intros [= E1 E2]. constructor; [|apply IH; exact E2]. destruct (Z.leb_spec 97 c), (Z.leb_spec c 122); cbn [andb] in E1; lia.
    + intros H. inversion H; subst. f_equal; [|apply IH; assumption]. destruct (Z.leb_spec 97 c), (Z.leb_spec c 122); cbn [andb]; lia.
Qed.

(** * Sums, maxima *)
Lemma total_sum l : sumQ l = total l.
Proof. induction l as [|x l IH]; [reflexivity|]. cbn [total]. rewrite <- IH. reflexivity. Qed.
Lemma total_shift m l : total (map (fun v => v - m) l) == total l - inject_Z (Z.of_nat (length l)) * m.
Proof.
  induction l as [|x l IH]; [cbn [map total length]; change (inject_Z (Z.of_nat 0)) with 0; ring|]. cbn [map total length]. rewrite IH, Nat2Z.inj_succ. unfold Z.succ. rewrite inject_Z_plus. change (inject_Z 1) with 1. ring.
Qed.
Lemma total_div r l : total (map (fun v => v / r) l) == total l / r.
Proof. induction l as [|x l IH]; [cbn; unfold Qdiv; ring|]. cbn [map total]. rewrite IH. unfold Qdiv. ring. Qed.
Lemma max_abs_ge l x : In x l -> Qabs x <= max_abs l.
Proof.
  induction l as [|y l IH]; intros I; [destruct I|]. cbn. destruct (Qle_bool _ (Qabs y)) eqn:E.
  - apply Qle_bool_iff in E. destruct I as [->|I]; [lra|]. specialize (IH I). unfold max_abs in IH. lra.
  - destruct I as [->|I]; [|apply IH; exact I]. assert (~ Qabs x >= max_abs l) by (intros X; apply Qle_bool_iff in X; unfold max_abs in X; congruence).
    unfold max_abs in *. lra.
Qed.
Lemma max_abs_in l : l <> [] -> exists x, In x l /\ Qabs x = max_abs l.
Proof.
  induction l as [|y l IH]; [congruence|]. intros _. cbn. destruct (Qle_bool _ (Qabs y)) eqn:E; [exists y; auto|].
  destruct l as [|z l].
  - exfalso. cbn in E. pose proof (Qabs_nonneg y) as P. apply Qle_bool_iff in P. congruence.
  - destruct IH as (x & I & Ex); [discriminate|]. exists x. split; [right; exact I|exact Ex].
Qed.
Lemma max_abs_nonneg l : 0 <= max_abs l.
Proof. induction l as [|y l IH]; [cbn; lra|]. cbn. destruct (Qle_bool _ (Qabs y)); [apply Qabs_nonneg|exact IH]. Qed.

Lemma toward_zero rate : Qeq_bool (inject_Z (if Qle_bool 0 rate then Qfloor rate else Qceiling rate)) rate = true <-> exists n, rate == inject_Z n.
Proof.
  rewrite Qeq_bool_iff. split; [intros H; eexists; symmetry; exact H|]. intros (n & E). destruct (Qle_bool 0 rate).
  - rewrite (Qfloor_comp _ _ E), Qfloor_Z. symmetry. exact E.
  - rewrite (Qceiling_comp _ _ E), Qceiling_Z. symmetry. exact E.
Qed.
