From Coq Require Import String.
From Coq Require Import ZArith QArith Qround List Bool Lia Lqa.
From Verif Require Import Lib Base Scan Unwrap UnwrapProofs NamesProofs StationsSpec StationsProofs InventorySpec InventoryProofs GpsProofs Windows WindowsSpec.
Import ListNotations.
Open Scope Q_scope.

Local Arguments b : simpl never.

(** * Geometry *)

Lemma inject_pos z : (0 < z)%Z -> 0 < inject_Z z.
Proof. intros H. rewrite <- (Zlt_Qlt 0). exact H. Qed.

Lemma ceiling_iff x z : (Qceiling x <= z)%Z <-> x <= inject_Z z.
Proof.
  split.
  - intros H. apply Qle_trans with (inject_Z (Qceiling x)); [apply Qle_ceiling|]. rewrite <- Zle_Qle. exact H.
  - intros H. rewrite <- (Qceiling_Z z). apply Qceiling_resp_le. exact H.
Qed.

Section Geometry.
  Variables (t1 len win overlap : Q).
  Hypothesis (W : 0 < win) (O : 0 <= overlap < 1).
  Let step := wanted_step win overlap.
  Let n := num_windows len win overlap.

  Lemma step_pos : 0 < step.
  Proof using W O. unfold step, wanted_step. nra. Qed.

  Lemma n_le z : (n <= z)%Z <-> len - win <= (inject_Z z - 1 + eps) * step.
  Proof using W O.
    pose proof step_pos as P. unfold n, num_windows. fold (wanted_step win overlap). fold step.
    assert (E : (1 + Qceiling ((len - win) / step - eps) <= z)%Z <-> (Qceiling ((len - win) / step - eps) <= z - 1)%Z) by lia.
    rewrite E, ceiling_iff.
    assert (I1 : inject_Z (z - 1) == inject_Z z - 1) by (unfold Zminus; rewrite inject_Z_plus; reflexivity).
    rewrite I1.
    assert (D : (len - win) / step * step == len - win) by (field; lra).
    split; intros H.
    - assert (H' : (len - win) / step <= inject_Z z - 1 + eps) by lra.
      rewrite <- D. apply Qmult_le_compat_r; [exact H'|lra].
    - assert (H' : (len - win) / step <= inject_Z z - 1 + eps); [|lra].
      apply Qmult_lt_0_le_reg_r with step; [exact P|]. rewrite D. exact H.
  Qed.

  Lemma n_ge z : (z < n)%Z <-> (inject_Z z - 1 + eps) * step < len - win.
  Proof using W O.
    split.
    - intros H. destruct (Qlt_le_dec ((inject_Z z - 1 + eps) * step) (len - win)) as [L|L]; [exact L|].
      apply n_le in L. lia.
    - intros H. destruct (Z.lt_ge_cases z n) as [L|L]; [exact L|]. apply n_le in L. lra.
  Qed.

  (** Long enough for more than one window. *)
  Hypothesis long : win * (1 + eps * (1 - overlap)) < len.
  Let m := Z.to_nat (n - 1).

  Lemma n_two : (2 <= n)%Z.
  Proof using W O long.
    enough (1 < n)%Z by lia. apply n_ge. unfold step, wanted_step.
    setoid_replace (inject_Z 1 - 1 + eps) with eps by reflexivity. lra.
  Qed.
  Lemma m_pos : (1 <= m)%nat.
  Proof using W O long. pose proof n_two. unfold m. lia. Qed.
  Lemma n_m : inject_Z (n - 1) == inject_Z (Z.of_nat m).
  Proof using W O long. pose proof n_two. unfold m. rewrite Z2Nat.id by lia. reflexivity. Qed.

  Let gap := (len - win) / inject_Z (n - 1).
  Lemma gap_times : inject_Z (n - 1) * gap == len - win.
  Proof using W O long. pose proof n_two. pose proof (inject_pos (n - 1) ltac:(lia)). unfold gap. field. lra. Qed.

  Lemma gap_le : gap <= (1 + eps) * step /\ 0 < gap.
  Proof using W O long.
    pose proof n_two as T. pose proof (inject_pos (n - 1) ltac:(lia)) as P. pose proof gap_times as G. pose proof step_pos as SP.
    assert (P1 : 1 <= inject_Z (n - 1)) by (rewrite <- (Zle_Qle 1); lia).
    assert (H := proj1 (n_le n) (Z.le_refl n)).
    assert (I1 : inject_Z (n - 1) == inject_Z n - 1) by (unfold Zminus; rewrite inject_Z_plus; reflexivity).
    assert (LW : 0 < len - win).
    { assert (0 < eps * (1 - overlap)) by (apply Qmult_lt_0_compat; [reflexivity|lra]). nra. }
    assert (EP : 0 < eps) by reflexivity.
    set (k := inject_Z (n - 1)) in *. split.
    - apply Qmult_lt_0_le_reg_r with k; [exact P|].
      assert (E : gap * k == len - win) by (rewrite <- G; ring). rewrite E.
      apply Qle_trans with ((k + eps) * step); [rewrite I1; lra|].
      assert (E2 : (1 + eps) * step * k == (k + eps * k) * step) by ring. rewrite E2.
      apply Qmult_le_compat_r; [|lra]. assert (eps * 1 <= eps * k); [|lra]. apply Qmult_le_l; assumption.
    - destruct (Qlt_le_dec 0 gap) as [L|L]; [exact L|]. exfalso.
      assert (X : k * gap <= k * 0) by (apply Qmult_le_l; assumption). lra.
  Qed.

  (** No larger number of windows than necessary. *)
  Lemma m_least m' : (1 <= m')%nat -> len - win <= inject_Z (Z.of_nat m') * step -> (m <= m')%nat.
  Proof using W O long.
    intros M H. pose proof n_two. pose proof step_pos as SP. enough (n <= Z.of_nat m' + 1)%Z by (unfold m; lia). apply n_le.
    rewrite inject_Z_plus. assert (EP : 0 < eps) by reflexivity.
    assert (0 < eps * step) by (apply Qmult_lt_0_compat; assumption).
    assert (E : (inject_Z (Z.of_nat m') + inject_Z 1 - 1 + eps) * step == inject_Z (Z.of_nat m') * step + eps * step)
      by (change (inject_Z 1) with 1; ring). rewrite E. lra.
  Qed.

  Lemma start_is i : win_start t1 len win n (Z.of_nat i) == t1 + inject_Z (Z.of_nat i) * gap.
  Proof using W O long.
    pose proof n_two. pose proof (inject_pos (n - 1) ltac:(lia)). unfold win_start, gap. field. lra.
  Qed.
  Lemma last_start : win_start t1 len win n (Z.of_nat m) + win == t1 + len.
  Proof using W O long. rewrite start_is, <- n_m. pose proof gap_times. lra. Qed.
End Geometry.

(** * Slices *)

Lemma slice_cut {S} (st : list (@trace S)) a e (P : Q -> Prop) : (forall t, P t <-> a <= t <= e) -> cut P st (slice st a e).
Proof.
  intros H. unfold slice. induction st as [|[id tr] st IH]; [constructor|]. cbn [map fst snd].
  set (r := filter (fun s : Q * S => Qle_bool a (fst s) && Qle_bool (fst s) e) tr).
  assert (T : those_with (fun x => P (fst x)) tr r).
  { apply filter_those. intros x X. rewrite andb_true_iff, !Qle_bool_iff, H. reflexivity. }
  clearbody r. destruct r as [|x r]; cbn [filter snd].
  - apply cut_drop; assumption.
  - apply cut_keep; [exact T|discriminate|exact IH].
Qed.

(** * The table *)

Lemma put_keys {V} i k (v : V) out :
  map fst (put i k v out) = if existsb (eqb_bytes k) (map fst out) then map fst out else map fst out ++ [k].
Proof.
  induction out as [|[k' c] out IH]; [reflexivity|]. cbn [put map fst existsb].
  destruct (eqb_bytes k' k) eqn:E.
  - apply eqb_bytes_iff in E. subst. rewrite (proj2 (eqb_bytes_iff k k) eq_refl). reflexivity.
  - assert (E' : eqb_bytes k k' = false) by (apply not_true_is_false; intros X; apply eqb_bytes_iff in X; subst; rewrite (proj2 (eqb_bytes_iff k' k') eq_refl) in E; discriminate).
    rewrite E'. cbn [map fst orb]. rewrite IH. destruct (existsb (eqb_bytes k) (map fst out)); reflexivity.
Qed.

(** What is in the column of [k]; [None] if there is no such column. *)
Fixpoint find_col {V} (k : bytes) (out : list (bytes * list (option V))) : option (list (option V)) :=
  match out with [] => None | (k', c) :: r => if eqb_bytes k' k then Some c else find_col k r end.

Lemma eqb_refl_bytes k : eqb_bytes k k = true.
Proof. apply eqb_bytes_iff. reflexivity. Qed.
Lemma eqb_neq_bytes k k' : k <> k' -> eqb_bytes k k' = false.
Proof. intros N. apply not_true_is_false. intros X. apply eqb_bytes_iff in X. contradiction. Qed.

Lemma find_put_same {V} i k (v : V) out :
  find_col k (put i k v out) = Some (match find_col k out with Some c => c | None => repeat None i end ++ [Some v]).
Proof.
  induction out as [|[k' c] out IH]; cbn [put find_col].
  - rewrite eqb_refl_bytes. reflexivity.
  - destruct (eqb_bytes k' k) eqn:E; cbn [find_col]; rewrite E; [reflexivity|exact IH].
Qed.
Lemma find_put_other {V} i k k2 (v : V) out : k <> k2 -> find_col k2 (put i k v out) = find_col k2 out.
Proof.
  intros N. induction out as [|[k' c] out IH]; cbn [put find_col].
  - rewrite (eqb_neq_bytes k k2 N). reflexivity.
  - destruct (eqb_bytes k' k) eqn:E; cbn [find_col]; destruct (eqb_bytes k' k2) eqn:E2; try reflexivity; try exact IH.
    exfalso. apply eqb_bytes_iff in E. apply eqb_bytes_iff in E2. congruence.
Qed.

Lemma find_fold {V} i (d : list (bytes * V)) : NoDup (map fst d) -> forall out k,
  find_col k (fold_left (fun out kv => put i (fst kv) (snd kv) out) d out) =
  match find (fun kv => eqb_bytes (fst kv) k) d with
  | Some kv => Some (match find_col k out with Some c => c | None => repeat None i end ++ [Some (snd kv)])
  | None => find_col k out
  end.
Proof.
  induction d as [|[k0 v0] d IH]; intros ND out k; [reflexivity|]. cbn [map fst] in ND. inversion ND as [|? ? N ND']; subst.
  cbn [fold_left find fst snd]. rewrite (IH ND'). destruct (eqb_bytes k0 k) eqn:E.
  - apply eqb_bytes_iff in E. subst k0.
    destruct (find (fun kv => eqb_bytes (fst kv) k) d) as [kv|] eqn:F.
    + exfalso. apply N. apply find_some in F. destruct F as [F1 F2]. apply eqb_bytes_iff in F2. rewrite <- F2. apply in_map. exact F1.
    + cbn [snd]. apply find_put_same.
  - assert (NE : k0 <> k) by (intros ->; rewrite eqb_refl_bytes in E; discriminate).
    rewrite (find_put_other i k0 k v0 out NE). reflexivity.
Qed.

Lemma has_find {V} (d : list (bytes * V)) k : has_key d k = match find (fun kv => eqb_bytes (fst kv) k) d with Some _ => true | None => false end.
Proof. unfold has_key. induction d as [|kv d IH]; [reflexivity|]. cbn. destruct (eqb_bytes (fst kv) k); [reflexivity|exact IH]. Qed.

Lemma find_pad {V} (d : list (bytes * V)) out k :
  find_col k (map (fun kc : bytes * list (option V) => if has_key d (fst kc) then kc else (fst kc, snd kc ++ [None])) out) =
  match find_col k out with Some c => Some (if has_key d k then c else c ++ [None]) | None => None end.
Proof.
  induction out as [|[k' c] out IH]; [reflexivity|]. cbn [map fst snd find_col].
  destruct (eqb_bytes k' k) eqn:E.
  - apply eqb_bytes_iff in E. subst k'. destruct (has_key d k); cbn [find_col]; rewrite eqb_refl_bytes; reflexivity.
  - destruct (has_key d k'); cbn [find_col]; rewrite E; exact IH.
Qed.

(** One more window. *)
Definition item {V} (k : bytes) (d : list (bytes * V)) : option V :=
  option_map snd (find (fun kv => eqb_bytes (fst kv) k) d).
Lemma find_add {V} i (d : list (bytes * V)) out k : NoDup (map fst d) ->
  find_col k (add_window i d out) =
  match find_col k out, item k d with
  | Some c, v => Some (c ++ [v])
  | None, Some v => Some (repeat None i ++ [Some v])
  | None, None => None
  end.
Proof.
  intros ND. unfold add_window. rewrite find_pad, (find_fold i d ND), has_find. unfold item.
  destruct (find (fun kv => eqb_bytes (fst kv) k) d) as [kv|]; cbn [option_map]; destruct (find_col k out) as [c|]; reflexivity.
Qed.

Lemma add_keys {V} i (d : list (bytes * V)) out :
  map fst (add_window i d out) = map fst (fold_left (fun out kv => put i (fst kv) (snd kv) out) d out).
Proof. unfold add_window. rewrite map_map. apply map_ext. intros [k c]. cbn. destruct (has_key d k); reflexivity. Qed.

(** Keys in order of first appearance. *)
Lemma fo_app {A} (dec : forall x y : A, {x = y} + {x <> y}) (seen l l' m m' : list A) :
  first_occurrences seen l m -> first_occurrences (rev m ++ seen) l' m' -> first_occurrences seen (l ++ l') (m ++ m').
Proof.
  intros H. induction H as [seen|seen x l m N H IH|seen x l m N H IH]; intros H'.
  - exact H'.
  - cbn [app]. apply fo_new; [exact N|]. apply IH. cbn [rev] in H'. rewrite <- app_assoc in H'. exact H'.
  - cbn [app]. apply fo_old; [exact N|]. apply IH. exact H'.
Qed.
Lemma fo_seen {A} (seen seen' l m : list A) : (forall x, In x seen <-> In x seen') -> first_occurrences seen l m -> first_occurrences seen' l m.
Proof.
  intros E H. revert seen' E. induction H as [seen|seen x l m N H IH|seen x l m N H IH]; intros seen' E.
  - constructor.
  - apply fo_new; [rewrite <- E; exact N|]. apply IH. intros y. cbn. rewrite E. reflexivity.
  - apply fo_old; [apply E; exact N|]. apply IH. exact E.
Qed.

Lemma fold_keys {V} i (d : list (bytes * V)) : forall out, exists m,
  map fst (fold_left (fun out kv => put i (fst kv) (snd kv) out) d out) = map fst out ++ m /\
  first_occurrences (map fst out) (map fst d) m.
Proof.
  induction d as [|[k v] d IH]; intros out; [exists []; rewrite app_nil_r; split; [reflexivity|constructor]|].
  cbn [fold_left fst snd map]. destruct (IH (put i k v out)) as (m & E & F). rewrite put_keys in E, F.
  destruct (existsb (eqb_bytes k) (map fst out)) eqn:X.
  - exists m. split; [exact E|]. apply fo_old; [apply existsb_bytes; exact X|exact F].
  - exists (k :: m). rewrite <- app_assoc in E. split; [exact E|]. apply fo_new.
    + intros C. apply existsb_bytes in C. congruence.
    + apply (fo_seen (map fst out ++ [k])); [|exact F]. intros x. rewrite in_app_iff. cbn. tauto.
Qed.

Lemma in_find {V} k c (out : list (bytes * list (option V))) : NoDup (map fst out) -> (In (k, c) out <-> find_col k out = Some c).
Proof.
  induction out as [|[k' c'] out IH]; intros ND; [split; [intros []|discriminate]|]. cbn [map fst] in ND. inversion ND as [|? ? N ND']; subst.
  cbn [find_col]. destruct (eqb_bytes k' k) eqn:E.
  - apply eqb_bytes_iff in E. subst k'. split.
    + intros [X|X]; [congruence|]. exfalso. apply N. apply (in_map fst) in X. exact X.
    + intros X. left. congruence.
  - rewrite <- (IH ND'). split; [intros [X|X]; [|exact X]|intros X; right; exact X].
    injection X as -> ->. rewrite eqb_refl_bytes in E. discriminate.
Qed.

Lemma find_col_none {V} k (out : list (bytes * list (option V))) : find_col k out = None <-> ~ In k (map fst out).
Proof.
  induction out as [|[k' c'] out IH]; [split; [intros _ []|reflexivity]|]. cbn [find_col map fst].
  destruct (eqb_bytes k' k) eqn:E.
  - apply eqb_bytes_iff in E. split; [discriminate|]. intros N. exfalso. apply N. left. exact E.
  - rewrite IH. split; [|intros N X; apply N; right; exact X].
    intros N [X|X]; [subst; rewrite eqb_refl_bytes in E; discriminate|contradiction].
Qed.

Lemma item_value {V} k (d : list (bytes * V)) : NoDup (map fst d) -> value_of_item k d (item k d).
Proof.
  intros ND. unfold item. destruct (find (fun kv => eqb_bytes (fst kv) k) d) as [[k' v]|] eqn:F; cbn.
  - apply find_some in F. destruct F as [F1 F2]. apply eqb_bytes_iff in F2. cbn in F2. subst. exact F1.
  - intros X. apply in_map_iff in X. destruct X as (kv & E & X). pose proof (List.find_none _ _ F kv X) as Y. cbn in Y. rewrite E, eqb_refl_bytes in Y. discriminate.
Qed.

Lemma table_add {V} ds (d : list (bytes * V)) out : NoDup (map fst d) ->
  table_of ds out -> table_of (ds ++ [d]) (add_window (length ds) d out).
Proof.
  intros ND [K C]. destruct (fo_in (list_eq_dec Z.eq_dec) [] _ _ K) as (U1 & U2 & U3).
  destruct (fold_keys (length ds) d out) as (m & E & F).
  assert (K' : first_occurrences [] (concat (map (map fst) (ds ++ [d]))) (map fst (add_window (length ds) d out))).
  { rewrite map_app, concat_app. cbn [map concat]. rewrite app_nil_r, add_keys, E.
    apply (fo_app (list_eq_dec Z.eq_dec)); [exact K|]. rewrite app_nil_r.
    apply (fo_seen (map fst out)); [|exact F]. intros x. apply in_rev. }
  split; [exact K'|]. destruct (fo_in (list_eq_dec Z.eq_dec) [] _ _ K') as (_ & _ & ND').
  intros k c H. apply (in_find k c _ ND') in H. rewrite (find_add _ _ _ _ ND) in H.
  destruct (find_col k out) as [c0|] eqn:FC.
  - injection H as <-. apply Forall2_app; [apply C; apply (in_find k c0 out U3); exact FC|].
    constructor; [|constructor]. apply item_value. exact ND.
  - destruct (item k d) as [v|] eqn:IV; [|discriminate]. injection H as <-. apply Forall2_app.
    + apply find_col_none in FC.
      assert (A : forall x, In x ds -> value_of_item k x None).
      { intros x X Y. apply FC. apply (U2 k); [apply in_concat; exists (map fst x); split; [apply (in_map (map fst)); exact X|exact Y]|intros []]. }
      clear - A. induction ds as [|x ds IH]; [constructor|]. cbn. constructor; [apply A; left; reflexivity|]. apply IH. intros y Y. apply A. right. exact Y.
    + constructor; [|constructor]. rewrite <- IV. apply item_value. exact ND.
Qed.

(** * The loop *)

Section Run.
  Context {S V : Type}.
  Variable f : list (@trace S) -> option (list (bytes * V)).
  Hypothesis f_dict : forall st d, f st = Some d -> NoDup (map fst d).
  Variables (st : list (@trace S)) (t1 len win : Q) (n : Z).
  Let start i := win_start t1 len win n (Z.of_nat i).
  Definition window_of i := slice st (start i - eps) (start i + win - eps).

  Lemma run_spec todo : forall i ds tmid out, length ds = i -> table_of ds out ->
    Forall2 (fun j t => t == start j + win / 2) (seq 0 i) tmid -> Forall2 (fun j d => f (window_of j) = Some d) (seq 0 i) ds ->
    match run_windows f st t1 len win n i todo tmid out with
    | Some (tmid', out') => exists ds', table_of ds' out' /\ Forall2 (fun j t => t == start j + win / 2) (seq 0 (i + todo)) tmid' /\
        Forall2 (fun j d => f (window_of j) = Some d) (seq 0 (i + todo)) ds'
    | None => exists j, (j < i + todo)%nat /\ f (window_of j) = None
    end.
  Proof using f_dict.
    induction todo as [|todo IH]; intros i ds tmid out L T FM FD.
    - cbn [run_windows]. rewrite Nat.add_0_r. exists ds. auto.
    - cbn [run_windows]. fold (start i). fold (window_of i). destruct (f (window_of i)) as [d|] eqn:E.
      + specialize (IH (Datatypes.S i) (ds ++ [d]) (tmid ++ [start i + win / 2]) (add_window i d out)).
        replace (i + Datatypes.S todo)%nat with (Datatypes.S i + todo)%nat by lia.
        apply IH.
        * rewrite app_length. cbn. lia.
        * rewrite <- L. apply table_add; [apply (f_dict _ _ E)|exact T].
        * rewrite seq_S. apply Forall2_app; [exact FM|]. constructor; [cbn; reflexivity|constructor].
        * rewrite seq_S. apply Forall2_app; [exact FD|]. constructor; [exact E|constructor].
      + exists i. split; [lia|exact E].
  Qed.
End Run.
