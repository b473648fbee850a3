(** Proofs about the lags between sensors. *)
From Coq Require Import String.
From Coq Require Import ZArith QArith Qround Qabs List Bool Lia Lqa.
From Verif Require Import Base Lib UnwrapProofs NamesProofs Windows Huddle Slowness Xcorr XcorrSpec.
Import ListNotations.
Open Scope Z_scope.

Lemma ring_length {D} (f : sensor D) l : length (ring D f l) = length l.
Proof. induction l as [|s l IH]; cbn; [reflexivity|]. rewrite IH. reflexivity. Qed.
Lemma ring_nth {D} (f : sensor D) l i : nth_error (ring D f l) i =
  match nth_error l i with Some s => Some (s, match nth_error l (S i) with Some t => t | None => f end) | None => None end.
Proof.
  revert i. induction l as [|s l IH]; intros [|i]; cbn; try reflexivity.
  - destruct l; reflexivity.
  - rewrite IH. reflexivity.
Qed.
Lemma ring_next {D} (f : sensor D) l i x y : next (f :: l) i x y <-> nth_error (ring D f (f :: l)) i = Some (x, y).
Proof.
  unfold next. rewrite ring_nth. set (L := f :: l). assert (0 < length L)%nat by (cbn; lia).
  destruct (nth_error L i) as [s|] eqn:E; [|split; [intros [X _]; discriminate|discriminate]].
  assert (i < length L)%nat by (apply nth_error_Some; congruence).
  destruct (Nat.eq_dec (S i) (length L)) as [Q|Q].
  - replace (i + 1)%nat with (length L) by lia. rewrite Nat.mod_same by lia. replace (nth_error L (S i)) with (@None (sensor D)) by (symmetry; apply nth_error_None; lia).
    cbn [nth_error L]. split; [intros [X Y]; congruence|intros X; split; congruence].
  - replace (i + 1)%nat with (S i) by lia. rewrite Nat.mod_small by lia. destruct (nth_error L (S i)) as [t|] eqn:F; [|apply nth_error_None in F; lia].
    split; [intros [X Y]; congruence|intros X; split; congruence].
Qed.

Lemma set_fresh d k v : ~ In k (map fst d) -> set d k v = d ++ [(k, v)].
Proof.
  induction d as [|[k' v'] d IH]; intros N; cbn; [reflexivity|]. destruct (eqb_bytes k' k) eqn:E.
  - apply eqb_bytes_iff in E. destruct N. left. exact E.
  - rewrite IH; [reflexivity|]. intros I. apply N. right. exact I.
Qed.

Lemma nodup_left {A} (l r : list A) : NoDup (l ++ r) -> NoDup l.
Proof.
  induction l as [|x l IH]; intros H; [constructor|]. inversion H as [|? ? N H']; subst. constructor; [|apply IH; exact H'].
  intros I. apply N, in_or_app. auto.
Qed.

Section loop.
Variable D : Type.
Variable prepare : D -> D.
Variable std : D -> Q.
Variable correlate : D -> D -> Z -> Z * Q.
Variable maxlag : Z.
Variable dt : Q.
Variable n : Z.
Notation sensor := (sensor D).
Notation short_id := (short_id D).

Definition measured (p : sensor * sensor) : Z * Q := correlate (prepare (s_data D (fst p))) (prepare (s_data D (snd p))) maxlag.
Definition entries (p : sensor * sensor) : items :=
  [(b "rms_" ++ short_id (fst p), Num (std (prepare (s_data D (fst p)))));
   (b "lag_" ++ short_id (fst p) ++ b "_" ++ short_id (snd p), Num (inject_Z (fst (measured p)) * dt));
   (b "r_" ++ short_id (fst p) ++ b "_" ++ short_id (snd p), Num (snd (measured p)))].

Lemma loop ps : forall d c m, NoDup (map fst (d ++ flat_map entries ps)) ->
  fold_left (pair_step D prepare std correlate maxlag dt n) ps (d, c, m) =
  (d ++ flat_map entries ps,
   fold_left (fun c p => c + inject_Z (fst (measured p)) / inject_Z n)%Q ps c,
   fold_left (fun m p => m + snd (measured p) / inject_Z n)%Q ps m).
Proof.
  induction ps as [|[x y] ps IH]; intros d c m ND; cbn [fold_left flat_map]; [rewrite app_nil_r; reflexivity|].
  assert (E : pair_step D prepare std correlate maxlag dt n (d, c, m) (x, y) =
    (d ++ entries (x, y), c + inject_Z (fst (measured (x, y))) / inject_Z n, m + snd (measured (x, y)) / inject_Z n)%Q).
  { unfold pair_step, entries, measured. cbn [fst snd]. destruct (correlate _ _ maxlag) as [sh va] eqn:C. cbn [fst snd].
    assert (P : NoDup (map fst (d ++ entries (x, y)))).
    { cbn [flat_map] in ND. rewrite app_assoc, map_app in ND. exact (nodup_left _ _ ND). }
    unfold entries, measured in P. cbn [fst snd] in P. rewrite C in P. cbn [fst snd] in P.
    rewrite map_app in P. cbn [map fst] in P.
    assert (N1 : ~ In (b "rms_" ++ short_id x) (map fst d)) by (apply NoDup_remove_2 in P; intros I; apply P, in_or_app; auto).
    rewrite (set_fresh d) by exact N1.
    change (map fst d ++ [b "rms_" ++ short_id x; b "lag_" ++ short_id x ++ b "_" ++ short_id y; b "r_" ++ short_id x ++ b "_" ++ short_id y])
      with (map fst d ++ [b "rms_" ++ short_id x] ++ [b "lag_" ++ short_id x ++ b "_" ++ short_id y; b "r_" ++ short_id x ++ b "_" ++ short_id y]) in P.
    rewrite app_assoc in P.
    rewrite (set_fresh (d ++ _)).
    2:{ rewrite map_app. cbn [map fst]. apply NoDup_remove_2 in P. intros I. apply P, in_or_app. auto. }
    change ([b "lag_" ++ short_id x ++ b "_" ++ short_id y; b "r_" ++ short_id x ++ b "_" ++ short_id y]) with
      ([b "lag_" ++ short_id x ++ b "_" ++ short_id y] ++ [b "r_" ++ short_id x ++ b "_" ++ short_id y]) in P. rewrite app_assoc in P.
    rewrite (set_fresh ((d ++ _) ++ _)).
    2:{ rewrite !map_app. cbn [map fst]. apply NoDup_remove_2 in P. intros I. apply P, in_or_app. auto. }
    rewrite <- !app_assoc. reflexivity. }
  rewrite E, IH; [rewrite <- app_assoc; reflexivity|]. rewrite <- app_assoc. exact ND.
Qed.
End loop.

Lemma sum_fold {A} (f : A -> Q) (n : Q) l : forall c, (~ n == 0)%Q ->
  (fold_left (fun c p => c + f p / n) l c == c + qtotal (map f l) / n)%Q.
Proof.
  induction l as [|x l IH]; intros c N; cbn [fold_left map qtotal fold_right].
  - unfold Qdiv. ring.
  - rewrite IH by exact N. fold (qtotal (map f l)). unfold Qdiv. ring.
Qed.
Lemma qtotal_Z {A} (f : A -> Z) l : (qtotal (map (fun p => inject_Z (f p)) l) == inject_Z (total (map f l)))%Q.
Proof. induction l as [|x l IH]; cbn [map qtotal total fold_right]; [reflexivity|]. fold (qtotal (map (fun p => inject_Z (f p)) l)). fold (total (map f l)). rewrite IH, inject_Z_plus. reflexivity. Qed.

Lemma split_at c : forall (p q r s : bytes), ~ In c p -> ~ In c q -> p ++ [c] ++ r = q ++ [c] ++ s -> p = q /\ r = s.
Proof.
  induction p as [|x p IH]; intros [|y q] r s Np Nq E; cbn in E.
  - injection E as E. auto.
  - injection E as E _. destruct Nq. left. symmetry. exact E.
  - injection E as E _. destruct Np. left. exact E.
  - injection E as -> E. destruct (IH q r s) as [-> ->]; [intros I; apply Np; right; exact I|intros I; apply Nq; right; exact I|exact E|auto].
Qed.

Section names.
Variable D : Type.
Notation sensor := (sensor D).
Notation short_id := (short_id D).
Variables (prepare : D -> D) (std : D -> Q) (correlate : D -> D -> Z -> Z * Q) (maxlag : Z) (dt : Q).
Notation entries := (entries D prepare std correlate maxlag dt).

Lemma entries_names f l : map fst (flat_map entries (ring D f l)) = pair_items (short_id f) (map short_id l).
Proof.
  induction l as [|s l IH]; [reflexivity|]. cbn [ring flat_map map pair_items]. rewrite map_app, IH. cbn [map fst entries snd app].
  destruct l as [|t l]; reflexivity.
Qed.
Definition one_of (k : bytes) (ids : list bytes) : Prop := exists i, In i ids /\
  (k = b "rms_" ++ i \/ (exists j, k = b "lag_" ++ i ++ b "_" ++ j) \/ (exists j, k = b "r_" ++ i ++ b "_" ++ j)).
Lemma pair_items_in f ids k : In k (pair_items f ids) -> one_of k ids.
Proof.
  induction ids as [|i ids IH]; cbn [pair_items]; [intros []|]. intros [<-|[<-|[<-|I]]].
  - exists i. split; [left; reflexivity|auto].
  - exists i. split; [left; reflexivity|]. right. left. eauto.
  - exists i. split; [left; reflexivity|]. right. right. eauto.
  - destruct (IH I) as (j & J & H). exists j. split; [right; exact J|exact H].
Qed.
Lemma same_first i j : ~ In 95 i -> ~ In 95 j ->
  b "rms_" ++ i = b "rms_" ++ j \/ (exists x y, b "lag_" ++ i ++ b "_" ++ x = b "lag_" ++ j ++ b "_" ++ y) \/
  (exists x y, b "r_" ++ i ++ b "_" ++ x = b "r_" ++ j ++ b "_" ++ y) -> i = j.
Proof.
  intros Ni Nj [E|[(x & y & E)|(x & y & E)]]; apply app_inv_head in E; [exact E| |]; apply (split_at 95) in E; tauto.
Qed.
Lemma pair_items_nodup f ids : (forall i, In i ids -> ~ In 95 i) -> NoDup ids -> NoDup (pair_items f ids).
Proof.
  induction ids as [|i ids IH]; intros P ND; [constructor|]. inversion ND as [|? ? Ni ND']; subst. cbn [pair_items].
  set (j := match ids with [] => f | j :: _ => j end). assert (Pi : ~ In 95 i) by (apply P; left; reflexivity).
  assert (No : forall k, In k (pair_items f ids) -> k <> b "rms_" ++ i /\ (forall x, k <> b "lag_" ++ i ++ b "_" ++ x) /\ (forall x, k <> b "r_" ++ i ++ b "_" ++ x)).
  { intros k I. apply pair_items_in in I as (i' & I' & H). assert (Pi' : ~ In 95 i') by (apply P; right; exact I').
    assert (Ne : i' <> i) by (intros ->; contradiction).
    split; [|split]; [intros E|intros x E|intros x E]; subst k; (destruct H as [H|[(y & H)|(y & H)]]; [| |]);
      try discriminate; apply Ne; symmetry; apply (same_first i i' Pi Pi'); eauto 6. }
  constructor; [|constructor; [|constructor; [|apply IH; [intros x I; apply P; right; exact I|exact ND']]]].
  - intros [E|[E|I]]; [discriminate|discriminate|]. destruct (No _ I) as [X _]. exact (X eq_refl).
  - intros [E|I]; [discriminate|]. destruct (No _ I) as [_ [X _]]. exact (X j eq_refl).
  - intros I. destruct (No _ I) as [_ [_ X]]. exact (X j eq_refl).
Qed.
End names.

(** [rint] is a nearest integer. *)
Lemma rint_near x : (inject_Z (rint x) - (1 # 2) <= x <= inject_Z (rint x) + (1 # 2))%Q.
Proof.
  unfold rint. set (f := Qfloor x). pose proof (Qfloor_le x) as L. pose proof (Qlt_floor x) as U. fold f in L, U.
  rewrite inject_Z_plus in U. change (inject_Z 1) with 1%Q in U.
  destruct (Qltb (x - inject_Z f) (1 # 2)) eqn:A; [apply Qltb_lt in A; split; lra|]. apply Qltb_ge in A.
  destruct (Qltb (1 # 2) (x - inject_Z f)) eqn:B; [apply Qltb_lt in B; rewrite inject_Z_plus; change (inject_Z 1) with 1%Q; split; lra|].
  apply Qltb_ge in B. destruct (Z.even f); [split; lra|]. rewrite inject_Z_plus. change (inject_Z 1) with 1%Q. split; lra.
Qed.
