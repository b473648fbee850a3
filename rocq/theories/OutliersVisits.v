(** C34: a logger that stood in one place for nearly all of the time: its positions elsewhere are removed, those at the
    place are kept. *)
From Coq Require Import ZArith QArith Qabs List Bool Lia Lqa Permutation.
From Verif Require Import Base Outliers OutliersSpec UnwrapProofs OutliersProofs OutliersProps VisitsSpec.
Import ListNotations.
Open Scope Q_scope.

Definition inb (lo hi x : Q) : bool := Qle_bool lo x && Qle_bool x hi.
Lemma inb_iff lo hi x : inb lo hi x = true <-> lo <= x <= hi.
Proof. unfold inb. rewrite andb_true_iff, !Qle_bool_iff. tauto. Qed.
Definition home (s : site) (p : Q * Q) : bool := inb (lat0 s) (lat1 s) (fst p) && inb (lon0 s) (lon1 s) (snd p).
Lemma home_iff s p : home s p = true <-> at_site s p.
Proof. unfold home, at_site. rewrite andb_true_iff, !inb_iff. tauto. Qed.

Lemma filter_le_length {A} (p q : A -> bool) l : (forall x, In x l -> p x = true -> q x = true) ->
  (length (filter p l) <= length (filter q l))%nat.
Proof.
  induction l as [|x l IH]; intros H; [cbn; lia|]. cbn [filter]. specialize (IH (fun y Y => H y (or_intror Y))).
  pose proof (H x (or_introl eq_refl)) as X. destruct (p x); [rewrite (X eq_refl)|destruct (q x)]; cbn [length]; lia.
Qed.
Lemma filter_disjoint {A} (p q : A -> bool) l : (forall x, In x l -> p x = true -> q x = false) ->
  (length (filter p l) + length (filter q l) <= length l)%nat.
Proof.
  induction l as [|x l IH]; intros H; [cbn; lia|]. cbn [filter]. specialize (IH (fun y Y => H y (or_intror Y))).
  pose proof (H x (or_introl eq_refl)) as X. destruct (p x); [rewrite (X eq_refl)|destruct (q x)]; cbn [length]; lia.
Qed.
Lemma filter_map_length {A B} (f : A -> B) (p : B -> bool) l : length (filter p (map f l)) = length (filter (fun x => p (f x)) l).
Proof. induction l as [|x l IH]; [reflexivity|]. cbn [map filter]. destruct (p (f x)); cbn [length]; rewrite IH; reflexivity. Qed.

Lemma median_home lo hi l d : is_median l d -> (length l < 2 * length (filter (inb lo hi) l))%nat -> lo <= d <= hi.
Proof.
  intros M L. pose proof (median_half_above l d M) as A. pose proof (median_half_below l d M) as B. unfold cnt in A, B.
  rewrite <- (inject_Z_mult 2), <- Zle_Qle in A. rewrite <- (inject_Z_mult 2), <- Zle_Qle in B. split.
  - destruct (Qlt_le_dec d lo) as [H|H]; [|exact H]. exfalso.
    pose proof (filter_disjoint (fun x => Qle_bool x d) (inb lo hi) l) as X. cbv beta in X.
    assert (Y : forall x, In x l -> Qle_bool x d = true -> inb lo hi x = false).
    { intros x _ T. apply Qle_bool_iff in T. destruct (inb lo hi x) eqn:E; [|reflexivity]. apply inb_iff in E. lra. }
    specialize (X Y). lia.
  - destruct (Qlt_le_dec hi d) as [H|H]; [|exact H]. exfalso.
    pose proof (filter_disjoint (Qle_bool d) (inb lo hi) l) as X.
    assert (Y : forall x, In x l -> Qle_bool d x = true -> inb lo hi x = false).
    { intros x _ T. apply Qle_bool_iff in T. destruct (inb lo hi x) eqn:E; [|reflexivity]. apply inb_iff in E. lra. }
    specialize (X Y). lia.
Qed.

(** * The place is kept *)
Lemma close_home lo hi l x : hi - lo < 5 # 100000 -> l <> [] -> (length l < 2 * length (filter (inb lo hi) l))%nat -> lo <= x <= hi ->
  close 5 l x = true.
Proof.
  intros W N L [X1 X2]. destruct (median_home lo hi l (median l) (median_is l N) L) as [M1 M2].
  unfold close. apply orb_true_intro. left.
  assert (A : Qabs (x - median l) < 5 # 100000) by (apply Qabs_Qlt_condition; split; lra).
  unfold Qltb. apply negb_true_iff. destruct (Qle_bool 0 (Qabs (x - median l) / 5 - (1 # 100000))) eqn:E; [|reflexivity].
  apply Qle_bool_iff in E. exfalso. assert (X : Qabs (x - median l) / 5 < 1 # 100000) by (apply Qlt_shift_div_r; lra). lra.
Qed.

Lemma filter_filter_keep {A} (h c : A -> bool) l : (forall x, In x l -> h x = true -> c x = true) -> filter h (filter c l) = filter h l.
Proof.
  induction l as [|x l IH]; intros H; [reflexivity|]. specialize (IH (fun y Y => H y (or_intror Y))).
  pose proof (H x (or_introl eq_refl)) as X. cbn [filter]. destruct (h x) eqn:E.
  - rewrite (X eq_refl). cbn [filter]. rewrite E, IH. reflexivity.
  - destruct (c x); cbn [filter]; [rewrite E|]; exact IH.
Qed.

Definition mostly (s : site) (x : list (Q * Q)) : Prop := (35 * length x <= 36 * length (filter (home s) x))%nat.
Lemma mostly_lat s x : x <> [] -> mostly s x -> (length (map fst x) < 2 * length (filter (inb (lat0 s) (lat1 s)) (map fst x)))%nat.
Proof.
  intros N M. unfold mostly in M. rewrite filter_map_length, map_length.
  assert (L : (length (filter (home s) x) <= length (filter (fun p => inb (lat0 s) (lat1 s) (fst p)) x))%nat).
  { apply filter_le_length. intros p _ H. unfold home in H. apply andb_true_iff in H. tauto. }
  destruct x; [congruence|]. cbn [length] in *. lia.
Qed.
Lemma mostly_lon s x : x <> [] -> mostly s x -> (length (map snd x) < 2 * length (filter (inb (lon0 s) (lon1 s)) (map snd x)))%nat.
Proof.
  intros N M. unfold mostly in M. rewrite filter_map_length, map_length.
  assert (L : (length (filter (home s) x) <= length (filter (fun p => inb (lon0 s) (lon1 s) (snd p)) x))%nat).
  { apply filter_le_length. intros p _ H. unfold home in H. apply andb_true_iff in H. tauto. }
  destruct x; [congruence|]. cbn [length] in *. lia.
Qed.
Lemma nonempty_map {A B} (f : A -> B) l : l <> [] -> map f l <> [].
Proof. destruct l; [congruence|discriminate]. Qed.

Lemma pass_home s x : small s -> mostly s x -> filter (home s) (pass 5 x) = filter (home s) x.
Proof.
  intros (L1 & W1 & L2 & W2) M. unfold pass. apply filter_filter_keep. intros p I H. apply home_iff in H. destruct H as [H1 H2].
  assert (N : x <> []) by (intros ->; destruct I).
  rewrite (close_home (lat0 s) (lat1 s)), (close_home (lon0 s) (lon1 s)); [reflexivity| | | | | | | |];
    try assumption; try (apply nonempty_map; exact N); [apply mostly_lon|apply mostly_lat]; assumption.
Qed.
Lemma filter_length_le' {A} (p : A -> bool) l : (length (filter p l) <= length l)%nat.
Proof. induction l as [|x l IH]; [reflexivity|]. cbn [filter]. destruct (p x); cbn [length]; lia. Qed.
Lemma mostly_pass s x : small s -> mostly s x -> mostly s (pass 5 x).
Proof.
  intros S M. unfold mostly. rewrite (pass_home s x S M). unfold mostly in M.
  assert (L : (length (pass 5 x) <= length x)%nat) by apply filter_length_le'. lia.
Qed.
Lemma remove_home s fuel x : small s -> mostly s x ->
  filter (home s) (remove_fuel fuel 5 x) = filter (home s) x /\ mostly s (remove_fuel fuel 5 x).
Proof.
  intros S. revert x. induction fuel as [|f IH]; intros x M; cbn [remove_fuel]; destruct (length (pass 5 x) <? length x)%nat; try (split; [reflexivity|exact M]).
  destruct (IH (pass 5 x) (mostly_pass s x S M)) as [A B]. split; [|exact B]. rewrite A. apply pass_home; assumption.
Qed.

(** * What is elsewhere is removed *)
Lemma farthest (c : Q) (l : list Q) : l <> [] -> exists x, In x l /\ forall y, In y l -> Qabs (y - c) <= Qabs (x - c).
Proof.
  induction l as [|a l IH]; intros N; [congruence|]. destruct l as [|a' l'].
  - exists a. split; [left; reflexivity|]. intros y [<-|[]]. lra.
  - destruct (IH ltac:(discriminate)) as (x & I & H). destruct (Qlt_le_dec (Qabs (x - c)) (Qabs (a - c))) as [L|L].
    + exists a. split; [left; reflexivity|]. intros y [<-|Y]; [lra|]. specialize (H y Y). lra.
    + exists x. split; [right; exact I|]. intros y [<-|Y]; [exact L|]. apply H, Y.
Qed.

Lemma sum_bound (p : Q -> bool) (w E c : Q) l : 0 <= w -> 0 <= E ->
  (forall x, In x l -> p x = true -> Qabs (x - c) <= w) -> (forall x, In x l -> Qabs (x - c) <= E) ->
  dev2 c l <= w * w * cnt l + E * E * (cnt l - cnt (filter p l)).
Proof.
  intros W0 E0. induction l as [|x l IH]; intros H1 H2.
  { unfold dev2. cbn [map sumQ filter]. change (@cnt Q []) with 0. lra. }
  specialize (IH (fun y Y => H1 y (or_intror Y)) (fun y Y => H2 y (or_intror Y))).
  pose proof (H1 x (or_introl eq_refl)) as A. pose proof (H2 x (or_introl eq_refl)) as B.
  assert (Sq : (x - c) * (x - c) == Qabs (x - c) * Qabs (x - c)).
  { rewrite <- Qabs_Qmult. symmetry. apply Qabs_pos. apply sq_nonneg. }
  unfold dev2 in *. cbn [map sumQ]. cbn [filter]. pose proof (Qabs_nonneg (x - c)) as P. pose proof (cnt_cons x l) as C1.
  destruct (p x).
  - specialize (A eq_refl). pose proof (cnt_cons x (filter p l)) as C2. rewrite Sq, C1, C2. nra.
  - rewrite Sq, C1. nra.
Qed.

Lemma near_site lo hi l : lo <= hi -> hi - lo < 5 # 100000 -> (35 * length l <= 36 * length (filter (inb lo hi) l))%nat ->
  (forall x, In x l -> near 5 l x) -> forall x, In x l -> lo - (21 # 10000) < x < hi + (21 # 10000).
Proof.
  intros Le W L F x I. assert (N : l <> []) by (intros ->; destruct I).
  destruct (farthest lo l N) as (y & Y & Far). set (E := Qabs (y - lo)) in *.
  assert (E0 : 0 <= E) by apply Qabs_nonneg.
  destruct (F y Y) as (d & v & s & M & V & S0 & Sv & Cl).
  assert (L2 : (length l < 2 * length (filter (inb lo hi) l))%nat) by (destruct l; [congruence|]; cbn [length] in *; lia).
  destruct (median_home lo hi l d M L2) as [D1 D2].
  apply (is_variance_variance l v N) in V.
  pose proof (dev2_shift l (mean l - lo) N) as Sh.
  assert (Ed : dev2 lo l == (variance l + (mean l - lo) * (mean l - lo)) * cnt l).
  { rewrite <- Sh. unfold dev2. apply sum_ext. intros z. ring. }
  pose proof (sum_bound (inb lo hi) (hi - lo) E lo l ltac:(lra) E0) as Bd.
  assert (B1 : forall z, In z l -> inb lo hi z = true -> Qabs (z - lo) <= hi - lo).
  { intros z _ T. apply inb_iff in T. apply Qabs_Qle_condition. split; lra. }
  specialize (Bd B1 Far). rewrite Ed in Bd.
  assert (Ct : 36 * (cnt l - cnt (filter (inb lo hi) l)) <= cnt l).
  { unfold cnt. assert (Z1 : (35 * Z.of_nat (length l) <= 36 * Z.of_nat (length (filter (inb lo hi) l)))%Z) by lia.
    rewrite Zle_Qle in Z1. rewrite !inject_Z_mult in Z1. change (inject_Z 35) with 35 in Z1. change (inject_Z 36) with 36 in Z1. lra. }
  assert (Cp : 0 < cnt l) by (destruct l; [congruence|apply cnt_pos]).
  assert (Sq1 := sq_nonneg (mean l - lo)). assert (Sq2 := sq_nonneg E).
  set (w := hi - lo) in *. assert (W0 : 0 <= w) by (unfold w; lra).
  assert (Vb : 36 * variance l <= 36 * (w * w) + E * E).
  { set (vv := variance l) in *. set (C := cnt l) in *. set (K := C - cnt (filter (inb lo hi) l)) in *. set (mm := (mean l - lo) * (mean l - lo)) in *.
    set (ww := w * w) in *. set (EE := E * E) in *.
    assert (T1 : EE * (36 * K) <= EE * C) by (rewrite !(Qmult_comm EE); apply Qmult_le_compat_r; assumption).
    assert (T2 : 0 <= mm * C) by (apply Qmult_le_0_compat; [assumption|lra]).
    assert (T3 : (36 * vv) * C <= (36 * ww + EE) * C) by lra.
    apply Qmult_le_r in T3; assumption. }
  assert (Sb : s <= w + E * (1 # 6)).
  { destruct (Qlt_le_dec (w + E * (1 # 6)) s) as [H|H]; [|exact H]. exfalso.
    assert (X : (w + E * (1 # 6)) * (w + E * (1 # 6)) < s * s).
    { assert (P : 0 <= w + E * (1 # 6)) by lra. nra. }
    assert (X2 : 0 <= w * E) by (apply Qmult_le_0_compat; assumption).
    assert (X3 : 36 * ((w + E * (1 # 6)) * (w + E * (1 # 6))) == 36 * (w * w) + 12 * (w * E) + E * E) by ring.
    rewrite V in Sv. lra. }
  assert (Yd : E <= Qabs (y - d) + w).
  { unfold E. assert (T := Qabs_triangle (y - d) (d - lo)). assert (U : Qabs (d - lo) <= w) by (apply Qabs_Qle_condition; unfold w; split; lra).
    assert (Q : y - d + (d - lo) == y - lo) by ring. rewrite Q in T. lra. }
  assert (Eb : E < 21 # 10000) by (unfold w in *; lra).
  specialize (Far x I). apply Qabs_Qle_condition in Far. lra.
Qed.

Lemma kept_self P y : kept P y y -> Forall P y.
Proof.
  intros K. assert (G : forall a c, kept P a c -> (length c <= length a)%nat /\ (length a = length c -> Forall P a)).
  { intros a c H. induction H as [|p a c Pp H [IH1 IH2]|p a c Np H [IH1 IH2]]; cbn [length].
    - split; [lia|constructor].
    - split; [lia|]. intros E. constructor; [exact Pp|]. apply IH2. lia.
    - split; lia. }
  apply (G y y K). reflexivity.
Qed.
Lemma kept_filter_home s x y : kept (at_site s) x y <-> y = filter (home s) x.
Proof.
  split.
  - intros K. induction K as [|p x y Pp K IH|p x y Np K IH]; [reflexivity| |]; cbn [filter].
    + rewrite (proj2 (home_iff s p) Pp), IH. reflexivity.
    + destruct (home s p) eqn:E; [apply home_iff in E; contradiction|exact IH].
  - intros ->. induction x as [|p x IH]; [constructor|]. cbn [filter]. destruct (home s p) eqn:E.
    + apply kept_yes; [apply home_iff, E|exact IH].
    + apply kept_no; [|exact IH]. intros A. apply home_iff in A. congruence.
Qed.

(** C34.  At least 35 of 36 positions of a table are at one place of less than 0.00005 degrees across.  Then all of these
    are kept, and no position is kept that is 0.0021 degrees or more off in latitude or in longitude. *)
Theorem C34_visits : forall s x homes, small s -> kept (at_site s) x homes -> (35 * length x <= 36 * length homes)%nat ->
  kept (at_site s) (remove_outliers 5 x) homes /\ Forall (about_site s) (remove_outliers 5 x).
Proof.
  intros s x homes S K L. apply kept_filter_home in K. subst homes.
  destruct (remove_home s (length x) x S L) as [A B]. fold (remove_outliers 5 x) in A, B. split.
  - apply kept_filter_home. symmetry. exact A.
  - destruct (C34_fixed_point 5 x ltac:(lra)) as (_ & _ & P). apply kept_self in P. set (y := remove_outliers 5 x) in *.
    apply Forall_forall. intros p I. rewrite Forall_forall in P. destruct S as (L1 & W1 & L2 & W2). unfold mostly in B. split.
    + apply (near_site (lat0 s) (lat1 s) (map fst y) L1 W1).
      * rewrite filter_map_length, map_length. assert (T : (length (filter (home s) y) <= length (filter (fun p => inb (lat0 s) (lat1 s) (fst p)) y))%nat).
        { apply filter_le_length. intros q _ H. unfold home in H. apply andb_true_iff in H. tauto. } lia.
      * intros z Z. apply in_map_iff in Z. destruct Z as (q & <- & Q). apply (P q Q).
      * apply in_map. exact I.
    + apply (near_site (lon0 s) (lon1 s) (map snd y) L2 W2).
      * rewrite filter_map_length, map_length. assert (T : (length (filter (home s) y) <= length (filter (fun p => inb (lon0 s) (lon1 s) (snd p)) y))%nat).
        { apply filter_le_length. intros q _ H. unfold home in H. apply andb_true_iff in H. tauto. } lia.
      * intros z Z. apply in_map_iff in Z. destruct Z as (q & <- & Q). apply (P q Q).
      * apply in_map. exact I.
Qed.

(** So positions elsewhere are removed, and nothing else. *)
Theorem C34_visits_removed : forall s x homes, small s -> kept (at_site s) x homes -> (35 * length x <= 36 * length homes)%nat ->
  Forall (fun p => at_site s p \/ ~ about_site s p) x -> remove_outliers 5 x = homes.
Proof.
  intros s x homes S K L F. destruct (C34_visits s x homes S K L) as [A B]. destruct (C34_fixed_point 5 x ltac:(lra)) as (U & _ & _).
  apply kept_filter_home in A. rewrite A. clear A. symmetry.
  assert (G : Forall (fun p => home s p = true) (remove_outliers 5 x)).
  { rewrite Forall_forall in *. intros p I. apply home_iff. destruct (F p) as [H|H]; [|exact H|exfalso; apply H, B, I].
    clear - U I. induction U as [|a l m U IH|a l m U IH]; [destruct I| |right; auto]. destruct I as [->|I]; [left; reflexivity|right; auto]. }
  clear - G. induction G as [|p l H G IH]; [reflexivity|]. cbn [filter]. rewrite H. f_equal. exact IH.
Qed.

(** A case: seventy fixes at a place with some scatter, one 0.01 degrees north and one a quarter of the globe away. *)
Definition meadow : site := mksite 44 (44 + (4 # 100000)) (-(115)) (-(115) + (4 # 100000)).
Definition walk : list (Q * Q) :=
  repeat (44, -(115) + (1 # 100000)) 35 ++ [(0, 0)] ++ repeat (44 + (3 # 100000), -(115)) 35 ++ [(44 + (1 # 100), -(115))].
Example C34_visits_case :
  small meadow /\ kept (at_site meadow) walk (filter (home meadow) walk) /\ (35 * length walk <= 36 * length (filter (home meadow) walk))%nat /\
  Forall (fun p => at_site meadow p \/ ~ about_site meadow p) walk /\ (length (remove_outliers 5 walk) = 70)%nat.
Proof.
  assert (A : (35 * length walk <= 36 * length (filter (home meadow) walk))%nat) by (vm_compute; lia).
  assert (S : small meadow) by (unfold small, meadow; cbn [lat0 lat1 lon0 lon1]; lra).
  assert (F : Forall (fun p => at_site meadow p \/ ~ about_site meadow p) walk).
  { unfold walk. apply Forall_app. split; [|apply Forall_app; split; [|apply Forall_app; split]].
    - apply Forall_forall. intros p I. apply repeat_spec in I. subst p. left. apply home_iff. reflexivity.
    - constructor; [|constructor]. right. unfold about_site, meadow. cbn [lat0 lat1 lon0 lon1 fst snd]. lra.
    - apply Forall_forall. intros p I. apply repeat_spec in I. subst p. left. apply home_iff. reflexivity.
    - constructor; [|constructor]. right. unfold about_site, meadow. cbn [lat0 lat1 lon0 lon1 fst snd]. lra. }
  assert (K : kept (at_site meadow) walk (filter (home meadow) walk)) by (apply kept_filter_home; reflexivity).
  split; [exact S|]. split; [exact K|]. split; [exact A|]. split; [exact F|].
  rewrite (C34_visits_removed meadow walk _ S K A F). vm_compute. reflexivity.
Qed.

Print Assumptions C34_visits.
Print Assumptions C34_visits_removed.
