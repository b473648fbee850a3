From Coq Require Import String.
From Coq Require Import ZArith QArith Qround List Bool Lia Lqa.
From Verif Require Import Lib Base Scan Parser Unwrap UnwrapSpec UnwrapProofs Calendar CalendarSpec CalendarProofs
  Process ProcessSpec ParserSpec ParserProofs ScanProofs.
Import ListNotations.
Open Scope Z_scope.

Lemma map2_combine {A B C} (f : A -> B -> C) l : forall m, map2 f l m = map (fun p => f (fst p) (snd p)) (combine l m).
Proof. induction l as [|x l IH]; intros [|y m]; simpl; try reflexivity. now rewrite IH. Qed.

Lemma filter_map {A B} (f : A -> B) p l : filter p (map f l) = map f (filter (fun x => p (f x)) l).
Proof. induction l as [|x l IH]; simpl; [reflexivity|]. destruct (p (f x)); simpl; now rewrite IH. Qed.

Lemma traverse_spec {A B} (f : A -> option B) l : forall l', traverse f l = Some l' <-> Forall2 (fun x y => f x = Some y) l l'.
Proof.
  induction l as [|x l IH]; intros l'; simpl.
  - split; [intros [= <-]; constructor|inversion 1; reflexivity].
  - destruct (f x) as [y|] eqn:E.
    + destruct (traverse f l) as [ys|].
      * split; [intros [= <-]; constructor; [assumption|]; now apply IH|].
        inversion 1 as [|? y0 ? l0 E0 F0]; subst. rewrite E in E0. injection E0 as <-. apply IH in F0. now injection F0 as <-.
      * split; [discriminate|]. inversion 1 as [|? y0 ? l0 E0 F0]; subst. apply IH in F0. discriminate.
    + split; [discriminate|]. inversion 1; subst. congruence.
Qed.

Definition mkrow' (p : Q * drow) : crow := mkc (dkind (snd p)) (fst p) (dcells (snd p)).

Lemma group_correct k r offset df :
  group k (correct r offset df) = map mkrow' (of_kind k (combine (unwrap r offset (map dsaw df)) df)).
Proof.
  unfold correct, group. rewrite map2_combine, filter_map. unfold of_kind, mkrow'. f_equal.
Qed.

Lemma Forall2_map_l {A B C} (f : A -> B) (R : B -> C -> Prop) l m :
  Forall2 R (map f l) m <-> Forall2 (fun x y => R (f x) y) l m.
Proof.
  split.
  - remember (map f l) as l' eqn:E. intros H. revert l E.
    induction H; intros [|a l0] E; try discriminate; constructor.
    + injection E as -> _. assumption.
    + injection E as _ E. auto.
  - induction 1; constructor; auto.
Qed.

Lemma Forall2_map_r {A B C} (f : C -> B) (R : A -> B -> Prop) l m :
  Forall2 R l (map f m) <-> Forall2 (fun x y => R x (f y)) l m.
Proof.
  split.
  - remember (map f m) as m' eqn:E. intros H. revert m E.
    induction H; intros [|a m0] E; try discriminate; constructor.
    + injection E as -> _. assumption.
    + injection E as _ E. auto.
  - induction 1; constructor; auto.
Qed.

Lemma numeric_holds c v : numeric c = Some v <-> holds c v.
Proof. destruct c; simpl; split; try (intros [= <-]; constructor); inversion 1; subst; reflexivity. Qed.

Lemma traverse_numeric l vs : traverse numeric l = Some vs <-> Forall2 holds l vs.
Proof.
  rewrite traverse_spec. split; apply Forall2_impl; intros x y; apply numeric_holds.
Qed.

(** * Running sums *)

Lemma cumsum_length l : forall a, length (cumsum a l) = length l.
Proof. induction l as [|[x|] l IH]; intros a; simpl; auto. Qed.

Lemma cumsum_nth l : forall a i v, nth_error l i = Some v ->
  match v with
  | Some _ => exists s, nth_error (cumsum a l) i = Some (Some s) /\ (s == a + total (firstn (S i) l))%Q
  | None => nth_error (cumsum a l) i = Some None
  end.
Proof.
  induction l as [|x l IH]; intros a [|i] v E; try discriminate.
  - injection E as ->. destruct v as [v|]; simpl; [|reflexivity]. exists (a + v)%Q. split; [reflexivity|]. ring.
  - simpl in E. destruct x as [x|]; cbn [cumsum nth_error].
    + specialize (IH (a + x)%Q i v E). destruct v; [|exact IH]. destruct IH as (s & E1 & E2). exists s. split; [exact E1|].
      rewrite E2. cbn [firstn total]. ring.
    + specialize (IH a i v E). destruct v; [|exact IH]. destruct IH as (s & E1 & E2). exists s. split; [exact E1|].
      rewrite E2. cbn [firstn total]. ring.
Qed.

Lemma running_cumsum l : running_sums l (cumsum 0 l).
Proof.
  split; [apply cumsum_length|]. intros i v E. pose proof (cumsum_nth l 0 i v E) as H.
  destruct v; [|exact H]. destruct H as (s & E1 & E2). exists s. split; [exact E1|]. rewrite E2. ring.
Qed.

(** Differencing undoes it. *)
Lemma total_app l m : (total (l ++ m) == total l + total m)%Q.
Proof. induction l as [|[x|] l IH]; simpl; [ring| |]; rewrite IH; ring. Qed.

Lemma firstn_snoc {A} (l : list A) : forall i x, nth_error l i = Some x -> firstn (S i) l = firstn i l ++ [x].
Proof.
  induction l as [|y l IH]; intros [|i] x E; try discriminate.
  - injection E as ->. reflexivity.
  - simpl in E. change (firstn (S (S i)) (y :: l)) with (y :: firstn (S i) l). rewrite (IH i x E). reflexivity.
Qed.

(** * The GPS filter *)

Lemma flt_false x y : flt x y = false <-> forall v, x = Some v -> (y <= v)%Q.
Proof.
  destruct x as [v|]; simpl; split; intros H; try reflexivity; try discriminate.
  - intros w [= <-]. now apply Qltb_ge.
  - apply Qltb_ge. now apply H.
Qed.
Lemma fgt_false x y : fgt x y = false <-> forall v, x = Some v -> (v <= y)%Q.
Proof.
  destruct x as [v|]; simpl; split; intros H; try reflexivity; try discriminate.
  - intros w [= <-]. now apply Qltb_ge.
  - apply Qltb_ge. now apply H.
Qed.
Lemma feq_false x y : feq x y = false <-> forall v, x = Some v -> ~ (v == y)%Q.
Proof.
  destruct x as [v|]; simpl; split; intros H; try reflexivity; try discriminate.
  - intros w [= <-] E. apply Qeq_bool_iff in E. congruence.
  - destruct (Qeq_bool v y) eqn:E; [|reflexivity]. apply Qeq_bool_iff in E. exfalso. now apply (H v eq_refl).
Qed.
Lemma outside_false x lo hi : outside x lo hi = false <-> between lo hi x.
Proof.
  unfold outside, between. rewrite orb_false_iff, flt_false, fgt_false. firstorder.
Qed.

Lemma floor_unique x n : (inject_Z n <= x)%Q -> (x < inject_Z n + 1)%Q -> Qfloor x = n.
Proof.
  intros H1 H2. pose proof (Qfloor_le x) as A. pose proof (Qlt_floor x) as B.
  assert (inject_Z n < inject_Z (Qfloor x + 1))%Q as C by (eapply Qle_lt_trans; eauto).
  assert (inject_Z (Qfloor x) < inject_Z (n + 1))%Q as D.
  { eapply Qle_lt_trans; [exact A|]. rewrite inject_Z_plus. exact H2. }
  rewrite <- Zlt_Qlt in C, D. lia.
Qed.

Lemma floor_spec x : (inject_Z (Qfloor x) <= x /\ x < inject_Z (Qfloor x) + 1)%Q.
Proof. split; [apply Qfloor_le|]. pose proof (Qlt_floor x) as B. rewrite inject_Z_plus in B. exact B. Qed.

Lemma np_round_whole x : (x == inject_Z (np_round x))%Q <-> exists n, (x == inject_Z n)%Q.
Proof.
  split; [eauto|]. intros [n E]. unfold np_round.
  assert (F : Qfloor x = n).
  { apply floor_unique; rewrite E; [apply Qle_refl|]. rewrite <- (Qplus_0_r (inject_Z n)) at 1. apply Qplus_lt_r. reflexivity. }
  rewrite F. assert (D : (x - inject_Z n == 0)%Q) by (rewrite E; ring).
  rewrite D. simpl. exact E.
Qed.

Lemma not_whole_false x : not_whole x = false <-> exists n, whole x n.
Proof.
  unfold not_whole, whole. destruct x as [v|].
  - rewrite negb_false_iff, Qeq_bool_iff, np_round_whole. split.
    + intros [n E]. exists n, v. auto.
    + intros (n & w & [= <-] & E). eauto.
  - split; [discriminate|]. intros (n & w & [=] & _).
Qed.

Lemma int_of_pos x n lo hi : between lo hi x -> (0 <= lo)%Q -> (int_of x = Some n <-> integer_part x n).
Proof.
  intros Hb Hlo. unfold int_of, integer_part, py_trunc. destruct x as [v|].
  - destruct (Hb v eq_refl) as [L _].
    assert (P : Qle_bool 0 v = true) by (apply Qle_bool_iff; eapply Qle_trans; eauto). rewrite P. split.
    + intros [= <-]. exists v. split; [reflexivity|apply floor_spec].
    + intros (w & [= <-] & A & B). f_equal. now apply floor_unique.
  - split; [discriminate|]. intros (w & [=] & _).
Qed.

Lemma whole_integer_part x n : whole x n -> integer_part x n.
Proof.
  intros (v & -> & E). exists v. split; [reflexivity|]. rewrite E. split; [apply Qle_refl|].
  rewrite <- (Qplus_0_r (inject_Z n)) at 1. apply Qplus_lt_r. reflexivity.
Qed.

Lemma integer_part_unique x n k : integer_part x n -> integer_part x k -> n = k.
Proof.
  intros (v & E & A & B) (w & F & C & D). rewrite E in F. injection F as <-.
  rewrite <- (floor_unique v n A B). now apply floor_unique.
Qed.

Lemma plausible_iff g t : (gps_in_bounds g = true /\ make_gps_time g = Some t) <-> plausible g t.
Proof.
  unfold gps_in_bounds. rewrite negb_true_iff, !orb_false_iff, !outside_false, !feq_false, not_whole_false.
  unfold plausible, nonzero.
  split.
  - intros ((((((((((((B1 & B2) & B3) & B4) & B5) & B6) & B7) & B8) & B9) & N1) & N2) & (s & W)) & T).
    repeat (split; [assumption|]).
    unfold make_gps_time in T.
    destruct (int_of (gyear g)) as [y|] eqn:E1; [|discriminate].
    destruct (int_of (gmonth g)) as [mo|] eqn:E2; [|discriminate].
    destruct (int_of (gday g)) as [d|] eqn:E3; [|discriminate].
    destruct (int_of (ghour g)) as [h|] eqn:E4; [|discriminate].
    destruct (int_of (gminute g)) as [mi|] eqn:E5; [|discriminate].
    destruct (int_of (gsecond g)) as [s'|] eqn:E6; [|discriminate].
    apply (int_of_pos _ _ 2014 2040 B4 ltac:(discriminate)) in E1.
    apply (int_of_pos _ _ 1 12 B5 ltac:(discriminate)) in E2.
    apply (int_of_pos _ _ 1 31 B6 ltac:(discriminate)) in E3.
    apply (int_of_pos _ _ 0 24 B7 ltac:(discriminate)) in E4.
    apply (int_of_pos _ _ 0 60 B8 ltac:(discriminate)) in E5.
    apply (int_of_pos _ _ 0 60 B9 ltac:(discriminate)) in E6.
    assert (s' = s) by (eapply integer_part_unique; [exact E6|now apply whole_integer_part]). subst s'.
    exists y, mo, d, h, mi, s. repeat (split; [assumption|]). split; [|exact T].
    apply (stamp_defined (mkdt y mo d h mi s)). exists t. exact T.
  - intros (B1 & N1 & B2 & N2 & B3 & B4 & B5 & B6 & B7 & B8 & B9 & y & mo & d & h & mi & s & E1 & E2 & E3 & E4 & E5 & W & C & T).
    split; [tauto || (repeat match goal with |- _ /\ _ => split end; try assumption; exists s; exact W)|].
    pose proof (whole_integer_part _ _ W) as E6.
    apply (int_of_pos _ _ 2014 2040 B4 ltac:(discriminate)) in E1.
    apply (int_of_pos _ _ 1 12 B5 ltac:(discriminate)) in E2.
    apply (int_of_pos _ _ 1 31 B6 ltac:(discriminate)) in E3.
    apply (int_of_pos _ _ 0 24 B7 ltac:(discriminate)) in E4.
    apply (int_of_pos _ _ 0 60 B8 ltac:(discriminate)) in E5.
    apply (int_of_pos _ _ 0 60 B9 ltac:(discriminate)) in E6.
    unfold make_gps_time. rewrite E1, E2, E3, E4, E5, E6. exact T.
Qed.

Lemma bounds_agree g : gps_in_bounds g = check_gps g.
Proof.
  apply eq_true_iff_eq. unfold gps_in_bounds, check_gps, outside.
  rewrite !negb_true_iff, !orb_false_iff. split; intros H; decompose [and] H; clear H;
    repeat (match goal with |- _ /\ _ => split end); assumption.
Qed.

(** [fix_of] and [fix_in]. *)
Lemma fix_of_in p g : fix_of (mkrow' p) = Some g -> fix_in p g.
Proof.
  unfold fix_of. cbn [ccells mkrow' cms].
  destruct (traverse numeric (firstn 9 (dcells (snd p)))) as [vs|] eqn:E; [|discriminate].
  destruct vs as [|a [|b0 [|c [|d [|e [|f [|g0 [|h [|i [|j r]]]]]]]]]]; try discriminate.
  intros [= <-]. split; [reflexivity|]. exists (skipn 9 (dcells (snd p))). split; [|symmetry; apply firstn_skipn].
  cbn [msLag gyear gmonth gday ghour gminute gsecond glat glon]. now apply traverse_numeric.
Qed.

Lemma holds_unique l vs ws : Forall2 holds l vs -> Forall2 holds l ws -> vs = ws.
Proof. intros A B. apply traverse_numeric in A, B. congruence. Qed.

(** Two fixes read from the same row agree except possibly in the representation of the clock. *)
Definition same_fix (g g' : fix_) : Prop :=
  (msPPS g == msPPS g')%Q /\ msLag g = msLag g' /\ gyear g = gyear g' /\ gmonth g = gmonth g' /\ gday g = gday g' /\
  ghour g = ghour g' /\ gminute g = gminute g' /\ gsecond g = gsecond g' /\ glat g = glat g' /\ glon g = glon g'.

Lemma fix_in_unique p g g' : fix_in p g -> fix_in p g' -> same_fix g g'.
Proof.
  intros (A & r & B & _) (A' & r' & B' & _). pose proof (holds_unique _ _ _ B B') as E. injection E. intros.
  unfold same_fix. repeat split; try assumption. now rewrite A, A'.
Qed.

Lemma plausible_same g g' t : same_fix g g' -> plausible g t -> plausible g' t.
Proof.
  intros (_ & E1 & E2 & E3 & E4 & E5 & E6 & E7 & E8 & E9). unfold plausible.
  rewrite E1, E2, E3, E4, E5, E6, E7, E8, E9. tauto.
Qed.

Lemma fix_in_of p g : fix_in p g -> exists g', fix_of (mkrow' p) = Some g' /\ same_fix g g'.
Proof.
  intros (A & r & B & _). unfold fix_of. cbn [ccells mkrow' cms].
  apply traverse_numeric in B. rewrite B. eexists. split; [reflexivity|].
  unfold same_fix; simpl. repeat split; assumption.
Qed.

Lemma keep_selected l gs : Forall2 (fun p g => fix_of (mkrow' p) = Some g) l gs ->
  selected kept_as l (keep_fixes gs).
Proof.
  induction 1 as [|p g l gs E F IH]; [constructor|]. cbn [keep_fixes].
  assert (S : gps_in_bounds g = true -> forall t, make_gps_time g = Some t -> kept_as p (g, t)).
  { intros Hb t Ht. split; [now apply fix_of_in|]. simpl. apply plausible_iff. auto. }
  assert (N : forall e, kept_as p e -> gps_in_bounds g = true /\ make_gps_time g = Some (snd e)).
  { intros e [H1 H2]. apply plausible_iff. eapply plausible_same; [|exact H2].
    apply (fix_in_unique p); [exact H1|now apply fix_of_in]. }
  destruct (gps_in_bounds g) eqn:Eb.
  - destruct (make_gps_time g) as [t|] eqn:Et.
    + apply sel_keep; auto.
    + apply sel_skip; [|exact IH]. intros e He. apply N in He as [_ He]. discriminate.
  - apply sel_skip; [|exact IH]. intros e He. apply N in He as [He _]. discriminate.
Qed.

Lemma keep_none gs : filter gps_in_bounds gs = [] -> keep_fixes gs = [].
Proof. induction gs as [|g gs IH]; simpl; [reflexivity|]. destruct (gps_in_bounds g); [discriminate|assumption]. Qed.

Lemma gps_table_spec ear l :
  match gps_table ear (map mkrow' l) with
  | Some g => selected kept_as l g
  | None => l = [] \/ ~ numeric_fixes l \/ selected kept_as l []
  end.
Proof.
  unfold gps_table. destruct l as [|p l]; [left; reflexivity|]. cbn [map].
  change (mkrow' p :: map mkrow' l) with (map mkrow' (p :: l)).
  destruct (traverse fix_of (map mkrow' (p :: l))) as [gs|] eqn:E.
  - apply traverse_spec in E. apply Forall2_map_l in E. pose proof (keep_selected _ _ E) as S.
    destruct (filter gps_in_bounds gs) as [|g0 r0] eqn:Ef.
    + rewrite (keep_none gs Ef) in S. destruct ear; [right; right; exact S|exact S].
    + exact S.
  - right. left. intros N.
    assert (exists gs, Forall2 (fun c g => fix_of c = Some g) (map mkrow' (p :: l)) gs) as [gs G].
    { clear E. induction N as [|q m [g Hg] N [gs IH]]; [exists []; constructor|].
      destruct (fix_in_of _ _ Hg) as (g' & E' & _). exists (g' :: gs). constructor; assumption. }
    apply traverse_spec in G. congruence.
Qed.

(** * Success of [process] *)

Lemma settings_spec version r n : settings version = Some (r, n) ->
  format_period version r /\ n = meta_columns version /\ (0 < r)%Q /\
  (integrates version = true <-> difference_coded version) /\ (integrates version = false <-> plain version).
Proof.
  unfold settings, format_period, difference_coded, plain, meta_columns, integrates.
  destruct (existsb (String.eqb version) ["1.10"; "0.9"; "0.85C"]%string) eqn:E.
  - intros [= <- <-]. apply existsb_exists in E as (x & I & X). apply String.eqb_eq in X. subst x.
    assert (K : In version ["1.10"; "0.9"; "0.85C"]%string) by exact I.
    simpl in I. destruct I as [<-|[<-|[<-|[]]]]; (split; [left; auto|]; split; [reflexivity|]; split; [reflexivity|]);
      (split; [tauto|]; split; [discriminate|]); simpl; intros [X|[X|[]]]; discriminate.
  - assert (NI : ~ In version ["1.10"; "0.9"; "0.85C"]%string).
    { intros I. enough (existsb (String.eqb version) ["1.10"; "0.9"; "0.85C"]%string = true) by congruence.
      apply existsb_exists. exists version. split; [exact I|apply String.eqb_refl]. }
    destruct (String.eqb version "0.85") eqn:E1.
    + apply String.eqb_eq in E1. subst. intros [= <- <-].
      split; [right; simpl; auto|]. split; [reflexivity|]. split; [reflexivity|]. split; [split; [discriminate|contradiction]|].
      simpl. tauto.
    + destruct (String.eqb version "0.8") eqn:E2; [|discriminate].
      apply String.eqb_eq in E2. subst. intros [= <- <-].
      split; [right; simpl; auto|]. split; [reflexivity|]. split; [reflexivity|]. split; [split; [discriminate|contradiction]|].
      simpl. tauto.
Qed.

Lemma sample_of_spec p s : sample_of (mkrow' p) = Some s <->
  fst s = fst p /\ exists c cs, dcells (snd p) = c :: cs /\ holds c (snd s).
Proof.
  unfold sample_of. cbn [ccells mkrow' cms]. destruct (dcells (snd p)) as [|c cs].
  - split; [discriminate|]. intros (_ & c & cs & [=] & _).
  - destruct (numeric c) as [v|] eqn:E.
    + apply numeric_holds in E. split.
      * intros [= <-]. split; [reflexivity|]. exists c, cs. auto.
      * destruct s as [m w]. simpl. intros (-> & c' & cs' & [= <- <-] & H).
        apply numeric_holds in E, H. rewrite E in H. injection H as <-. reflexivity.
    + split; [discriminate|]. intros (_ & c' & cs' & [= <- <-] & H). apply numeric_holds in H. congruence.
Qed.

Lemma meta_of_spec n p m : meta_of n (mkrow' p) = Some m <->
  fst m = fst p /\ Forall2 holds (firstn n (dcells (snd p))) (snd m).
Proof.
  unfold meta_of. cbn [ccells mkrow' cms].
  destruct (traverse numeric (firstn n (dcells (snd p)))) as [v|] eqn:E.
  - apply traverse_numeric in E. split; [intros [= <-]; auto|].
    destruct m as [k w]. simpl. intros [-> H]. now rewrite (holds_unique _ _ _ E H).
  - split; [discriminate|]. intros [_ H]. apply traverse_numeric in H. congruence.
Qed.

Lemma process_ok ear version offset req df tab c :
  time_correction version = Some c ->
  process ear version offset req df = inl tab -> (gps tab = [] -> req = false) ->
  consistent version offset req df
    (mktab (map (fun p => (fst p + c, snd p))%Q (data tab)) (metadata tab) (gps tab)) /\
  data tab <> [] /\ metadata tab <> [].
Proof.
  intros Hc P Hg. unfold process in P.
  assert (c = 893 # 100)%Q as -> by (unfold time_correction in Hc; destruct (existsb _ _); [now injection Hc|discriminate]).
  destruct (settings version) as [[r n]|] eqn:Es; [|discriminate].
  destruct (settings_spec _ _ _ Es) as (Fp & -> & Hr & I1 & I2).
  destruct df as [|d0 df0]; [discriminate|].
  set (df := d0 :: df0) in *. rewrite !group_correct in P.
  set (clock := unwrap r offset (map dsaw df)) in *. set (rows := combine clock df) in *.
  destruct (map mkrow' (of_kind KD rows)) as [|dD lD] eqn:ED; [discriminate|].
  destruct (map mkrow' (of_kind KM rows)) as [|dM lM] eqn:EM; [discriminate|].
  rewrite <- ED, <- EM in P.
  destruct (traverse sample_of (map mkrow' (of_kind KD rows))) as [ds|] eqn:Ed; [|discriminate].
  destruct (traverse (meta_of (meta_columns version)) (map mkrow' (of_kind KM rows))) as [ms|] eqn:Em; [|discriminate].
  apply traverse_spec in Ed, Em. apply Forall2_map_l in Ed. apply Forall2_map_l in Em.
  assert (Ld : ds <> []) by (intros ->; apply Forall2_length_eq in Ed; apply (f_equal (@length _)) in ED; rewrite map_length, Ed in ED; discriminate).
  assert (Lm : ms <> []) by (intros ->; apply Forall2_length_eq in Em; apply (f_equal (@length _)) in EM; rewrite map_length, Em in EM; discriminate).
  set (ds' := if integrates version then integrate ds else ds) in *.
  assert (Lds : ds' <> []).
  { unfold ds', integrate. destruct (integrates version); [|exact Ld]. destruct ds as [|[a [v|]] ds]; [contradiction|discriminate|discriminate]. }
  assert (Fst : map fst ds' = map fst ds).
  { unfold ds', integrate. destruct (integrates version); [|reflexivity].
    assert (L : length (map fst ds) = length (cumsum 0 (map snd ds))) by (rewrite cumsum_length, !map_length; reflexivity).
    revert L. generalize (map fst ds) (cumsum 0 (map snd ds)). intros l m. revert m.
    induction l as [|x l IH]; intros [|y m] L; try discriminate; [reflexivity|]. simpl. f_equal. apply IH. now injection L. }
  assert (Snd : integrates version = true -> map snd ds' = cumsum 0 (map snd ds)).
  { intros Ei. unfold ds', integrate. rewrite Ei.
    assert (L : length (map fst ds) = length (cumsum 0 (map snd ds))) by (rewrite cumsum_length, !map_length; reflexivity).
    revert L. generalize (map fst ds) (cumsum 0 (map snd ds)). intros l m. revert m.
    induction l as [|x l IH]; intros [|y m] L; try discriminate; [reflexivity|]. simpl. f_equal. apply IH. now injection L. }
  assert (T : exists g, tab = mktab ds' ms g /\
     (selected kept_as (of_kind KG rows) g \/ (g = [] /\ req = false /\ ~ numeric_fixes (of_kind KG rows)))).
  { pose proof (gps_table_spec ear (of_kind KG rows)) as S.
    destruct (gps_table ear (map mkrow' (of_kind KG rows))) as [g|].
    - injection P as <-. exists g. split; [reflexivity|left; exact S].
    - destruct req; [discriminate|]. injection P as <-. exists []. split; [reflexivity|].
      destruct S as [S|[S|S]]; [rewrite S; left; constructor| |left; exact S].
      right. auto. }
  destruct T as (g & -> & G). cbn [data metadata gps] in *. split; [|split; assumption].
  exists r, clock. split; [exact Fp|]. split; [apply unwrap_congruent; exact Hr|].
  split; [|split; [apply unwrap_chain; exact Hr|]].
  { intros c cs E. apply (unwrap_first r offset (dsaw d0) (map dsaw df0) c cs Hr). exact E. }
  cbv zeta. fold rows. cbn [data metadata gps]. split; [|split; [|split; [|exact G]]].
  - (* sample times *)
    apply Forall2_map_r. cbn [fst].
    assert (F : Forall2 (fun p t => t = fst p) (of_kind KD rows) (map fst ds)).
    { apply Forall2_map_r. eapply Forall2_impl; [|exact Ed]. intros p s E. apply sample_of_spec in E. tauto. }
    rewrite <- Fst in F. apply Forall2_map_r in F. eapply Forall2_impl; [|exact F].
    intros p s ->. reflexivity.
  - exists (map snd ds). split; [|split].
    + apply Forall2_map_r. eapply Forall2_impl; [|exact Ed]. intros p s E. apply sample_of_spec in E. tauto.
    + intros Hd. apply I1 in Hd. rewrite map_map. cbn [snd].
      replace (map (fun x : Q * option Q => snd x) ds') with (cumsum 0 (map snd ds)) by (symmetry; exact (Snd Hd)).
      apply running_cumsum.
    + intros Hp. apply I2 in Hp. rewrite map_map. cbn [snd]. unfold ds'. rewrite Hp. reflexivity.
  - eapply Forall2_impl; [|exact Em]. intros p m E. apply meta_of_spec in E as [E1 E2]. split; [|exact E2]. now rewrite E1.
Qed.

(** * [read_single] *)

Lemma try_readers_ok ear version offset req readers tab :
  try_readers ear version offset req readers = inl tab ->
  exists reader df, In reader readers /\ reader req = inl df /\ consistent version offset req df tab /\
    data tab <> [] /\ metadata tab <> [] /\ (req = true -> gps tab <> []).
Proof.
  induction readers as [|reader rest IH]; [discriminate|]. cbn [try_readers].
  assert (R : try_readers ear version offset req rest = inl tab -> exists reader0 df, In reader0 (reader :: rest) /\
    reader0 req = inl df /\ consistent version offset req df tab /\ data tab <> [] /\ metadata tab <> [] /\ (req = true -> gps tab <> [])).
  { intros H. destruct (IH H) as (rd & df & I & X). exists rd, df. split; [right; exact I|exact X]. }
  destruct (reader req) as [df|e] eqn:E.
  - destruct (process ear version offset req df) as [out|e] eqn:P.
    + destruct (time_correction version) as [c|] eqn:Et.
      * destruct (gps out) as [|g0 gr] eqn:Eg.
        -- destruct req; [discriminate|]. intros [= <-]. exists reader, df. split; [left; reflexivity|]. split; [exact E|].
           destruct (process_ok ear version offset false df out c Et P (fun _ => eq_refl)) as (C & D & M).
           rewrite <- Eg. split; [exact C|]. cbn [data metadata gps]. split; [|split; [exact M|discriminate]].
           destruct (data out); [contradiction|discriminate].
        -- intros [= <-]. exists reader, df. split; [left; reflexivity|]. split; [exact E|].
           assert (Hg : gps out = [] -> req = false) by (rewrite Eg; discriminate).
           destruct (process_ok ear version offset req df out c Et P Hg) as (C & D & M).
           rewrite <- Eg. split; [exact C|]. cbn [data metadata gps]. split; [|split; [exact M|rewrite Eg; discriminate]].
           destruct (data out); [contradiction|discriminate].
      * destruct (gps out), req; discriminate.
    + destruct (fatal e); [discriminate|exact R].
  - destruct (fatal e); [discriminate|exact R].
Qed.

Lemma process_version ear version offset req df tab : process ear version offset req df = inl tab ->
  exists r n, settings version = Some (r, n).
Proof. unfold process. destruct (settings version) as [[r n]|]; [eauto|discriminate]. Qed.

Lemma correction_known version r n : settings version = Some (r, n) -> time_correction version = Some (893 # 100)%Q.
Proof.
  unfold settings, time_correction. intros H.
  destruct (existsb (String.eqb version) ["1.10"; "0.9"; "0.85C"]%string) eqn:E.
  - apply existsb_exists in E as (x & I & X). apply String.eqb_eq in X. subst x.
    simpl in I. destruct I as [<-|[<-|[<-|[]]]]; reflexivity.
  - destruct (String.eqb version "0.85") eqn:E1; [apply String.eqb_eq in E1; subst; reflexivity|].
    destruct (String.eqb version "0.8") eqn:E2; [apply String.eqb_eq in E2; subst; reflexivity|discriminate].
Qed.

(** Only documented exceptions leave [read_single]. *)
Lemma try_readers_exn ear version offset req readers e :
  try_readers ear version offset req readers = inr e -> e = CorruptRaw \/ fatal e = true.
Proof.
  induction readers as [|reader rest IH]; cbn [try_readers]; [intros [= <-]; auto|].
  destruct (reader req) as [df|e'] eqn:E.
  - destruct (process ear version offset req df) as [out|e'] eqn:P.
    + destruct (process_version _ _ _ _ _ _ P) as (r & n & S). rewrite (correction_known _ _ _ S).
      destruct (gps out), req; try discriminate. intros [= <-]. auto.
    + destruct (fatal e') eqn:F; [intros [= <-]; auto|exact IH].
  - destruct (fatal e') eqn:F; [intros [= <-]; auto|exact IH].
Qed.

(** * Shapes of the parser's rows *)

Definition shape (r : row) : Prop :=
  length (rvals r) = match rkind r with KD => 1 | KG => 9 | KM => 11 end%nat.

Lemma out_shape sc s c : wf s -> Forall shape (out sc s c).
Proof.
  intros [W1 W2]. unfold out, step.
  destruct (is_lower _); [destruct (negb _); repeat constructor|].
  destruct (_ =? 68).
  { destruct (sscanf _ _ _) as [|v [|a r]]; repeat constructor. }
  destruct (_ =? 71).
  { cbn [snd]. constructor; [|constructor]. unfold shape. cbn [rkind rvals gvars].
    assert (L : length (assign (sscanf sc fmt_G (cstr (skipn 2 (c ++ 0 :: skipn (S (length c)) (buf s))))) (gvars s)) = 10%nat).
    { rewrite assign_length; [exact W1|]. rewrite W1. apply sscanf_length. }
    destruct (assign _ _); [discriminate|]. now injection L. }
  destruct (_ =? 77).
  { cbn [snd]. constructor; [|constructor]. unfold shape. cbn [rkind rvals mvars].
    assert (L : length (assign (sscanf sc fmt_M (cstr (skipn 2 (c ++ 0 :: skipn (S (length c)) (buf s))))) (mvars s)) = 12%nat).
    { rewrite assign_length; [exact W2|]. rewrite W2. apply sscanf_length. }
    destruct (assign _ _); [discriminate|]. now injection L. }
  constructor.
Qed.

Lemma run_shape sc cs : forall s, wf s -> Forall shape (run sc s cs).
Proof.
  induction cs as [|c cs IH]; intros s W; [constructor|]. rewrite run_cons. apply Forall_app. split.
  - now apply out_shape.
  - apply IH. now apply step_wf.
Qed.

Lemma parse_shape sc buf0 n bs rows : parse_gemfile sc buf0 n bs = Some rows -> Forall shape rows.
Proof.
  unfold parse_gemfile. destruct (_ <=? n); [|discriminate]. intros [= <-]. apply run_shape, init_wf.
Qed.

Lemma retry_shape sc buf0 bs rows : parse_retry sc buf0 bs = Some rows -> Forall shape rows.
Proof.
  unfold parse_retry. destruct (parse_gemfile sc buf0 1560000 bs) as [r|] eqn:E.
  - intros [= <-]. now apply parse_shape in E.
  - apply parse_shape.
Qed.

Lemma holds_nums l : Forall2 holds (map Num l) (map Some l).
Proof. induction l; simpl; constructor; auto. constructor. Qed.

Lemma drow_fix m r : shape r -> rkind r = KG -> exists g, fix_in (m, drow_of r) g.
Proof.
  unfold shape. intros S K. rewrite K in S.
  destruct (rvals r) as [|a [|b0 [|c [|d [|e [|f [|g [|h [|i [|j q]]]]]]]]]] eqn:E; try discriminate.
  exists (mkfix m (Some a) (Some b0) (Some c) (Some d) (Some e) (Some f) (Some g) (Some h) (Some i)).
  split; [reflexivity|]. exists []. simpl. rewrite E. simpl. split; [|reflexivity].
  repeat constructor.
Qed.

Lemma rows_numeric clock rows : Forall shape rows -> numeric_fixes (of_kind KG (combine clock (map drow_of rows))).
Proof.
  intros S. apply Forall_forall. intros [m d] I. unfold of_kind in I. apply filter_In in I as [I K].
  apply in_combine_r in I. apply in_map_iff in I as (r & <- & I).
  rewrite Forall_forall in S. apply drow_fix; [now apply S|]. simpl in K. destruct (rkind r); try discriminate. reflexivity.
Qed.

(** The rows of a kind survive the pairing with the clock. *)
Lemma of_kind_snd k clock df : length clock = length df ->
  map snd (of_kind k (combine clock df)) = filter (fun d => kind_eqb (dkind d) k) df.
Proof.
  revert clock. induction df as [|d df IH]; intros [|c clock] L; try discriminate; [reflexivity|].
  injection L as L. unfold of_kind in *. cbn [combine filter snd].
  replace (match dkind d with KD => match k with KD => true | _ => false end
                            | KG => match k with KG => true | _ => false end
                            | KM => match k with KM => true | _ => false end end)
    with (kind_eqb (dkind d) k) by (destruct (dkind d), k; reflexivity).
  destruct (kind_eqb (dkind d) k); cbn [map snd]; rewrite IH by exact L; reflexivity.
Qed.

Lemma process_cython_eq ear version offset req rows r n :
  settings version = Some (r, n) -> Forall shape rows ->
  existsb (fun x => kind_eqb (rkind x) KD) rows = true ->
  existsb (fun x => kind_eqb (rkind x) KM) rows = true ->
  exists clock ds ms, length clock = length (map drow_of rows) /\
    process ear version offset req (map drow_of rows) =
    match gps_table ear (map mkrow' (of_kind KG (combine clock (map drow_of rows)))) with
    | Some g => inl (mktab ds ms g)
    | None => if req then inr NoGPS else inl (mktab ds ms [])
    end.
Proof.
  intros S Sh HD HM.
  unfold process. rewrite S. destruct (map drow_of rows) as [|d0 df0] eqn:Edf.
  { destruct rows; discriminate. }
  rewrite <- Edf. rewrite !group_correct.
  destruct (settings_spec _ _ _ S) as (Fp & -> & Hr & _ & _).
  set (clock := unwrap r offset (map dsaw (map drow_of rows))).
  assert (Lc : length clock = length (map drow_of rows)) by (unfold clock; rewrite unwrap_length, map_length; reflexivity).
  assert (NE : forall k, existsb (fun x => kind_eqb (rkind x) k) rows = true ->
     of_kind k (combine clock (map drow_of rows)) <> []).
  { intros k H E. apply (f_equal (map snd)) in E. rewrite of_kind_snd in E by exact Lc. simpl in E.
    apply existsb_exists in H as (y & Iy & Ky).
    assert (In (drow_of y) (filter (fun d => kind_eqb (dkind d) k) (map drow_of rows))) as I'.
    { apply filter_In. split; [now apply in_map|exact Ky]. }
    rewrite E in I'. destruct I'. }
  pose proof (NE KD HD) as ND. pose proof (NE KM HM) as NM.
  assert (TD : exists ds, traverse sample_of (map mkrow' (of_kind KD (combine clock (map drow_of rows)))) = Some ds).
  { assert (Q1 : Forall (fun p => exists s, sample_of (mkrow' p) = Some s) (of_kind KD (combine clock (map drow_of rows)))).
    { apply Forall_forall. intros [c d] I. unfold of_kind in I. apply filter_In in I as [I K]. apply in_combine_r in I.
      apply in_map_iff in I as (y & <- & Iy). rewrite Forall_forall in Sh. specialize (Sh y Iy). unfold shape in Sh.
      simpl in K. destruct (rkind y); try discriminate. unfold sample_of. simpl.
      destruct (rvals y) as [|v [|w q]]; try discriminate. simpl. eauto. }
    clear -Q1. induction Q1 as [|p l [s Hs] Q1 [ds IH]]; [exists []; reflexivity|].
    exists (s :: ds). apply traverse_spec. constructor; [exact Hs|]. apply traverse_spec. exact IH. }
  assert (TM : exists ms, traverse (meta_of (meta_columns version)) (map mkrow' (of_kind KM (combine clock (map drow_of rows)))) = Some ms).
  { assert (Q1 : Forall (fun p => exists s, meta_of (meta_columns version) (mkrow' p) = Some s) (of_kind KM (combine clock (map drow_of rows)))).
    { apply Forall_forall. intros [c d] I. unfold of_kind in I. apply filter_In in I as [I K]. apply in_combine_r in I.
      apply in_map_iff in I as (y & <- & Iy). exists (c, firstn (meta_columns version) (map Some (rvals y))).
      apply meta_of_spec. simpl. split; [reflexivity|]. rewrite <- !firstn_map || idtac.
      rewrite !firstn_map. apply holds_nums. }
    clear -Q1. induction Q1 as [|p l [s Hs] Q1 [ds IH]]; [exists []; reflexivity|].
    exists (s :: ds). apply traverse_spec. constructor; [exact Hs|]. apply traverse_spec. exact IH. }
  destruct TD as [ds TD], TM as [ms TM].
  destruct (map mkrow' (of_kind KD (combine clock (map drow_of rows)))) eqn:E1.
  { apply map_eq_nil in E1. contradiction. }
  destruct (map mkrow' (of_kind KM (combine clock (map drow_of rows)))) eqn:E2.
  { apply map_eq_nil in E2. contradiction. }
  rewrite TD, TM.
  exists clock. do 2 eexists. split; [exact Lc|]. reflexivity.
Qed.

Lemma process_cython ear version offset req rows r n :
  settings version = Some (r, n) -> Forall shape rows ->
  existsb (fun x => kind_eqb (rkind x) KD) rows = true ->
  existsb (fun x => kind_eqb (rkind x) KM) rows = true ->
  (exists x t, In x rows /\ rkind x = KG /\ exists m g, fix_in (m, drow_of x) g /\ plausible g t) ->
  exists tab, process ear version offset req (map drow_of rows) = inl tab /\ gps tab <> [].
Proof.
  intros S Sh HD HM (x & t & Ix & Kx & m & g & Fx & Px).
  destruct (process_cython_eq ear version offset req rows r n S Sh HD HM) as (clock & ds & ms & Lc & ->).
  (* the GPS table *)
  assert (In (drow_of x) (map snd (of_kind KG (combine clock (map drow_of rows))))) as IG.
  { rewrite of_kind_snd by exact Lc. apply filter_In. split; [now apply in_map|]. simpl. now rewrite Kx. }
  apply in_map_iff in IG as ([mx dx] & Ex & IG). simpl in Ex. subst dx.
  assert (Kp : exists e, kept_as (mx, drow_of x) e).
  { destruct Fx as (_ & rest & F1 & F2).
    exists (mkfix mx (msLag g) (gyear g) (gmonth g) (gday g) (ghour g) (gminute g) (gsecond g) (glat g) (glon g), t).
    split; [|exact Px]. split; [reflexivity|]. exists rest. split; [exact F1|exact F2]. }
  assert (Sel : forall l out, selected kept_as l out -> In (mx, drow_of x) l -> out <> []).
  { intros l1 out1 Hs. induction Hs as [|p y l2 o Hp Hs IH|p l2 o Hp Hs IH]; intros I; [destruct I|discriminate|].
    destruct I as [->|I]; [|now apply IH]. destruct Kp as [e He]. exfalso. apply (Hp e He). }
  pose proof (gps_table_spec ear (of_kind KG (combine clock (map drow_of rows)))) as G.
  destruct (gps_table ear (map mkrow' (of_kind KG (combine clock (map drow_of rows))))) as [gt|].
  - eexists. split; [reflexivity|]. cbn [gps]. apply (Sel _ _ G IG).
  - exfalso. destruct G as [G|[G|G]].
    + rewrite G in IG. destruct IG.
    + apply G. now apply rows_numeric.
    + apply (Sel _ _ G IG). reflexivity.
Qed.

Lemma process_cython_total ear version offset req rows r n :
  settings version = Some (r, n) -> Forall shape rows ->
  existsb (fun x => kind_eqb (rkind x) KD) rows = true ->
  existsb (fun x => kind_eqb (rkind x) KM) rows = true ->
  (exists tab, process ear version offset req (map drow_of rows) = inl tab) \/
  (req = true /\ process ear version offset req (map drow_of rows) = inr NoGPS).
Proof.
  intros S Sh HD HM.
  destruct (process_cython_eq ear version offset req rows r n S Sh HD HM) as (clock & ds & ms & _ & ->).
  destruct (gps_table ear _); [left; eauto|]. destruct req; [right; auto|left; eauto].
Qed.

(** Plausibility only depends on the values. *)
Definition opteq (x y : option Q) : Prop :=
  match x, y with Some v, Some w => (v == w)%Q | None, None => True | _, _ => False end.

Lemma between_eq lo hi x y : opteq x y -> between lo hi x -> between lo hi y.
Proof.
  intros E H w ->. destruct x as [v|]; [|destruct E]. destruct (H v eq_refl). change (v == w)%Q in E. rewrite <- E. auto.
Qed.
Lemma nonzero_eq x y : opteq x y -> nonzero x -> nonzero y.
Proof.
  intros E H w ->. destruct x as [v|]; [|destruct E]. change (v == w)%Q in E. rewrite <- E. now apply H.
Qed.
Lemma integer_part_eq x y n : opteq x y -> integer_part x n -> integer_part y n.
Proof.
  intros E (v & -> & A & B). destruct y as [w|]; [|destruct E]. change (v == w)%Q in E. exists w. split; [reflexivity|]. rewrite <- E. auto.
Qed.
Lemma whole_eq x y n : opteq x y -> whole x n -> whole y n.
Proof.
  intros E (v & -> & A). destruct y as [w|]; [|destruct E]. change (v == w)%Q in E. exists w. split; [reflexivity|]. rewrite <- E. auto.
Qed.

Lemma plausible_eq g g' t :
  opteq (msLag g) (msLag g') -> opteq (gyear g) (gyear g') -> opteq (gmonth g) (gmonth g') ->
  opteq (gday g) (gday g') -> opteq (ghour g) (ghour g') -> opteq (gminute g) (gminute g') ->
  opteq (gsecond g) (gsecond g') -> opteq (glat g) (glat g') -> opteq (glon g) (glon g') ->
  plausible g t -> plausible g' t.
Proof.
  intros E1 E2 E3 E4 E5 E6 E7 E8 E9.
  intros (B1 & N1 & B2 & N2 & B3 & B4 & B5 & B6 & B7 & B8 & B9 & y & mo & d & h & mi & s & I1 & I2 & I3 & I4 & I5 & W & C & T).
  unfold plausible.
  split; [exact (between_eq _ _ _ _ E8 B1)|]. split; [exact (nonzero_eq _ _ E8 N1)|].
  split; [exact (between_eq _ _ _ _ E9 B2)|]. split; [exact (nonzero_eq _ _ E9 N2)|].
  split; [exact (between_eq _ _ _ _ E1 B3)|]. split; [exact (between_eq _ _ _ _ E2 B4)|].
  split; [exact (between_eq _ _ _ _ E3 B5)|]. split; [exact (between_eq _ _ _ _ E4 B6)|].
  split; [exact (between_eq _ _ _ _ E5 B7)|]. split; [exact (between_eq _ _ _ _ E6 B8)|].
  split; [exact (between_eq _ _ _ _ E7 B9)|].
  exists y, mo, d, h, mi, s.
  split; [exact (integer_part_eq _ _ _ E2 I1)|]. split; [exact (integer_part_eq _ _ _ E3 I2)|].
  split; [exact (integer_part_eq _ _ _ E4 I3)|]. split; [exact (integer_part_eq _ _ _ E5 I4)|].
  split; [exact (integer_part_eq _ _ _ E6 I5)|]. split; [exact (whole_eq _ _ _ E7 W)|]. auto.
Qed.

(** * From lines to rows *)

Lemma difference_coded_settings version : difference_coded version ->
  modern version = true /\ settings version = Some (8192%Q, 11%nat).
Proof. intros [<-|[<-|[<-|[]]]]; split; reflexivity. Qed.

Lemma retry_lines sc buf0 ls last : Forall ok_line ls -> ok_line last ->
  Z.of_nat (length (kinds (ls ++ [last]))) <= 65520000 ->
  exists rows, parse_retry sc buf0 (file ls last) = Some rows /\ map rkind rows = kinds (ls ++ [last]) /\ Forall shape rows.
Proof.
  intros H1 H2 L.
  assert (E : exists rows, parse_retry sc buf0 (file ls last) = Some rows /\ map rkind rows = kinds (ls ++ [last])).
  { pose proof (rows_kinds_file sc buf0 ls last H1 H2) as K.
    exists (run sc (init buf0) (chunks (file ls last))). split; [|exact K].
    assert (Hn : Z.of_nat (length (run sc (init buf0) (chunks (file ls last)))) <= 65520000).
    { rewrite <- (map_length rkind), K. exact L. }
    unfold parse_retry, parse_gemfile. cbv zeta.
    destruct (_ <=? 1560000); [reflexivity|].
    change (1560000 * 6 * 7) with 65520000. apply Z.leb_le in Hn. now rewrite Hn. }
  destruct E as (rows & E & K). exists rows. split; [exact E|]. split; [exact K|]. now apply retry_shape in E.
Qed.

Lemma exists_kind rows k : existsb (fun x => kind_eqb (rkind x) k) rows = true <-> In k (map rkind rows).
Proof.
  rewrite existsb_exists, in_map_iff. split.
  - intros (x & I & E). exists x. split; [|exact I]. destruct (rkind x), k; try discriminate; reflexivity.
  - intros (x & E & I). exists x. split; [exact I|]. rewrite E. destruct k; reflexivity.
Qed.

Lemma read_single_cython sc buf0 ear pandas pandas08 bs version offset req :
  modern version = true ->
  read_single sc buf0 ear pandas pandas08 (Some bs) version offset req =
  try_readers ear version offset req [read_with_cython sc buf0 (Some bs); pandas].
Proof. unfold read_single. now intros ->. Qed.

(** With D and M rows the fallback reader is never consulted. *)
Lemma cython_decides sc buf0 ear pandas pandas08 bs version offset req rows :
  difference_coded version -> parse_retry sc buf0 bs = Some rows ->
  In KD (map rkind rows) -> In KM (map rkind rows) ->
  read_single sc buf0 ear pandas pandas08 (Some bs) version offset req =
  match read_with_cython sc buf0 (Some bs) req with
  | inr e => inr e
  | inl df => match process ear version offset req df with
              | inr e => inr e
              | inl out => match gps out, req with
                           | [], true => inr CorruptRaw
                           | _, _ => inl (mktab (map (fun p => (fst p + (893 # 100), snd p))%Q (data out)) (metadata out) (gps out))
                           end
              end
  end.
Proof.
  intros V P KD' KM'. destruct (difference_coded_settings _ V) as [Mo S].
  rewrite (read_single_cython _ _ _ _ _ _ _ _ _ Mo). cbn [try_readers].
  pose proof (retry_shape _ _ _ _ P) as Sh.
  unfold read_with_cython. rewrite P. destruct rows as [|r0 rows0]; [destruct KD'|].
  set (rows := r0 :: rows0) in *.
  destruct (negb (existsb (fun r => kind_eqb (rkind r) KG) rows) && req); [reflexivity|].
  apply exists_kind in KD'. apply exists_kind in KM'.
  destruct (process_cython_total ear version offset req rows _ _ S Sh KD' KM') as [[tab ->]|[-> ->]].
  - rewrite (correction_known _ _ _ S). destruct (gps tab), req; reflexivity.
  - reflexivity.
Qed.
