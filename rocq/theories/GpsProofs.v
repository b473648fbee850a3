From Coq Require Import String.
From Coq Require Import ZArith QArith List Bool Lia Lqa Permutation.
From Verif Require Import Lib Base Scan Names NamesSpec NamesProofs UnwrapSpec Select SelectProofs
  Outliers OutliersSpec OutliersProofs Stations StationsSpec StationsProofs Inventory InventorySpec InventoryProofs Gps GpsSpec.
Import ListNotations.
Open Scope Z_scope.

Local Arguments b : simpl never.

(** * Order of names *)

Lemma le_before x : forall y, le_bytes x y = true <-> x = y \/ before x y.
Proof.
  induction x as [|a x IH]; intros [|c y]; cbn.
  - split; auto.
  - split; [intros _; right; constructor|reflexivity].
  - split; [discriminate|]. intros [E|H]; [discriminate|inversion H].
  - destruct (a <? c) eqn:L.
    + apply Z.ltb_lt in L. split; [intros _; right; apply before_here; exact L|reflexivity].
    + apply Z.ltb_ge in L. destruct (c <? a) eqn:M.
      * apply Z.ltb_lt in M. split; [discriminate|]. intros [E|H]; [injection E as E1 _; lia|inversion H; subst; lia].
      * apply Z.ltb_ge in M. assert (a = c) by lia. subst c. rewrite IH. split.
        -- intros [->|H]; [left; reflexivity|right; apply before_later; exact H].
        -- intros [E|H]; [left; injection E as E; exact E|]. inversion H; subst; [lia|right; assumption].
Qed.

Lemma chain_tail {A} (R : A -> A -> Prop) x l : chain R (x :: l) -> chain R l.
Proof. destruct l; [intros _; exact I|intros H; apply H]. Qed.
Lemma chain_head {A} (R : A -> A -> Prop) x l : (forall x y z, R x y -> R y z -> R x z) -> chain R (x :: l) -> Forall (R x) l.
Proof.
  intros T. revert x. induction l as [|y l IH]; intros x C; [constructor|].
  destruct C as [C1 C2]. constructor; [exact C1|]. specialize (IH y C2). rewrite Forall_forall in IH |- *.
  intros z Z. apply (T x y z C1). apply IH. exact Z.
Qed.
Lemma chain_last {A} (R : A -> A -> Prop) l e r : (forall x y z, R x y -> R y z -> R x z) -> (forall x, R x x) ->
  chain R l -> rev l = e :: r -> forall x, In x l -> R x e.
Proof.
  intros T Rf C E x X. assert (L : l = rev r ++ [e]) by (rewrite <- (rev_involutive l), E; reflexivity).
  subst l. apply in_app_or in X. destruct X as [X|[->|[]]]; [|apply Rf].
  clear E. induction (rev r) as [|y m IH]; [destruct X|].
  assert (H := chain_head R y (m ++ [e]) T C). destruct X as [->|X].
  - rewrite Forall_forall in H. apply H. apply in_or_app. right. left. reflexivity.
  - apply IH; [apply (chain_tail R y); exact C|exact X].
Qed.

(** * One log per folder *)

Lemma hidden_iff n : hidden n = true <-> begins (b ".") n.
Proof.
  unfold begins. change (b ".") with [46]. destruct n as [|c n]; cbn.
  - split; [discriminate|]. intros (r & E). discriminate.
  - rewrite Z.eqb_eq. split; [intros ->; exists n; reflexivity|]. intros (r & E). congruence.
Qed.
Lemma glob_iff sn n : ~ begins (b ".") n -> (glob_sn sn n = true <-> begins sn n).
Proof.
  intros V. unfold glob_sn. assert (H : hidden n = false) by (apply not_true_is_false; rewrite hidden_iff; exact V).
  rewrite H. cbn. rewrite andb_true_r. split.
  - apply starts_with_true.
  - intros (r & ->). apply starts_with_app.
Qed.

Lemma read_item_folder sn es : (forall e, In e es -> ~ begins (b ".") (fst e)) ->
  (exists e, last_log sn es e /\ read_item sn (Folder es) = snd e) \/
  ((forall e, In e es -> ~ begins sn (fst e)) /\ read_item sn (Folder es) = Some []).
Proof.
  intros V. cbn [read_item].
  set (R := fun e f : log => le_bytes (fst e) (fst f) = true).
  assert (C : chain R (sort_by (fun e f : log => le_bytes (fst e) (fst f)) (filter (fun e => glob_sn sn (fst e)) es))).
  { apply (sort_chain _ R); [auto|]. intros x y. apply le_bytes_total. }
  assert (P := SelectProofs.sort_perm (fun e f : log => le_bytes (fst e) (fst f)) (filter (fun e => glob_sn sn (fst e)) es)).
  set (s := sort_by (fun e f : log => le_bytes (fst e) (fst f)) (filter (fun e => glob_sn sn (fst e)) es)) in *.
  destruct (rev s) as [|e r] eqn:E.
  - right. split; [|reflexivity]. intros e H B. assert (X : s = []) by (rewrite <- (rev_involutive s), E; reflexivity).
    rewrite X in P. apply Permutation_nil in P.
    assert (Y : In e (filter (fun e => glob_sn sn (fst e)) es)).
    { apply filter_In. split; [exact H|]. apply (glob_iff sn (fst e) (V e H)). exact B. }
    rewrite P in Y. destruct Y.
  - left. exists e. split; [|reflexivity].
    assert (IS : In e s) by (apply in_rev; rewrite E; left; reflexivity).
    assert (IE := Permutation_in e P IS). apply filter_In in IE. destruct IE as [I1 I2].
    split; [exact I1|]. split; [apply (glob_iff sn (fst e) (V e I1)); exact I2|].
    intros e' H B. apply le_before. apply (chain_last R s e r); [| |exact C|exact E|].
    + intros x y z. apply le_bytes_trans.
    + intros x. apply le_bytes_refl.
    + apply (Permutation_in e' (Permutation_sym P)). apply filter_In. split; [exact H|].
      apply (glob_iff sn (fst e') (V e' H)). exact B.
Qed.

Lemma split_two d n : Nat.le 2 (length (split_on 47 (d ++ [47] ++ n))).
Proof.
  induction d as [|y d IH]; cbn.
  - pose proof (split_on_nonempty 47 n). destruct (split_on 47 n); [congruence|]. cbn. lia.
  - destruct (y =? 47); cbn in IH; [cbn; lia|]. destruct (split_on 47 (d ++ 47 :: n)); [cbn in IH; lia|]. exact IH.
Qed.
Lemma file_name_last path : file_name path (last (split_on 47 path) []).
Proof.
  induction path as [|x path IH].
  - cbn. split; [tauto|left; reflexivity].
  - cbn [split_on]. pose proof (split_on_nonempty 47 path) as N. destruct (split_on 47 path) as [|h t] eqn:E; [congruence|].
    destruct (x =? 47) eqn:X.
    + apply Z.eqb_eq in X. subst x. change (last ([] :: h :: t) []) with (last (h :: t) ([] : bytes)).
      destruct IH as [I1 [I2|(d & I2)]]; (split; [exact I1|]); right.
      * exists []. cbn [app]. f_equal. exact I2.
      * exists (47 :: d). cbn [app]. f_equal. exact I2.
    + apply Z.eqb_neq in X. destruct t as [|t0 t].
      * cbn [last] in IH |- *. destruct IH as [I1 [I2|(d & I2)]].
        -- split; [intros [C|C]; [congruence|contradiction]|]. left. f_equal. exact I2.
        -- exfalso. pose proof (split_two d h) as L. rewrite <- I2, E in L. cbn in L. unfold Nat.le in L. lia.
      * change (last ((x :: h) :: t0 :: t) []) with (last (h :: t0 :: t) ([] : bytes)).
        destruct IH as [I1 I2]. split; [exact I1|]. right.
        destruct I2 as [I2|(d & I2)].
        -- exfalso. rewrite <- I2 in I1. rewrite (split_on_none 47 _ I1) in E. discriminate.
        -- exists (x :: d). cbn [app]. f_equal. exact I2.
Qed.

Lemma read_gps_spec sn items all : visible items -> read_gps sn items = Some all -> fixes_of sn items all.
Proof.
  revert all. induction items as [|it items IH]; intros all V H.
  - injection H as <-. constructor.
  - assert (V' : visible items) by (intros es e A B; apply (V es e); [right|]; assumption).
    cbn [read_gps] in H. destruct (read_item sn it) as [x|] eqn:RI; [|discriminate].
    destruct (read_gps sn items) as [l|] eqn:RG; [|discriminate]. injection H as <-. specialize (IH l V' eq_refl).
    destruct it as [es|path c].
    + assert (Ve : forall e, In e es -> ~ begins (b ".") (fst e)) by (intros e E; apply (V es e); [left; reflexivity|exact E]).
      destruct (read_item_folder sn es Ve) as [(e & L & E)|(N & E)].
      * apply fixes_folder with e; [exact L|congruence|exact IH].
      * rewrite E in RI. injection RI as <-. apply fixes_none; assumption.
    + cbn [read_item] in RI. pose proof (file_name_last path) as FN.
      destruct (eqb_bytes (firstn 3 (last (split_on 47 path) [])) sn) eqn:Q.
      * apply eqb_bytes_iff in Q. subst c. eapply fixes_plain; [exact FN|exact Q|exact IH].
      * injection RI as <-. cbn. eapply fixes_other; [exact FN| |exact IH]. intros C. apply eqb_bytes_iff in C. congruence.
Qed.

Lemma read_gps_total sn items : Forall readable items -> exists all, read_gps sn items = Some all.
Proof.
  intros F. induction F as [|it items H F IH]; [exists []; reflexivity|]. destruct IH as (l & E). cbn [read_gps]. rewrite E.
  assert (X : exists a, read_item sn it = Some a).
  { destruct it as [es|path c]; cbn [read_item readable] in *.
    - destruct (rev (sort_by (fun e f : log => le_bytes (fst e) (fst f)) (filter (fun e => glob_sn sn (fst e)) es))) as [|e r] eqn:R; [eauto|].
      assert (I1 : In e es).
      { assert (X : In e (filter (fun e => glob_sn sn (fst e)) es)).
        { apply (Permutation_in e (SelectProofs.sort_perm (fun e f : log => le_bytes (fst e) (fst f)) _)).
          apply in_rev. rewrite R. left. reflexivity. }
        apply filter_In in X. apply X. }
      rewrite Forall_forall in H. specialize (H e I1). destruct (snd e); [eauto|congruence].
    - destruct (eqb_bytes (firstn 3 (last (split_on 47 path) [])) sn); [|eauto]. destruct c; [eauto|congruence]. }
  destruct X as (a & ->). eauto.
Qed.

(** * Outliers, on rows *)

Lemma filter_filter_rows {A} (p q : A -> bool) l : filter q (filter p l) = filter (fun x => p x && q x) l.
Proof. induction l as [|x l IH]; [reflexivity|]. cbn. destruct (p x); cbn; [destruct (q x)|]; rewrite IH; reflexivity. Qed.
Lemma filter_map_rows {A B} (g : A -> B) (h : B -> bool) l : map g (filter (fun x => h (g x)) l) = filter h (map g l).
Proof. induction l as [|x l IH]; [reflexivity|]. cbn. destruct (h (g x)); cbn; rewrite IH; reflexivity. Qed.

Lemma filter_all {A} (l : list A) : l = filter (fun _ => true) l.
Proof. induction l as [|x l IH]; [reflexivity|]. cbn. f_equal. exact IH. Qed.

Lemma remove_rows_filter fuel x : exists h : Q * Q -> bool,
  remove_rows fuel x = filter (fun f => h (position f)) x /\
  remove_fuel fuel 5 (map position x) = filter h (map position x).
Proof.
  revert x. induction fuel as [|fuel IH]; intros x;
    set (k := fun p : Q * Q => close 5 (map f_lat x) (fst p) && close 5 (map f_lon x) (snd p));
    assert (PE : pass_rows x = filter (fun f => k (position f)) x) by reflexivity;
    assert (PM : pass 5 (map position x) = filter k (map position x))
      by (unfold pass, k; rewrite !map_map; reflexivity);
    assert (LE : length (pass_rows x) = length (pass 5 (map position x)))
      by (rewrite PE, PM, <- filter_map_rows, map_length; reflexivity);
    cbn [remove_rows remove_fuel]; rewrite LE, map_length;
    destruct (length (pass 5 (map position x)) <? length x)%nat.
  1,2,4: exists (fun _ => true); split; apply filter_all.
  destruct (IH (pass_rows x)) as (h & A & C). exists (fun p => k p && h p). split.
  - rewrite A, PE, filter_filter_rows. reflexivity.
  - rewrite PE in C. rewrite (filter_map_rows position k) in C. rewrite PM, C. apply filter_filter_rows.
Qed.

Lemma filter_those {A} (p : A -> bool) (P : A -> Prop) l : (forall x, In x l -> (p x = true <-> P x)) -> those_with P l (filter p l).
Proof.
  induction l as [|x l IH]; intros H; [constructor|]. cbn.
  assert (H' : forall y, In y l -> p y = true <-> P y) by (intros y Y; apply H; right; exact Y).
  destruct (p x) eqn:E.
  - apply tw_yes; [apply (H x (or_introl eq_refl)); exact E|apply IH; exact H'].
  - apply tw_no; [|apply IH; exact H']. intros C. apply (H x (or_introl eq_refl)) in C. congruence.
Qed.

Lemma used_rows t1 t2 all :
  used t1 t2 all (filter (fun f => (t1 <=? f_t f) && (f_t f <=? t2)) (remove_rows (length all) all)).
Proof.
  destruct (remove_rows_filter (length all) all) as (h & A & C).
  exists (remove_outliers 5 (map position all)), (remove_rows (length all) all).
  assert (P5 : (0 < 5)%Q) by reflexivity.
  split; [|split].
  - destruct (remove_fuel_spec (length (map position all)) 5 (map position all) (le_n _) P5) as (_ & D & E).
    split; [exact D|]. fold (remove_outliers 5 (map position all)) in *. rewrite <- E at 2. apply pass_is. exact P5.
  - rewrite A. apply filter_those. intros f F. unfold remove_outliers. rewrite map_length, C, filter_In.
    split; [intros H; split; [apply (in_map position); exact F|exact H]|intros [_ H]; exact H].
  - apply filter_those. intros f F. rewrite andb_true_iff, !Z.leb_le. reflexivity.
Qed.

(** * The lines *)

Lemma min_none l : minZ l = None -> l = [].
Proof. destruct l; [reflexivity|discriminate]. Qed.
Lemma max_none l : maxZ l = None -> l = [].
Proof. destruct l; [reflexivity|discriminate]. Qed.

Lemma se2_spec l : l <> [] -> standard_error2 l (se2 l).
Proof.
  intros N. exists (variance l). split; [apply variance_is; exact N|]. unfold se2.
  change (count l) with (cnt l). change (size l) with (cnt l). field. apply cnt_nz. exact N.
Qed.

Lemma summarize_one_spec items t1 t2 sn o : visible items -> summarize_one items t1 t2 sn = Some o ->
  exists all w, fixes_of sn items all /\ used t1 t2 all w /\
    match o with None => w = [] | Some s => w <> [] /\ line_for sn w s end.
Proof.
  intros V H. unfold summarize_one in H. destruct (read_gps sn items) as [all|] eqn:R; [|discriminate].
  apply read_gps_spec in R; [|exact V]. cbn zeta in H.
  set (w := filter (fun f => (t1 <=? f_t f) && (f_t f <=? t2)) (remove_rows (length all) all)) in *.
  assert (U : used t1 t2 all w) by apply used_rows. clearbody w. exists all, w. split; [exact R|]. split; [exact U|].
  destruct (minZ (map f_t w)) as [a|] eqn:MA.
  - destruct (maxZ (map f_t w)) as [e|] eqn:ME.
    + injection H as <-. assert (N : w <> []) by (intros ->; discriminate).
      split; [exact N|]. unfold line_for. cbn [s_sn s_lat s_lon s_lat_se2 s_lon_se2 s_start s_end s_count].
      assert (N1 : map f_lat w <> []) by (destruct w; [congruence|discriminate]).
      assert (N2 : map f_lon w <> []) by (destruct w; [congruence|discriminate]).
      split; [reflexivity|]. split; [apply mean_is; exact N1|]. split; [apply mean_is; exact N2|].
      split; [apply se2_spec; exact N1|]. split; [apply se2_spec; exact N2|].
      split; [apply min_earliest; exact MA|]. split; [apply max_latest; exact ME|reflexivity].
    + apply max_none in ME. apply map_eq_nil in ME. subst. discriminate.
  - injection H as <-. apply min_none in MA. apply map_eq_nil in MA. exact MA.
Qed.

Lemma summarize_all_spec items t1 t2 sns l : visible items -> summarize_all items t1 t2 sns = Some l ->
  summary_of items t1 t2 sns l.
Proof.
  intros V. revert l. induction sns as [|sn sns IH]; intros l H.
  - injection H as <-. constructor.
  - cbn [summarize_all] in H. destruct (summarize_one items t1 t2 sn) as [o|] eqn:O; [|discriminate].
    destruct (summarize_one_spec items t1 t2 sn o V O) as (all & w & F & U & D).
    destruct (summarize_all items t1 t2 sns) as [m|] eqn:A; [|destruct o; discriminate]. specialize (IH m eq_refl).
    destruct o as [s|]; injection H as <-.
    + destruct D as [N L]. eapply so_line; eassumption.
    + subst w. eapply so_none; eassumption.
Qed.
Lemma summarize_all_total items t1 t2 sns : Forall readable items -> exists l, summarize_all items t1 t2 sns = Some l.
Proof.
  intros F. induction sns as [|sn sns IH]; [exists []; reflexivity|]. destruct IH as (l & E). cbn [summarize_all]. rewrite E.
  assert (X : exists o, summarize_one items t1 t2 sn = Some o).
  { unfold summarize_one. destruct (read_gps_total sn items F) as (all & ->). cbn zeta.
    destruct (minZ _); [destruct (maxZ _)|]; eauto. }
  destruct X as ([s|] & ->); eauto.
Qed.

(** * Serial numbers *)

Lemma starts_gps n : starts_with (b "gps") n = true <-> exists r, n = b "gps" ++ r.
Proof. split; [apply starts_with_true|intros (r & ->); apply starts_with_app]. Qed.

Lemma cut_gps_some n h r : cut_gps n = (h, Some r) -> n = h ++ b "gps" ++ r /\ before_gps h n.
Proof.
  revert h. induction n as [|c n IH]; intros h H; [discriminate|]. cbn [cut_gps] in H.
  destruct (starts_with (b "gps") (c :: n)) eqn:S.
  - apply starts_gps in S. destruct S as (r0 & S). rewrite S in H |- *. change (skipn 3 (b "gps" ++ r0)) with r0 in H.
    injection H as <- <-. split; [reflexivity|]. split; [exists r0; reflexivity|]. intros; cbn; lia.
  - destruct (cut_gps n) as [h' t'] eqn:C. injection H as <- ->. destruct (IH h' eq_refl) as [E [_ B]].
    split; [cbn; rewrite E at 1; reflexivity|]. split; [exists r; cbn; rewrite E at 1; reflexivity|].
    intros a r' E'. destruct a as [|c' a].
    + exfalso. assert (X : starts_with (b "gps") (c :: n) = true) by (apply starts_gps; exists r'; exact E'). congruence.
    + injection E' as _ E'. specialize (B a r' E'). cbn. lia.
Qed.
Lemma cut_gps_none n h : cut_gps n = (h, None) -> h = n /\ forall a r, n <> a ++ b "gps" ++ r.
Proof.
  revert h. induction n as [|c n IH]; intros h H; cbn [cut_gps] in H.
  - injection H as <-. split; [reflexivity|]. intros a r E. destruct a; discriminate.
  - destruct (starts_with (b "gps") (c :: n)) eqn:S; [discriminate|].
    destruct (cut_gps n) as [h' t'] eqn:C. injection H as <- ->. destruct (IH h' eq_refl) as [-> N]. split; [reflexivity|].
    intros a r E. destruct a as [|c' a].
    + assert (X : starts_with (b "gps") (c :: n) = true) by (apply starts_gps; exists r; exact E). congruence.
    + injection E as _ E. apply (N a r E).
Qed.

Lemma app_same_length {A} (a a' c c' : list A) : length a = length a' -> a ++ c = a' ++ c' -> a = a' /\ c = c'.
Proof.
  revert a'. induction a as [|x a IH]; intros [|y a'] L E; cbn in L; try discriminate; [auto|].
  cbn in E. injection E as -> E. destruct (IH a' ltac:(lia) E) as [-> ->]. auto.
Qed.
Lemma before_gps_unique sn sn' n : before_gps sn n -> before_gps sn' n -> sn = sn'.
Proof.
  intros [(r & E) M] [(r' & E') M']. assert (L : length sn = length sn').
  { specialize (M sn' r' E'). specialize (M' sn r E). lia. }
  rewrite E in E'. apply (app_same_length _ _ _ _ L) in E'. apply E'.
Qed.

Lemma ends_with_iff suf s : ends_with suf s = true <-> exists r, s = r ++ suf.
Proof.
  unfold ends_with. split.
  - intros H. apply starts_with_true in H. destruct H as (r & H). exists (rev r).
    rewrite <- (rev_involutive s), H, rev_app_distr, rev_involutive. reflexivity.
  - intros (r & ->). rewrite rev_app_distr. apply starts_with_app.
Qed.

Lemma gps_name_log n sn : (gps_name n = true /\ name_sn n = sn) <-> log_of sn n.
Proof.
  unfold gps_name, name_sn. destruct (cut_gps n) as [h t] eqn:C. cbn [fst snd]. split.
  - intros [H <-]. apply andb_true_iff in H. destruct H as [H1 H2]. destruct t as [r|]; [|discriminate].
    destruct (cut_gps_some n h r C) as [E B]. split; [exact B|]. split.
    + intros X. apply hidden_iff in X. rewrite X in H1. discriminate.
    + apply ends_with_iff in H2. destruct H2 as (q & ->). exists q. exact E.
  - intros (B & V & (q & E)). destruct t as [r|].
    + destruct (cut_gps_some n h r C) as [E' B']. assert (h = sn) by (eapply before_gps_unique; eassumption). subst h.
      split; [|reflexivity]. assert (Hd : hidden n = false) by (apply not_true_is_false; rewrite hidden_iff; exact V).
      rewrite Hd. cbn. apply ends_with_iff. exists q. rewrite E in E'. apply app_inv_head in E'.
      apply app_inv_head in E'. symmetry. exact E'.
    + destruct (cut_gps_none n h C) as [_ N]. exfalso. apply (N sn (q ++ b "txt")). exact E.
Qed.

Lemma name_sn_plain n sn : name_sn n = sn <-> plain_sn n sn.
Proof.
  unfold name_sn, plain_sn. destruct (cut_gps n) as [h [r|]] eqn:C; cbn [fst].
  - destruct (cut_gps_some n h r C) as [E B]. split.
    + intros <-. left. exact B.
    + intros [B'|(-> & N)]; [eapply before_gps_unique; eassumption|]. exfalso. apply (N h r E).
  - destruct (cut_gps_none n h C) as [-> N]. split.
    + intros <-. right. auto.
    + intros [[(r & E) _]|(-> & _)]; [exfalso; apply (N _ _ E)|reflexivity].
Qed.

Lemma existsb_bytes s l : existsb (eqb_bytes s) l = true <-> In s l.
Proof.
  rewrite existsb_exists. split; [intros (x & X & E); apply eqb_bytes_iff in E; subst; exact X|].
  intros H. exists s. split; [exact H|apply eqb_bytes_iff; reflexivity].
Qed.
Lemma part_of_iff p s : part_of p s = true <-> exists a r, s = a ++ p ++ r.
Proof.
  induction s as [|c s IH].
  - cbn [part_of]. rewrite orb_false_r. split.
    + intros H. apply starts_with_true in H. destruct H as (r & H). exists [], r. exact H.
    + intros (a & r & E). destruct a; [|discriminate]. cbn in E. rewrite E. apply starts_with_app.
  - cbn [part_of]. rewrite orb_true_iff, IH. split.
    + intros [H|(a & r & ->)]; [apply starts_with_true in H; destruct H as (r & H); exists [], r; exact H|].
      exists (c :: a), r. reflexivity.
    + intros (a & r & E). destruct a as [|x a].
      * left. cbn [app] in E. rewrite E. apply starts_with_app.
      * right. injection E as _ E. exists a, r. exact E.
Qed.
Lemma in_choice_iff sn c : in_choice sn c = true <-> chosen sn c.
Proof. destruct c as [l|s]; cbn; [apply existsb_bytes|apply part_of_iff]. Qed.
Lemma wanted_iff incl excl sn : wanted incl excl sn = true <->
  (forall c, incl = Some c -> chosen sn c) /\ (forall c, excl = Some c -> ~ chosen sn c).
Proof.
  unfold wanted. rewrite andb_true_iff. split.
  - intros [A C]. split.
    + intros l ->. apply in_choice_iff. exact A.
    + intros l -> H. apply in_choice_iff in H. rewrite H in C. discriminate.
  - intros [A C]. split.
    + destruct incl as [l|]; [apply in_choice_iff; apply A; reflexivity|reflexivity].
    + destruct excl as [l|]; [|reflexivity]. specialize (C l eq_refl).
      destruct (in_choice sn l) eqn:E; [apply in_choice_iff in E; contradiction|reflexivity].
Qed.

Lemma in_order_sorted l : NoDup l -> in_order (sort_by le_bytes l).
Proof.
  intros N. assert (P := SelectProofs.sort_perm le_bytes l).
  assert (C : chain (fun x y => le_bytes x y = true) (sort_by le_bytes l)).
  { apply (sort_chain le_bytes (fun x y => le_bytes x y = true)); [auto|]. intros x y. apply le_bytes_total. }
  assert (N' : NoDup (sort_by le_bytes l)) by (apply (Permutation_NoDup (Permutation_sym P) N)).
  clear P N. induction (sort_by le_bytes l) as [|x s IH]; [constructor|].
  inversion N' as [|? ? X N2]; subst. constructor.
  - assert (H := chain_head _ x s (fun a c d => le_bytes_trans a c d) C). rewrite Forall_forall in H |- *.
    intros y Y. destruct (proj1 (le_before x y) (H y Y)) as [->|B]; [contradiction|exact B].
  - apply IH; [apply (chain_tail _ x s C)|exact N2].
Qed.

Lemma sn_list_spec is_list items incl excl :
  in_order (sn_list is_list items incl excl) /\
  forall sn, In sn (sn_list is_list items incl excl) <->
    (forall c, incl = Some c -> chosen sn c) /\ (forall c, excl = Some c -> ~ chosen sn c) /\
    ((exists es e, In (Folder es) items /\ In e es /\ log_of sn (fst e)) \/
     (is_list = true /\ exists path c n, In (Plain path c) items /\ file_name path n /\ plain_sn n sn)).
Proof.
  unfold sn_list. set (raw := filter (wanted incl excl) (map name_sn (flat_map (file_names is_list) items))).
  assert (U := fo_in (list_eq_dec Z.eq_dec) [] raw _ (unique_fo raw)). destruct U as (U1 & U2 & U3).
  split; [apply in_order_sorted; exact U3|]. intros sn.
  assert (E : In sn (sort_by le_bytes (unique eqb_bytes raw)) <-> In sn raw).
  { split.
    - intros H. apply (Permutation_in sn (SelectProofs.sort_perm le_bytes _)) in H. apply (U1 sn H).
    - intros H. apply (Permutation_in sn (Permutation_sym (SelectProofs.sort_perm le_bytes _))). apply (U2 sn H). intros []. }
  rewrite E. unfold raw. rewrite filter_In, wanted_iff.
  assert (X : In sn (map name_sn (flat_map (file_names is_list) items)) <->
    ((exists es e, In (Folder es) items /\ In e es /\ log_of sn (fst e)) \/
     (is_list = true /\ exists path c n, In (Plain path c) items /\ file_name path n /\ plain_sn n sn))); [|tauto].
  rewrite in_map_iff. split.
  - intros (n & NE & H). apply in_flat_map in H. destruct H as ([es|path c] & HI & H); cbn [file_names] in H.
    + apply filter_In in H. destruct H as [H1 H2]. apply in_map_iff in H1. destruct H1 as (e & <- & H1).
      left. exists es, e. split; [exact HI|]. split; [exact H1|]. apply gps_name_log. auto.
    + destruct is_list; [|destruct H]. destruct H as [<-|[]]. right. split; [reflexivity|].
      exists path, c, (last (split_on 47 path) []). split; [exact HI|]. split; [apply file_name_last|].
      apply name_sn_plain. exact NE.
  - intros [(es & e & HI & H1 & L)|(-> & path & c & n & HI & FN & P)].
    + apply gps_name_log in L. destruct L as [L1 L2]. exists (fst e). split; [exact L2|]. apply in_flat_map.
      exists (Folder es). split; [exact HI|]. cbn [file_names]. apply filter_In. split; [apply in_map; exact H1|exact L1].
    + exists n. split; [apply name_sn_plain; exact P|]. apply in_flat_map. exists (Plain path c). split; [exact HI|].
      cbn [file_names]. left. destruct FN as [F1 [F2|(d & F2)]]; subst path.
      * rewrite (split_on_none 47 n F1). reflexivity.
      * apply last_split. exact F1.
Qed.

(** * The command line *)

Lemma joined_part k l sn : (0 < k)%nat -> length sn = k -> ~ In 44 sn ->
  Forall (fun x => length x = k) l -> (part_of sn (joined l) = true <-> In sn l).
Proof.
  intros K L C F. rewrite part_of_iff. split.
  - induction F as [|x l Hx F IH]; intros (a & r & E).
    + cbn in E. destruct a; [|discriminate]. destruct sn; [cbn in L; lia|discriminate].
    + assert (X : forall t, x ++ t = a ++ sn ++ r -> length a = O -> x = sn).
      { intros t E' A. destruct a; [|discriminate]. cbn in E'. apply app_same_length in E'; [apply E'|congruence]. }
      destruct l as [|y l].
      * cbn in E. left. apply (X []); [rewrite app_nil_r; exact E|].
        apply (f_equal (@length Z)) in E. rewrite !app_length in E. lia.
      * change (joined (x :: y :: l)) with (x ++ [44] ++ joined (y :: l)) in E.
        destruct (Nat.eq_dec (length a) 0) as [A|A]; [left; apply (X _ E A)|]. right.
        destruct (Nat.le_gt_cases (length a) k) as [B|B].
        -- exfalso. apply C.
           assert (N : nth k (x ++ [44] ++ joined (y :: l)) 0 = 44) by (rewrite app_nth2, Hx, Nat.sub_diag; [reflexivity|lia]).
           rewrite E in N. rewrite app_nth2, app_nth1 in N by lia. rewrite <- N. apply nth_In. lia.
        -- apply IH. exists (skipn (k + 1) a), r.
           apply (f_equal (skipn (k + 1))) in E.
           rewrite !skipn_app, Hx in E. replace (k + 1 - length a)%nat with O in E by lia.
           rewrite (skipn_all2 x) in E by lia. replace (k + 1 - k)%nat with 1%nat in E by lia. exact E.
  - intros H. induction F as [|x l Hx F IH]; [destruct H|]. destruct H as [->|H].
    + exists []. destruct l as [|y l]; [exists []|exists (b "," ++ joined (y :: l))]; cbn; [rewrite app_nil_r|]; reflexivity.
    + destruct (IH H) as (a & r & E). destruct l as [|y l]; [destruct H|].
      exists (x ++ b "," ++ a), r. change (joined (x :: y :: l)) with (x ++ b "," ++ joined (y :: l)). rewrite E, <- !app_assoc. reflexivity.
Qed.

Lemma sn_list_ext is_list items i e i' e' :
  (forall n, In n (flat_map (file_names is_list) items) -> wanted i e (name_sn n) = wanted i' e' (name_sn n)) ->
  sn_list is_list items i e = sn_list is_list items i' e'.
Proof.
  intros H. unfold sn_list. do 2 f_equal. induction (flat_map (file_names is_list) items) as [|n l IH]; [reflexivity|].
  cbn. rewrite (H n (or_introl eq_refl)), IH; [reflexivity|]. intros m M. apply H. right. exact M.
Qed.

(** * The newest log *)

Lemma before_irrefl x : ~ before x x.
Proof. induction x as [|a x IH]; intros H; inversion H; subst; [lia|auto]. Qed.
Lemma before_asym x y : before x y -> ~ before y x.
Proof. induction 1 as [c s|a c r s L|a r s H IH]; intros H'; inversion H'; subst; try lia. apply IH. assumption. Qed.

(** * Codes and elevation *)

Lemma pop_like_heights m t k c r : Forall (fun nc : bytes * list cell => length (snd nc) = m) t -> pop_like t k = Some (c, r) ->
  length c = m /\ Forall (fun nc : bytes * list cell => length (snd nc) = m) r.
Proof.
  intros F. revert c r. induction F as [|[n d] t H F IH]; intros c r P; [discriminate|]. cbn [pop_like] in P.
  destruct (same_start n k); [injection P as <- <-; auto|].
  destruct (pop_like t k) as [[c' r']|]; [|discriminate]. injection P as <- <-.
  destruct (IH c' r' eq_refl) as [A C]. split; [exact A|constructor; assumption].
Qed.
Lemma set_column_heights m t k c : Forall (fun nc : bytes * list cell => length (snd nc) = m) t -> length c = m ->
  Forall (fun nc : bytes * list cell => length (snd nc) = m) (set_column t k c) /\ set_column t k c <> [].
Proof.
  intros F L. induction F as [|[n d] t H F IH]; cbn [set_column].
  - split; [repeat constructor; exact L|discriminate].
  - destruct (eqb_bytes n k); (split; [|discriminate]); constructor; try assumption. apply IH.
Qed.
Lemma fix_keys_heights m t : Forall (fun nc : bytes * list cell => length (snd nc) = m) t -> t <> [] ->
  height (fix_station_info_keys t) = m.
Proof.
  intros F N. unfold fix_station_info_keys.
  assert (X : Forall (fun nc : bytes * list cell => length (snd nc) = m) (fold_left fix_key allowed t) /\ fold_left fix_key allowed t <> []).
  { revert t F N. induction allowed as [|k ks IH]; intros t F N; [auto|]. cbn [fold_left].
    unfold fix_key at 2 4. destruct (pop_like t k) as [[c r]|] eqn:P; [|apply IH; assumption].
    destruct (pop_like_heights m t k c r F P) as [A C]. destruct (set_column_heights m r k c C A) as [D E]. apply IH; assumption. }
  destruct X as [A C]. destruct (fold_left fix_key allowed t) as [|[n c] r]; [congruence|]. inversion A; subst. reflexivity.
Qed.
Lemma columns_heights h : forall j body, Forall (fun nc : bytes * list cell => length (snd nc) = length body) (columns h j body).
Proof. induction h as [|n h IH]; intros j body; constructor; [apply map_length|apply IH]. Qed.

Lemma table_elevation h body t : good_header h -> Forall (fun r => length r = length h) body ->
  complete (fix_station_info_keys (columns h 0 body)) = Some t ->
  match pos (b "elevation") h with
  | Some i => column t (b "elevation") = Some (map (at_pos i) body)
  | None => column t (b "elevation") = Some (repeat (Number (-9999)) (length body))
  end.
Proof.
  intros G F E. destruct (good_header_facts h G) as (ND & S5 & S4 & LH).
  assert (O : ok_table (columns h 0 body)) by (split; rewrite columns_lnames; assumption).
  assert (C : forall K, In K allowed -> column (fix_station_info_keys (columns h 0 body)) K =
    option_map (fun i => map (at_pos i) body) (pos (lower K) h)).
  { intros K A. rewrite (fixed_column _ K O A), columns_data. reflexivity. }
  destruct (pos_in (b "network") h) as (inet & P2 & B2); [apply S4; cbn; tauto|].
  destruct (pos_in (b "location") h) as (iloc & P4 & B4); [apply S4; cbn; tauto|].
  assert (C2 := C (b "network") ltac:(cbn; tauto)). change (lower (b "network")) with (b "network") in C2. rewrite P2 in C2.
  assert (C4 := C (b "location") ltac:(cbn; tauto)). change (lower (b "location")) with (b "location") in C4. rewrite P4 in C4.
  assert (C5 := C (b "elevation") ltac:(cbn; tauto)). change (lower (b "elevation")) with (b "elevation") in C5.
  cbn [option_map] in C2, C4. destruct (complete_columns _ _ _ C4 C2) as (t' & E' & _ & _ & _ & _ & D).
  rewrite E in E'. injection E' as <-. rewrite C5 in D.
  destruct (pos (b "elevation") h) as [i|] eqn:P; cbn [option_map] in D.
  - rewrite D. f_equal.
    assert (B : (i < length h)%nat).
    { clear - P. revert i P. induction h as [|n h IH]; intros i P; [discriminate|]. cbn in P.
      destruct (eqb_bytes (lower n) (b "elevation")); [injection P as <-; cbn; lia|].
      destruct (pos (b "elevation") h) as [q|]; [|discriminate]. injection P as <-. specialize (IH q eq_refl). cbn. lia. }
    assert (X : forall v l, Forall (fun c => c <> Missing) l -> map (fill v) l = l).
    { clear. intros v l T. induction T as [|c l H T IH]; [reflexivity|]. cbn. rewrite IH.
      destruct c; [reflexivity|congruence|reflexivity]. }
    apply X. apply (at_pos_text i h body B F).
  - rewrite D. do 2 f_equal. apply fix_keys_heights; [apply columns_heights|]. destruct h; [cbn in LH; lia|discriminate].
Qed.

Lemma codes_index h body t sn n s l : good_header h -> Forall (fun r => length r = length h) body ->
  complete (fix_station_info_keys (columns h 0 body)) = Some t -> codes_in h sn body (Some (n, s, l)) ->
  exists c w row isn, column t (b "SN") = Some c /\ index_of sn c = Some w /\ nth_error body w = Some row /\
    pos (b "sn") h = Some isn /\ (isn < length h)%nat /\ c = map (at_pos isn) body.
Proof.
  intros G F E CI. destruct (table_columns h body G F) as (t' & isn & inet & ista & iloc & E' & (P1 & P2 & P3 & P4) & (B1 & B2 & B3 & B4) & D1 & D2 & D3 & D4).
  rewrite E in E'. injection E' as <-. destruct (good_header_facts h G) as (ND & _).
  assert (L := lookup_iff h isn inet ista iloc ND P1 P2 P3 P4 B1 B2 B3 B4 body sn _ F CI). unfold lookup_rows in L.
  destruct (index_of sn (map (at_pos isn) body)) as [w|] eqn:I1; [|discriminate].
  destruct (nth_error (map (at_pos inet) body) w) as [x|] eqn:N; [|discriminate].
  destruct (nth_error body w) as [row|] eqn:R.
  - exists (map (at_pos isn) body), w, row, isn.
    split; [exact D1|]. split; [exact I1|]. split; [exact R|]. split; [exact P1|]. split; [exact B1|reflexivity].
  - exfalso. apply nth_error_None in R. assert (X : nth_error (map (at_pos inet) body) w = None) by (apply nth_error_None; rewrite map_length; exact R). congruence.
Qed.

Lemma elevation_index h isn ie body sn w e : NoDup (map lower h) -> pos (b "sn") h = Some isn -> (isn < length h)%nat ->
  pos (b "elevation") h = Some ie -> (ie < length h)%nat -> Forall (fun r => length r = length h) body ->
  index_of sn (map (at_pos isn) body) = Some w -> elevation_in h sn body e ->
  nth_error (map (at_pos ie) body) w = Some (Txt e).
Proof.
  intros ND P1 B1 P5 B5 F. revert w. induction F as [|row rows E F IH]; intros w X V; [inversion V|].
  assert (M1 : In (b "sn") five) by (cbn; tauto). assert (M5 : In (b "elevation") five) by (cbn; tauto).
  destruct (at_cell h ND (b "sn") isn row M1 P1 B1 E) as (c1 & _ & A1 & _ & Q1).
  destruct (at_cell h ND (b "elevation") ie row M5 P5 B5 E) as (c5 & _ & A5 & _ & Q5).
  cbn [map index_of] in X |- *. rewrite A1 in X. cbn [eqb_cell] in X.
  inversion V as [row' rows' e' U1 U5|row' rows' sn' e' U1 NE V']; subst.
  - apply Q1 in U1. apply Q5 in U5. subst. rewrite (proj2 (eqb_bytes_iff c1 c1) eq_refl) in X. injection X as <-.
    cbn. rewrite A5. reflexivity.
  - apply Q1 in U1. subst sn'. destruct (eqb_bytes c1 sn) eqn:Q; [apply eqb_bytes_iff in Q; contradiction|].
    destruct (index_of sn (map (at_pos isn) rows)) as [v|] eqn:Y; [|discriminate]. injection X as <-. cbn [nth_error].
    apply IH; [reflexivity|exact V'].
Qed.
