(** Lemmas about the command gemconvert. *)
From Coq Require Import String.
From Coq Require Import ZArith List Bool Lia Permutation.
From Verif Require Import Lib Base Names NamesSpec NamesProofs Stations StationsProofs Select SelectSpec SelectProofs IdsProofs GpsSpec GpsProofs Cli CliSpec.
Import ListNotations.
Open Scope Z_scope.

(** * Integers *)

Lemma value_snoc s c : value_of (s ++ [c]) = value_of s * 10 + (c - 48).
Proof. rewrite value_app. cbn. lia. Qed.
Lemma fold_value s : forall a, fold_left (fun a c => if is_digit c then a * 10 + (c - 48) else a) s a = a * 10 ^ Z.of_nat (length (filter is_digit s)) + value_of (filter is_digit s).
Proof.
  induction s as [|c s IH] using rev_ind; intros a; [cbn; lia|]. rewrite fold_left_app, filter_app. cbn [fold_left filter]. rewrite IH.
  destruct (is_digit c); [|rewrite app_nil_r; reflexivity]. rewrite value_snoc, app_length, Nat2Z.inj_add, Z.pow_add_r by lia. cbn [length]. change (10 ^ Z.of_nat 1) with 10. ring.
Qed.
Lemma filter_none {A} (f : A -> bool) l : Forall (fun x => f x = false) l -> filter f l = [].
Proof. induction 1 as [|x l H _ IH]; [reflexivity|]. cbn. rewrite H. exact IH. Qed.
Lemma blank_no_digit l : Forall blank l -> Forall (fun c => is_digit c = false) l.
Proof. apply Forall_impl. intros c H. unfold is_digit. unfold blank in H. destruct (Z.leb_spec 48 c), (Z.leb_spec c 57); cbn; try reflexivity; lia. Qed.
Lemma digits_chars ds : digits ds -> Forall (fun c => 48 <= c <= 57 \/ c = 95) ds.
Proof. induction 1 as [c H|c s H _ IH|c s H _ IH]; unfold digit in H; try change (b "_" ++ s) with (95 :: s); repeat (apply Forall_cons || assumption || apply Forall_nil); lia. Qed.

Lemma int_of_iff s n : int_of s = Some n <-> reads_as s n.
Proof.
  assert (K : forall l sg ds r, s = l ++ sg ++ ds ++ r -> Forall blank l -> Forall blank r -> digits ds -> (sg = [] \/ sg = b "+" \/ sg = b "-") ->
    int_of s = Some (if match sg with [45] => true | _ => false end then - value_of (filter is_digit ds) else value_of (filter is_digit ds))).
  { intros l sg ds r E Bl Br Dd Sg. unfold int_of. assert (is_int s = true) as -> by (apply is_int_spec; exists l, sg, ds, r; auto).
    rewrite fold_value. rewrite E, !filter_app, (filter_none is_digit l), (filter_none is_digit r) by (apply blank_no_digit; assumption).
    assert (filter is_digit sg = []) as -> by (destruct Sg as [->|[->| ->]]; reflexivity). cbn [app]. rewrite app_nil_r.
    assert (X : existsb (Z.eqb 45) (l ++ sg ++ ds ++ r) = match sg with [45] => true | _ => false end).
    { rewrite !existsb_app. assert (Nb : forall q, Forall blank q -> existsb (Z.eqb 45) q = false).
      { intros q H. destruct (existsb (Z.eqb 45) q) eqn:Eq; [|reflexivity]. apply existsb_exists in Eq as (c & I & Ec). apply Z.eqb_eq in Ec. subst c.
        rewrite Forall_forall in H. apply H in I. unfold blank in I. lia. }
      rewrite (Nb l Bl), (Nb r Br). assert (existsb (Z.eqb 45) ds = false) as ->.
      { destruct (existsb (Z.eqb 45) ds) eqn:Eq; [|reflexivity]. apply existsb_exists in Eq as (c & I & Ec). apply Z.eqb_eq in Ec. subst c.
        apply digits_chars in Dd. rewrite Forall_forall in Dd. apply Dd in I. lia. }
      destruct Sg as [->|[->| ->]]; reflexivity. }
    rewrite X. destruct Sg as [->|[->| ->]]; cbn [b app]; f_equal; reflexivity. }
  split.
  - intros H. assert (I : is_int s = true) by (unfold int_of in H; destruct (is_int s); [reflexivity|discriminate]).
    apply is_int_spec in I as (l & sg & ds & r & E & Bl & Br & Dd & Sg). rewrite (K l sg ds r E Bl Br Dd Sg) in H. injection H as <-.
    exists l, sg, ds, r. split; [exact E|]. split; [exact Bl|]. split; [exact Br|]. split; [exact Dd|].
    destruct Sg as [->|[->| ->]]; [left|left|right]; cbn; auto.
  - intros (l & sg & ds & r & E & Bl & Br & Dd & [[Sg ->]|[-> ->]]).
    + rewrite (K l sg ds r E Bl Br Dd ltac:(tauto)). destruct Sg as [->| ->]; reflexivity.
    + rewrite (K l _ ds r E Bl Br Dd ltac:(tauto)). reflexivity.
Qed.
Lemma is_int_iff s : is_int s = true <-> exists n, reads_as s n.
Proof.
  split; [|intros (n & H); apply int_of_iff in H; unfold int_of in H; destruct (is_int s); [reflexivity|discriminate]].
  intros H. assert (exists n, int_of s = Some n) as (n & E); [unfold int_of; rewrite H; eauto|]. exists n. apply int_of_iff, E.
Qed.

(** * The command line *)

Definition pair_of (g : given) : bytes * bytes := match g with Flag c => ([45; c], []) | Value c a => ([45; c], a) end.
Lemma getopt_words l : Forall known l -> forall fuel, (length (words l) <= fuel)%nat -> getopt gemconvert_options fuel (words l) = Some (map pair_of l).
Proof.
  induction 1 as [|g l K _ IH]; intros fuel Hf; [destruct fuel; reflexivity|]. destruct g as [c|c a].
  - change (words (Flag c :: l)) with ([45; c] :: words l) in *. cbn [length] in Hf. destruct fuel as [|fuel]; [lia|]. specialize (IH fuel ltac:(lia)). vm_compute in K.
    repeat (destruct K as [<-|K]; [match goal with |- getopt _ _ ([45; ?c] :: _) = _ =>
      cbn [getopt]; change (do_shorts gemconvert_options [c] (words l)) with (Some ([([45; c], @nil Z)], words l)) end; cbv iota beta; rewrite IH; reflexivity|]). destruct K.
  - change (words (Value c a :: l)) with ([45; c] :: a :: words l) in *. cbn [length] in Hf. destruct fuel as [|fuel]; [lia|]. specialize (IH fuel ltac:(lia)). vm_compute in K.
    repeat (destruct K as [<-|K]; [match goal with |- getopt _ _ ([45; ?c] :: _) = _ =>
      cbn [getopt]; change (do_shorts gemconvert_options [c] (a :: words l)) with (Some ([([45; c], a)], words l)) end; cbv iota beta; rewrite IH; reflexivity|]). destruct K.
Qed.

Lemma apply_app s l l' : apply_options s (l ++ l') = match apply_options s l with Some s' => apply_options s' l' | None => None end.
Proof. revert s. induction l as [|x l IH]; intros s; [reflexivity|]. cbn [app apply_options]. destruct (apply_option s x); [apply IH|reflexivity]. Qed.

Lemma last_snoc c a l x : given_last c a (l ++ [x]) -> x = Value c a \/ (forall a', x <> Value c a') /\ given_last c a l.
Proof.
  intros (l1 & l2 & E & N). destruct (exists_last (l := Value c a :: l2)) as (m & z & Em); [discriminate|]. rewrite Em, app_assoc in E. apply app_inj_tail in E as [E <-].
  destruct m as [|y m]; cbn in Em; [left; injection Em as <- _; reflexivity|]. injection Em as <- Em. right.
  split; [intros a' ->; apply (N a'); rewrite Em; apply in_or_app; right; left; reflexivity|]. exists l1, m. split; [exact E|]. intros a' I. apply (N a'). rewrite Em. apply in_or_app. left. exact I.
Qed.
Lemma not_snoc c l x : not_given c (l ++ [x]) -> (forall a, x <> Value c a) /\ not_given c l.
Proof. intros N. split; [intros a ->; apply (N a); apply in_or_app; right; left; reflexivity|]. intros a I. apply (N a). apply in_or_app. left. exact I. Qed.

(** How one field follows the command line. *)
Definition follows {A} (c : Z) (f : bytes -> A) (d : A) (l : list given) (v : A) : Prop :=
  (forall a, given_last c a l -> v = f a) /\ (not_given c l -> v = d).
Lemma follows_here {A} c (f : bytes -> A) d l a : follows c f d (l ++ [Value c a]) (f a).
Proof.
  split; [|intros N; exfalso; apply not_snoc in N as [N _]; exact (N a eq_refl)].
  intros a' H. apply last_snoc in H as [H|[H _]]; [injection H as ->; reflexivity|exfalso; exact (H a eq_refl)].
Qed.
Lemma follows_other {A} c (f : bytes -> A) d l x v : (forall a, x <> Value c a) -> follows c f d l v -> follows c f d (l ++ [x]) v.
Proof.
  intros N [H1 H2]. split.
  - intros a H. apply last_snoc in H as [->|[_ H]]; [exfalso; exact (N a eq_refl)|exact (H1 a H)].
  - intros H. apply not_snoc in H as [_ H]. exact (H2 H).
Qed.

Record followed (l : list given) (s : settings) : Prop := {
  f_input : follows 105 (fun a => a) (b "raw") l (inputdir s);
  f_sns : follows 115 (split_on 44) [] l (sns s);
  f_excl : follows 120 (split_on 44) [] l (exclude s);
  f_codes : follows 99 Some None l (codesfile s);
  f_out : follows 111 Some None l (outputdir s);
  f_format : follows 102 (fun a => a) (b "MSEED") l (format s);
  f_length : follows 108 (fun a => a) (b "24") l (length_hours s);
  f_test : test s = true <-> In (Flag 116) l;
  f_proc : (forall a n, given_last 112 a l -> reads_as a n -> processes s = n) /\ (not_given 112 l -> processes s = 1) }.

Lemma test_snoc l x (t : bool) : x <> Flag 116 -> (t = true <-> In (Flag 116) l) -> (t = true <-> In (Flag 116) (l ++ [x])).
Proof. intros N H. rewrite in_app_iff. cbn. rewrite H. split; [auto|]. intros [X|[X|[]]]; [exact X|contradiction]. Qed.
Lemma proc_snoc l x (p : Z) : (forall a, x <> Value 112 a) -> ((forall a n, given_last 112 a l -> reads_as a n -> p = n) /\ (not_given 112 l -> p = 1)) ->
  (forall a n, given_last 112 a (l ++ [x]) -> reads_as a n -> p = n) /\ (not_given 112 (l ++ [x]) -> p = 1).
Proof.
  intros N [H1 H2]. split.
  - intros a n G R. apply last_snoc in G as [->|[_ G]]; [exfalso; exact (N a eq_refl)|exact (H1 a n G R)].
  - intros G. apply not_snoc in G as [_ G]. exact (H2 G).
Qed.

Ltac options := cbn [pair_of apply_option]; repeat match goal with |- context [is_opt ?o ?n] => let v := eval vm_compute in (is_opt o n) in change (is_opt o n) with v end; cbv iota.
Lemma settings_follow l : Forall known l -> exists s, apply_options defaults (map pair_of l) = Some s /\ followed l s.
Proof.
  induction l as [|x l IH] using rev_ind; intros K.
  - exists defaults. split; [reflexivity|]. constructor; try (split; [intros a (l1 & l2 & E & _); destruct l1; discriminate|reflexivity]).
    + split; [discriminate|intros []].
    + split; [intros a n (l1 & l2 & E & _); destruct l1; discriminate|reflexivity].
  - apply Forall_app in K as [K Kx]. apply Forall_inv in Kx. destruct (IH K) as (s & E & F). rewrite map_app, apply_app, E. cbn [map apply_options].
    destruct s as [i n ex od t f lh p c]. destruct F as [F1 F2 F3 F4 F5 F6 F7 F8 F9]. cbn [inputdir sns exclude outputdir test format length_hours processes codesfile] in *.
    destruct x as [y|y a].
    + vm_compute in Kx. destruct Kx as [<-|[<-|[]]]; options; eexists; (split; [reflexivity|]); constructor; cbn [inputdir sns exclude outputdir test format length_hours processes codesfile];
        try (apply follows_other; [discriminate|assumption]); try (apply proc_snoc; [discriminate|assumption]).
      * apply test_snoc; [discriminate|assumption].
      * rewrite in_app_iff. cbn. tauto.
    + vm_compute in Kx. repeat (destruct Kx as [<-|Kx]; [options; eexists; split; [reflexivity|]; constructor; cbn [inputdir sns exclude outputdir test format length_hours processes codesfile];
        try (apply follows_other; [discriminate|assumption]); try (apply proc_snoc; [discriminate|assumption]); try (apply test_snoc; [discriminate|assumption])|]); [..|destruct Kx].
      * apply (follows_here 105 (fun a => a)).
      * apply follows_here.
      * apply follows_here.
      * apply follows_here.
      * apply follows_here.
      * apply (follows_here 102 (fun a => a)).
      * apply (follows_here 108 (fun a => a)).
      * split; [|intros N; apply not_snoc in N as [N _]; exfalso; exact (N a eq_refl)].
        intros a' k G R. apply last_snoc in G as [G|[G _]]; [injection G as <-; apply int_of_iff in R; rewrite R; reflexivity|exfalso; exact (G a eq_refl)].
Qed.

Lemma split_commas l : l <> [] -> Forall (fun s => ~ In 44 s) l -> split_on 44 (commas l) = l.
Proof.
  intros N F. destruct F as [|x l X F]; [congruence|]. clear N. revert x X. induction F as [|y l Y F IH]; intros x X; [apply split_on_none; exact X|].
  change (commas (x :: y :: l)) with (x ++ [44] ++ commas (y :: l)). rewrite split_on_app by exact X. rewrite (IH y Y). reflexivity.
Qed.

(** * The serial numbers *)

Lemma find_SN_iff name sn : find_SN name = sn <-> after_nine name sn.
Proof.
  unfold find_SN, after_nine. split.
  - intros <-. destruct (Nat.lt_ge_cases (length name) 9) as [H|H].
    + right. split; [exact H|]. rewrite skipn_all2 by lia. reflexivity.
    + left. exists (firstn 9 name), (skipn 4 (skipn 9 name)). split; [rewrite firstn_skipn, firstn_skipn; reflexivity|]. split; [apply firstn_length_le; lia|].
      destruct (Nat.lt_ge_cases (length (skipn 9 name)) 4) as [H4|H4].
      * right. rewrite firstn_all2 by lia. split; [exact H4|apply skipn_all2; lia].
      * left. apply firstn_length_le. exact H4.
  - intros [(fr & bk & -> & L & H)|[H ->]].
    + rewrite skipn_app, L, Nat.sub_diag, skipn_all2 by lia. cbn [app skipn]. destruct H as [H|[H ->]].
      * rewrite firstn_app, H, Nat.sub_diag, firstn_O, app_nil_r. apply firstn_all2. lia.
      * rewrite app_nil_r. apply firstn_all2. lia.
    + rewrite skipn_all2 by lia. reflexivity.
Qed.
Lemma unique_sorted_spec l : in_order (unique_sorted l) /\ forall x, In x (unique_sorted l) <-> In x l.
Proof.
  unfold unique_sorted. destruct (unique_props l) as [N I]. split; [apply in_order_sorted; exact N|].
  intros x. rewrite <- I. split; apply Permutation_in; [|symmetry]; apply sort_perm.
Qed.
Lemma in_order_filter f l : in_order l -> in_order (filter f l).
Proof.
  induction 1 as [|x l H _ IH]; [constructor|]. cbn. destruct (f x); [|exact IH]. constructor; [|exact IH].
  rewrite Forall_forall in *. intros y I. apply filter_In in I as [I _]. apply H, I.
Qed.
Lemma with_number_iff n rows r : with_number n rows = Some r <-> first_row rows n r.
Proof.
  split.
  - revert r. induction rows as [|x rows IH]; intros r H; [discriminate|]. cbn [with_number] in H. destruct (int_of (r_sn x)) as [k|] eqn:E.
    + destruct (Z.eqb_spec k n) as [->|N].
      * injection H as <-. exists [], rows. split; [reflexivity|]. split; [apply int_of_iff, E|intros r' []].
      * destruct (IH r H) as (bf & af & -> & R & A). exists (x :: bf), af. split; [reflexivity|]. split; [exact R|]. intros r' [<-|I]; [|apply A, I].
        intros X. apply int_of_iff in X. congruence.
    + destruct (IH r H) as (bf & af & -> & R & A). exists (x :: bf), af. split; [reflexivity|]. split; [exact R|]. intros r' [<-|I]; [|apply A, I].
      intros X. apply int_of_iff in X. congruence.
  - intros (bf & af & -> & R & A). induction bf as [|x bf IH]; cbn [app with_number].
    + apply int_of_iff in R. rewrite R, Z.eqb_refl. reflexivity.
    + assert (X : match int_of (r_sn x) with Some k => k =? n | None => false end = false).
      { destruct (int_of (r_sn x)) as [k|] eqn:E; [|reflexivity]. apply Z.eqb_neq. intros ->. apply (A x (or_introl eq_refl)). apply int_of_iff, E. }
      rewrite X. apply IH. intros r' I. apply A. right. exact I.
Qed.
Lemma associate_some rows l m : associate rows l = Some m ->
  (forall sn codes, In (sn, codes) m <-> In sn l /\ exists n r, reads_as sn n /\ first_row rows n r /\ codes = (r_network r, r_station r, r_location r)) /\
  (in_order l -> in_order (map fst m)).
Proof.
  revert m. induction l as [|x l IH]; intros m H; cbn [associate] in H.
  - injection H as <-. split; [|constructor]. intros sn codes. split; [intros []|intros [[] _]].
  - destruct (negb (all_int rows)); [discriminate|]. destruct (int_of x) as [n|] eqn:En; [|discriminate]. destruct (associate rows l) as [m'|]; [|discriminate].
    destruct (IH m' eq_refl) as [A O]. assert (Rx : reads_as x n) by (apply int_of_iff, En).
    assert (Sub : in_order (x :: l) -> Forall (before x) (map fst m')).
    { intros Ox. inversion Ox as [|? ? Fx _]; subst. rewrite Forall_forall in *. intros y I. apply in_map_iff in I as ([y' c] & <- & I). apply A in I as [I _]. apply Fx, I. }
    destruct (with_number n rows) as [r|] eqn:W; injection H as <-.
    + split.
      * intros sn codes. split.
        -- intros [E|I]; [injection E as <- <-; split; [left; reflexivity|]; exists n, r; split; [exact Rx|]; split; [apply with_number_iff, W|reflexivity]|].
           apply A in I as [I X]. split; [right; exact I|exact X].
        -- intros [[<-|I] X]; [|right; apply A; auto]. left. destruct X as (n' & r' & R' & F' & ->). apply int_of_iff in R'. assert (n' = n) as -> by congruence.
           apply with_number_iff in F'. assert (r' = r) as -> by congruence. reflexivity.
      * intros Ox. cbn [map fst]. constructor; [apply Sub, Ox|apply O; inversion Ox; assumption].
    + split; [|intros Ox; apply O; inversion Ox; assumption]. intros sn codes. split.
      * intros I. apply A in I as [I X]. split; [right; exact I|exact X].
      * intros [[<-|I] X]; [|apply A; auto]. exfalso. destruct X as (n' & r' & R' & F' & _). apply int_of_iff in R'. assert (n' = n) as -> by congruence.
        apply with_number_iff in F'. congruence.
Qed.
Lemma associate_total rows l : (forall r, In r rows -> exists n, reads_as (r_sn r) n) -> (forall sn, In sn l -> exists n, reads_as sn n) -> exists m, associate rows l = Some m.
Proof.
  intros R. induction l as [|x l IH]; intros L; [exists []; reflexivity|]. cbn [associate].
  assert (all_int rows = true) as ->.
  { unfold all_int. apply forallb_forall. intros r I. apply is_int_iff, R, I. }
  cbn [negb]. destruct (L x (or_introl eq_refl)) as (n & E). apply int_of_iff in E. rewrite E. destruct IH as (m & ->); [intros sn I; apply L; right; exact I|].
  destruct (with_number n rows); eauto.
Qed.
