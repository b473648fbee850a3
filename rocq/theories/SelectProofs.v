(** Proofs about the choice of raw files. *)
From Coq Require Import String.
From Coq Require Import ZArith List Bool Lia Permutation Sorted.
From Verif Require Import Base Scan Convert110 UnwrapSpec Select SelectSpec.
Import ListNotations.
Open Scope Z_scope.

Lemma eqb_bytes_spec x y : eqb_bytes x y = true <-> x = y.
Proof. unfold eqb_bytes. destruct (list_eq_dec Z.eq_dec x y); split; congruence. Qed.

(** * Names *)

Definition pad4_check (n : Z) : bool :=
  eqb_bytes (pad 4 n) [48 + n / 1000; 48 + (n / 100) mod 10; 48 + (n / 10) mod 10; 48 + n mod 10].
Lemma pad4_all : forallb pad4_check (map Z.of_nat (seq 0 (Z.to_nat 10000))) = true.
Proof. vm_compute. reflexivity. Qed.
Lemma pad4 n : 0 <= n < 10000 -> pad 4 n = [48 + n / 1000; 48 + (n / 100) mod 10; 48 + (n / 10) mod 10; 48 + n mod 10].
Proof.
  intros H. pose proof pad4_all as A. rewrite forallb_forall in A. apply eqb_bytes_spec. apply A.
  apply in_map_iff. exists (Z.to_nat n). split; [lia|]. apply in_seq. lia.
Qed.

Ltac Zify.zify_post_hook ::= Z.div_mod_to_equations.
Lemma digits4 a c d e : 48 <= a <= 57 -> 48 <= c <= 57 -> 48 <= d <= 57 -> 48 <= e <= 57 ->
  let m := 1000 * (a - 48) + 100 * (c - 48) + 10 * (d - 48) + (e - 48) in
  0 <= m < 10000 /\ 48 + m / 1000 = a /\ 48 + (m / 100) mod 10 = c /\ 48 + (m / 10) mod 10 = d /\ 48 + m mod 10 = e.
Proof. cbv zeta. intros. lia. Qed.
Lemma val4 a c d e : val_digits [a - 48; c - 48; d - 48; e - 48] = 1000 * (a - 48) + 100 * (c - 48) + 10 * (d - 48) + (e - 48).
Proof. unfold val_digits. cbn [fold_left]. lia. Qed.

Lemma raw_name_spec name n x : raw_name name = Some (n, x) <-> named name n x.
Proof.
  unfold named. split.
  - intros H. unfold raw_name in H.
    destruct (Nat.eqb (length name) 12) eqn:L; [|discriminate]. apply Nat.eqb_eq in L.
    do 12 (destruct name as [|? name]; [discriminate|]). destruct name; [|discriminate]. clear L. cbn [firstn skipn andb map] in H.
    match type of H with (if ?c then _ else _) = _ => destruct c eqn:C; [|discriminate] end. apply andb_true_iff in C as [C C3]. apply andb_true_iff in C as [C1 C2].
    apply eqb_bytes_spec in C1, C3. cbn [forallb] in C2. unfold is_digit in C2. rewrite !andb_true_iff, !Z.leb_le in C2. destruct C2 as (E1 & E2 & E3 & E4 & _).
    rewrite val4 in H. injection C1 as -> -> -> ->. injection C3 as ->. pose proof (digits4 _ _ _ _ E1 E2 E3 E4) as Q. cbv zeta in Q. destruct Q as (R & Q1 & Q2 & Q3 & Q4).
    assert (En : n = 1000 * (z3 - 48) + 100 * (z4 - 48) + 10 * (z5 - 48) + (z6 - 48)) by congruence. assert (Ex : x = [z8; z9; z10]) by congruence. clear H. subst x. rewrite <- En in *. clear En.
    split; [exact R|]. split; [|reflexivity]. rewrite (pad4 n R), Q1, Q2, Q3, Q4. reflexivity.
  - intros (R & -> & L). destruct x as [|x1 [|x2 [|x3 [|]]]]; try discriminate. rewrite (pad4 n R).
    assert (A : is_digit (48 + n / 1000) = true /\ is_digit (48 + (n / 100) mod 10) = true /\ is_digit (48 + (n / 10) mod 10) = true /\ is_digit (48 + n mod 10) = true).
    { unfold is_digit. rewrite !andb_true_iff, !Z.leb_le. lia. }
    destruct A as (A1 & A2 & A3 & A4).
    change (b "FILE" ++ [48 + n / 1000; 48 + (n / 100) mod 10; 48 + (n / 10) mod 10; 48 + n mod 10] ++ b "." ++ [x1; x2; x3])
      with [70; 73; 76; 69; 48 + n / 1000; 48 + (n / 100) mod 10; 48 + (n / 10) mod 10; 48 + n mod 10; 46; x1; x2; x3].
    unfold raw_name. cbn [length Nat.eqb firstn skipn forallb map]. rewrite A1, A2, A3, A4, val4.
    change (eqb_bytes [70; 73; 76; 69] (b "FILE")) with true. change (eqb_bytes [46] (b ".")) with true. cbn [andb]. do 2 f_equal. lia.
Qed.

Lemma is_raw_spec f : is_raw f = true <-> exists n x, named (e_name f) n x.
Proof.
  unfold is_raw. destruct (raw_name (e_name f)) as [[n x]|] eqn:E; split; try discriminate; try congruence.
  - intros _. exists n, x. apply raw_name_spec. exact E.
  - intros (n & x & H). apply raw_name_spec in H. congruence.
Qed.
Lemma named_num f n x : named (e_name f) n x -> num f = n /\ ext f = x /\ is_raw f = true.
Proof. intros H. apply raw_name_spec in H. unfold num, ext, is_raw. rewrite H. auto. Qed.
Lemma raw_named f : is_raw f = true -> named (e_name f) (num f) (ext f).
Proof. unfold is_raw, num, ext. destruct (raw_name (e_name f)) as [[n x]|] eqn:E; [|discriminate]. intros _. apply raw_name_spec. exact E. Qed.

(** * Integer literals *)

Lemma is_blank_spec c : is_blank c = true <-> blank c.
Proof. unfold is_blank, blank. rewrite !orb_true_iff, !andb_true_iff, !Z.leb_le, Z.eqb_eq. tauto. Qed.
Lemma is_digit_spec c : is_digit c = true <-> digit c.
Proof. unfold is_digit, digit. rewrite andb_true_iff, !Z.leb_le. reflexivity. Qed.

Lemma drop_blanks_split s : exists l, Forall blank l /\ s = l ++ drop_blanks s.
Proof.
  induction s as [|c s (l & F & E)]; [exists []; auto|]. cbn. destruct (is_blank c) eqn:S; [|exists []; auto].
  exists (c :: l). split; [constructor; [apply is_blank_spec; exact S|exact F]|]. cbn. f_equal. exact E.
Qed.
Lemma drop_blanks_app l r : Forall blank l -> drop_blanks (l ++ r) = drop_blanks r.
Proof. induction 1 as [|c l H _ IH]; [reflexivity|]. cbn. rewrite (proj2 (is_blank_spec c) H). exact IH. Qed.

Lemma int_tail_sound n : forall s c, (length s <= n)%nat -> digit c -> int_tail s = true ->
  exists ds r, c :: s = ds ++ r /\ digits ds /\ Forall blank r.
Proof.
  induction n as [|n IH]; intros s c Hn Hc H.
  - destruct s; [|cbn in Hn; lia]. exists [c], []. split; [reflexivity|]. split; [constructor; exact Hc|constructor].
  - destruct s as [|d s]; [exists [c], []; split; [reflexivity|]; split; [constructor; exact Hc|constructor]|].
    cbn [int_tail] in H. cbn [length] in Hn. destruct (is_digit d) eqn:Ed.
    + apply is_digit_spec in Ed. destruct (IH s d ltac:(lia) Ed H) as (ds & r & E & D & F). exists (c :: ds), r.
      split; [cbn; f_equal; exact E|]. split; [apply next_digit; assumption|exact F].
    + destruct (d =? 95) eqn:Eu.
      * apply Z.eqb_eq in Eu. subst d. destruct s as [|e s]; [discriminate|]. apply andb_prop in H as [H1 H2]. apply is_digit_spec in H1. cbn [length] in Hn.
        destruct (IH s e ltac:(lia) H1 H2) as (ds & r & E & D & F). exists (c :: b "_" ++ ds), r.
        split; [cbn; do 2 f_equal; exact E|]. split; [apply next_group; assumption|exact F].
      * exists [c], (d :: s). split; [reflexivity|]. split; [constructor; exact Hc|]. rewrite forallb_forall in H. apply Forall_forall. intros x Hx. apply is_blank_spec. apply H. exact Hx.
Qed.
Lemma digits_head ds : digits ds -> exists c r, ds = c :: r /\ digit c.
Proof. destruct 1; eauto. Qed.
Lemma int_tail_blank r : Forall blank r -> int_tail r = true.
Proof.
  intros F. destruct r as [|c r]; [reflexivity|]. cbn [int_tail]. pose proof (Forall_inv F) as Hc. unfold blank in Hc.
  destruct (is_digit c) eqn:E; [apply is_digit_spec in E; unfold digit in E; lia|]. destruct (Z.eqb_spec c 95); [lia|].
  apply forallb_forall. intros x Hx. apply is_blank_spec. rewrite Forall_forall in F. apply F. exact Hx.
Qed.
Lemma int_tail_complete ds r : digits ds -> Forall blank r -> exists c s, ds ++ r = c :: s /\ digit c /\ int_tail s = true.
Proof.
  intros D F. induction D as [c Hc|c s Hc D IH|c s Hc D IH].
  - exists c, r. split; [reflexivity|]. split; [exact Hc|apply int_tail_blank; exact F].
  - exists c, (s ++ r). split; [reflexivity|]. split; [exact Hc|]. destruct IH as (d & t & E & Hd & Ht). rewrite E. cbn [int_tail].
    rewrite (proj2 (is_digit_spec d) Hd). exact Ht.
  - exists c, (95 :: s ++ r). split; [reflexivity|]. split; [exact Hc|]. destruct IH as (d & t & E & Hd & Ht). rewrite E. cbn [int_tail is_digit].
    rewrite (proj2 (is_digit_spec d) Hd). cbn. exact Ht.
Qed.

Lemma is_int_spec s : is_int s = true <-> integer_literal s.
Proof.
  unfold is_int. cbv zeta. split.
  - intros H. destruct (drop_blanks_split s) as (l & Fl & El).
    set (u := drop_blanks s) in *. clearbody u.
    assert (Sg : exists sg t, u = sg ++ t /\ (sg = [] \/ sg = b "+" \/ sg = b "-") /\
                  match u with c :: r => if (c =? 43) || (c =? 45) then r else u | [] => [] end = t).
    { destruct u as [|c t]; [exists [], []; auto|]. destruct (Z.eqb_spec c 43) as [->|N1]; [exists [43], t; auto|].
      destruct (Z.eqb_spec c 45) as [->|N2]; [exists [45], t; auto|]. exists [], (c :: t). auto. }
    destruct Sg as (sg & t & Eu & Hsg & Et). rewrite Et in H. destruct t as [|c t]; [discriminate|]. apply andb_prop in H as [H1 H2].
    apply is_digit_spec in H1. destruct (int_tail_sound (length t) t c (le_n _) H1 H2) as (ds & r & E & D & F).
    exists l, sg, ds, r. split; [rewrite El, Eu, E; reflexivity|]. auto.
  - intros (l & sg & ds & r & -> & Fl & Fr & D & Hsg). rewrite drop_blanks_app by exact Fl.
    destruct (int_tail_complete ds r D Fr) as (c & s & E & Hc & Ht). rewrite E.
    assert (Hd : is_digit c = true) by (apply is_digit_spec; exact Hc).
    destruct Hsg as [ -> | [ -> | -> ] ].
    + cbn [app drop_blanks]. unfold digit in Hc. destruct (is_blank c) eqn:B; [apply is_blank_spec in B; unfold blank in B; lia|].
      destruct (Z.eqb_spec c 43); [lia|]. destruct (Z.eqb_spec c 45); [lia|]. cbn [orb]. rewrite Hd, Ht. reflexivity.
    + change (is_digit c && int_tail s = true). rewrite Hd, Ht. reflexivity.
    + change (is_digit c && int_tail s = true). rewrite Hd, Ht. reflexivity.
Qed.

(** * Sorting *)
Section Sorting.
  Context {A : Type}.
  Variable le : A -> A -> bool.
  Variable R : A -> A -> Prop.
  Hypothesis le_true : forall x y, le x y = true -> R x y.
  Hypothesis le_false : forall x y, le x y = false -> R y x.

  Lemma put_perm x l : Permutation (put le x l) (x :: l).
  Proof. induction l as [|y l IH]; [reflexivity|]. cbn. destruct (le x y); [reflexivity|]. rewrite IH. apply perm_swap. Qed.
  Lemma sort_perm l : Permutation (sort_by le l) l.
  Proof. induction l as [|x l IH]; [reflexivity|]. cbn. rewrite put_perm, IH. reflexivity. Qed.

  Lemma put_chain x l : chain R l -> chain R (put le x l).
  Proof.
    induction l as [|y l IH]; intros C; [exact I|]. cbn. destruct (le x y) eqn:E; [split; [apply le_true; exact E|exact C]|].
    assert (C' : chain R l) by (destruct l; [exact I|apply C]). specialize (IH C').
    destruct l as [|z l]; cbn in *; [split; [apply le_false; exact E|exact I]|].
    destruct (le x z); (split; [|exact IH]); [apply le_false; exact E|apply C].
  Qed.
  Lemma sort_chain l : chain R (sort_by le l).
  Proof. induction l as [|x l IH]; [exact I|]. cbn. apply put_chain. exact IH. Qed.
End Sorting.

Lemma sort_Z_chain l : chain Z.le (sort_by Z.leb l).
Proof. apply (sort_chain Z.leb Z.le); intros x y E; [apply Z.leb_le in E; exact E|apply Z.leb_gt in E; lia]. Qed.

Lemma chain_filter {A} (R : A -> A -> Prop) (p : A -> bool) l : (forall x y z, R x y -> R y z -> R x z) -> chain R l -> chain R (filter p l).
Proof.
  intros T. assert (X : forall l x, chain R (x :: l) -> chain R (x :: filter p l)).
  { induction l0 as [|y l0 IH]; intros x C; [exact I|]. destruct C as [C1 C2]. cbn. destruct (p y); [split; [exact C1|apply IH; exact C2]|].
    apply IH. destruct l0 as [|z l0]; [exact I|]. split; [exact (T _ _ _ C1 (proj1 C2))|exact (proj2 C2)]. }
  induction l as [|x l IH]; intros C; [exact I|]. cbn. assert (C' : chain R l) by (destruct l; [exact I|apply C]).
  destruct (p x); [apply X; exact C|apply IH; exact C'].
Qed.

(** * Selection *)

Lemma has_sn_spec sn f : has_sn sn f = true <-> e_sn f = Some sn.
Proof. unfold has_sn. destruct (e_sn f) as [s|]; [rewrite eqb_bytes_spec; split; congruence|split; discriminate]. Qed.

Lemma txt_not_int : ~ integer_literal (b "TXT").
Proof. intros H. apply is_int_spec in H. vm_compute in H. discriminate. Qed.

Definition fns (d : list entry) (sn : bytes) : list entry :=
  filter (fun f => is_raw f && eqb_bytes (ext f) sn) d ++ filter (fun f => is_raw f && eqb_bytes (ext f) (b "TXT")) d.

Lemma fns_in d sn f : In f (fns d sn) <-> In f d /\ candidate sn f.
Proof.
  unfold fns, candidate. rewrite in_app_iff, !filter_In, !andb_true_iff, !eqb_bytes_spec. split.
  - intros [[I [A B]]|[I [A B]]]; (split; [exact I|]); exists (num f); apply raw_named in A; rewrite B in A; auto.
  - intros [I (n & [H|H])]; destruct (named_num _ _ _ H) as (_ & E & Rw); auto.
Qed.
Lemma fns_nodup d sn : sn <> b "TXT" -> NoDup d -> NoDup (fns d sn).
Proof.
  intros N ND. unfold fns.
  assert (X : forall p, NoDup (filter p d)) by (intros p; apply NoDup_filter; exact ND).
  assert (Y : forall l m : list entry, NoDup l -> NoDup m -> (forall x, In x l -> ~ In x m) -> NoDup (l ++ m)).
  { induction l as [|x l IH]; intros m Nl Nm H; [exact Nm|]. inversion Nl as [|? ? Nx Nl']; subst. cbn. constructor; [|apply IH; auto; intros y I; apply H; right; exact I].
    rewrite in_app_iff. intros [I|I]; [exact (Nx I)|]. exact (H x (or_introl eq_refl) I). }
  apply Y; [apply X|apply X|]. intros f I J. apply filter_In in I as [_ I]. apply filter_In in J as [_ J]. rewrite andb_true_iff, eqb_bytes_spec in I, J.
  destruct I as [_ I], J as [_ J]. congruence.
Qed.

Definition asked (nums : option (list Z)) (n : Z) : bool :=
  match nums with None | Some [] => true | Some l => existsb (Z.eqb n) l end.
Lemma asked_spec nums n : asked nums n = true <-> match nums with Some ((_ :: _) as l) => In n l | _ => True end.
Proof.
  destruct nums as [[|x l]|]; cbn [asked]; try tauto. rewrite existsb_exists. split.
  - intros (y & I & E). apply Z.eqb_eq in E. subst y. exact I.
  - intros I. exists n. split; [exact I|apply Z.eqb_refl].
Qed.

Definition chosen (d : list entry) (sn : bytes) (nums : option (list Z)) : list entry :=
  filter (fun f => has_sn sn f && asked nums (num f)) (fns d sn).

Lemma chosen_in d sn nums f : In f (chosen d sn nums) <-> In f d /\ wanted sn nums f (num f).
Proof.
  unfold chosen, wanted. rewrite filter_In, andb_true_iff, has_sn_spec, asked_spec, fns_in. unfold candidate. split.
  - intros [[I (n & H)] [A B]]. assert (E : num f = n) by (destruct H as [H|H]; apply named_num in H; tauto). rewrite E in *. auto.
  - intros (I & H & A & B). split; [split; [exact I|eauto]|auto].
Qed.
Lemma wanted_num sn nums f n : wanted sn nums f n -> n = num f.
Proof. intros ([H|H] & _); apply named_num in H as (-> & _); reflexivity. Qed.

Lemma filter_filter {A} (p q : A -> bool) l : filter p (filter q l) = filter (fun x => q x && p x) l.
Proof. induction l as [|x l IH]; [reflexivity|]. cbn. destruct (q x) eqn:Q; cbn; [destruct (p x); cbn; rewrite IH; reflexivity|exact IH]. Qed.
Lemma filter_map {A B} (g : A -> B) (p : B -> bool) l : filter p (map g l) = map g (filter (fun x => p (g x)) l).
Proof. induction l as [|x l IH]; [reflexivity|]. cbn. destruct (p (g x)); cbn; rewrite IH; reflexivity. Qed.
Lemma filter_true {A} (l : list A) : filter (fun _ => true) l = l.
Proof. induction l as [|x l IH]; [reflexivity|]. cbn. rewrite IH. reflexivity. Qed.

Lemma select_eq d sn nums : existsb is_raw d = true -> integer_literal sn -> length sn = 3%nat ->
  select (Some d) sn nums =
    match map num (chosen d sn nums) with
    | [] => inl (if existsb unreadable (fns d sn) then Corrupted else Missing)
    | ns => inr (sort_by Z.leb ns)
    end.
Proof.
  intros E L N. unfold select. rewrite E. cbn [negb]. apply is_int_spec in L as ->. rewrite N. cbn [Nat.eqb negb]. fold (fns d sn). cbv zeta.
  assert (X : match nums with None | Some [] => map num (filter (has_sn sn) (fns d sn)) | Some l => filter (fun n => existsb (Z.eqb n) l) (map num (filter (has_sn sn) (fns d sn))) end
              = map num (chosen d sn nums)).
  { unfold chosen. rewrite <- filter_filter. destruct nums as [[|x l]|]; cbn [asked]; rewrite ?filter_true; try reflexivity. rewrite filter_map. reflexivity. }
  rewrite X. destruct (map num (chosen d sn nums)); reflexivity.
Qed.

(** * Reading *)

Lemma le_bytes_refl x : le_bytes x x = true.
Proof. induction x as [|a x IH]; [reflexivity|]. cbn. rewrite Z.ltb_irrefl. exact IH. Qed.
Lemma le_bytes_total x : forall y, le_bytes x y = false -> le_bytes y x = true.
Proof.
  induction x as [|a x IH]; intros [|c y]; cbn; try congruence. destruct (Z.ltb_spec a c), (Z.ltb_spec c a); try congruence; try lia; auto.
Qed.
Lemma le_bytes_trans x : forall y z, le_bytes x y = true -> le_bytes y z = true -> le_bytes x z = true.
Proof.
  induction x as [|a x IH]; intros [|c y] [|e z]; cbn; try congruence.
  destruct (Z.ltb_spec a c), (Z.ltb_spec c a), (Z.ltb_spec c e), (Z.ltb_spec e c), (Z.ltb_spec a e), (Z.ltb_spec e a); try congruence; try lia; eauto.
Qed.

Lemma named_order f g n m x y : named f n x -> named g m y -> le_bytes f g = true -> n <= m.
Proof.
  intros (Rn & -> & _) (Rm & -> & _). rewrite (pad4 n Rn), (pad4 m Rm). cbn [b app le_bytes].
  rewrite !Z.ltb_irrefl. Ltac Zify.zify_post_hook ::= Z.div_mod_to_equations.
  repeat match goal with |- (if ?a <? ?c then _ else _) = true -> _ => destruct (Z.ltb_spec a c) end; intros H'; try discriminate; lia.
Qed.

Lemma label_spec sn f : sn <> b "TXT" -> (eqb_bytes (label f) sn = true <-> (ext f = sn /\ ext f <> b "TXT") \/ (ext f = b "TXT" /\ exists s, e_sn f = Some s /\ firstn 3 s = sn)).
Proof.
  intros N. unfold label. rewrite eqb_bytes_spec. destruct (eqb_bytes (ext f) (b "TXT")) eqn:E.
  - apply eqb_bytes_spec in E. destruct (e_sn f) as [s|].
    + split; [intros <-; right; split; [exact E|exists s; auto]|]. intros [[A B]|[_ (s' & A & B)]]; [congruence|]. injection A as <-. exact B.
    + split; [congruence|]. intros [[A B]|[_ (s' & A & B)]]; congruence.
  - assert (ext f <> b "TXT") by (intros X; apply eqb_bytes_spec in X; congruence). split; [intros <-; auto|]. intros [[A B]|[A _]]; congruence.
Qed.

Lemma find_in d sn nums f : sn <> b "TXT" -> (In f (find_nonmissing d sn nums) <-> In f d /\ readable sn nums f).
Proof.
  intros N. unfold find_nonmissing. rewrite !filter_In, andb_true_iff, Z.ltb_lt, existsb_exists, (label_spec _ _ N).
  assert (P : In f (sort_by (fun f g => le_bytes (e_name f) (e_name g)) (filter is_raw d)) <-> In f d /\ is_raw f = true).
  { rewrite <- filter_In. split; apply Permutation_in; [|symmetry]; apply sort_perm. }
  rewrite P. unfold readable. split.
  - intros (((I & Rw) & (n & In_ & E) & L) & Sz). apply Z.eqb_eq in E. subst n. split; [exact I|]. exists (num f), (ext f). split; [apply raw_named; exact Rw|]. auto.
  - intros (I & n & x & Nm & In_ & Sz & L). destruct (named_num _ _ _ Nm) as (E & E' & Rw). split; [|exact Sz]. split; [auto|].
    split; [exists n; split; [exact In_|apply Z.eqb_eq; exact E]|]. rewrite E'. exact L.
Qed.

Lemma find_sorted d sn nums : chain (fun f g => le_bytes (e_name f) (e_name g) = true) (find_nonmissing d sn nums).
Proof.
  unfold find_nonmissing. assert (T : forall x y z : entry, le_bytes (e_name x) (e_name y) = true -> le_bytes (e_name y) (e_name z) = true -> le_bytes (e_name x) (e_name z) = true) by (intros x y z; apply le_bytes_trans).
  apply chain_filter; [exact T|]. apply chain_filter; [exact T|]. apply (sort_chain _ (fun f g => le_bytes (e_name f) (e_name g) = true)); [auto|].
  intros x y. apply le_bytes_total.
Qed.

Lemma find_nodup d sn nums : NoDup d -> NoDup (find_nonmissing d sn nums).
Proof.
  intros N. unfold find_nonmissing. do 2 apply NoDup_filter. eapply Permutation_NoDup; [symmetry; apply sort_perm|]. apply NoDup_filter. exact N.
Qed.

Lemma drop_spec l : match drop_unreadable l with
  | None => Forall (fun f => e_version f = None) l
  | Some (v, fl) => exists l1 f l2, l = l1 ++ fl /\ fl = f :: l2 /\ Forall (fun f => e_version f = None) l1 /\ e_version f = Some v
  end.
Proof.
  induction l as [|f l IH]; [constructor|]. cbn. destruct (e_version f) as [v|] eqn:E; [exists [], f, l; auto|].
  destruct (drop_unreadable l) as [[v fl]|]; [|constructor; assumption]. destruct IH as (l1 & g & l2 & -> & -> & F & V). exists (f :: l1), g, l2. auto.
Qed.
