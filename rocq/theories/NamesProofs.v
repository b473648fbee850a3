(** Proofs about file names. *)
From Coq Require Import String.
From Coq Require Import ZArith List Bool Lia FinFun.
From Verif Require Import Base CalendarSpec CalendarProofs Names NamesSpec.
Import ListNotations.
Open Scope Z_scope.

Lemma eqb_bytes_iff x y : eqb_bytes x y = true <-> x = y.
Proof. unfold eqb_bytes. destruct (list_eq_dec Z.eq_dec x y); split; congruence. Qed.

(** * Decimal numbers *)

Definition dig (c : Z) : Prop := 48 <= c <= 57.
Lemma value_app s t : value_of (s ++ t) = value_of s * 10 ^ Z.of_nat (length t) + value_of t.
Proof.
  induction s as [|c s IH]; cbn [app value_of]; [lia|]. rewrite IH, app_length, Nat2Z.inj_add, Z.pow_add_r by lia. ring.
Qed.
Lemma value_bound s : Forall dig s -> 0 <= value_of s < 10 ^ Z.of_nat (length s).
Proof.
  induction 1 as [|c s H _ IH]; [cbn; lia|]. cbn [value_of]. rewrite (Nat2Z.inj_succ (length s) : Z.of_nat (length (c :: s)) = _), Z.pow_succ_r by lia.
  unfold dig in H. nia.
Qed.
Lemma value_zeros k s : value_of (repeat 48 k ++ s) = value_of s.
Proof. induction k as [|k IH]; [reflexivity|]. cbn [repeat app value_of]. rewrite IH. ring. Qed.

Lemma digits_aux_spec f : forall n acc, (0 < f)%nat -> 0 <= n < 2 ^ Z.of_nat f -> exists D, digits_aux f n acc = D ++ acc /\ D <> [] /\
  Forall (fun d => 0 <= d <= 9) D /\ value_of (map (Z.add 48) D) = n /\ (match D with 0 :: _ :: _ => False | _ => True end).
Proof.
  induction f as [|f IH]; intros n acc Hf Hn; [lia|]. cbn [digits_aux]. pose proof (Z.mod_pos_bound n 10 ltac:(lia)).
  pose proof (Z.div_mod n 10 ltac:(lia)). destruct (Z.eqb_spec (n / 10) 0) as [E|E].
  - exists [n mod 10]. cbn [app value_of map length]. split; [reflexivity|]. split; [discriminate|]. split; [constructor; [lia|constructor]|]. split; [change (10 ^ Z.of_nat 0) with 1; lia|].
    destruct (n mod 10); exact I.
  - assert (0 <= n / 10) by (apply Z.div_pos; lia).
    assert (n / 10 < 2 ^ Z.of_nat f) by (apply Z.div_lt_upper_bound; [lia|]; rewrite Nat2Z.inj_succ, Z.pow_succ_r in Hn by lia; lia).
    assert (Hf' : (0 < f)%nat) by (destruct f; [cbn in *; lia|lia]).
    destruct (IH (n / 10) (n mod 10 :: acc) Hf' ltac:(lia)) as (D & E1 & N & F & V & L). exists (D ++ [n mod 10]). rewrite E1, <- app_assoc.
    split; [reflexivity|]. split; [destruct D; discriminate|]. split; [apply Forall_app; split; [exact F|constructor; [lia|constructor]]|].
    split; [rewrite map_app, value_app; cbn [map value_of length]; rewrite V; change (10 ^ Z.of_nat 0) with 1; change (10 ^ Z.of_nat 1) with 10; lia|].
    destruct D as [|d D]; [congruence|]. cbn [app]. destruct D as [|d' D].
    + cbn [app]. destruct d as [|p|p]; [|exact I|exact I]. exfalso. apply E. cbn [map value_of length] in V. change (10 ^ Z.of_nat 0) with 1 in V. lia.
    + cbn [app]. exact L.
Qed.

Lemma digits_spec n : 0 <= n -> exists c s, map (Z.add 48) (digits n) = c :: s /\ Forall dig (c :: s) /\ value_of (c :: s) = n /\ (c = 48 -> s = []).
Proof.
  intros Hn. assert (B : 0 <= n < 2 ^ Z.of_nat (S (Z.to_nat (Z.log2 n)))).
  { split; [exact Hn|]. rewrite Nat2Z.inj_succ, Z2Nat.id by apply Z.log2_nonneg. destruct (Z.eq_dec n 0) as [->|]; [reflexivity|]. apply Z.log2_spec. lia. }
  destruct (digits_aux_spec _ n [] (Nat.lt_0_succ _) B) as (D & E & N & F & V & L). unfold digits. rewrite E, app_nil_r.
  destruct D as [|d D]; [congruence|]. cbn [map]. exists (48 + d), (map (Z.add 48) D). split; [reflexivity|]. split.
  - change (Forall dig (map (Z.add 48) (d :: D))). apply Forall_map. apply Forall_forall. intros x Hx. rewrite Forall_forall in F. specialize (F x Hx). cbn beta in F. unfold dig. lia.
  - split; [exact V|]. intros H0. assert (d = 0) by lia. subst d. destruct D; [reflexivity|destruct L].
Qed.

Lemma pad_decimal w n : 0 <= n -> decimal w n (pad w n).
Proof.
  intros Hn. destruct (digits_spec n Hn) as (c & s & E & F & V & Z0). unfold pad, decimal. cbv zeta. rewrite E.
  assert (R : forall k, Forall dig (repeat 48 k)) by (intros k; induction k; constructor; [unfold dig; lia|assumption]).
  split; [apply Forall_app; split; [apply R|exact F]|]. split; [rewrite value_zeros; exact V|].
  split; [rewrite app_length, repeat_length; lia|]. split; [intros H; apply app_eq_nil in H as [_ H]; discriminate|].
  destruct (w - length (c :: s))%nat as [|k] eqn:Ew.
  - cbn [repeat app]. destruct s as [|d s]; [|].
    + destruct c as [|p|p]; try exact I. do 6 (destruct p as [p|p|]; try exact I).
    + assert (c <> 48) by (intros H; specialize (Z0 H); discriminate).
      assert (G : forall (P : Prop) z, z <> 48 -> match z :: d :: s with 48 :: _ :: _ => P | _ => True end).
      { intros P z Hz. destruct z as [|p|p]; try exact I. do 6 (destruct p as [p|p|]; try exact I). congruence. }
      apply G. assumption.
  - cbn [repeat app]. destruct (repeat 48 k ++ c :: s) as [|x y] eqn:Ex; [exact I|]. rewrite <- Ex. cbn [length]. rewrite app_length, repeat_length. lia.
Qed.
Lemma pad_digits w n : 0 <= n -> Forall dig (pad w n).
Proof. intros H. apply (proj1 (pad_decimal w n H)). Qed.
Lemma pad_value w n : 0 <= n -> value_of (pad w n) = n.
Proof. intros H. apply (proj1 (proj2 (pad_decimal w n H))). Qed.
Lemma pad_inj w n m : 0 <= n -> 0 <= m -> pad w n = pad w m -> n = m.
Proof. intros Hn Hm E. rewrite <- (pad_value w n Hn), <- (pad_value w m Hm), E. reflexivity. Qed.
Lemma pad_length w n : (0 < w)%nat -> 0 <= n < 10 ^ Z.of_nat w -> length (pad w n) = w.
Proof.
  intros Hw Hn. destruct (digits_spec n ltac:(lia)) as (c & s & E & F & V & Z0). unfold pad. cbv zeta. rewrite E, app_length, repeat_length.
  assert (length (c :: s) <= w)%nat; [|lia]. cbn [length]. destruct (Z.eq_dec c 48) as [->|N]; [rewrite (Z0 eq_refl); cbn; lia|].
  apply Forall_cons_iff in F as [Fc Fs]. pose proof (value_bound s Fs). cbn [value_of] in V. unfold dig in Fc.
  destruct (le_lt_dec (S (length s)) w) as [L|L]; [exact L|exfalso].
  assert (10 ^ Z.of_nat w <= 10 ^ Z.of_nat (length s)) by (apply Z.pow_le_mono_r; lia). nia.
Qed.

Lemma app_eq_len {A} (x y x' y' : list A) : length x = length x' -> x ++ y = x' ++ y' -> x = x' /\ y = y'.
Proof.
  revert x'. induction x as [|a x IH]; intros [|c x'] L E; try discriminate; [auto|]. cbn in *. injection E as -> E. injection L as L. destruct (IH _ L E). subst. auto.
Qed.

Lemma before_app x r s : before r s -> before (x ++ r) (x ++ s).
Proof. intros H. induction x; [exact H|]. apply before_later. assumption. Qed.
Lemma before_digits s : forall s' r r', length s = length s' -> Forall dig s -> Forall dig s' -> value_of s < value_of s' ->
  before (s ++ r) (s' ++ r').
Proof.
  induction s as [|a s IH]; intros [|c s'] r r' L F F' H; try discriminate. cbn [app]. injection L as L.
  apply Forall_cons_iff in F as [Fa Fs]. apply Forall_cons_iff in F' as [Fc Fs']. pose proof (value_bound s Fs). pose proof (value_bound s' Fs').
  cbn [value_of] in H. rewrite L in H, H0. destruct (Z.lt_trichotomy a c) as [X|[->|X]].
  - apply before_here. exact X.
  - apply before_later. apply IH; [exact L|exact Fs|exact Fs'|lia].
  - exfalso. nia.
Qed.

(** * Log names *)

Lemma log_name_inj pre n m : 0 <= n -> 0 <= m -> log_name pre n = log_name pre m -> n = m.
Proof.
  unfold log_name. intros Hn Hm E. apply app_inv_head in E. apply app_inv_head in E. apply app_inv_tail in E. exact (pad_inj 3 n m Hn Hm E).
Qed.

Lemma exists_path_iff taken p : exists_path taken p = true <-> In p taken.
Proof.
  unfold exists_path. rewrite existsb_exists. split.
  - intros (x & I & E). apply eqb_bytes_iff in E. subst. exact I.
  - intros I. exists p. split; [exact I|apply eqb_bytes_iff; reflexivity].
Qed.

Lemma next_log_some fuel taken pre : forall n p, 0 <= n -> next_log fuel taken pre n = Some p ->
  exists m, n <= m /\ p = log_name pre m /\ ~ In p taken /\ forall k, n <= k < m -> In (log_name pre k) taken.
Proof.
  induction fuel as [|f IH]; intros n p Hn H; [discriminate|]. cbn [next_log] in H. destruct (exists_path taken (log_name pre n)) eqn:E.
  - apply exists_path_iff in E. destruct (IH (n + 1) p ltac:(lia) H) as (m & L & -> & N & A). exists m. split; [lia|]. split; [reflexivity|]. split; [exact N|].
    intros k Hk. destruct (Z.eq_dec k n) as [->|]; [exact E|apply A; lia].
  - injection H as <-. exists n. split; [lia|]. split; [reflexivity|]. split; [|intros; lia]. rewrite <- exists_path_iff. congruence.
Qed.

Lemma next_log_none fuel taken pre : forall n, next_log fuel taken pre n = None -> forall k, n <= k < n + Z.of_nat fuel -> In (log_name pre k) taken.
Proof.
  induction fuel as [|f IH]; intros n H k Hk; [lia|]. cbn [next_log] in H. destruct (exists_path taken (log_name pre n)) eqn:E; [|discriminate].
  apply exists_path_iff in E. destruct (Z.eq_dec k n) as [->|]; [exact E|]. apply (IH _ H). lia.
Qed.

Lemma make_filename_some taken pre : exists p, make_filename taken pre = Some p.
Proof.
  unfold make_filename. destruct (next_log (S (length taken)) taken pre 0) as [p|] eqn:E; [eauto|exfalso].
  pose proof (next_log_none _ _ _ _ E) as H.
  set (names := map (fun k => log_name pre (Z.of_nat k)) (seq 0 (S (length taken)))).
  assert (ND : NoDup names).
  { apply Injective_map_NoDup; [|apply seq_NoDup]. intros i j X. apply log_name_inj in X; lia. }
  assert (IN : incl names taken).
  { intros x Hx. unfold names in Hx. apply in_map_iff in Hx as (k & <- & Hk). apply in_seq in Hk. apply H. lia. }
  pose proof (NoDup_incl_length ND IN) as L. unfold names in L. rewrite map_length, seq_length in L. lia.
Qed.

(** * Replacement in patterns *)

Inductive token := Chr (c : Z) | Fld (s : bytes).
Definition out (t : token) : bytes := match t with Chr c => [c] | Fld s => 123 :: s ++ [125] end.
Definition render (l : list token) : bytes := flat_map out l.

(** Text up to a closing brace. *)
Fixpoint closing (s : bytes) : option bytes :=
  match s with
  | [] => None
  | c :: r => if c =? 125 then Some [] else if c =? 123 then None else match closing r with Some f => Some (c :: f) | None => None end
  end.
Lemma closing_app n r : brace_free n -> closing (n ++ 125 :: r) = Some n.
Proof.
  unfold brace_free. induction n as [|c n IH]; intros [A B]; [reflexivity|]. cbn [app closing]. cbn [In] in A, B.
  destruct (Z.eqb_spec c 125); [tauto|]. destruct (Z.eqb_spec c 123); [tauto|]. rewrite IH; [reflexivity|tauto].
Qed.
Lemma closing_some s f : closing s = Some f -> brace_free f /\ exists r, s = f ++ 125 :: r.
Proof.
  revert f. induction s as [|c s IH]; intros f H; [discriminate|]. cbn [closing] in H. destruct (Z.eqb_spec c 125) as [->|N1].
  - injection H as <-. split; [split; intros []|]. exists s. reflexivity.
  - destruct (Z.eqb_spec c 123) as [->|N2]; [discriminate|]. destruct (closing s) as [g|]; [|discriminate]. injection H as <-.
    destruct (IH g eq_refl) as ([B1 B2] & r & ->). split; [split; intros [X|X]; congruence || tauto|]. exists r. reflexivity.
Qed.

Inductive canon : list token -> Prop :=
| canon_nil : canon []
| canon_char : forall c l, c <> 123 -> canon l -> canon (Chr c :: l)
| canon_open : forall l, closing (render l) = None -> canon l -> canon (Chr 123 :: l)
| canon_field : forall f l, brace_free f -> canon l -> canon (Fld f :: l).

Lemma tokens_exist n : forall s, (length s <= n)%nat -> exists l, render l = s /\ canon l.
Proof.
  induction n as [|n IH]; intros s Hs; [destruct s; [exists []; split; [reflexivity|constructor]|cbn in Hs; lia]|].
  destruct s as [|c s]; [exists []; split; [reflexivity|constructor]|]. cbn in Hs. destruct (Z.eq_dec c 123) as [->|N].
  - destruct (closing s) as [f|] eqn:E.
    + apply closing_some in E as (B & r & ->). rewrite app_length in Hs. cbn in Hs. destruct (IH r ltac:(lia)) as (l & <- & C).
      exists (Fld f :: l). split; [cbn [render flat_map out app]; rewrite <- app_assoc; reflexivity|apply canon_field; assumption].
    + destruct (IH s ltac:(lia)) as (l & <- & C). exists (Chr 123 :: l). split; [reflexivity|apply canon_open; assumption].
  - destruct (IH s ltac:(lia)) as (l & <- & C). exists (Chr c :: l). split; [reflexivity|apply canon_char; assumption].
Qed.

Definition rename_field (g : bytes -> bytes) (t : token) : token := match t with Chr c => Chr c | Fld f => Fld (g f) end.
Lemma closing_render g l : closing (render (map (rename_field g) l)) = closing (render l).
Proof.
  induction l as [|[c|f] l IH]; [reflexivity| |reflexivity]. cbn [map rename_field render flat_map out app closing].
  change (flat_map out) with render. rewrite IH. reflexivity.
Qed.
Lemma canon_map g l : (forall f, brace_free f -> brace_free (g f)) -> canon l -> canon (map (rename_field g) l).
Proof.
  intros G. induction 1 as [|c l N C IH|l E C IH|f l B C IH]; cbn [map rename_field].
  - constructor.
  - apply canon_char; assumption.
  - apply canon_open; [rewrite closing_render; exact E|exact IH].
  - apply canon_field; [apply G; exact B|exact IH].
Qed.

Lemma starts_with_app p r : starts_with p (p ++ r) = true.
Proof. induction p; [reflexivity|]. cbn. rewrite Z.eqb_refl. assumption. Qed.
Lemma starts_with_true p s : starts_with p s = true -> exists r, s = p ++ r.
Proof.
  revert s. induction p as [|a p IH]; intros s H; [exists s; reflexivity|]. destruct s as [|c s]; [discriminate|]. cbn in H.
  apply andb_prop in H as [E H]. apply Z.eqb_eq in E. subst. destruct (IH s H) as (r & ->). exists r. reflexivity.
Qed.

Definition sub (n m f : bytes) : bytes := if eqb_bytes f n then m else f.
Definition field (n : bytes) : bytes := 123 :: n ++ [125].

Lemma replace_skip old new k x r : length x = k -> replace_aux old new k (x ++ r) = replace_aux old new 0 r.
Proof. revert x. induction k as [|k IH]; intros [|c x] L; try discriminate; [reflexivity|]. injection L as L. cbn [app replace_aux]. apply IH. exact L. Qed.
Lemma replace_text n new x r : ~ In 123 x -> replace_aux (field n) new 0 (x ++ r) = x ++ replace_aux (field n) new 0 r.
Proof.
  induction x as [|c x IH]; intros H; [reflexivity|]. cbn [app]. cbn [replace_aux]. unfold field at 1. cbn [starts_with].
  destruct (Z.eqb_spec 123 c) as [<-|N]; [cbn in H; tauto|]. cbn [andb]. f_equal. apply IH. cbn in H. tauto.
Qed.

Lemma replace_hit n new r : replace_aux (field n) new 0 (field n ++ r) = new ++ replace_aux (field n) new 0 r.
Proof.
  assert (S : starts_with (field n) (123 :: (n ++ [125]) ++ r) = true) by (change (123 :: (n ++ [125]) ++ r) with (field n ++ r); apply starts_with_app).
  change (field n ++ r) with (123 :: (n ++ [125]) ++ r). cbn [replace_aux]. rewrite S. f_equal.
  change (length (field n)) with (1 + length (n ++ [125%Z]))%nat. cbn [Nat.add]. rewrite Nat.sub_succ, Nat.sub_0_r. apply replace_skip. reflexivity.
Qed.
Lemma replace_miss n f new r : brace_free n -> brace_free f -> f <> n -> replace_aux (field n) new 0 (field f ++ r) = field f ++ replace_aux (field n) new 0 r.
Proof.
  intros Bn B D. assert (S : starts_with (field n) (123 :: (f ++ [125]) ++ r) = false).
  { destruct (starts_with (field n) (123 :: (f ++ [125]) ++ r)) eqn:S; [exfalso|reflexivity]. apply starts_with_true in S as (t & S). unfold field in S. cbn [app] in S.
    injection S as S. rewrite <- !app_assoc in S. cbn [app] in S. apply (f_equal closing) in S. rewrite !closing_app in S by assumption. injection S as ->. congruence. }
  change (field f ++ r) with (123 :: (f ++ [125]) ++ r). cbn [replace_aux]. rewrite S. change (field f ++ ?x) with (123 :: (f ++ [125]) ++ x). f_equal.
  apply replace_text. intros X. apply in_app_or in X as [X|[X|[]]]; [destruct B as [B _]; exact (B X)|discriminate].
Qed.

Lemma replace_render n m l : brace_free n -> canon l -> replace (field n) (field m) (render l) = render (map (rename_field (sub n m)) l).
Proof.
  intros Bn. unfold replace. induction 1 as [|c l N C IH|l E C IH|f l B C IH].
  - reflexivity.
  - cbn [map rename_field]. change (render (Chr c :: ?x)) with ([c] ++ render x). rewrite replace_text; [rewrite IH; reflexivity|]. intros [X|[]]. congruence.
  - change (render (Chr 123 :: l)) with (123 :: render l). cbn [map rename_field]. change (render (Chr 123 :: ?x)) with (123 :: render x). rewrite <- IH.
    cbn [replace_aux]. destruct (starts_with (field n) (123 :: render l)) eqn:S; [exfalso|reflexivity].
    apply starts_with_true in S as (r & S). unfold field in S. cbn [app] in S. injection S as S. rewrite <- app_assoc in S. cbn [app] in S.
    rewrite S, closing_app in E by exact Bn. discriminate.
  - cbn [map rename_field]. unfold sub at 1. destruct (eqb_bytes f n) eqn:En.
    + apply eqb_bytes_iff in En. subst f. change (render (Fld n :: l)) with (field n ++ render l). rewrite replace_hit, IH. reflexivity.
    + change (render (Fld f :: l)) with (field f ++ render l). rewrite replace_miss, IH by (try assumption; intros ->; rewrite (proj2 (eqb_bytes_iff n n) eq_refl) in En; discriminate).
      reflexivity.
Qed.

Definition fix_field (f : bytes) : bytes :=
  sub (b "jd") (b "jd:03d") (sub (b "sec") (b "sec:02d") (sub (b "min") (b "min:02d") (sub (b "hour") (b "hour:02d")
    (sub (b "day") (b "day:02d") (sub (b "mon") (b "mon:02d") (sub (b "year") (b "year:04d") f)))))).

Lemma map_rename g h l : map (rename_field g) (map (rename_field h) l) = map (rename_field (fun f => g (h f))) l.
Proof. rewrite map_map. apply map_ext. intros [c|f]; reflexivity. Qed.
Lemma sub_brace_free n m f : brace_free m -> brace_free f -> brace_free (sub n m f).
Proof. unfold sub. destruct (eqb_bytes f n); auto. Qed.

Ltac bf := unfold brace_free; vm_compute; split; intros H; repeat (destruct H as [H|H]; [discriminate|]); exact H.
Lemma fix_render l : canon l -> fix_file_name_digits (render l) = render (map (rename_field fix_field) l) /\ canon (map (rename_field fix_field) l).
Proof.
  intros C. unfold fix_file_name_digits. cbv zeta.
  assert (Step : forall n m k, brace_free n -> brace_free m -> canon k ->
    replace (field n) (field m) (render k) = render (map (rename_field (sub n m)) k) /\ canon (map (rename_field (sub n m)) k)).
  { intros n m k Bn Bm Ck. split; [apply replace_render; assumption|]. apply canon_map; [|exact Ck]. intros f. apply sub_brace_free. exact Bm. }
  change (b "{year}") with (field (b "year")). change (b "{year:04d}") with (field (b "year:04d")).
  change (b "{mon}") with (field (b "mon")). change (b "{mon:02d}") with (field (b "mon:02d")).
  change (b "{day}") with (field (b "day")). change (b "{day:02d}") with (field (b "day:02d")).
  change (b "{hour}") with (field (b "hour")). change (b "{hour:02d}") with (field (b "hour:02d")).
  change (b "{min}") with (field (b "min")). change (b "{min:02d}") with (field (b "min:02d")).
  change (b "{sec}") with (field (b "sec")). change (b "{sec:02d}") with (field (b "sec:02d")).
  change (b "{jd}") with (field (b "jd")). change (b "{jd:03d}") with (field (b "jd:03d")).
  destruct (Step (b "year") (b "year:04d") l ltac:(bf) ltac:(bf) C) as [-> C1].
  destruct (Step (b "mon") (b "mon:02d") _ ltac:(bf) ltac:(bf) C1) as [-> C2].
  destruct (Step (b "day") (b "day:02d") _ ltac:(bf) ltac:(bf) C2) as [-> C3].
  destruct (Step (b "hour") (b "hour:02d") _ ltac:(bf) ltac:(bf) C3) as [-> C4].
  destruct (Step (b "min") (b "min:02d") _ ltac:(bf) ltac:(bf) C4) as [-> C5].
  destruct (Step (b "sec") (b "sec:02d") _ ltac:(bf) ltac:(bf) C5) as [-> C6].
  destruct (Step (b "jd") (b "jd:03d") _ ltac:(bf) ltac:(bf) C6) as [-> C7].
  rewrite !map_rename in *. split; [reflexivity|exact C7].
Qed.

Lemma fix_field_other f : ~ In f [b "year"; b "mon"; b "day"; b "hour"; b "min"; b "sec"; b "jd"] -> fix_field f = f.
Proof.
  intros H. assert (S : forall n m, In n [b "year"; b "mon"; b "day"; b "hour"; b "min"; b "sec"; b "jd"] -> sub n m f = f).
  { intros n m I. unfold sub. destruct (eqb_bytes f n) eqn:E; [|reflexivity]. apply eqb_bytes_iff in E. subst. tauto. }
  unfold fix_field. rewrite !S by (cbn [In]; tauto). reflexivity.
Qed.
Lemma fix_field_idem f : fix_field (fix_field f) = fix_field f.
Proof.
  destruct (in_dec (list_eq_dec Z.eq_dec) f [b "year"; b "mon"; b "day"; b "hour"; b "min"; b "sec"; b "jd"]) as [I|I].
  - cbn [In] in I. repeat (destruct I as [<-|I]; [vm_compute; reflexivity|]). destruct I.
  - rewrite (fix_field_other f I). apply fix_field_other. exact I.
Qed.

Lemma fix_idem s : fix_file_name_digits (fix_file_name_digits s) = fix_file_name_digits s.
Proof.
  destruct (tokens_exist (length s) s (le_n _)) as (l & <- & C). destruct (fix_render l C) as [-> C']. destruct (fix_render _ C') as [-> _].
  rewrite map_rename. f_equal. apply map_ext. intros [c|f]; cbn; [reflexivity|]. rewrite fix_field_idem. reflexivity.
Qed.

(** * Formatting *)

Definition toks (p : piece) : list token := match p with Text s => map Chr s | Field s => [Fld s] end.
Lemma render_toks p : render (toks p) = written p.
Proof. destruct p as [s|s]; cbn [toks written]; [|cbn; rewrite app_nil_r; reflexivity]. induction s as [|c s IH]; [reflexivity|]. cbn. f_equal. exact IH. Qed.
Lemma render_app l k : render (l ++ k) = render l ++ render k.
Proof. apply flat_map_app. Qed.
Lemma pattern_tokens l : Forall good l -> render (flat_map toks l) = pattern l /\ canon (flat_map toks l).
Proof.
  unfold pattern. induction 1 as [|p l G _ [IH1 IH2]]; [split; [reflexivity|constructor]|]. cbn [flat_map map concat].
  split; [rewrite render_app, render_toks, IH1; reflexivity|]. destruct p as [s|s]; cbn [toks].
  - clear IH1. destruct G as [G _]. induction s as [|c s IHs]; [exact IH2|]. cbn [map app]. apply canon_char; [intros ->; apply G; left; reflexivity|].
    apply IHs. intros X. apply G. right. exact X.
  - cbn [app]. apply canon_field; assumption.
Qed.
Definition fix_piece (p : piece) : piece := match p with Text s => Text s | Field f => Field (fix_field f) end.
Lemma fix_field_good f : brace_free f -> brace_free (fix_field f).
Proof. intros B. unfold fix_field. repeat (apply sub_brace_free; [bf|]). exact B. Qed.
Lemma fix_pattern l : Forall good l -> fix_file_name_digits (pattern l) = pattern (map fix_piece l) /\ Forall good (map fix_piece l).
Proof.
  intros G. assert (G' : Forall good (map fix_piece l)).
  { apply Forall_map. apply Forall_forall. intros [s|s] I; rewrite Forall_forall in G; specialize (G _ I); [exact G|]. apply fix_field_good. exact G. }
  split; [|exact G']. destruct (pattern_tokens l G) as [<- C]. destruct (pattern_tokens _ G') as [<- _]. rewrite (proj1 (fix_render _ C)). f_equal.
  clear. induction l as [|[s|s] l IH]; [reflexivity| |]; cbn [flat_map map fix_piece toks]; rewrite map_app, IH; [|reflexivity]. f_equal.
  rewrite map_map. reflexivity.
Qed.

Lemma format_text env s r : brace_free s -> format_aux env None (s ++ r) = match format_aux env None r with Some o => Some (s ++ o) | None => None end.
Proof.
  unfold brace_free. induction s as [|c s IH]; intros [A B]; [cbn [app]; destruct (format_aux env None r); reflexivity|]. cbn [app format_aux]. cbn [In] in A, B.
  destruct (Z.eqb_spec c 123); [tauto|]. destruct (Z.eqb_spec c 125); [tauto|]. rewrite IH by tauto. destruct (format_aux env None r); reflexivity.
Qed.
Lemma format_field env s r : brace_free s -> forall a, format_aux env (Some a) (s ++ 125 :: r) =
  match expand env (rev a ++ s), format_aux env None r with Some v, Some o => Some (v ++ o) | _, _ => None end.
Proof.
  unfold brace_free. induction s as [|c s IH]; intros [A B] a; [cbn; rewrite app_nil_r; reflexivity|]. cbn [app format_aux]. cbn [In] in A, B.
  destruct (Z.eqb_spec c 123); [tauto|]. destruct (Z.eqb_spec c 125); [tauto|]. rewrite IH by tauto. cbn [rev]. rewrite <- app_assoc. reflexivity.
Qed.
Definition fill (env : list (bytes * value)) (p : piece) : option bytes := match p with Text s => Some s | Field f => expand env f end.
Fixpoint fills (env : list (bytes * value)) (l : list piece) : option bytes :=
  match l with
  | [] => Some []
  | p :: r => match fill env p, fills env r with Some x, Some y => Some (x ++ y) | _, _ => None end
  end.
Lemma format_pattern env l : Forall good l -> format env (pattern l) = fills env l.
Proof.
  unfold format, pattern. induction 1 as [|p l G _ IH]; [reflexivity|]. cbn [map concat fills]. destruct p as [s|s]; cbn [written fill].
  - rewrite format_text by exact G. rewrite IH. reflexivity.
  - cbn [b app]. change (b "{" ++ s ++ b "}") with (123 :: s ++ [125]). cbn [app format_aux]. change (123 =? 123) with true. cbn match.
    rewrite <- app_assoc. cbn [app]. rewrite format_field by exact G. cbn [rev app]. rewrite IH. reflexivity.
Qed.

(** * Uniqueness of decimals *)
Lemma value_inj s : forall s', length s = length s' -> Forall dig s -> Forall dig s' -> value_of s = value_of s' -> s = s'.
Proof.
  induction s as [|a s IH]; intros [|c s'] L F F' H; try discriminate; [reflexivity|]. injection L as L.
  apply Forall_cons_iff in F as [Fa Fs]. apply Forall_cons_iff in F' as [Fc Fs']. pose proof (value_bound s Fs) as B. pose proof (value_bound s' Fs').
  cbn [value_of] in H. rewrite L in H, B. assert (a = c) by nia. subst c. f_equal. apply IH; auto. lia.
Qed.
Lemma decimal_unique w n s s' : (0 < w)%nat -> decimal w n s -> decimal w n s' -> s = s'.
Proof.
  intros Hw D D'.
  assert (K : forall x y, decimal w n x -> decimal w n y -> (length x <= length y)%nat).
  { clear - Hw. intros x y (F & V & L & N & H) (F' & V' & L' & N' & H'). destruct (le_lt_dec (length x) (length y)) as [|G]; [assumption|exfalso].
    destruct x as [|c [|d x]]; [congruence|cbn in G; lia|]. pose proof (value_bound y F') as By. rewrite V' in By.
    destruct (Z.eq_dec c 48) as [->|Nc]; [cbn in H, L', G; lia|]. inversion F as [|? ? Fc Fr]; subst. pose proof (value_bound _ Fr) as Br.
    remember (d :: x) as r eqn:Er. cbn [value_of length] in *. assert (10 ^ Z.of_nat (length y) <= 10 ^ Z.of_nat (length r)) by (apply Z.pow_le_mono_r; lia).
    cbn beta in Fc. nia. }
  pose proof (K _ _ D D'). pose proof (K _ _ D' D). destruct D as (F & V & _). destruct D' as (F' & V' & _). apply value_inj; [lia|assumption|assumption|congruence].
Qed.
Lemma decimal_pad w n s : (0 < w)%nat -> 0 <= n -> decimal w n s -> s = pad w n.
Proof. intros Hw Hn D. exact (decimal_unique w n _ _ Hw D (pad_decimal w n Hn)). Qed.
