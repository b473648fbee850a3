(** Lemmas about the pool of processes. *)
From Coq Require Import String.
From Coq Require Import ZArith List Bool Lia Permutation.
From Verif Require Import Lib Base Names NamesProofs Stations Select Cli CliSpec CliProofs Pool PoolSpec.
Import ListNotations.
Open Scope Z_scope.

(** * Interleavings *)

Lemma il_snoc {A} (ls : list (list A)) m : interleaving ls m -> forall P l Q x, ls = P ++ l :: Q -> interleaving (P ++ (l ++ [x]) :: Q) (m ++ [x]).
Proof.
  induction 1 as [ls F|B y l0 C m H IH]; intros P l Q x E.
  - subst ls. apply Forall_app in F as [F1 F2]. inversion F2 as [|? ? -> F3]. apply il_step, il_done. apply Forall_app. split; [exact F1|]. constructor; [reflexivity|exact F3].
  - cbn [app]. assert (K : (exists D, P = B ++ (y :: l0) :: D /\ C = D ++ l :: Q) \/ (P = B /\ l = y :: l0 /\ Q = C) \/ (exists D, B = P ++ l :: D /\ Q = D ++ (y :: l0) :: C)).
    { clear - E. revert P E. induction B as [|u B IH]; intros P E; destruct P as [|v P]; cbn in E.
      - injection E as -> ->. right; left; auto.
      - injection E as -> ->. left. exists P. auto.
      - injection E as -> <-. right; right. exists B. auto.
      - injection E as -> E. destruct (IH _ E) as [(D & -> & ->)|[(-> & -> & ->)|(D & -> & ->)]]; [left; exists D; auto|right; left; auto|right; right; exists D; auto]. }
    destruct K as [(D & -> & ->)|[(-> & -> & ->)|(D & -> & ->)]].
    + rewrite <- app_assoc. cbn [app]. apply il_step. specialize (IH (B ++ l0 :: D) l Q x). rewrite <- !app_assoc in IH. cbn [app] in IH. apply IH. reflexivity.
    + cbn [app]. apply il_step. apply IH. reflexivity.
    + rewrite (app_comm_cons D ((y :: l0) :: C) (l ++ [x])), app_assoc. apply il_step. rewrite <- app_assoc. cbn [app].
      apply IH. rewrite <- app_assoc. reflexivity.
Qed.
Lemma il_nil_r {A} (ls : list (list A)) m : interleaving ls m -> interleaving (ls ++ [[]]) m.
Proof.
  induction 1 as [ls F|B y l0 C m H IH].
  - apply il_done. apply Forall_app. split; [exact F|]. constructor; [reflexivity|constructor].
  - rewrite <- app_assoc in *. cbn [app] in *. apply il_step. exact IH.
Qed.
Lemma il_perm {A} (ls : list (list A)) m : interleaving ls m -> Permutation (concat ls) m.
Proof.
  induction 1 as [ls F|B y l0 C m H IH].
  - induction F as [|x ls E _ IH]; [constructor|]. subst x. exact IH.
  - rewrite concat_app in *. cbn [concat app] in *. eapply perm_trans; [symmetry; apply Permutation_middle|]. constructor. exact IH.
Qed.
Lemma il_in {A} (ls : list (list A)) m x : interleaving ls m -> (In x m <-> exists l, In l ls /\ In x l).
Proof.
  intros H. pose proof (il_perm _ _ H) as P. split.
  - intros I. apply Permutation_sym in P. apply (Permutation_in _ P) in I. apply in_concat in I. exact I.
  - intros I. apply (Permutation_in _ P). apply in_concat. exact I.
Qed.

(** * The tasks that are begun *)

Section Run.
  Variable n : nat.
  Definition begun_task : Type := list line * option (list line).
  Definition whole (d : begun_task) : list line := fst d ++ match snd d with Some r => r | None => [] end.
  Definition live (D : list begun_task) : list (list line) := flat_map (fun d => match snd d with Some r => [r] | None => [] end) D.

  Lemma live_app D D' : live (D ++ D') = live D ++ live D'.
  Proof. apply flat_map_app. Qed.
  Lemma live_nth D : forall i r, nth_error (live D) i = Some r -> exists D1 a D2, D = D1 ++ (a, Some r) :: D2 /\
    (forall a' r', live (D1 ++ (a', Some r') :: D2) = set_nth i r' (live D)) /\ (forall a', live (D1 ++ (a', None) :: D2) = without_nth i (live D)).
  Proof.
    induction D as [|[a [r0|]] D IH]; intros i r E; [destruct i; discriminate| |].
    - change (live ((a, Some r0) :: D)) with (r0 :: live D) in *. destruct i as [|i]; cbn in E.
      + injection E as ->. exists [], a, D. split; [reflexivity|]. split; reflexivity.
      + destruct (IH i r E) as (D1 & a1 & D2 & -> & H1 & H2). exists ((a, Some r0) :: D1), a1, D2. split; [reflexivity|]. split; intros; cbn [app set_nth without_nth].
        * rewrite <- (H1 a'). reflexivity.
        * rewrite <- (H2 a'). reflexivity.
    - change (live ((a, None) :: D)) with (live D) in *. destruct (IH i r E) as (D1 & a1 & D2 & -> & H1 & H2).
      exists ((a, None) :: D1), a1, D2. split; [reflexivity|]. split; intros; cbn [app]; [exact (H1 a' r')|exact (H2 a')].
  Qed.

  Definition Inv (tasks : list (list line)) (p : pool) : Prop :=
    exists D, tasks = map whole D ++ waiting p /\ interleaving (map fst D) (logged p) /\ (length (live D) <= n)%nat /\ (broken p = false -> running p = live D).

  Lemma inv_act tasks p a p' : Inv tasks p -> act n p a = Some p' -> Inv tasks p'.
  Proof.
    intros (D & ET & IL & LN & R) E. unfold act in E. destruct (broken p) eqn:B; [discriminate|]. specialize (R eq_refl). destruct a as [|i|i|].
    - destruct (waiting p) as [|t w] eqn:W; [discriminate|]. destruct (Nat.ltb_spec (length (running p)) n) as [L|]; [|discriminate]. injection E as <-.
      exists (D ++ [([], Some t)]). cbn [waiting running logged broken]. rewrite !map_app, live_app. cbn. split; [|split; [|split]].
      + rewrite <- app_assoc. exact ET.
      + apply il_nil_r. exact IL.
      + rewrite app_length. cbn. rewrite <- R. lia.
      + intros _. rewrite R. reflexivity.
    - destruct (nth_error (running p) i) as [[|x t]|] eqn:N; try discriminate. injection E as <-. rewrite R in N.
      destruct (live_nth _ _ _ N) as (D1 & a & D2 & -> & H1 & H2). exists (D1 ++ (a ++ [x], Some t) :: D2). cbn [waiting running logged broken]. split; [|split; [|split]].
      + rewrite ET, !map_app. cbn [map]. f_equal. f_equal. f_equal. unfold whole. cbn [fst snd]. rewrite <- app_assoc. reflexivity.
      + rewrite !map_app in *. cbn [map fst] in *. eapply il_snoc; [exact IL|reflexivity].
      + rewrite (H1 _ t). clear - LN. revert LN. generalize (live (D1 ++ (a, Some (x :: t)) :: D2)). intros l. enough (length (set_nth i t l) = length l) as -> by auto.
        revert i. induction l as [|y l IH]; intros [|i]; cbn; auto.
      + intros _. rewrite (H1 _ t), R. reflexivity.
    - destruct (nth_error (running p) i) as [[|x t]|] eqn:N; try discriminate. injection E as <-. rewrite R in N.
      destruct (live_nth _ _ _ N) as (D1 & a & D2 & -> & H1 & H2). exists (D1 ++ (a, None) :: D2). cbn [waiting running logged broken]. split; [|split; [|split]].
      + rewrite ET, !map_app. reflexivity.
      + rewrite !map_app in *. exact IL.
      + rewrite live_app in LN |- *. change (live ((a, Some []) :: D2)) with ([] :: live D2) in LN. change (live ((a, None) :: D2)) with (live D2).
        rewrite app_length in *. cbn [length] in LN. lia.
      + intros _. rewrite (H2 a), R. reflexivity.
    - destruct (running p) as [|r0 rs] eqn:RR; [discriminate|]. injection E as <-. exists D. cbn [waiting running logged broken]. repeat (split; [assumption|]). discriminate.
  Qed.
  Lemma inv_acts tasks l : forall p p', Inv tasks p -> acts n p l = Some p' -> Inv tasks p'.
  Proof.
    induction l as [|a l IH]; intros p p' H E; cbn in E; [injection E as <-; exact H|]. destruct (act n p a) as [q|] eqn:A; [|discriminate].
    eapply IH; [|exact E]. eapply inv_act; eassumption.
  Qed.
  Lemma inv_start tasks : Inv tasks (start tasks).
  Proof. exists []. cbn. split; [reflexivity|]. split; [apply il_done; constructor|]. split; [lia|reflexivity]. Qed.

  Lemma whole_prefix D : Forall2 prefix_of (map fst D) (map whole D).
  Proof. induction D as [|d D IH]; constructor; [|exact IH]. exists (match snd d with Some r => r | None => [] end). reflexivity. Qed.
  Lemma unfinished_live D : (unfinished (map fst D) (map whole D) <= length (live D))%nat.
  Proof.
    unfold unfinished. induction D as [|[a [r|]] D IH]; [cbn; lia| |].
    - change (live ((a, Some r) :: D)) with (r :: live D). cbn [map combine filter fst length]. destruct (negb _); cbn [length]; lia.
    - change (live ((a, None) :: D)) with (live D). cbn [map combine filter fst snd]. unfold whole at 1. cbn [fst snd]. rewrite app_nil_r, Nat.eqb_refl. cbn [negb]. exact IH.
  Qed.

  (** * It ends *)

  Definition lines (l : list (list line)) : nat := length (concat l).
  Definition left_over (p : pool) : nat := 2 * length (waiting p) + lines (waiting p) + length (running p) + lines (running p) + (if broken p then 0 else 1).
  Lemma set_lines i : forall l x t, nth_error l i = Some (x :: t) -> lines l = Datatypes.S (lines (set_nth i t l)).
  Proof.
    unfold lines. induction i as [|i IH]; intros [|y l] x t E; cbn in E; try discriminate.
    - injection E as ->. reflexivity.
    - cbn [set_nth concat]. rewrite !app_length, (IH _ _ _ E). lia.
  Qed.
  Lemma set_length {A} i : forall (l : list A) t, length (set_nth i t l) = length l.
  Proof. induction i as [|i IH]; intros [|y l] t; cbn; auto. Qed.
  Lemma out_lines i : forall l, nth_error l i = Some [] -> lines l = lines (without_nth i l) /\ length l = Datatypes.S (length (without_nth i l)).
  Proof.
    unfold lines. induction i as [|i IH]; intros [|y l] E; cbn in E; try discriminate.
    - injection E as ->. auto.
    - cbn [without_nth concat]. destruct (IH _ E) as [H1 H2]. rewrite !app_length, H1. cbn [length]. lia.
  Qed.
  Lemma act_less p a p' : act n p a = Some p' -> (left_over p' < left_over p)%nat.
  Proof.
    unfold act, left_over. destruct (broken p); [discriminate|]. destruct a as [|i|i|].
    - destruct (waiting p) as [|t w]; [discriminate|]. destruct (Nat.ltb _ _); [|discriminate]. intros E. injection E as <-. cbn [waiting running broken].
      unfold lines. rewrite concat_app, !app_length. cbn [concat length]. rewrite !app_length. cbn [length]. lia.
    - destruct (nth_error (running p) i) as [[|x t]|] eqn:N; try discriminate. intros E. injection E as <-. cbn [waiting running broken].
      rewrite set_length, (set_lines _ _ _ _ N). lia.
    - destruct (nth_error (running p) i) as [[|x t]|] eqn:N; try discriminate. intros E. injection E as <-. cbn [waiting running broken].
      destruct (out_lines _ _ N) as [-> ->]. lia.
    - destruct (running p); [discriminate|]. intros E. injection E as <-. cbn [waiting running broken length]. unfold lines at 2. cbn. lia.
  Qed.
  Lemma acts_less l : forall p p', acts n p l = Some p' -> (length l + left_over p' <= left_over p)%nat.
  Proof.
    induction l as [|a l IH]; intros p p' E; cbn in E; [injection E as <-; cbn; lia|]. destruct (act n p a) as [q|] eqn:A; [|discriminate].
    apply act_less in A. apply IH in E. cbn [length]. lia.
  Qed.
  Lemma enabled p : (0 < n)%nat -> over p = false -> exists a p', a <> Die /\ act n p a = Some p' /\ broken p' = false.
  Proof.
    intros N O. unfold over in O. apply orb_false_iff in O as [B O]. unfold act. destruct (running p) as [|[|x t] rs] eqn:R.
    - destruct (waiting p) as [|t w] eqn:W; [discriminate|]. exists Begin. cbn [length].
      rewrite B. destruct (Nat.ltb_spec 0 n); [|lia]. eexists. repeat split. discriminate.
    - exists (End_task 0). rewrite B. eexists. cbn. repeat split. discriminate.
    - exists (Log 0). rewrite B. eexists. cbn. repeat split. discriminate.
  Qed.
  Lemma finish p : (0 < n)%nat -> broken p = false -> exists l p', acts n p l = Some p' /\ over p' = true /\ broken p' = false.
  Proof.
    intros N. remember (left_over p) as k eqn:K. revert p K. induction k as [k IH] using lt_wf_ind. intros p K B. destruct (over p) eqn:O.
    - exists [], p. auto.
    - destruct (enabled p N O) as (a & p' & _ & A & B'). destruct (IH (left_over p')) with (p := p') as (l & q & E & H); [subst k; eapply act_less; exact A|reflexivity|exact B'|].
      exists (a :: l), q. cbn. rewrite A. auto.
  Qed.
End Run.

(** * One process *)

Lemma seq_act p a p' : broken p = false -> (length (running p) <= 1)%nat -> act 1 p a = Some p' ->
  if broken p' then logged p' = logged p
  else (length (running p') <= 1)%nat /\ logged p' ++ concat (running p') ++ concat (waiting p') = logged p ++ concat (running p) ++ concat (waiting p).
Proof.
  intros B L. unfold act. rewrite B. destruct a as [|i|i|].
  - destruct (waiting p) as [|t w]; [discriminate|]. destruct (Nat.ltb_spec (length (running p)) 1) as [H|]; [|discriminate]. intros E. injection E as <-. cbn [broken running logged waiting].
    destruct (running p); [|cbn in H; lia]. cbn. rewrite app_nil_r. split; [lia|reflexivity].
  - destruct (running p) as [|r [|]]; [destruct i; discriminate| |cbn in L; lia]. destruct i as [|[|i]]; cbn; try discriminate. destruct r as [|x t]; [discriminate|]. intros E. injection E as <-. cbn [broken running logged waiting].
    cbn. split; [lia|]. rewrite !app_nil_r, <- app_assoc. reflexivity.
  - destruct (running p) as [|r [|]]; [destruct i; discriminate| |cbn in L; lia]. destruct i as [|[|i]]; cbn; try discriminate. destruct r as [|x t]; [|discriminate]. intros E. injection E as <-. cbn. split; [lia|reflexivity].
  - destruct (running p); [discriminate|]. intros E. injection E as <-. reflexivity.
Qed.
Lemma broken_stays n l p p' : broken p = true -> acts n p l = Some p' -> p' = p.
Proof. intros B. destruct l as [|a l]; cbn; [congruence|]. unfold act. rewrite B. discriminate. Qed.
Lemma seq_acts l : forall p p', broken p = false -> (length (running p) <= 1)%nat -> acts 1 p l = Some p' ->
  prefix_of (logged p') (logged p ++ concat (running p) ++ concat (waiting p)) /\
  (broken p' = false -> logged p' ++ concat (running p') ++ concat (waiting p') = logged p ++ concat (running p) ++ concat (waiting p)).
Proof.
  induction l as [|a l IH]; intros p p' B L E; cbn in E.
  - injection E as <-. split; [eexists; reflexivity|reflexivity].
  - destruct (act 1 p a) as [q|] eqn:A; [|discriminate]. pose proof (seq_act p a q B L A) as S. destruct (broken q) eqn:Bq.
    + rewrite (broken_stays _ _ _ _ Bq E). rewrite S, Bq. split; [eexists; reflexivity|discriminate].
    + destruct S as [S1 S2]. rewrite <- S2. apply IH; assumption.
Qed.

(** * Texts *)

Lemma starts_with_iff sub s : starts_with sub s = true <-> prefix_of sub s.
Proof.
  revert s. induction sub as [|a o IH]; intros s; [split; [intros _; exists s; reflexivity|destruct s; reflexivity]|].
  destruct s as [|c r]; cbn; [split; [discriminate|intros (v & E); discriminate]|]. rewrite andb_true_iff, Z.eqb_eq, IH. split.
  - intros [-> (v & ->)]. exists v. reflexivity.
  - intros (v & E). injection E as -> ->. split; [reflexivity|]. exists v. reflexivity.
Qed.
Lemma py_find_nonneg sub s k : py_find sub s = Some k -> 0 <= k /\ (k = 0 <-> prefix_of sub s) /\ exists u v, s = u ++ sub ++ v.
Proof.
  revert k. induction s as [|c s IH]; intros k; cbn [py_find]; destruct (starts_with sub _) eqn:S.
  - intros E. injection E as <-. apply starts_with_iff in S. split; [lia|]. split; [tauto|]. destruct S as (v & ->). exists [], v. reflexivity.
  - discriminate.
  - intros E. injection E as <-. apply starts_with_iff in S. split; [lia|]. split; [tauto|]. destruct S as (v & ->). exists [], v. reflexivity.
  - destruct (py_find sub s) as [j|]; [|discriminate]. intros E. injection E as <-. destruct (IH _ eq_refl) as (P & _ & u & v & ->).
    split; [lia|]. split; [|exists (c :: u), v; reflexivity]. split; [lia|]. intros H. apply starts_with_iff in H. congruence.
Qed.
Lemma py_find_none sub s : py_find sub s = None -> ~ exists u v, s = u ++ sub ++ v.
Proof.
  induction s as [|c s IH]; cbn [py_find]; destruct (starts_with sub _) eqn:S; try discriminate; intros E (u & v & H).
  - destruct u; [|discriminate]. assert (P : prefix_of sub []) by (exists v; exact H). apply starts_with_iff in P. congruence.
  - destruct (py_find sub s); [discriminate|]. destruct u as [|d u]; cbn in H.
    + assert (P : prefix_of sub (c :: s)) by (exists v; exact H). apply starts_with_iff in P. congruence.
    + injection H as -> ->. apply IH; [reflexivity|]. exists u, v. reflexivity.
Qed.
Lemma found_iff sub s : found_at_positive sub s = true <-> occurs_later sub s.
Proof.
  unfold found_at_positive, occurs_later. destruct (py_find sub s) as [k|] eqn:E.
  - apply py_find_nonneg in E as (P & Z0 & O). rewrite Z.ltb_lt. split; [intros H; split; [exact O|]; rewrite <- Z0; lia|]. intros [_ H]. rewrite <- Z0 in H. lia.
  - apply py_find_none in E. split; [discriminate|tauto].
Qed.

(** * What the log tells *)

Lemma log_fatal sn r sn' : In (Fatal sn') (log_of sn r) <-> sn' = sn /\ exists e, r = Failed e.
Proof.
  unfold log_of. destruct r as [[|p l]|e|]; cbn.
  1,2,4: split; [intuition discriminate|intros [_ (e & E)]; discriminate].
  split; [|intros [-> _]; auto]. intros H. repeat (destruct H as [H|H]; try discriminate H); [|destruct H]. injection H as ->. eauto.
Qed.
Lemma log_completed sn r sn' : In (Completed sn') (log_of sn r) <-> sn' = sn /\ r <> Stopped.
Proof.
  unfold log_of. destruct r as [[|p l]|e|]; cbn.
  4: split; [intuition discriminate|intros [_ K]; congruence].
  all: split; [intros H; repeat (destruct H as [H|H]; try discriminate H); [injection H as ->; split; [reflexivity|discriminate]|destruct H]|intros [-> _]; auto].
Qed.
Lemma log_beginning sn r sn' : In (Beginning sn') (log_of sn r) <-> sn' = sn.
Proof.
  unfold log_of. destruct r as [[|p l]|e|]; cbn; (split; [intros H; repeat (destruct H as [H|H]; try discriminate H); [congruence|destruct H]|intros ->; auto]).
Qed.
Lemma log_problems sn r l : In (Problems l) (log_of sn r) <-> l <> [] /\ r = Converted l.
Proof.
  unfold log_of. destruct r as [[|p q]|e|]; cbn.
  1,3,4: split; [intuition discriminate|intros [K E]; congruence].
  split; [intros H; repeat (destruct H as [H|H]; try discriminate H); [injection H as <-; split; [discriminate|reflexivity]|destruct H]|intros [_ E]; injection E as ->; auto].
Qed.
(** A part of the lines of a task that contains "Completed" is all of them. *)
Lemma completed_all sn r sn' part rest : log_of sn r = part ++ rest -> In (Completed sn') part -> rest = [].
Proof.
  intros E I. unfold log_of in E.
  destruct r as [[|p l]|e|];
    repeat (destruct part as [|? part]; [cbn in I; repeat (destruct I as [I|I]; try discriminate I); destruct I|cbn in E; injection E as <- E];
      try (symmetry in E; apply app_eq_nil in E as [-> ->]; reflexivity)).
  all: try (cbn in E; destruct part; cbn in E; try discriminate; fail).
  all: try (symmetry in E; apply app_eq_nil in E as [-> ->]; reflexivity).
Qed.
