(** Proofs about the summaries of converted files. *)
From Coq Require Import ZArith QArith List Bool Lia Permutation.
From Verif Require Import Base UnwrapSpec Names NamesProofs Select SelectSpec SelectProofs Stations StationsSpec StationsProofs Database DatabaseSpec.
Import ListNotations.
Open Scope Z_scope.

(** * The database *)
Lemma np_max_spec l m : np_max l = Some m -> highest l m.
Proof.
  destruct l as [|x r]; [discriminate|]. cbn [np_max]. intros E. injection E as <-.
  assert (G : forall r x, highest (x :: r) (fold_left (fun a y => if Qle_bool a y then y else a) r x)).
  { clear. induction r as [|y r IH]; intros x; cbn [fold_left].
    - split; [left; reflexivity|]. repeat constructor. apply Qle_refl.
    - destruct (Qle_bool x y) eqn:E.
      + apply Qle_bool_iff in E. destruct (IH y) as [A B]. split; [right; exact A|].
        constructor; [|exact B]. inversion B; subst. eapply Qle_trans; eassumption.
      + destruct (IH x) as [A B]. inversion B as [|? ? B1 B2]; subst. split; [destruct A as [A|A]; [left; exact A|right; right; exact A]|].
        constructor; [exact B1|]. constructor; [|exact B2].
        apply Qle_trans with x; [|exact B1]. apply Qlt_le_weak. apply Qnot_le_lt. intros C. apply Qle_bool_iff in C. congruence. }
  apply G.
Qed.
Lemma np_min_spec l m : np_min l = Some m -> lowest l m.
Proof.
  destruct l as [|x r]; [discriminate|]. cbn [np_min]. intros E. injection E as <-.
  assert (G : forall r x, lowest (x :: r) (fold_left (fun a y => if Qle_bool y a then y else a) r x)).
  { clear. induction r as [|y r IH]; intros x; cbn [fold_left].
    - split; [left; reflexivity|]. repeat constructor. apply Qle_refl.
    - destruct (Qle_bool y x) eqn:E.
      + apply Qle_bool_iff in E. destruct (IH y) as [A B]. split; [right; exact A|].
        constructor; [|exact B]. inversion B; subst. eapply Qle_trans; eassumption.
      + destruct (IH x) as [A B]. inversion B as [|? ? B1 B2]; subst. split; [destruct A as [A|A]; [left; exact A|right; right; exact A]|].
        constructor; [exact B1|]. constructor; [|exact B2].
        apply Qle_trans with x; [exact B1|]. apply Qlt_le_weak. apply Qnot_le_lt. intros C. apply Qle_bool_iff in C. congruence. }
  apply G.
Qed.
Lemma np_max_some l : l <> [] -> exists m, np_max l = Some m.
Proof. destruct l; [congruence|]. intros _. eexists. reflexivity. Qed.
Lemma np_min_some l : l <> [] -> exists m, np_min l = Some m.
Proof. destruct l; [congruence|]. intros _. eexists. reflexivity. Qed.

Definition usable (f : bytes * option (list trace)) : bool := match snd f with Some (_ :: _) => true | _ => false end.
Lemma rows_spec amp files tab : rows_of amp files = Some tab ->
  Forall2 (fun f r => exists tr trs a, f = (fst f, Some (tr :: trs)) /\ amp (tr_data tr) = Some a /\ describes (fst f) tr a r) (filter usable files) tab.
Proof.
  revert tab. induction files as [|[fn o] files IH]; intros tab E; cbn [rows_of] in E.
  - injection E as <-. constructor.
  - destruct o as [[|tr trs]|]; cbn [filter usable snd]; [apply IH; exact E| |apply IH; exact E].
    destruct (np_max (tr_data tr)) eqn:E1; [|discriminate]. destruct (np_min (tr_data tr)) eqn:E2; [|discriminate].
    destruct (amp (tr_data tr)) eqn:E3; [|discriminate]. destruct (rows_of amp files) eqn:E4; [|discriminate]. injection E as <-.
    constructor; [|apply IH; reflexivity].
    exists tr, trs, q1. split; [reflexivity|]. split; [exact E3|]. unfold describes. cbn. auto 12 using np_max_spec, np_min_spec.
Qed.
Lemma rows_none amp files : rows_of amp files = None <->
  exists fn tr trs, In (fn, Some (tr :: trs)) files /\ (tr_data tr = [] \/ amp (tr_data tr) = None).
Proof.
  induction files as [|[fn o] files IH]; cbn [rows_of].
  - split; [discriminate|]. intros (? & ? & ? & [] & _).
  - assert (Skip : (forall tr trs, o <> Some (tr :: trs)) -> (exists fn0 tr trs, In (fn0, Some (tr :: trs)) ((fn, o) :: files) /\ (tr_data tr = [] \/ amp (tr_data tr) = None)) <->
      (exists fn0 tr trs, In (fn0, Some (tr :: trs)) files /\ (tr_data tr = [] \/ amp (tr_data tr) = None))).
    { intros N. split; intros (f & tr & trs & H & K); exists f, tr, trs; (split; [|exact K]); [|right; exact H].
      destruct H as [H|H]; [|exact H]. exfalso. apply (N tr trs). congruence. }
    destruct o as [[|tr trs]|]; [rewrite Skip by congruence; exact IH| |rewrite Skip by congruence; exact IH].
    split.
    + intros E. destruct (tr_data tr) as [|x d] eqn:Ed.
      * exists fn, tr, trs. split; [left; reflexivity|]. left. exact Ed.
      * destruct (np_max_some (x :: d)) as [hi Hi]; [congruence|]. destruct (np_min_some (x :: d)) as [lo Lo]; [congruence|]. rewrite Hi, Lo in E.
        destruct (amp (x :: d)) eqn:Ea; [|exists fn, tr, trs; split; [left; reflexivity|right; rewrite Ed; exact Ea]].
        destruct (rows_of amp files); [discriminate|]. destruct (proj1 IH eq_refl) as (f & t & ts & H & K). exists f, t, ts. split; [right; exact H|exact K].
    + intros (f & t & ts & [H|H] & K).
      * injection H as -> -> ->. destruct K as [K|K]; rewrite K; [reflexivity|]. destruct (np_max (tr_data t)), (np_min (tr_data t)); reflexivity.
      * rewrite (proj2 IH) by (exists f, t, ts; auto). destruct (np_max (tr_data tr)), (np_min (tr_data tr)), (amp (tr_data tr)); reflexivity.
Qed.

(** * Windows and rings *)
Lemma slice_pieces cut st a e p : pieces cut a e st p <-> slice cut st a e = p.
Proof.
  split.
  - induction 1 as [|tr x l m E H IH|tr l m E H IH]; cbn; [reflexivity|rewrite E; cbn; f_equal; exact IH|rewrite E; exact IH].
  - intros <-. induction st as [|tr st IH]; cbn; [constructor|]. destruct (cut tr a e) eqn:E; cbn; [apply pieces_some|apply pieces_none]; assumption.
Qed.

Lemma mod_next i n : (i < n)%nat -> Z.to_nat ((Z.of_nat i + 1) mod Z.of_nat n) = (if Nat.eqb (S i) n then 0 else S i)%nat.
Proof.
  intros H. destruct (Nat.eqb_spec (S i) n) as [<-|N].
  - replace (Z.of_nat i + 1) with (Z.of_nat (S i)) by lia. rewrite Z.mod_same by lia. reflexivity.
  - rewrite Z.mod_small by lia. lia.
Qed.

Lemma pairs_spec cor st n shift todo : forall i ls vs, (i + todo = n)%nat ->
  pairs cor st (Z.of_nat n) shift (Z.of_nat i) todo = Some (ls, vs) <->
  length ls = todo /\ length vs = todo /\
  forall j, (j < todo)%nat -> exists x y l v, nth_error st (i + j) = Some x /\ nth_error st (if Nat.eqb (S (i + j)) n then 0 else S (i + j))%nat = Some y /\
    cor x y shift = Some (l, v) /\ nth_error ls j = Some l /\ nth_error vs j = Some v.
Proof.
  induction todo as [|todo IH]; intros i ls vs S; cbn [pairs].
  - split.
    + intros E. injection E as <- <-. repeat split. intros j H. lia.
    + intros (A & B & _). destruct ls; [|discriminate]. destruct vs; [|discriminate]. reflexivity.
  - rewrite Nat2Z.id, mod_next by lia. replace (Z.of_nat i + 1) with (Z.of_nat (Datatypes.S i)) by lia.
    split.
    + intros E. destruct (nth_error st i) as [x|] eqn:Ex; [|discriminate]. destruct (nth_error st (if Nat.eqb (Datatypes.S i) n then 0 else Datatypes.S i)%nat) as [y|] eqn:Ey; [|discriminate].
      destruct (cor x y shift) as [[l v]|] eqn:Ec; [|discriminate].
      destruct (pairs cor st (Z.of_nat n) shift (Z.of_nat (Datatypes.S i)) todo) as [[ls' vs']|] eqn:Ep; [|discriminate]. injection E as <- <-.
      destruct (proj1 (IH (Datatypes.S i) ls' vs' ltac:(lia)) Ep) as (A & B & C). split; [cbn; lia|]. split; [cbn; lia|].
      intros [|j] H.
      * rewrite Nat.add_0_r. exists x, y, l, v. auto.
      * replace (i + Datatypes.S j)%nat with (Datatypes.S i + j)%nat by lia. apply (C j). lia.
    + intros (A & B & C). destruct ls as [|l ls]; [discriminate|]. destruct vs as [|v vs]; [discriminate|].
      destruct (C 0%nat ltac:(lia)) as (x & y & l' & v' & Ex & Ey & Ec & El & Ev). rewrite Nat.add_0_r in Ex, Ey. rewrite Ex, Ey, Ec.
      cbn in El, Ev. injection El as ->. injection Ev as ->.
      rewrite (proj2 (IH (Datatypes.S i) ls vs ltac:(lia))); [reflexivity|]. split; [cbn in A; lia|]. split; [cbn in B; lia|].
      intros j H. destruct (C (Datatypes.S j) ltac:(lia)) as (x' & y' & l & v & K). exists x', y', l, v.
      replace (i + Datatypes.S j)%nat with (Datatypes.S i + j)%nat in K by lia. exact K.
Qed.
Lemma pairs_around cor st n shift ls vs : pairs cor st (Z.of_nat n) shift 0 n = Some (ls, vs) <-> around cor shift st n ls vs.
Proof. apply (pairs_spec cor st n shift n 0%nat ls vs). lia. Qed.
Lemma pairs_window cut cor st n shift win t ls vs :
  pairs cor (slice cut st t (t + win)) (Z.of_nat n) shift 0 n = Some (ls, vs) <-> in_window cut cor shift win st n t ls vs.
Proof.
  rewrite pairs_around. unfold in_window. split.
  - intros H. exists (slice cut st t (t + win)). split; [apply slice_pieces; reflexivity|exact H].
  - intros (p & P & H). apply slice_pieces in P. rewrite P. exact H.
Qed.

(** Telescoping. *)
Lemma sum_telescope (d : nat -> Z) ls : forall i, (forall j, (j < length ls)%nat -> nth_error ls j = Some (d (S (i + j)) - d (i + j)%nat)) ->
  fold_right Z.add 0 ls = d (i + length ls)%nat - d i.
Proof.
  induction ls as [|l ls IH]; intros i H; cbn [fold_right length].
  - rewrite Nat.add_0_r. lia.
  - assert (H0 := H 0%nat ltac:(cbn; lia)). cbn in H0. rewrite Nat.add_0_r in H0. injection H0 as ->.
    rewrite (IH (S i)); [|].
    + replace (S i + length ls)%nat with (i + S (length ls))%nat by lia. lia.
    + intros j K. assert (X := H (S j) ltac:(cbn; lia)). cbn [nth_error] in X. rewrite X. replace (i + S j)%nat with (S i + j)%nat by lia. reflexivity.
Qed.
Lemma around_zero cor shift st n ls vs (d : trace -> Z) : around cor shift st n ls vs ->
  (forall x y l v, In x st -> In y st -> cor x y shift = Some (l, v) -> l = d y - d x) -> fold_right Z.add 0 ls = 0.
Proof.
  intros (A & B & C) H. destruct n as [|n]; [destruct ls; [reflexivity|discriminate]|].
  set (dd := fun i => match nth_error st (if Nat.eqb i (S n) then 0 else i)%nat with Some x => d x | None => 0 end).
  rewrite (sum_telescope dd ls 0%nat).
  - rewrite A. unfold dd. change (0 + S n)%nat with (S n). rewrite Nat.eqb_refl. cbn [Nat.eqb]. lia.
  - intros j K. rewrite A in K. destruct (C j K) as (x & y & l & v & X & Y & E & L & _). rewrite L. f_equal. change (0 + j)%nat with j.
    unfold dd. replace (Nat.eqb j (S n)) with false by (symmetry; apply Nat.eqb_neq; lia). rewrite X, Y.
    apply (H x y l v); [eapply nth_error_In; exact X|eapply nth_error_In; exact Y|exact E].
Qed.

(** * The loop *)
Section Loop.
  Variables (cut : trace -> Z -> Z -> option trace) (cor : trace -> trace -> Z -> option (Z * Q)).
  Variables (st : list trace) (n : nat) (shift win tmax : Z).
  Notation win_at := (in_window cut cor shift win st n).

  Lemma entries_app ts lags vals sums t ls vs : entries win_at ts lags vals sums -> win_at t ls vs ->
    entries win_at (ts ++ [t]) (lags ++ [ls]) (vals ++ [vs]) (sums ++ [sum_z ls]).
  Proof. intros H W. induction H as [|t' ls' vs' ts lags vals sums W' H IH]; cbn; constructor; auto. constructor. Qed.

  Definition good_acc (start : Z) (k : Z) (acc : found) (z : list Z * list Q) : Prop :=
    exists ks, chain Z.lt ks /\ (forall j, In j ks <-> 1 <= j <= k /\ exists ls vs, win_at (start + j * win) ls vs) /\
      f_t acc = map (fun j => start + j * win) ks /\
      exists lags vals, f_lag acc = fst z :: lags /\ f_coef acc = snd z :: vals /\ entries win_at (f_t acc) lags vals (f_sum acc).

  Lemma chain_snoc_lt ks x : chain Z.lt ks -> (forall j, In j ks -> j < x) -> chain Z.lt (ks ++ [x]).
  Proof.
    induction ks as [|a ks IH]; intros C H; [exact I|]. assert (C' : chain Z.lt ks) by (destruct ks; [exact I|apply C]).
    specialize (IH C' (fun j J => H j (or_intror J))). destruct ks as [|c ks]; cbn.
    - split; [apply H; left; reflexivity|exact I].
    - split; [apply C|exact IH].
  Qed.

  Lemma loop_spec start z fuel : forall k acc f, 0 < win -> 0 <= k -> good_acc start k acc z ->
    lag_loop cut cor fuel st (Z.of_nat n) shift win tmax (start + k * win) acc = Some f ->
    exists k', k <= k' /\ good_acc start k' f z /\ tmax <= start + k' * win /\ (k < k' -> start + (k' - 1) * win < tmax).
  Proof.
    induction fuel as [|fuel IH]; intros k acc f W K G E; cbn [lag_loop] in E; destruct (Z.ltb_spec (start + k * win) tmax) as [L|L].
    - discriminate.
    - injection E as <-. exists k. split; [lia|]. split; [exact G|]. split; lia.
    - rewrite Nat2Z.id in E. replace (start + k * win + win) with (start + (k + 1) * win) in E by lia.
      apply IH in E; [|exact W|lia|].
      { destruct E as (k' & A & B & C & D). exists k'. split; [lia|]. split; [exact B|]. split; [exact C|]. intros _.
        destruct (Z.eq_dec k' (k + 1)) as [->|N]; [replace (k + 1 - 1) with k by lia; exact L|apply D; lia]. }
      destruct G as (ks & C & J & T & lags & vals & GL & GC & GE).
      destruct (pairs cor (slice cut st (start + (k + 1) * win) (start + (k + 1) * win + win)) (Z.of_nat n) shift 0 n) as [[ls vs]|] eqn:P.
      + exists (ks ++ [k + 1]). split; [apply chain_snoc_lt; [exact C|]; intros j Ij; apply J in Ij; lia|].
        split.
        { intros j. rewrite in_app_iff, J. cbn [In]. split.
          - intros [[A B]|[<-|[]]]; [split; [lia|exact B]|]. split; [lia|]. exists ls, vs. apply pairs_window. exact P.
          - intros [A B]. destruct (Z.eq_dec j (k + 1)) as [->|N]; [right; left; reflexivity|left; split; [lia|exact B]]. }
        cbn [f_t f_lag f_coef f_sum]. split; [rewrite map_app, T; reflexivity|].
        exists (lags ++ [ls]), (vals ++ [vs]). rewrite GL, GC. split; [reflexivity|]. split; [reflexivity|].
        apply entries_app; [exact GE|apply pairs_window; exact P].
      + exists ks. split; [exact C|]. split; [|split; [exact T|exists lags, vals; auto]].
        intros j. rewrite J. split; intros [A B]; (split; [|exact B]); [lia|].
        destruct (Z.eq_dec j (k + 1)) as [->|N]; [|lia]. destruct B as (ls & vs & B). apply pairs_window in B. congruence.
    - injection E as <-. exists k. split; [lia|]. split; [exact G|]. split; lia.
  Qed.

  Lemma loop_ends fuel : forall t acc, 0 < win -> tmax - t <= Z.of_nat fuel * win -> exists f, lag_loop cut cor fuel st (Z.of_nat n) shift win tmax t acc = Some f.
  Proof.
    induction fuel as [|fuel IH]; intros t acc W H; cbn [lag_loop]; destruct (Z.ltb_spec t tmax) as [L|L]; try (eexists; reflexivity); [lia|].
    apply IH; [exact W|]. lia.
  Qed.

  Lemma loop_endless fuel : forall t acc, win <= 0 -> t < tmax -> lag_loop cut cor fuel st (Z.of_nat n) shift win tmax t acc = None.
  Proof.
    induction fuel as [|fuel IH]; intros t acc W H; cbn [lag_loop]; (destruct (Z.ltb_spec t tmax) as [L|L]; [|lia]); [reflexivity|].
    apply IH; lia.
  Qed.
End Loop.

(** * The input *)
Lemma minimum_spec l m : minimum l = Some m <-> first_of l m.
Proof.
  assert (G : forall r x, first_of (x :: r) (fold_left Z.min r x)).
  { clear. induction r as [|y r IH]; intros x; cbn [fold_left].
    - split; [left; reflexivity|]. repeat constructor. lia.
    - destruct (IH (Z.min x y)) as [A B]. inversion B as [|? ? B1 B2]; subst. split.
      + destruct A as [A|A]; [|right; right; exact A]. destruct (Z.min_spec x y) as [[_ E]|[_ E]]; [left|right; left]; congruence.
      + constructor; [lia|]. constructor; [lia|exact B2]. }
  split.
  - destruct l as [|x r]; [discriminate|]. intros E. injection E as <-. apply G.
  - intros [A B]. destruct l as [|x r]; [destruct A|]. cbn [minimum]. destruct (G r x) as [A' B'].
    rewrite Forall_forall in B, B'. f_equal. specialize (B _ A'). specialize (B' _ A). lia.
Qed.
Lemma maximum_spec l m : maximum l = Some m <-> last_of l m.
Proof.
  assert (G : forall r x, last_of (x :: r) (fold_left Z.max r x)).
  { clear. induction r as [|y r IH]; intros x; cbn [fold_left].
    - split; [left; reflexivity|]. repeat constructor. lia.
    - destruct (IH (Z.max x y)) as [A B]. inversion B as [|? ? B1 B2]; subst. split.
      + destruct A as [A|A]; [|right; right; exact A]. destruct (Z.max_spec x y) as [[_ E]|[_ E]]; [right; left|left]; congruence.
      + constructor; [lia|]. constructor; [lia|exact B2]. }
  split.
  - destruct l as [|x r]; [discriminate|]. intros E. injection E as <-. apply G.
  - intros [A B]. destruct l as [|x r]; [destruct A|]. cbn [maximum]. destruct (G r x) as [A' B'].
    rewrite Forall_forall in B, B'. f_equal. specialize (B _ A'). specialize (B' _ A). lia.
Qed.
Lemma hour_spec t t0 : full_hour t t0 <-> t0 = t / hour_ns * hour_ns.
Proof.
  unfold full_hour. change (3600 * 10 ^ 9) with hour_ns. assert (H : 0 < hour_ns) by reflexivity. split.
  - intros (A & h & ->). f_equal. apply (Z.div_unique t hour_ns h (t - h * hour_ns)); lia.
  - intros ->. pose proof (Z.div_mod t hour_ns ltac:(lia)) as D. pose proof (Z.mod_pos_bound t hour_ns H) as M. split; [lia|]. eexists. reflexivity.
Qed.
Lemma unique_count l n : distinct l n <-> length (unique eqb_bytes l) = n.
Proof.
  pose proof (unique_spec eqb_bytes eqb_bytes_iff l) as U.
  destruct (fo_in (list_eq_dec Z.eq_dec) _ _ _ U) as (A & B & C). split.
  - intros (m & N & E & <-). apply Nat.le_antisymm; apply NoDup_incl_length; trivial.
    + intros x X. apply E. apply A. exact X.
    + intros x X. apply E in X. apply B; [exact X|intros []].
  - intros <-. exists (unique eqb_bytes l). split; [exact C|]. split; [|reflexivity]. intros y. split; [intros Y; apply A; exact Y|intros Y; apply B; [exact Y|intros []]].
Qed.
Lemma read_all_spec read DB st : read_all read DB = Some st <-> exists parts, Forall2 (fun r l => read (r_file r) = Some l) DB parts /\ st = concat parts.
Proof.
  revert st. induction DB as [|r DB IH]; intros st; cbn [read_all].
  - split.
    + intros E. injection E as <-. exists []. split; [constructor|reflexivity].
    + intros (parts & F & ->). inversion F. reflexivity.
  - split.
    + intros E. destruct (read (r_file r)) as [l|] eqn:El; [|discriminate]. destruct (read_all read DB) as [m|]; [|discriminate]. injection E as <-.
      destruct (proj1 (IH m) eq_refl) as (parts & F & ->). exists (l :: parts). split; [constructor; assumption|reflexivity].
    + intros (parts & F & ->). inversion F as [|? l ? parts' El F']; subst. rewrite El. rewrite (proj2 (IH (concat parts'))); [reflexivity|]. exists parts'. auto.
Qed.

Lemma lag_input_iff read DB st n t0 tmax : lag_input read DB st n t0 tmax <->
  read_all read DB = Some st /\ length (unique eqb_bytes (map r_station DB)) = n /\
  (exists first, minimum (map r_t1 DB) = Some first /\ t0 = first / hour_ns * hour_ns) /\ maximum (map r_t2 DB) = Some tmax.
Proof.
  unfold lag_input. rewrite <- read_all_spec, unique_count, <- maximum_spec. split; intros (A & B & (first & C1 & C2) & D); (split; [exact A|]); (split; [exact B|]); (split; [|exact D]);
    exists first; (split; [apply minimum_spec; exact C1|apply hour_spec; exact C2]).
Qed.

Lemma check_lags_eq bp cut cor read fuel DB win shift fl fh st n t0 tmax : lag_input read DB st n t0 tmax ->
  check_lags bp cut cor read fuel DB win shift fl fh =
  match lag_loop cut cor fuel st (Z.of_nat n) shift win tmax (t0 + 1000) (mkfound [] [repeat 0 n] [map inject_Z (repeat 0 n)] []) with
  | Some f => Some (mkfound (f_t f) (tl (f_lag f)) (tl (f_coef f)) (f_sum f))
  | None => None
  end.
Proof.
  intros L. apply lag_input_iff in L. destruct L as (A & <- & (first & C & ->) & D). unfold check_lags. rewrite A, C, D. reflexivity.
Qed.
