From Coq Require Import ZArith QArith Qround List Bool Lia Lqa.
From Verif Require Import Lib Base Unwrap UnwrapSpec.
Import ListNotations.
Open Scope Q_scope.

Lemma Qltb_lt x y : Qltb x y = true <-> x < y.
Proof. apply Qltb_true. Qed.
Lemma Qltb_ge x y : Qltb x y = false <-> y <= x.
Proof. apply Qltb_false. Qed.

Lemma Qmod_spec x r : 0 < r -> 0 <= Qmod x r /\ Qmod x r < r /\ exists k : Z, x == Qmod x r + r * inject_Z k.
Proof.
  intros Hr. unfold Qmod.
  assert (E : x == r * (x / r)) by (field; intros H; rewrite H in Hr; discriminate).
  pose proof (Qfloor_le (x / r)) as L.
  pose proof (Qlt_floor (x / r)) as U. rewrite inject_Z_plus in U.
  change (inject_Z 1) with 1%Q in U.
  set (f := Qfloor (x / r)) in *. set (q := x / r) in *. clearbody f q.
  assert (A : r * inject_Z f <= r * q) by (apply Qmult_le_l; assumption).
  assert (B : r * q < r * (inject_Z f + 1)) by (apply Qmult_lt_l; assumption).
  split; [|split].
  - rewrite E. lra.
  - rewrite E. lra.
  - exists f. ring.
Qed.

Lemma congruent_refl r x : congruent r x x.
Proof. exists 0%Z. change (inject_Z 0) with 0. ring. Qed.
Lemma congruent_sym r x y : congruent r x y -> congruent r y x.
Proof. intros [k E]. exists (- k)%Z. rewrite E, inject_Z_opp. ring. Qed.
Lemma congruent_trans r x y z : congruent r x y -> congruent r y z -> congruent r x z.
Proof. intros [k E] [l F]. exists (k + l)%Z. rewrite E, F, inject_Z_plus. ring. Qed.
Lemma congruent_eq r x y : x == y -> congruent r x y.
Proof. intros E. exists 0%Z. change (inject_Z 0) with 0. rewrite E. ring. Qed.
Lemma congruent_add r x y c : congruent r x y -> congruent r (x + c) (y + c).
Proof. intros [k E]. exists k. rewrite E. ring. Qed.
Lemma congruent_sub r x y u v : congruent r x y -> congruent r u v -> congruent r (x - u) (y - v).
Proof. intros [k E] [l F]. exists (k - l)%Z. rewrite E, F. unfold Z.sub. rewrite inject_Z_plus, inject_Z_opp. ring. Qed.

Lemma congruent_close r x y : 0 < r -> congruent r x y -> - r < x - y -> x - y < r -> x == y.
Proof.
  intros Hr [k E] H1 H2.
  assert (F : r * inject_Z k == x - y) by (rewrite E; ring).
  assert (k = 0)%Z by (apply (small_multiple r k Hr); rewrite F; assumption).
  subst. change (inject_Z 0) with 0 in E. rewrite E. ring.
Qed.

(** * The vectorised computation as a recursion *)

Definition bump (r p x : Q) : Z :=
  ((if Qltb (x - p) (- (r / 2)) then 1 else 0) - (if Qltb (r / 2) (x - p) then 1 else 0))%Z.

Fixpoint go (r : Q) (p : Q) (k : Z) (xs : list Q) : list Q :=
  match xs with
  | [] => []
  | x :: t => let k' := (k + bump r p x)%Z in (inject_Z k' * r + x) :: go r x k' t
  end.

Lemma go_spec r xs : forall p a c,
  map2 (fun k s => inject_Z k * r + s)
    (map2 Z.sub (cumcount a (map (fun x => lt_opt x (- (r / 2))) (diffs (Some p) xs)))
                (cumcount c (map (fun x => gt_opt x (r / 2)) (diffs (Some p) xs)))) xs
  = go r p (a - c) xs.
Proof.
  induction xs as [|x xs IH]; intros p a c; [reflexivity|].
  cbn [diffs map cumcount map2 go lt_opt gt_opt].
  replace (a - c + bump r p x)%Z with
    (a + (if Qltb (x - p) (- (r / 2)) then 1 else 0) - (c + (if Qltb (r / 2) (x - p) then 1 else 0)))%Z
    by (unfold bump; lia).
  now rewrite IH.
Qed.

Lemma corrected0_cons r s xs : corrected0 r (s :: xs) = (inject_Z 0 * r + s) :: go r s 0 xs.
Proof.
  unfold corrected0, stairstep. cbn [diffs map cumcount map2 lt_opt gt_opt].
  f_equal. change 0%Z with (0 - 0)%Z at 5. rewrite <- go_spec. reflexivity.
Qed.

Lemma go_congruent r xs : forall p k, Forall2 (congruent r) (go r p k xs) xs.
Proof.
  induction xs as [|x xs IH]; intros p k; simpl; constructor; auto.
  exists (k + bump r p x)%Z. ring.
Qed.

Lemma go_length r xs : forall p k, length (go r p k xs) = length xs.
Proof. induction xs; intros; simpl; auto. Qed.

Lemma corrected0_congruent r saw : Forall2 (congruent r) (corrected0 r saw) saw.
Proof.
  destruct saw as [|s xs]; [constructor|]. rewrite corrected0_cons. constructor; [|apply go_congruent].
  apply congruent_eq. change (inject_Z 0) with 0. ring.
Qed.

(** One step stays within half a period. *)
Lemma bump_step r p x k : 0 < r -> in_period r p -> in_period r x ->
  let o := inject_Z k * r + p in
  let n := inject_Z (k + bump r p x) * r + x in
  step_within (r / 2) o n /\ (n - o == r / 2 -> x - p == r / 2).
Proof.
  intros Hr [P0 P1] [X0 X1]. cbv zeta. unfold step_within, bump.
  assert (Hh : r / 2 + r / 2 == r) by field.
  set (h := r / 2) in *. clearbody h.
  destruct (Qltb (x - p) (- h)) eqn:E1, (Qltb h (x - p)) eqn:E2;
    try apply Qltb_lt in E1; try apply Qltb_ge in E1; try apply Qltb_lt in E2; try apply Qltb_ge in E2.
  - lra.
  - replace (k + (1 - 0))%Z with (k + 1)%Z by lia. rewrite inject_Z_plus. change (inject_Z 1) with 1.
    assert (E : (inject_Z k + 1) * r + x - (inject_Z k * r + p) == r + x - p) by ring. rewrite E.
    repeat split; try lra.
  - replace (k + (0 - 1))%Z with (k + -1)%Z by lia. rewrite inject_Z_plus. change (inject_Z (-1)) with (-(1)).
    assert (E : (inject_Z k + -(1)) * r + x - (inject_Z k * r + p) == - r + x - p) by ring. rewrite E.
    repeat split; try lra.
  - replace (k + (0 - 0))%Z with k by lia.
    assert (E : inject_Z k * r + x - (inject_Z k * r + p) == x - p) by ring. rewrite E.
    repeat split; try lra.
Qed.

Lemma go_chain r xs : 0 < r -> forall p k, in_period r p -> Forall (in_period r) xs ->
  chain (step_within (r / 2)) ((inject_Z k * r + p) :: go r p k xs).
Proof.
  intros Hr. induction xs as [|x xs IH]; intros p k Hp H; [exact I|].
  inversion H; subst. cbn [go]. split.
  - apply (bump_step r p x k); auto.
  - apply (IH x (k + bump r p x)%Z); auto.
Qed.

Lemma chain_map {A} (R S : A -> A -> Prop) (f : A -> A) l :
  (forall x y, R x y -> S (f x) (f y)) -> chain R l -> chain S (map f l).
Proof.
  intros H. induction l as [|x [|y l] IH]; intros C; try exact I.
  destruct C as [C1 C2]. split; [now apply H|]. now apply IH.
Qed.

(** * The shift *)

Definition shift (r offset first : Q) : Q :=
  (offset - first) + Qmod (first - Qmod offset r + r / 2) r - r / 2.

Lemma shift_spec r offset first : 0 < r ->
  congruent r (shift r offset first) 0 /\
  offset - r / 2 <= first + shift r offset first /\ first + shift r offset first < offset + r / 2.
Proof.
  intros Hr. unfold shift.
  destruct (Qmod_spec offset r Hr) as (_ & _ & j & Ej).
  destruct (Qmod_spec (first - Qmod offset r + r / 2) r Hr) as (M0 & M1 & k & Ek).
  set (mo := Qmod offset r) in *. set (m := Qmod (first - mo + r / 2) r) in *. clearbody mo m.
  assert (Hh : r / 2 + r / 2 == r) by field. set (h := r / 2) in *. clearbody h.
  split; [|split; lra].
  exists (j - k)%Z. unfold Z.sub. rewrite inject_Z_plus, inject_Z_opp.
  assert (m == first - mo + h - r * inject_Z k) by (rewrite Ek; ring).
  rewrite H. assert (mo == offset - r * inject_Z j) by (rewrite Ej at 1; ring). rewrite H0. ring.
Qed.

Lemma unwrap_eq r offset s xs :
  unwrap r offset (s :: xs) =
  map (fun x => x + shift r offset (inject_Z 0 * r + s)) ((inject_Z 0 * r + s) :: go r s 0 xs).
Proof. unfold unwrap. rewrite corrected0_cons. reflexivity. Qed.

Lemma unwrap_length r offset saw : length (unwrap r offset saw) = length saw.
Proof. destruct saw as [|s xs]; [reflexivity|]. rewrite unwrap_eq. simpl. rewrite map_length, go_length. reflexivity. Qed.

Lemma unwrap_congruent r offset saw : 0 < r -> Forall2 (congruent r) (unwrap r offset saw) saw.
Proof.
  intros Hr. destruct saw as [|s xs]; [constructor|]. rewrite unwrap_eq.
  set (c := shift r offset _).
  assert (Hc : congruent r c 0) by (apply shift_spec; exact Hr).
  rewrite <- (corrected0_cons r s xs).
  pose proof (corrected0_congruent r (s :: xs)) as F. revert F.
  generalize (corrected0 r (s :: xs)) (s :: xs). intros l m F.
  induction F as [|x y l' m' Hxy F IH]; simpl; constructor; auto.
  apply congruent_trans with (x + 0); [|apply congruent_trans with x; [apply congruent_eq; ring|exact Hxy]].
  destruct Hc as [k E]. exists k. rewrite E. ring.
Qed.

Lemma unwrap_first r offset s xs u us : 0 < r -> unwrap r offset (s :: xs) = u :: us ->
  offset - r / 2 <= u /\ u < offset + r / 2.
Proof.
  intros Hr E. rewrite unwrap_eq in E. simpl map in E. injection E as <- _.
  apply shift_spec. exact Hr.
Qed.

Lemma unwrap_chain r offset saw : 0 < r -> Forall (in_period r) saw ->
  chain (step_within (r / 2)) (unwrap r offset saw).
Proof.
  intros Hr H. destruct saw as [|s xs]; [exact I|]. inversion H; subst. rewrite unwrap_eq.
  apply chain_map with (R := step_within (r / 2)).
  - intros x y [A B]. split.
    + setoid_replace (y + shift r offset (inject_Z 0 * r + s) - (x + shift r offset (inject_Z 0 * r + s))) with (y - x) by ring. exact A.
    + setoid_replace (y + shift r offset (inject_Z 0 * r + s) - (x + shift r offset (inject_Z 0 * r + s))) with (y - x) by ring. exact B.
  - apply go_chain; assumption.
Qed.

(** * Uniqueness: congruent sequences with small steps are determined by their start *)

Lemma unique_path r : 0 < r -> forall us vs xs u v,
  u == v ->
  chain (step_within (r / 2)) (u :: us) -> chain (step_below (r / 2)) (v :: vs) ->
  Forall2 (congruent r) us xs -> Forall2 (congruent r) vs xs ->
  Forall2 Qeq us vs.
Proof.
  intros Hr. assert (Hh : r / 2 + r / 2 == r) by field.
  induction us as [|u' us IH]; intros vs xs u v E Cu Cv Fu Fv.
  - inversion Fu; subst. inversion Fv; subst. constructor.
  - inversion Fu as [|? x ? xs' Hx Fu']; subst. inversion Fv as [|v' ? vs' ? Hv Fv']; subst.
    destruct Cu as [[A1 A2] Cu]. destruct Cv as [[B1 B2] Cv].
    assert (E' : u' == v').
    { apply (congruent_close r); auto.
      - apply congruent_trans with x; [exact Hx|now apply congruent_sym].
      - set (h := r / 2) in *. clearbody h. lra.
      - set (h := r / 2) in *. clearbody h. lra. }
    constructor; [exact E'|]. apply (IH vs' xs' u' v' E' Cu Cv Fu' Fv').
Qed.

Lemma recorded_congruent r tau saw : recorded r tau saw -> Forall2 (congruent r) tau saw /\ Forall (in_period r) saw.
Proof.
  unfold recorded. induction 1 as [|t s tau saw [H1 H2] H [IH1 IH2]]; split; constructor; auto.
Qed.

Lemma unwrap_exact r offset tau saw t ts : 0 < r -> tau = t :: ts ->
  recorded r tau saw -> chain (step_below (r / 2)) tau ->
  offset - r / 2 <= t -> t < offset + r / 2 ->
  Forall2 Qeq (unwrap r offset saw) tau.
Proof.
  intros Hr -> Hrec Hch H1 H2.
  destruct (recorded_congruent r (t :: ts) saw Hrec) as [Fc Fp].
  pose proof (unwrap_congruent r offset saw Hr) as Fu.
  pose proof (unwrap_chain r offset saw Hr Fp) as Cu.
  destruct saw as [|s xs]; [inversion Fc|].
  destruct (unwrap r offset (s :: xs)) as [|u us] eqn:E; [inversion Fu|].
  destruct (unwrap_first r offset s xs u us Hr E) as [G1 G2].
  inversion Fc; subst. inversion Fu; subst.
  assert (Hh : r / 2 + r / 2 == r) by field.
  assert (Eu : u == t).
  { apply (congruent_close r); auto.
    - apply congruent_trans with s; [assumption|now apply congruent_sym].
    - set (h := r / 2) in *. clearbody h. lra.
    - set (h := r / 2) in *. clearbody h. lra. }
  constructor; [exact Eu|]. eapply (unique_path r Hr us ts xs u t); eauto.
Qed.

(** With the start only known up to whole periods: recovered up to one constant. *)
Lemma unwrap_exact_mod r offset tau saw : 0 < r ->
  recorded r tau saw -> chain (step_below (r / 2)) tau ->
  exists k : Z, Forall2 (fun u t => u == t + r * inject_Z k) (unwrap r offset saw) tau.
Proof.
  intros Hr Hrec Hch. destruct tau as [|t ts].
  { inversion Hrec; subst. exists 0%Z. constructor. }
  destruct saw as [|s xs]; [inversion Hrec|].
  pose proof (unwrap_congruent r offset (s :: xs) Hr) as Fu.
  destruct (recorded_congruent r (t :: ts) (s :: xs) Hrec) as [Fc Fp].
  destruct (unwrap r offset (s :: xs)) as [|u us] eqn:E; [inversion Fu|].
  destruct (unwrap_first r offset s xs u us Hr E) as [G1 G2].
  inversion Fu as [|? ? ? ? Hu Fu']; subst. inversion Fc as [|? ? ? ? Ht Fc']; subst.
  destruct (congruent_trans r u s t Hu (congruent_sym _ _ _ Ht)) as [k Ek].
  exists k.
  set (tau' := map (fun x => x + r * inject_Z k) (t :: ts)).
  assert (F : Forall2 Qeq (unwrap r offset (s :: xs)) tau').
  { apply (unwrap_exact r offset tau' (s :: xs) (t + r * inject_Z k) (map (fun x => x + r * inject_Z k) ts) Hr).
    - reflexivity.
    - unfold tau'. clear -Hrec. unfold recorded in *. induction Hrec as [|t' s' l m [A B] Hrec IH]; simpl; constructor; auto.
      split; [exact A|]. apply congruent_trans with t'; [exists k; ring|exact B].
    - unfold tau'. apply chain_map with (R := step_below (r / 2)); [|exact Hch].
      intros x y [A B]. split.
      + setoid_replace (y + r * inject_Z k - (x + r * inject_Z k)) with (y - x) by ring. exact A.
      + setoid_replace (y + r * inject_Z k - (x + r * inject_Z k)) with (y - x) by ring. exact B.
    - rewrite <- Ek. exact G1.
    - rewrite <- Ek. exact G2. }
  rewrite E in F. unfold tau' in F. clear -F. revert F. generalize (u :: us) (t :: ts).
  intros l m. revert l. induction m as [|x m IH]; intros l F; inversion F; subst; constructor; auto.
Qed.

(** * The reference reader *)

Lemma unwrap_millis_spec new old :
  congruent 8192 (unwrap_millis new old) new /\
  - (4096) <= unwrap_millis new old - old /\ unwrap_millis new old - old < 4096.
Proof.
  assert (Hr : 0 < 8192) by reflexivity. unfold unwrap_millis.
  destruct (Qmod_spec old 8192 Hr) as (_ & _ & j & Ej).
  destruct (Qmod_spec (new - Qmod old 8192 + 4096) 8192 Hr) as (M0 & M1 & k & Ek).
  set (mo := Qmod old 8192) in *. set (m := Qmod (new - mo + 4096) 8192) in *. clearbody mo m.
  split; [|split; lra].
  exists (j - k)%Z. unfold Z.sub. rewrite inject_Z_plus, inject_Z_opp.
  assert (m == new - mo + 4096 - 8192 * inject_Z k) by (rewrite Ek; ring).
  rewrite H. rewrite Ej at 1. ring.
Qed.

Lemma ref_congruent saw : forall m, Forall2 (congruent 8192) (ref_unwrap_from m saw) saw.
Proof.
  induction saw as [|s xs IH]; intros m; simpl; constructor; auto. apply unwrap_millis_spec.
Qed.

(** Both computations, in step. *)
Lemma agree_from : forall xs p k m c,
  in_period 8192 p -> Forall (in_period 8192) xs -> chain (fun p x => ~ x - p == 4096) (p :: xs) ->
  inject_Z k * 8192 + p + c == m ->
  congruent 8192 c 0 ->
  Forall2 Qeq (map (fun x => x + c) (go 8192 p k xs)) (ref_unwrap_from m xs).
Proof.
  induction xs as [|x xs IH]; intros p k m c Hp H Hn E Hc; [constructor|].
  inversion H as [|? ? Hx H']; subst. destruct Hn as [Hn Hn'].
  cbn [go map ref_unwrap_from]. cbv zeta.
  set (k' := (k + bump 8192 p x)%Z).
  assert (E' : inject_Z k' * 8192 + x + c == unwrap_millis x m).
  { destruct (unwrap_millis_spec x m) as (C1 & C2 & C3).
    destruct (bump_step 8192 p x k eq_refl Hp Hx) as ([S1 S2] & S3). fold k' in S1, S2, S3.
    assert (Hh : 8192 / 2 == 4096) by reflexivity. rewrite Hh in S1, S2, S3.
    assert (S2' : inject_Z k' * 8192 + x - (inject_Z k * 8192 + p) < 4096).
    { apply Qle_lteq in S2 as [S2|S2]; [exact S2|]. exfalso. apply Hn. exact (S3 S2). }
    assert (S1' : - (4096) <= inject_Z k' * 8192 + x - (inject_Z k * 8192 + p)) by exact S1.
    clear S1 S2 S3.
    apply (congruent_close 8192); [reflexivity| | |].
    - apply congruent_trans with x; [|now apply congruent_sym].
      destruct Hc as [j Ej]. exists (k' + j)%Z. rewrite Ej, inject_Z_plus. ring.
    - set (a := inject_Z k' * 8192) in *. set (b := inject_Z k * 8192) in *. clearbody a b. lra.
    - set (a := inject_Z k' * 8192) in *. set (b := inject_Z k * 8192) in *. clearbody a b. lra. }
  constructor; [exact E'|]. apply IH; auto.
Qed.

Lemma agree offset saw : Forall (in_period 8192) saw -> chain (fun p x => ~ x - p == 4096) saw ->
  Forall2 (fun u v => u == v + 8192 * inject_Z (Qfloor (offset / 8192))) (unwrap 8192 offset saw) (ref_unwrap offset saw).
Proof.
  intros H Hn. destruct saw as [|s xs]; [constructor|]. inversion H; subst.
  rewrite unwrap_eq. unfold ref_unwrap.
  set (q := Qfloor (offset / 8192)).
  assert (Hq : Qmod offset 8192 == offset - 8192 * inject_Z q) by reflexivity.
  set (c := shift 8192 offset (inject_Z 0 * 8192 + s)).
  destruct (shift_spec 8192 offset (inject_Z 0 * 8192 + s) eq_refl) as (Hc & G1 & G2). fold c in Hc, G1, G2.
  assert (Hh : 8192 / 2 == 4096) by reflexivity. rewrite Hh in G1, G2.
  set (c' := c - 8192 * inject_Z q).
  assert (Hc' : congruent 8192 c' 0).
  { destruct Hc as [j Ej]. exists (j - q)%Z. unfold c', Z.sub. rewrite Ej, inject_Z_plus, inject_Z_opp. ring. }
  assert (E0 : inject_Z 0 * 8192 + s + c' == unwrap_millis s (Qmod offset 8192)).
  { destruct (unwrap_millis_spec s (Qmod offset 8192)) as (C1 & C2 & C3).
    apply (congruent_close 8192); [reflexivity| | |].
    - apply congruent_trans with s; [|now apply congruent_sym].
      destruct Hc' as [j Ej]. exists j. rewrite Ej. change (inject_Z 0) with 0. ring.
    - unfold c'. set (mo := Qmod offset 8192) in *. clearbody mo.
      set (a := inject_Z 0 * 8192) in *. set (z := 8192 * inject_Z q) in *. clearbody a z c. lra.
    - unfold c'. set (mo := Qmod offset 8192) in *. clearbody mo.
      set (a := inject_Z 0 * 8192) in *. set (z := 8192 * inject_Z q) in *. clearbody a z c. lra. }
  cbn [ref_unwrap_from map]. cbv zeta. constructor.
  - rewrite <- E0. unfold c'. ring.
  - pose proof (agree_from xs s 0 (unwrap_millis s (Qmod offset 8192)) c' H2 H3 Hn E0 Hc') as A.
    revert A. generalize (go 8192 s 0 xs) (ref_unwrap_from (unwrap_millis s (Qmod offset 8192)) xs).
    intros l m A. remember (map (fun x => x + c') l) as l'. revert l Heql'.
    induction A as [|x y l' m Hxy A IH]; intros l El; destruct l as [|z l]; try discriminate; simpl; constructor.
    + simpl in El. injection El as -> ->. rewrite <- Hxy. unfold c'. ring.
    + simpl in El. injection El as -> ->. now apply IH.
Qed.
