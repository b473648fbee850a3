(** C80: the lags of [check_lags] are the differences of the times at which the loggers record a signal. *)
From Coq Require Import String.
From Coq Require Import ZArith QArith Qabs List Bool Lia Lqa.
From Verif Require Import Lib Base Database DatabaseSpec DatabaseProofs DatabaseProps Correlate CorrelateSpec CorrelateProofs CorrelateProps Lags LagsSpec.
Import ListNotations.
Open Scope Z_scope.

Lemma nth_error_firstn' {A} (l : list A) n i : (i < n)%nat -> nth_error (firstn n l) i = nth_error l i.
Proof. revert n l. induction i as [|i IH]; intros [|n] [|x l] H; try lia; try reflexivity. cbn. apply IH. lia. Qed.
Lemma nth_error_skipn' {A} (l : list A) n i : nth_error (skipn n l) i = nth_error l (n + i).
Proof. revert l. induction n as [|n IH]; intros [|x l]; try reflexivity; [destruct i; reflexivity|]. apply IH. Qed.
Lemma both_nth {A B} (R : A -> B -> Prop) l m : Forall2 R l m -> forall i x, nth_error l i = Some x -> exists y, nth_error m i = Some y /\ R x y.
Proof. intros F. induction F as [|a c l m H F IH]; intros [|i] x E; try discriminate; [injection E as <-; exists c; split; [reflexivity|exact H]|]. apply IH. exact E. Qed.
Lemma round_small k dt r : 0 <= k -> 0 <= r -> 2 * r < dt -> round_away (dt * k + r) dt = k.
Proof.
  intros K R D. unfold round_away. assert (S : Z.sgn (dt * k + r) = 1 \/ dt * k + r = 0) by (assert (0 <= dt * k + r) by nia; destruct (Z.eq_dec (dt * k + r) 0); [right; assumption|left; apply Z.sgn_pos; lia]).
  rewrite Z.abs_eq by nia. destruct S as [S|S].
  - rewrite S, Z.mul_1_l. symmetry. apply (Z.div_unique _ _ k (2 * r + dt)); [left; lia|ring].
  - assert (k = 0) by nia. assert (r = 0) by nia. subst. replace (dt * 0 + 0) with 0 by ring. reflexivity.
Qed.

(** The piece of a trace that covers a window: its samples from the beginning to the end of the window. *)
Lemma slice_covers dt a win tr : 2000 < dt -> 0 < win -> (dt | win) -> covers dt a (a + win) tr ->
  exists p, slice_nearest dt tr (a + 1000) (a + 1000 + win) = Some p /\ length (tr_data p) = Z.to_nat (win / dt + 1) /\
    forall i, (i < length (tr_data p))%nat -> exists j, nth_error (tr_data p) i = nth_error (tr_data tr) j /\ (j < length (tr_data tr))%nat /\
      tr_start tr + dt * Z.of_nat j = a + dt * Z.of_nat i.
Proof.
  intros D W [m Em] (S & [k Ek] & E). set (n := length (tr_data tr)) in *.
  assert (K0 : 0 <= k) by nia. assert (M0 : 0 < m) by nia.
  assert (F : round_away (a + 1000 - tr_start tr) dt = k) by (replace (a + 1000 - tr_start tr) with (dt * k + 1000) by lia; apply round_small; lia).
  assert (B : k + m + 1 <= Z.of_nat n) by nia.
  assert (WM : win / dt = m) by (rewrite Em; apply Z.div_mul; lia).
  unfold slice_nearest. rewrite F, Z.max_r by lia. set (s := tr_start tr + k * dt).
  assert (Es : s = a) by (unfold s; lia). rewrite Es.
  assert (NE : (a + 1000 + win <? a) = false) by (apply Z.ltb_ge; lia). rewrite NE.
  assert (G : round_away (a + 1000 + win - a) dt = m) by (replace (a + 1000 + win - a) with (dt * m + 1000) by lia; apply round_small; lia). rewrite G.
  set (kept := firstn (Z.to_nat (m + 1)) (skipn (Z.to_nat k) (tr_data tr))).
  assert (LK : length kept = Z.to_nat (m + 1)) by (unfold kept; rewrite firstn_length, skipn_length; fold n; lia).
  exists (mktrace (tr_station tr) (tr_location tr) a (a + (Z.of_nat (length kept) - 1) * dt) kept). split; [|split].
  - destruct kept as [|v l] eqn:Q; [exfalso; cbn in LK; lia|]. reflexivity.
  - cbn [tr_data]. rewrite LK, WM. reflexivity.
  - cbn [tr_data]. intros i I. exists (Z.to_nat k + i)%nat. split; [|split].
    + unfold kept. rewrite nth_error_firstn' by lia. apply nth_error_skipn'.
    + fold n. lia.
    + nia.
Qed.

(** In samples from the beginning of the window on. *)
Definition in_samples (dt a : Z) (gd : Q * Z) : Q * Z := (fst gd, (snd gd - a) / dt).
Lemma slice_hears w dt a win gd tr : 2000 < dt -> 0 < win -> (dt | win) -> covers dt a (a + win) tr -> hears_at w dt a (a + win) gd tr ->
  exists p, slice_nearest dt tr (a + 1000) (a + 1000 + win) = Some p /\ picks_up w (Z.to_nat (win / dt + 1)) (in_samples dt a gd) (tr_data p).
Proof.
  intros D W Dv C (H & A & [d Ed] & L & P). destruct (slice_covers dt a win tr D W Dv C) as (p & E & LP & N). exists p. split; [exact E|].
  assert (DD : (snd gd - a) / dt = d) by (rewrite Ed; apply Z.div_mul; lia).
  destruct Dv as [m Em]. assert (WM : win / dt = m) by (rewrite Em; apply Z.div_mul; lia). assert (M0 : 0 < m) by nia.
  split; [exact LP|]. split; [exact P|]. cbn [in_samples fst snd]. rewrite DD. split.
  - intros i v V. assert (I : (i < length (tr_data p))%nat) by (apply nth_error_Some; congruence).
    destruct (N i I) as (j & Ej & Lj & T). rewrite V in Ej. symmetry in Ej. specialize (H j v Ej). rewrite T in H.
    replace (Z.of_nat i - d) with ((a + dt * Z.of_nat i - snd gd) / dt); [apply H; rewrite LP in I; nia|].
    replace (a + dt * Z.of_nat i - snd gd) with ((Z.of_nat i - d) * dt) by lia. apply Z.div_mul. lia.
  - unfold contained. rewrite LP, WM, Z2Nat.id by lia. split; nia.
Qed.

Lemma picked_pair root w n p q x y m : exact_root root -> level w -> picks_up w n p x -> picks_up w n q y -> Z.abs (snd p - snd q) <= m ->
  exists v, find_shift_abs root x y m = (snd p - snd q, v) /\ ((0 < fst p * fst q -> v == 1) /\ (fst p * fst q < 0 -> v == -(1)))%Q.
Proof.
  intros R W (L1 & P & S1 & C1) (L2 & P' & S2 & C2) M.
  destruct (C80_either_sign root w (fst p) (fst q) (snd p) (snd q) x y m) as (v & F & V); try assumption; [congruence| |exists v; split; [exact F|exact V]].
  set (g := fst p) in *. set (h := fst q) in *. set (t := 1 # 2 ^ 52) in *. assert (T : (0 < t)%Q) by reflexivity. clearbody t g h. set (P0 := power w) in *. clearbody P0.
  clear - P P' T. apply Qnot_le_lt. intros C. assert (PP : (0 < P0)%Q) by (apply Qnot_le_lt; intros Z; assert (g * g * P0 <= 0)%Q by (assert (0 <= g * g)%Q by nra; nra); lra).
  pose proof (Qabs_nonneg (g * h)) as A0.
  assert (X : (0 <= Qabs (g * h) * P0)%Q) by nra.
  assert (Y : (Qabs (g * h) * P0 * (Qabs (g * h) * P0) <= t * t)%Q) by nra. assert (Y' : (t * t < g * g * P0 * (h * h * P0))%Q) by nra.
  assert (AA : (Qabs (g * h) * Qabs (g * h) == g * h * (g * h))%Q) by (destruct (Qlt_le_dec (g * h) 0) as [Z|Z]; [rewrite (Qabs_neg (g * h)) by lra|rewrite (Qabs_pos (g * h)) by lra]; ring).
  assert (EE : (g * g * P0 * (h * h * P0) == Qabs (g * h) * P0 * (Qabs (g * h) * P0))%Q).
  { transitivity (g * h * (g * h) * (P0 * P0))%Q; [ring|]. rewrite <- AA. ring. }
  lra.
Qed.

Lemma pieces_hears w dt a win hits st : 2000 < dt -> 0 < win -> (dt | win) ->
  Forall2 (fun gd tr => covers dt a (a + win) tr /\ hears_at w dt a (a + win) gd tr) hits st ->
  exists ps, pieces (slice_nearest dt) (a + 1000) (a + 1000 + win) st ps /\
    Forall2 (fun gd p => picks_up w (Z.to_nat (win / dt + 1)) (in_samples dt a gd) (tr_data p)) hits ps.
Proof.
  intros D W Dv F. induction F as [|gd tr hits st [C H] F IH]; [exists []; split; constructor|].
  destruct IH as (ps & P & G). destruct (slice_hears w dt a win gd tr D W Dv C H) as (p & E & K).
  exists (p :: ps). split; [apply pieces_some; assumption|constructor; assumption].
Qed.

Lemma pieces_same cut a e st : forall p q, pieces cut a e st p -> pieces cut a e st q -> p = q.
Proof. intros p q P1 P2. apply slice_pieces in P1, P2. congruence. Qed.

Lemma entries_at (P : Z -> list Z -> list Q -> Prop) ts lags vals sums t : entries P ts lags vals sums -> In t ts ->
  exists i ls vs, nth_error ts i = Some t /\ nth_error lags i = Some ls /\ nth_error vals i = Some vs /\ nth_error sums i = Some (fold_right Z.add 0 ls) /\ P t ls vs.
Proof.
  intros E. induction E as [|t0 ls vs ts lags vals sums H E IH]; intros I; [destruct I|]. destruct I as [->|I].
  - exists O, ls, vs. repeat split. exact H.
  - destruct (IH I) as (i & ls' & vs' & X). exists (S i), ls', vs'. exact X.
Qed.

Lemma telescope (d : nat -> Z) ls n : length ls = n -> (forall j, (j < n)%nat -> nth_error ls j = Some (d j - d (after_in_ring n j))) -> fold_right Z.add 0 ls = 0.
Proof.
  intros L H. destruct n as [|n]; [destruct ls; [reflexivity|discriminate]|].
  assert (G : forall m l k, length l = m -> (k + m = S n)%nat -> (forall j, (j < m)%nat -> nth_error l j = Some (d (k + j)%nat - d (after_in_ring (S n) (k + j)))) -> (0 < m)%nat ->
    fold_right Z.add 0 l = d k - d O).
  { induction m as [|m IH]; intros l k Ll Km Hl M; [lia|]. destruct l as [|x l]; [discriminate|]. pose proof (Hl O ltac:(lia)) as H0. cbn in H0. injection H0 as ->. rewrite Nat.add_0_r.
    cbn [fold_right]. destruct m as [|m].
    - destruct l; [|discriminate]. cbn [fold_right]. unfold after_in_ring. assert (Q : Nat.eqb (S k) (S n) = true) by (apply Nat.eqb_eq; lia). rewrite Q. lia.
    - rewrite (IH l (S k)).
      + unfold after_in_ring. assert (Q : Nat.eqb (S k) (S n) = false) by (apply Nat.eqb_neq; lia). rewrite Q. lia.
      + cbn in Ll. lia.
      + lia.
      + intros j J. specialize (Hl (S j) ltac:(lia)). cbn [nth_error] in Hl. rewrite Hl. replace (k + S j)%nat with (S k + j)%nat by lia. reflexivity.
      + lia. }
  rewrite (G (S n) ls O L ltac:(lia)); [lia| |lia]. intros j J. apply H, J.
Qed.

(** If the lags of the pieces of a window are known for every pair of neighbours then they are in the result. *)
Lemma lags_of_pieces (V : Q * Z -> Q * Z -> Q -> Prop) root other bp read fuel DB dt win shift fl fh f st n t0 tmax k hits ps :
  lag_input read DB st n t0 tmax -> 0 < dt -> 0 < win ->
  check_lags bp (slice_nearest dt) (correlate_traces root other) read fuel DB win shift fl fh = Some f ->
  let a := t0 + k * win in
  1 <= k -> a - win + 1000 < tmax -> length st = n -> length hits = length st -> length hits = length ps ->
  pieces (slice_nearest dt) (a + 1000) (a + 1000 + win) st ps -> (forall p, In p hits -> (dt | snd p - a)) ->
  (forall j p q x y, nth_error hits j = Some p -> nth_error hits (after_in_ring n j) = Some q -> nth_error ps j = Some x -> nth_error ps (after_in_ring n j) = Some y ->
    exists v, correlate_traces root other x y shift = Some ((snd p - snd q) / dt, v) /\ V p q v) ->
  exists i ls vs,
    nth_error (f_t f) i = Some (a + 1000) /\ nth_error (f_lag f) i = Some ls /\ nth_error (f_coef f) i = Some vs /\ nth_error (f_sum f) i = Some 0 /\
    length ls = n /\ length vs = n /\
    forall j p q, nth_error hits j = Some p -> nth_error hits (after_in_ring n j) = Some q ->
      nth_error ls j = Some ((snd p - snd q) / dt) /\ exists v, nth_error vs j = Some v /\ V p q v.
Proof.
  intros LI D W E a K T LS LH LP P DV PAIR.
  assert (AT : forall j, (j < n)%nat -> exists p q x y, nth_error hits j = Some p /\ nth_error hits (after_in_ring n j) = Some q /\ nth_error ps j = Some x /\ nth_error ps (after_in_ring n j) = Some y).
  { intros j J. assert (J' : (after_in_ring n j < n)%nat) by (unfold after_in_ring; destruct (Nat.eqb (S j) n) eqn:Q; [lia|apply Nat.eqb_neq in Q; lia]).
    destruct (nth_error hits j) as [p|] eqn:E1; [|apply nth_error_None in E1; lia]. destruct (nth_error hits (after_in_ring n j)) as [q|] eqn:E2; [|apply nth_error_None in E2; lia].
    destruct (nth_error ps j) as [x|] eqn:E3; [|apply nth_error_None in E3; lia]. destruct (nth_error ps (after_in_ring n j)) as [y|] eqn:E4; [|apply nth_error_None in E4; lia].
    exists p, q, x, y. repeat split. }
  assert (EX : exists ls vs, in_window (slice_nearest dt) (correlate_traces root other) shift win st n (a + 1000) ls vs).
  { set (c := fun j => match nth_error ps j, nth_error ps (after_in_ring n j) with Some x, Some y => match correlate_traces root other x y shift with Some lv => lv | None => (0, 0%Q) end | _, _ => (0, 0%Q) end).
    exists (map (fun j => fst (c j)) (seq 0 n)), (map (fun j => snd (c j)) (seq 0 n)), ps. split; [exact P|]. unfold around. rewrite !map_length, seq_length. split; [reflexivity|]. split; [reflexivity|].
    intros j J. destruct (AT j J) as (p & q & x & y & Hp & Hq & Hx & Hy). destruct (PAIR j p q x y Hp Hq Hx Hy) as (v & C & _).
    exists x, y, ((snd p - snd q) / dt), v. split; [exact Hx|]. split; [exact Hy|]. split; [exact C|].
    rewrite !nth_error_map. rewrite (nth_error_nth' _ 0%nat) by (rewrite seq_length; exact J). rewrite seq_nth by exact J. cbn [Nat.add option_map]. unfold c. rewrite Hx, Hy, C. split; reflexivity. }
  destruct (C60_lags bp (slice_nearest dt) (correlate_traces root other) read fuel DB win shift fl fh f st n t0 tmax LI W E) as (ks & _ & FT & IN & EN).
  assert (IT : In (a + 1000) (f_t f)).
  { rewrite FT. apply in_map_iff. exists k. split; [unfold a; lia|]. apply IN. split; [exact K|]. split; [unfold a in T; lia|].
    replace (t0 + 1000 + k * win) with (a + 1000) by (unfold a; lia). exact EX. }
  destruct (entries_at _ _ _ _ _ _ EN IT) as (i & ls & vs & E1 & E2 & E3 & E4 & (ps' & P' & (L1 & L2 & A))).
  pose proof (pieces_same _ _ _ _ _ _ P P'). subst ps'.
  assert (RES : forall j p q, nth_error hits j = Some p -> nth_error hits (after_in_ring n j) = Some q ->
    nth_error ls j = Some ((snd p - snd q) / dt) /\ exists v, nth_error vs j = Some v /\ V p q v).
  { intros j p q Hp Hq. assert (J : (j < n)%nat) by (rewrite <- LS, <- LH; apply nth_error_Some; congruence).
    destruct (A j J) as (x & y & l & v & Hx & Hy & C & HL & HV). destruct (PAIR j p q x y Hp Hq Hx Hy) as (v' & C' & V').
    rewrite C in C'. injection C' as -> ->. split; [exact HL|]. exists v'. split; [exact HV|exact V']. }
  exists i, ls, vs. split; [exact E1|]. split; [exact E2|]. split; [exact E3|]. split; [|split; [exact L1|split; [exact L2|exact RES]]].
  rewrite E4. f_equal. apply (telescope (fun j => match nth_error hits j with Some p => (snd p - a) / dt | None => 0 end) ls n L1).
  intros j J. destruct (AT j J) as (p & q & x & y & Hp & Hq & _). destruct (RES j p q Hp Hq) as [RL _]. rewrite RL, Hp, Hq. f_equal.
  destruct (DV p (nth_error_In _ _ Hp)) as [dp Edp]. destruct (DV q (nth_error_In _ _ Hq)) as [dq Edq].
  replace (snd p - snd q) with ((dp - dq) * dt) by lia. rewrite Edp, Edq, !Z.div_mul by lia. reflexivity.
Qed.

(** C80.  Loggers side by side: if in one of its windows a signal reaches all loggers, [check_lags] has this window in its
    result, each lag is the number of samples between the times at which the two loggers recorded the signal, the
    correlation is 1 (or -1 if one of the two is reversed), and the lags round the ring add up to zero. *)
Theorem C80_check_lags : forall root other bandpass read fuel DB dt win shift fl fh f st n t0 tmax k w hits,
  exact_root root -> level w -> lag_input read DB st n t0 tmax -> 2000 < dt -> 0 < win -> (dt | win) ->
  check_lags bandpass (slice_nearest dt) (correlate_traces root other) read fuel DB win shift fl fh = Some f ->
  let a := t0 + k * win in
  1 <= k -> a - win + 1000 < tmax -> length st = n ->
  Forall2 (fun gd tr => covers dt a (a + win) tr /\ hears_at w dt a (a + win) gd tr) hits st ->
  (forall p q, In p hits -> In q hits -> Z.abs (snd p - snd q) <= shift * dt) ->
  exists i ls vs,
    nth_error (f_t f) i = Some (a + 1000) /\ nth_error (f_lag f) i = Some ls /\ nth_error (f_coef f) i = Some vs /\ nth_error (f_sum f) i = Some 0 /\
    length ls = n /\ length vs = n /\
    forall j p q, nth_error hits j = Some p -> nth_error hits (after_in_ring n j) = Some q ->
      nth_error ls j = Some ((snd p - snd q) / dt) /\
      exists v, nth_error vs j = Some v /\ ((0 < fst p * fst q -> v == 1) /\ (fst p * fst q < 0 -> v == -(1)))%Q.
Proof.
  intros root other bp read fuel DB dt win shift fl fh f st n t0 tmax k w hits R LV LI D W Dv E a K T LS F SH.
  destruct (pieces_hears w dt a win hits st D W Dv F) as (ps & P & G).
  pose proof (Forall2_length_eq _ _ _ F) as LH. pose proof (Forall2_length_eq _ _ _ G) as LP.
  set (m := Z.to_nat (win / dt + 1)) in *.
  assert (PAIR : forall j p q x y, nth_error hits j = Some p -> nth_error hits (after_in_ring n j) = Some q -> nth_error ps j = Some x -> nth_error ps (after_in_ring n j) = Some y ->
    exists v, correlate_traces root other x y shift = Some ((snd p - snd q) / dt, v) /\ ((0 < fst p * fst q -> v == 1) /\ (fst p * fst q < 0 -> v == -(1)))%Q).
  { intros j p q x y Hp Hq Hx Hy.
    destruct (both_nth _ _ _ G _ _ Hp) as (x' & Ex & X). rewrite Hx in Ex. injection Ex as <-.
    destruct (both_nth _ _ _ G _ _ Hq) as (y' & Ey & Y). rewrite Hy in Ey. injection Ey as <-.
    destruct (both_nth _ _ _ F _ _ Hp) as (tp & _ & _ & _ & _ & [dp Edp] & _).
    destruct (both_nth _ _ _ F _ _ Hq) as (tq & _ & _ & _ & _ & [dq Edq] & _).
    assert (DP : (snd p - a) / dt = dp) by (rewrite Edp; apply Z.div_mul; lia). assert (DQ : (snd q - a) / dt = dq) by (rewrite Edq; apply Z.div_mul; lia).
    pose proof (SH p q (nth_error_In _ _ Hp) (nth_error_In _ _ Hq)) as S1.
    assert (DF : snd p - snd q = (dp - dq) * dt) by lia.
    assert (DD : (snd p - snd q) / dt = dp - dq) by (rewrite DF; apply Z.div_mul; lia).
    destruct (picked_pair root w m (in_samples dt a p) (in_samples dt a q) (tr_data x) (tr_data y) shift R LV X Y) as (v & Fv & V).
    { cbn [in_samples snd]. rewrite DP, DQ. rewrite DF, Z.abs_mul, (Z.abs_eq dt) in S1 by lia. nia. }
    exists v. split; [|exact V]. unfold correlate_traces. destruct X as [Lx _], Y as [Ly _]. rewrite Lx, Ly, Nat.eqb_refl, Fv. cbn [in_samples snd]. rewrite DP, DQ, DD. reflexivity. }
  apply (lags_of_pieces (fun p q v => (0 < fst p * fst q -> v == 1) /\ (fst p * fst q < 0 -> v == -(1)))%Q root other bp read fuel DB dt win shift fl fh f st n t0 tmax k hits ps LI ltac:(lia) W E K T LS LH LP P); [|exact PAIR].
  intros p Hp. apply In_nth_error in Hp as (j & Hp). destruct (both_nth _ _ _ F _ _ Hp) as (tp & _ & _ & _ & _ & Dp & _). exact Dp.
Qed.

(** Three loggers, the second one reversed and the third one started a second later, for six seconds; a signal reaches them
    at 3 s, 3.2 s and 2.9 s. *)
Definition case_trace (name : string) (g : Q) (start : Z) (d n : nat) : trace :=
  mktrace (b name) [] (start * 10 ^ 8) ((start + Z.of_nat n - 1) * 10 ^ 8) (case_record g d n).
Definition case_traces : list trace := [case_trace "AAA" 1 0 30 61; case_trace "BBB" (-(2)) 0 32 61; case_trace "CCC" (1 # 2) 10 19 51].
Definition case_hits : list (Q * Z) := [(1%Q, 30 * 10 ^ 8); ((-(2))%Q, 32 * 10 ^ 8); (1 # 2, 29 * 10 ^ 8)].
Definition case_files (fn : bytes) : option (list trace) :=
  if eqb_bytes fn (b "a") then Some [case_trace "AAA" 1 0 30 61]
  else if eqb_bytes fn (b "b") then Some [case_trace "BBB" (-(2)) 0 32 61] else Some [case_trace "CCC" (1 # 2) 10 19 51].
Definition case_table : list row :=
  [mkrow (b "a") (b "AAA") [] 1 3 (-(3)) 0 (60 * 10 ^ 8); mkrow (b "b") (b "BBB") [] 1 6 (-(6)) 0 (60 * 10 ^ 8); mkrow (b "c") (b "CCC") [] 1 (3 # 2) (-(3 # 2)) (10 * 10 ^ 8) (60 * 10 ^ 8)].
Example C80_check_lags_case : exact_root case_root /\ level case_signal /\ lag_input case_files case_table case_traces 3 0 (60 * 10 ^ 8) /\
  Forall2 (fun gd tr => covers (10 ^ 8) (0 + 1 * (20 * 10 ^ 8)) (0 + 1 * (20 * 10 ^ 8) + 20 * 10 ^ 8) tr /\
    hears_at case_signal (10 ^ 8) (0 + 1 * (20 * 10 ^ 8)) (0 + 1 * (20 * 10 ^ 8) + 20 * 10 ^ 8) gd tr) case_hits case_traces /\
  (forall p q, In p case_hits -> In q case_hits -> Z.abs (snd p - snd q) <= 10 * 10 ^ 8) /\
  exists f ls, check_lags (fun _ _ tr => tr) (slice_nearest (10 ^ 8)) (correlate_traces case_root (fun _ _ _ => None)) case_files 9 case_table (20 * 10 ^ 8) 10 (1 # 2) 20 = Some f /\
    nth_error (f_t f) 0 = Some (20 * 10 ^ 8 + 1000) /\ nth_error (f_lag f) 0 = Some ls /\ ls = [-2; 3; -1].
Proof.
  split; [exact (proj1 C80_case)|]. split; [reflexivity|]. split; [|split; [|split]].
  - apply lag_input_iff. split; [reflexivity|]. split; [reflexivity|]. split; [|reflexivity]. exists 0. split; reflexivity.
  - assert (X : forall g d start n, (d + 4 <= n)%nat -> start <= 20 -> 40 <= start + Z.of_nat n - 1 -> 20 <= start + Z.of_nat d -> start + Z.of_nat d + 3 <= 40 -> ((1 # 2 ^ 52) < g * g * power case_signal)%Q ->
      forall name, covers (10 ^ 8) (0 + 1 * (20 * 10 ^ 8)) (0 + 1 * (20 * 10 ^ 8) + 20 * 10 ^ 8) (case_trace name g start d n) /\
        hears_at case_signal (10 ^ 8) (0 + 1 * (20 * 10 ^ 8)) (0 + 1 * (20 * 10 ^ 8) + 20 * 10 ^ 8) (g, (start + Z.of_nat d) * 10 ^ 8) (case_trace name g start d n)).
    { intros g d start n N S1 S2 S3 S4 PW name. assert (LC : length (case_record g d n) = n) by (unfold case_record; rewrite !app_length, !repeat_length, map_length; cbn [length case_signal]; lia).
      set (c := 10 ^ 8). assert (C0 : 0 < c) by reflexivity. unfold covers, hears_at, case_trace. fold c. cbn [tr_start tr_data fst snd]. rewrite LC.
      split; [split; [nia|split; [exists (20 - start); ring|nia]]|]. split; [|split; [nia|split; [exists (start + Z.of_nat d - 20); ring|split; [cbn [length case_signal]; nia|exact PW]]]].
      intros i v E _. replace (start * c + c * Z.of_nat i - (start + Z.of_nat d) * c) with ((Z.of_nat i - Z.of_nat d) * c) by ring. rewrite Z.div_mul by lia.
      unfold case_record in E. destruct (Nat.lt_ge_cases i d) as [H|H].
      - rewrite nth_error_app1 in E by (rewrite repeat_length; exact H). apply nth_error_In, repeat_spec in E. subst v.
        unfold value_at. assert (Q : (Z.of_nat i - Z.of_nat d <? 0) = true) by (apply Z.ltb_lt; lia). rewrite Q. ring.
      - rewrite nth_error_app2 in E by (rewrite repeat_length; exact H). rewrite repeat_length in E. unfold value_at.
        assert (Q : (Z.of_nat i - Z.of_nat d <? 0) = false) by (apply Z.ltb_ge; lia). rewrite Q. replace (Z.to_nat (Z.of_nat i - Z.of_nat d)) with (i - d)%nat by lia.
        set (j := (i - d)%nat) in *. destruct (Nat.lt_ge_cases j 4) as [J|J].
        + rewrite nth_error_app1 in E by exact J. rewrite nth_error_map in E. destruct (nth_error case_signal j) as [u|] eqn:U; [|discriminate]. injection E as <-. rewrite (nth_error_nth _ _ _ U). reflexivity.
        + rewrite nth_error_app2 in E by exact J. apply nth_error_In, repeat_spec in E. subst v. rewrite nth_overflow by exact J. ring. }
    constructor; [apply (X 1%Q 30%nat 0 61%nat); try lia; reflexivity|]. constructor; [apply (X (-(2))%Q 32%nat 0 61%nat); try lia; reflexivity|].
    constructor; [apply (X (1 # 2) 19%nat 10 51%nat); try lia; reflexivity|constructor].
  - intros p q Hp Hq. cbn in Hp, Hq. destruct Hp as [<-|[<-|[<-|[]]]], Hq as [<-|[<-|[<-|[]]]]; cbn; lia.
  - eexists _, _. split; [vm_compute; reflexivity|]. repeat split; reflexivity.
Qed.

Print Assumptions C80_check_lags.
