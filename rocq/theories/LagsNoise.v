(** C80: the lags of [check_lags] are right in spite of noise. *)
From Coq Require Import String.
From Coq Require Import ZArith QArith Qabs List Bool Lia Lqa.
From Verif Require Import Lib Base Database DatabaseSpec DatabaseProofs DatabaseProps Correlate CorrelateSpec CorrelateProofs CorrelateProps CorrelateNoise Lags LagsSpec LagsProps LagsNoiseSpec.
Import ListNotations.
Open Scope Z_scope.

(** The signal with an offset and noise. *)
Definition near_offset (w : list Q) (g : Q) (d : Z) (eta : Q) (x : list Q) : Prop :=
  exists offset, forall i v, nth_error x i = Some v -> (Qabs (v - (g * value_at w (Z.of_nat i - d) + offset)) <= eta)%Q.
Lemma slice_near w dt a win eta gd tr : 2000 < dt -> 0 < win -> (dt | win) -> covers dt a (a + win) tr -> hears_near w dt a (a + win) eta gd tr ->
  exists p, slice_nearest dt tr (a + 1000) (a + 1000 + win) = Some p /\ length (tr_data p) = Z.to_nat (win / dt + 1) /\
    near_offset w (fst gd) ((snd gd - a) / dt) eta (tr_data p) /\ contained w ((snd gd - a) / dt) (tr_data p).
Proof.
  intros D W Dv C ((c & H) & A & [d Ed] & L & P). destruct (slice_covers dt a win tr D W Dv C) as (p & E & LP & N). exists p. split; [exact E|].
  assert (DD : (snd gd - a) / dt = d) by (rewrite Ed; apply Z.div_mul; lia).
  destruct Dv as [m Em]. assert (WM : win / dt = m) by (rewrite Em; apply Z.div_mul; lia). assert (M0 : 0 < m) by nia.
  split; [exact LP|]. rewrite DD. split.
  - exists c. intros i v V. assert (I : (i < length (tr_data p))%nat) by (apply nth_error_Some; congruence).
    destruct (N i I) as (j & Ej & Lj & T). rewrite V in Ej. symmetry in Ej. specialize (H j v Ej). rewrite T in H.
    replace (Z.of_nat i - d) with ((a + dt * Z.of_nat i - snd gd) / dt); [apply H; rewrite LP in I; nia|].
    replace (a + dt * Z.of_nat i - snd gd) with ((Z.of_nat i - d) * dt) by lia. apply Z.div_mul. lia.
  - unfold contained. rewrite LP, WM, Z2Nat.id by lia. split; nia.
Qed.
Lemma pieces_near w dt a win eta hits st : 2000 < dt -> 0 < win -> (dt | win) ->
  Forall2 (fun gd tr => covers dt a (a + win) tr /\ hears_near w dt a (a + win) eta gd tr) hits st ->
  exists ps, pieces (slice_nearest dt) (a + 1000) (a + 1000 + win) st ps /\
    Forall2 (fun gd p => length (tr_data p) = Z.to_nat (win / dt + 1) /\ near_offset w (fst gd) ((snd gd - a) / dt) eta (tr_data p) /\ contained w ((snd gd - a) / dt) (tr_data p)) hits ps.
Proof.
  intros D W Dv F. induction F as [|gd tr hits st [C H] F IH]; [exists []; split; constructor|].
  destruct IH as (ps & P & G). destruct (slice_near w dt a win eta gd tr D W Dv C H) as (p & E & K).
  exists (p :: ps). split; [apply pieces_some; assumption|constructor; assumption].
Qed.

Open Scope Q_scope.
(** Without its mean a record has no offset either. *)
Lemma centred_offset w g d eta x : level w -> (0 < length x)%nat -> contained w d x -> near_offset w g d eta x -> 0 <= 2 * eta /\ near w g d (2 * eta) (centred x).
Proof.
  intros W L0 C (c & N). set (y := map (fun v => v - c) x). assert (LY : length y = length x) by apply map_length.
  assert (NY : near w g d eta y).
  { intros i v E. unfold y in E. rewrite nth_error_map in E. destruct (nth_error x i) as [u|] eqn:U; [|discriminate]. cbn [option_map] in E.
    assert (EV : forall u u' : Q, Some u = Some u' -> u = u') by congruence. apply EV in E. subst v. specialize (N i u U). set (z := g * value_at w (Z.of_nat i - d)) in *.
    assert (X : u - c - z == u - (z + c)) by ring. rewrite (Qabs_wd _ _ X). exact N. }
  pose proof (near_nonneg _ _ _ _ _ NY ltac:(lia)) as E0. split; [lra|].
  assert (NN : 0 < inject_Z (Z.of_nat (length x))) by (change 0 with (inject_Z 0); rewrite <- Zlt_Qlt; lia).
  assert (YN : forall i, (i < length x)%nat -> nth i y 0 == nth i x 0 - c).
  { intros i I. assert (E : nth_error y i = Some (nth i x 0 - c)) by (unfold y; rewrite (map_nth_error _ i x (nth_some x i I)); reflexivity). rewrite (nth_error_nth _ _ _ E). reflexivity. }
  assert (MY : mean y == mean x - c).
  { unfold mean. rewrite LY. set (k := inject_Z (Z.of_nat (length x))) in *.
    assert (T : total (fun i => nth i y 0) (length x) == total (fun i => nth i x 0) (length x) + k * - c).
    { unfold k. rewrite <- total_const, <- total_plus. apply total_ext. intros i I. rewrite (YN i I). ring. }
    rewrite T. field. intros Z. rewrite Z in NN. discriminate. }
  pose proof (centred_near w g d eta y W (contained_length w d x y (eq_sym LY) C) NY) as CY.
  intros i v E. assert (Lc : length (centred x) = length x) by apply map_length. assert (I : (i < length x)%nat) by (rewrite <- Lc; apply nth_error_Some; congruence).
  assert (Ic : (i < length (centred y))%nat) by (unfold centred; rewrite map_length, LY; exact I). pose proof (near_nth _ _ _ _ _ _ CY Ic) as P.
  rewrite <- (nth_error_nth _ _ 0 E). set (z := g * value_at w (Z.of_nat i - d)) in *.
  assert (X : nth i (centred x) 0 - z == nth i (centred y) 0 - z) by (rewrite !centred_nth, MY, (YN i I) by (rewrite ?LY; exact I); ring). rewrite (Qabs_wd _ _ X). exact P.
Qed.
(** A record in which the signal stands out is not silent. *)
Lemma near_loud w g d eta x : 0 <= eta -> near w g d eta (centred x) -> contained w d x -> (1 # 2 ^ 50) < g * g * power w ->
  2 * disturbance w (length x) g g eta eta < g * g * power w -> 1 # 2 ^ 51 < dot (demean x) (demean x).
Proof.
  intros E0 N C P G. rewrite dot_self, centre_lagged.
  assert (Lx : length (centred x) = length x) by apply map_length.
  pose proof (near_lagged w g g d d eta eta (centred x) (centred x) 0 eq_refl E0 E0 N
    (contained_length w d x _ (eq_sym Lx) C) N (contained_length w d x _ (eq_sym Lx) C)) as B.
  rewrite Lx in B. replace (0 - d + d)%Z with 0%Z in B by ring. apply Qabs_Qle_condition in B as [B _].
  pose proof (lagged_zero w) as Z0.
  set (B0 := disturbance _ _ _ _ _ _) in *. set (l := lagged (centred x) (centred x) 0) in *. set (lw := lagged w w 0) in *. set (pw := power w) in *. clearbody B0 l lw pw.
  rewrite Z0 in B. set (gp := g * g * pw) in *. clearbody gp. assert (T : (1 # 2 ^ 50) == 2 * (1 # 2 ^ 51)) by reflexivity. rewrite T in P. set (e := 1 # 2 ^ 51) in *. clearbody e. lra.
Qed.
Lemma stands_power w n eta hits p : stands_out w n eta hits -> In p hits -> 2 * disturbance w n (fst p) (fst p) (2 * eta) (2 * eta) < fst p * fst p * power w.
Proof.
  intros SO I. pose proof (SO p p I I (Z.of_nat (length w) + 1)%Z ltac:(lia)) as G1. rewrite (Qabs_wd _ _ (lagged_far w (Z.of_nat (length w) + 1) ltac:(lia))) in G1. change (Qabs 0) with 0 in G1.
  rewrite (Qabs_pos (fst p * fst p)) in G1 by (set (g := fst p); nra). lra.
Qed.
Lemma loud_root root u v : rough_root root -> 1 # 2 ^ 51 < u -> 1 # 2 ^ 51 < v -> 1 # 2 ^ 52 < root (u * v).
Proof.
  intros R U V. assert (T : (1 # 2 ^ 51) == 2 * (1 # 2 ^ 52)) by reflexivity. assert (T0 : 0 < 1 # 2 ^ 52) by reflexivity. rewrite T in U, V. set (e := 1 # 2 ^ 52) in *. clearbody e.
  destruct (Qlt_le_dec u v) as [H|H].
  - pose proof (R u (u * v) ltac:(lra) ltac:(nra)). lra.
  - pose proof (R v (u * v) ltac:(lra) ltac:(nra)). lra.
Qed.
Open Scope Z_scope.

(** C80.  Loggers side by side, with offsets and noise: if in one of its windows a signal that stands out from the noise reaches all loggers then
    [check_lags] has this window in its result, each lag is still exactly the number of samples between the times at which the two
    loggers recorded the signal, the sign of the correlation shows whether one of the two is reversed, and the lags round the ring
    add up to zero. *)
Theorem C80_check_lags_noise : forall root other bandpass read fuel DB dt win shift fl fh f st n t0 tmax k w eta hits,
  rough_root root -> level w -> lag_input read DB st n t0 tmax -> 2000 < dt -> 0 < win -> (dt | win) ->
  check_lags bandpass (slice_nearest dt) (correlate_traces root other) read fuel DB win shift fl fh = Some f ->
  let a := t0 + k * win in
  1 <= k -> a - win + 1000 < tmax -> length st = n ->
  Forall2 (fun gd tr => covers dt a (a + win) tr /\ hears_near w dt a (a + win) eta gd tr) hits st ->
  stands_out w (Z.to_nat (win / dt + 1)) eta hits ->
  (forall p q, In p hits -> In q hits -> Z.abs (snd p - snd q) <= shift * dt) ->
  exists i ls vs,
    nth_error (f_t f) i = Some (a + 1000) /\ nth_error (f_lag f) i = Some ls /\ nth_error (f_coef f) i = Some vs /\ nth_error (f_sum f) i = Some 0 /\
    length ls = n /\ length vs = n /\
    forall j p q, nth_error hits j = Some p -> nth_error hits (after_in_ring n j) = Some q ->
      nth_error ls j = Some ((snd p - snd q) / dt) /\
      exists v, nth_error vs j = Some v /\ ((0 < fst p * fst q -> 0 < v) /\ (fst p * fst q < 0 -> v < 0))%Q.
Proof.
  intros root other bp read fuel DB dt win shift fl fh f st n t0 tmax k w eta hits R LV LI D W Dv E a K T LS F SO SH.
  destruct (pieces_near w dt a win eta hits st D W Dv F) as (ps & P & G).
  pose proof (Forall2_length_eq _ _ _ F) as LH. pose proof (Forall2_length_eq _ _ _ G) as LP.
  set (m := Z.to_nat (win / dt + 1)) in *.
  assert (DV : forall p, In p hits -> (dt | snd p - a) /\ ((1 # 2 ^ 50) < fst p * fst p * power w)%Q).
  { intros p Hp. apply In_nth_error in Hp as (j & Hp). destruct (both_nth _ _ _ F _ _ Hp) as (tp & _ & _ & _ & _ & Dp & _ & Pw). split; [exact Dp|exact Pw]. }
  assert (M0 : (0 < m)%nat) by (unfold m; pose proof (Z.div_pos win dt ltac:(lia) ltac:(lia)); lia).
  apply (lags_of_pieces (fun p q v => (0 < fst p * fst q -> 0 < v) /\ (fst p * fst q < 0 -> v < 0))%Q root other bp read fuel DB dt win shift fl fh f st n t0 tmax k hits ps LI ltac:(lia) W E K T LS LH LP P); [intros p Hp; exact (proj1 (DV p Hp))|].
  intros j p q x y Hp Hq Hx Hy.
  destruct (both_nth _ _ _ G _ _ Hp) as (x' & Ex & Lx & Nx & Cx). rewrite Hx in Ex. injection Ex as <-.
  destruct (both_nth _ _ _ G _ _ Hq) as (y' & Ey & Ly & Ny & Cy). rewrite Hy in Ey. injection Ey as <-.
  apply nth_error_In in Hp, Hq. destruct (DV p Hp) as [[dp Edp] Pp]. destruct (DV q Hq) as [[dq Edq] Pq].
  assert (DP : (snd p - a) / dt = dp) by (rewrite Edp; apply Z.div_mul; lia). assert (DQ : (snd q - a) / dt = dq) by (rewrite Edq; apply Z.div_mul; lia).
  pose proof (SH p q Hp Hq) as S1. assert (DF : snd p - snd q = (dp - dq) * dt) by lia.
  assert (DD : (snd p - snd q) / dt = dp - dq) by (rewrite DF; apply Z.div_mul; lia). rewrite DP in Nx, Cx. rewrite DQ in Ny, Cy.
  destruct (centred_offset _ _ _ _ _ LV (eq_ind_r (lt 0) M0 Lx) Cx Nx) as [E0 NX]. destruct (centred_offset _ _ _ _ _ LV (eq_ind_r (lt 0) M0 Ly) Cy Ny) as [_ NY].
  destruct (noise_centred root w (fst p) (fst q) dp dq (2 * eta) (2 * eta) (tr_data x) (tr_data y) shift) as (v & Fv & V1 & V2); try assumption.
  - congruence.
  - rewrite DF, Z.abs_mul, (Z.abs_eq dt) in S1 by lia. nia.
  - apply loud_root; [exact R| |].
    + apply (near_loud w (fst p) dp (2 * eta)); try assumption. rewrite Lx. apply (stands_power _ _ _ hits); assumption.
    + apply (near_loud w (fst q) dq (2 * eta)); try assumption. rewrite Ly. apply (stands_power _ _ _ hits); assumption.
  - rewrite Lx. apply SO; assumption.
  - exists v. split; [|split; assumption]. unfold correlate_traces. rewrite Lx, Ly, Nat.eqb_refl, Fv, DD. reflexivity.
Qed.

(** The same three loggers, with offsets and noise of one unit. *)
Lemma case_root_rough : rough_root case_root.
Proof.
  intros a z H0 H. rewrite <- (Qred_correct z) in H. unfold case_root. set (r := Qred z) in *. clearbody r. destruct a as [p q], r as [n d].
  unfold Qle, Qmult in *. cbn [Qnum Qden] in *. rewrite ?Pos2Z.inj_mul in *. pose proof (Pos.sqrt_spec d) as [R _]. apply Pos2Z.pos_le_pos in R. rewrite Pos2Z.inj_mul in R.
  set (Q := Zpos q) in *. set (D := Zpos d) in *. set (r := Zpos (Pos.sqrt d)) in *. assert (Q0 : 0 < Q) by reflexivity. assert (D0 : 0 < D) by reflexivity. assert (R0 : 0 < r) by reflexivity. clearbody Q D r. assert (P0 : 0 <= p) by lia.
  assert (QQ : 0 < Q * Q) by nia. assert (PD : 0 <= p * p * D) by (repeat apply Z.mul_nonneg_nonneg; lia).
  assert (N0 : 0 <= n) by (destruct (Z_lt_ge_dec n 0) as [X|X]; [exfalso; pose proof (Z.mul_neg_pos n (Q * Q) X QQ); lia|lia]). pose proof (Z.sqrt_spec n N0) as S. cbn zeta in S. set (s := Z.sqrt n) in *. assert (S0 : 0 <= s) by (apply Z.sqrt_nonneg). clearbody s.
  assert (G : p * r <= 2 * s * Q).
  { destruct (Z.eq_dec s 0) as [->|Ns].
    - assert (n = 0) by lia. subst n. assert (p = 0) by nia. subst p. lia.
    - destruct (Z_le_gt_dec (p * r) (2 * s * Q)) as [L|L]; [exact L|exfalso].
      assert (A : (p * r) * (p * r) <= (p * p) * D) by nia.
      assert (B : n * (Q * Q) <= (2 * s * (2 * s)) * (Q * Q)) by (apply Z.mul_le_mono_nonneg_r; nia). nia. }
  lia.
Qed.

Definition noise_trace (name : string) (g : Q) (start : Z) (d n : nat) : trace :=
  mktrace (b name) [] (start * 10 ^ 8) ((start + Z.of_nat n - 1) * 10 ^ 8)
    (map (fun i => g * value_at case_signal (Z.of_nat i - Z.of_nat d) + (if Nat.eqb (i mod 3) 0 then 1 else -(1)) + 100 * g)%Q (seq 0 n)).
Definition noise_traces : list trace := [noise_trace "AAA" 20 0 30 61; noise_trace "BBB" (-(40)) 0 32 61; noise_trace "CCC" 30 10 19 51].
Definition noise_hits : list (Q * Z) := [(20%Q, 30 * 10 ^ 8); ((-(40))%Q, 32 * 10 ^ 8); (30%Q, 29 * 10 ^ 8)].
Definition noise_files (fn : bytes) : option (list trace) :=
  if eqb_bytes fn (b "a") then Some [noise_trace "AAA" 20 0 30 61]
  else if eqb_bytes fn (b "b") then Some [noise_trace "BBB" (-(40)) 0 32 61] else Some [noise_trace "CCC" 30 10 19 51].
Definition noise_table : list row :=
  [mkrow (b "a") (b "AAA") [] 1 2061 1939 0 (60 * 10 ^ 8); mkrow (b "b") (b "BBB") [] 1 (-(3879)) (-(4121)) 0 (60 * 10 ^ 8); mkrow (b "c") (b "CCC") [] 1 3091 2909 (10 * 10 ^ 8) (60 * 10 ^ 8)].
Lemma noise_stands_out : stands_out case_signal (Z.to_nat ((20 * 10 ^ 8) / 10 ^ 8 + 1)) 1 noise_hits.
Proof.
  intros p q Hp Hq j J. destruct (case_products j J) as [H1 H2]. assert (A : (Qabs (lagged case_signal case_signal j) <= 15)%Q) by (apply Qabs_Qle_condition; split; lra).
  assert (X : (2 * disturbance case_signal (Z.to_nat ((20 * 10 ^ 8) / 10 ^ 8 + 1)) (fst p) (fst q) (2 * 1) (2 * 1) < 5 * Qabs (fst p * fst q))%Q).
  { cbn in Hp, Hq. destruct Hp as [<-|[<-|[<-|[]]]], Hq as [<-|[<-|[<-|[]]]]; vm_compute; reflexivity. }
  set (D := disturbance _ _ _ _ _ _) in *. set (l := Qabs (lagged case_signal case_signal j)) in *. pose proof (Qabs_nonneg (fst p * fst q)) as N. set (g := Qabs (fst p * fst q)) in *. clearbody D l g. rewrite case_power. nra.
Qed.
Example C80_check_lags_noise_case : rough_root case_root /\ level case_signal /\ lag_input noise_files noise_table noise_traces 3 0 (60 * 10 ^ 8) /\
  Forall2 (fun gd tr => covers (10 ^ 8) (0 + 1 * (20 * 10 ^ 8)) (0 + 1 * (20 * 10 ^ 8) + 20 * 10 ^ 8) tr /\
    hears_near case_signal (10 ^ 8) (0 + 1 * (20 * 10 ^ 8)) (0 + 1 * (20 * 10 ^ 8) + 20 * 10 ^ 8) 1 gd tr) noise_hits noise_traces /\
  stands_out case_signal (Z.to_nat ((20 * 10 ^ 8) / 10 ^ 8 + 1)) 1 noise_hits /\
  (forall p q, In p noise_hits -> In q noise_hits -> Z.abs (snd p - snd q) <= 10 * 10 ^ 8) /\
  exists f ls, check_lags (fun _ _ tr => tr) (slice_nearest (10 ^ 8)) (correlate_traces case_root (fun _ _ _ => None)) noise_files 9 noise_table (20 * 10 ^ 8) 10 (1 # 2) 20 = Some f /\
    nth_error (f_t f) 0 = Some (20 * 10 ^ 8 + 1000) /\ nth_error (f_lag f) 0 = Some ls /\ ls = [-2; 3; -1].
Proof.
  split; [exact case_root_rough|]. split; [reflexivity|]. split; [|split; [|split; [exact noise_stands_out|split]]].
  - apply lag_input_iff. split; [reflexivity|]. split; [reflexivity|]. split; [|reflexivity]. exists 0. split; reflexivity.
  - assert (X : forall g d start n, (d + 4 <= n)%nat -> start <= 20 -> 40 <= start + Z.of_nat n - 1 -> 20 <= start + Z.of_nat d -> start + Z.of_nat d + 3 <= 40 -> ((1 # 2 ^ 50) < g * g * power case_signal)%Q ->
      forall name, covers (10 ^ 8) (0 + 1 * (20 * 10 ^ 8)) (0 + 1 * (20 * 10 ^ 8) + 20 * 10 ^ 8) (noise_trace name g start d n) /\
        hears_near case_signal (10 ^ 8) (0 + 1 * (20 * 10 ^ 8)) (0 + 1 * (20 * 10 ^ 8) + 20 * 10 ^ 8) 1 (g, (start + Z.of_nat d) * 10 ^ 8) (noise_trace name g start d n)).
    { intros g d start n N S1 S2 S3 S4 PW name.
      set (c := 10 ^ 8). assert (C0 : 0 < c) by reflexivity. unfold covers, hears_near, noise_trace. fold c. cbn [tr_start tr_data fst snd]. rewrite map_length, seq_length.
      split; [split; [nia|split; [exists (20 - start); ring|nia]]|]. split; [|split; [nia|split; [exists (start + Z.of_nat d - 20); ring|split; [cbn [length case_signal]; nia|exact PW]]]].
      exists (100 * g)%Q. intros i v E _. replace (start * c + c * Z.of_nat i - (start + Z.of_nat d) * c) with ((Z.of_nat i - Z.of_nat d) * c) by ring. rewrite Z.div_mul by lia.
      rewrite nth_error_map in E. destruct (nth_error (seq 0 n) i) as [j|] eqn:J; [|discriminate]. cbn [option_map] in E. assert (EV : forall u u' : Q, Some u = Some u' -> u = u') by congruence. apply EV in E. subst v. clear EV.
      assert (L : (i < n)%nat) by (rewrite <- (seq_length n 0); apply nth_error_Some; congruence). rewrite (nth_error_nth' _ 0%nat) in J by (rewrite seq_length; exact L). rewrite seq_nth in J by exact L. injection J as <-. cbn [Nat.add].
      set (z := (g * value_at case_signal (Z.of_nat i - Z.of_nat d))%Q). clearbody z. apply Qabs_Qle_condition. destruct (Nat.eqb (i mod 3) 0); split; lra. }
    constructor; [apply (X 20%Q 30%nat 0 61%nat); try lia; reflexivity|]. constructor; [apply (X (-(40))%Q 32%nat 0 61%nat); try lia; reflexivity|].
    constructor; [apply (X 30%Q 19%nat 10 51%nat); try lia; reflexivity|constructor].
  - intros p q Hp Hq. cbn in Hp, Hq. destruct Hp as [<-|[<-|[<-|[]]]], Hq as [<-|[<-|[<-|[]]]]; cbn; lia.
  - eexists _, _. split; [vm_compute; reflexivity|]. repeat split; reflexivity.
Qed.

Print Assumptions C80_check_lags_noise.
