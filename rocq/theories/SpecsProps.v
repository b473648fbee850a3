(** Properties C28, C29 and C30. *)
From Coq Require Import String.
From Coq Require Import ZArith QArith Qabs Qround List Bool Lia Lqa.
From Verif Require Import Lib Base Names NamesProofs UnwrapProofs Specs SpecsSpec SpecsProofs.
Import ListNotations.
Open Scope Q_scope.

(** * C28 *)
Theorem C28_one_generation : forall sn, (3 <= sn)%Z ->
  exists s, get_gem_specs sn = Some s /\ generation sn (s_version s) /\ forall v, generation sn v -> v = s_version s.
Proof.
  intros sn H. destruct (generation_total sn H) as (v & G). pose proof (specs_of sn v G) as E. eexists. split; [exact E|]. cbn. split; [exact G|].
  intros w W. exact (generation_unique sn w v W G).
Qed.
Theorem C28_others_fail : forall sn, (sn < 3)%Z -> get_gem_specs sn = None.
Proof.
  intros sn H. destruct (get_gem_specs sn) as [s|] eqn:E; [|reflexivity]. apply specs_version in E. destruct E; lia.
Qed.
(** Bit weights are positive, and the voltage step is the one documented, to the digits given there. *)
Theorem C28_documented_voltage : forall sn pa v, documented sn pa v ->
  exists s, get_gem_specs sn = Some s /\ 0 < s_bw_Pa s /\ 0 < s_bw_V s /\ Qabs (s_bw_V s - v) <= 5 # 1000000000000000.
Proof.
  intros sn pa v D.
  assert (H : (3 <= sn)%Z) by (destruct D; lia). destruct (generation_total sn H) as (w & G).
  exists (mkspecs w ((256 # 1000) / inject_Z (2 ^ 15) / gain w) ((256 # 1000) / inject_Z (2 ^ 15) / gain w / (avcc w / 7 * (4513 # 100000000)))).
  split; [exact (specs_of sn w G)|]. cbn [s_bw_Pa s_bw_V].
  destruct G, D; try lia; (split; [vm_compute; reflexivity|]; split; [vm_compute; reflexivity|]; apply Qle_bool_iff; vm_compute; reflexivity).
Qed.
(** The pressure step is not: for every logger it is between 3.9 and 4 percent above the documented one (the table,
    and the '0.0035012 Pa/count' that [make_gem_inventory] writes, gem_network.py 261, are those of another
    sensitivity). *)
Theorem C28_documented_pressure_refuted : forall sn pa v, documented sn pa v ->
  exists s, get_gem_specs sn = Some s /\ (1039 # 1000) * pa < s_bw_Pa s < (1040 # 1000) * pa.
Proof.
  intros sn pa v D.
  assert (H : (3 <= sn)%Z) by (destruct D; lia). destruct (generation_total sn H) as (w & G).
  eexists. split; [exact (specs_of sn w G)|]. cbn [s_bw_Pa s_bw_V].
  destruct G, D; try lia; (split; vm_compute; reflexivity).
Qed.
(** Pressure and voltage: the sensor gives 45.13 microvolts per Pascal at a supply of 7 V, in proportion to its supply. *)
Theorem C28_pressure_of_voltage : forall sn s v, get_gem_specs sn = Some s -> supply sn v ->
  s_bw_V s == s_bw_Pa s * (v / 7 * (4513 # 100000000)) /\ 0 < s_bw_Pa s.
Proof.
  intros sn s v E Sv. pose proof (specs_version _ _ E) as G. rewrite (specs_of _ _ G) in E. injection E as <-. cbn [s_bw_V s_bw_Pa s_version] in *.
  revert G. generalize (s_version s). intros w G. destruct G, Sv as [[L ->]|[L ->]]; try lia; split; (vm_compute; reflexivity).
Qed.
(** The voltage step never grows from one serial number to the next. *)
Theorem C28_voltage_step : forall sn sn' s s', (sn <= sn')%Z -> get_gem_specs sn = Some s -> get_gem_specs sn' = Some s' -> s_bw_V s' <= s_bw_V s.
Proof.
  intros sn sn' s s' H E E'. pose proof (specs_version _ _ E) as G. pose proof (specs_version _ _ E') as G'.
  rewrite (specs_of _ _ G) in E. rewrite (specs_of _ _ G') in E'. injection E as <-. injection E' as <-. cbn [s_bw_V s_version] in *.
  revert H G G'. generalize (s_version s) (s_version s'). intros v v' H G G'. destruct G, G'; try lia; apply Qle_bool_iff; vm_compute; reflexivity.
Qed.
Example C28_case : exists s, get_gem_specs 40 = Some s /\ s_version s = 9 # 10 /\ documented 40 (3543324 # 1000000000) (7362894 # 100000000000000).
Proof. eexists. split; [vm_compute; reflexivity|]. split; [reflexivity|apply doc_2; lia]. Qed.

(** The pressure step is not monotone. *)
Theorem C28_pressure_step_refuted : exists s t u, get_gem_specs 37 = Some s /\ get_gem_specs 38 = Some t /\ get_gem_specs 47 = Some u /\
  s_bw_Pa s < s_bw_Pa t /\ s_bw_Pa u < s_bw_Pa t.
Proof. do 3 eexists. repeat split; vm_compute; reflexivity. Qed.

(** * C29 *)
Theorem C29_low_gain_doubles : forall sn units s w s' w', get_bitweight_info sn 0 units = Some (s, w) -> get_bitweight_info sn 1 units = Some (s', w') ->
  s_version s' = s_version s /\ s_bw_Pa s' == 2 * s_bw_Pa s /\ s_bw_V s' == 2 * s_bw_V s /\
  (~ same_word units (b "counts") -> w' == 2 * w) /\ (same_word units (b "counts") -> w' = w).
Proof.
  intros sn units s w s' w' E E'. unfold get_bitweight_info in E, E'. cbn [Z.eqb] in *. destruct (get_gem_specs sn) as [g|]; [|discriminate].
  assert (C : eqb_bytes (lower units) (b "counts") = true <-> same_word units (b "counts")).
  { rewrite eqb_bytes_iff. apply lower_word. repeat (constructor; [cbn; lia|]). constructor. }
  assert (NC : forall t, same_word units (b "counts") -> same_word units t -> length t = 6%nat).
  { intros t A B. apply Forall2_length_eq in A, B. rewrite <- B, A. reflexivity. }
  assert (P : eqb_bytes (upper units) (b "PA") = true <-> same_word units (b "PA")).
  { rewrite eqb_bytes_iff. apply upper_word. repeat (constructor; [cbn; lia|]). constructor. }
  assert (V : eqb_bytes (upper units) (b "V") = true <-> same_word units (b "V")).
  { rewrite eqb_bytes_iff. apply upper_word. repeat (constructor; [cbn; lia|]). constructor. }
  destruct (eqb_bytes (upper units) (b "PA")) eqn:Ep; [|destruct (eqb_bytes (upper units) (b "V")) eqn:Ev; [|destruct (eqb_bytes (lower units) (b "counts")) eqn:Ec; [|discriminate]]].
  all: injection E as <- <-; injection E' as <- <-; cbn [s_version s_bw_Pa s_bw_V].
  all: split; [reflexivity|]; split; [ring|]; split; [ring|]; split; intros H; try ring; try reflexivity.
  - exfalso. pose proof (NC _ H (proj1 P eq_refl)). discriminate.
  - exfalso. pose proof (NC _ H (proj1 V eq_refl)). discriminate.
  - destruct H. apply C. reflexivity.
Qed.
(** The result exists exactly for known serial numbers, gain codes 0 and 1, and the three units in any case; the
    weight is the entry of that unit. *)
Theorem C29_accepted_iff : forall sn adc units, (exists r, get_bitweight_info sn adc units = Some r) <->
  (3 <= sn)%Z /\ (adc = 0 \/ adc = 1)%Z /\ (same_word units (b "Pa") \/ same_word units (b "V") \/ same_word units (b "counts")).
Proof.
  intros sn adc units. unfold get_bitweight_info.
  assert (PP : same_word units (b "PA") <-> same_word units (b "Pa")).
  { unfold same_word. change (b "PA") with [80; 65]%Z. change (b "Pa") with [80; 97]%Z. split; intros H; inversion H as [|? ? ? ? H1 H2]; subst; inversion H2 as [|? ? ? ? H3 H4]; subst; inversion H4; subst;
      (constructor; [exact H1|constructor; [|constructor]]); unfold same_letter in *; lia. }
  assert (C : eqb_bytes (lower units) (b "counts") = true <-> same_word units (b "counts")).
  { rewrite eqb_bytes_iff. apply lower_word. repeat (constructor; [cbn; lia|]). constructor. }
  assert (P : eqb_bytes (upper units) (b "PA") = true <-> same_word units (b "Pa")).
  { rewrite <- PP, eqb_bytes_iff. apply upper_word. repeat (constructor; [cbn; lia|]). constructor. }
  assert (V : eqb_bytes (upper units) (b "V") = true <-> same_word units (b "V")).
  { rewrite eqb_bytes_iff. apply upper_word. repeat (constructor; [cbn; lia|]). constructor. }
  assert (S : (exists s, get_gem_specs sn = Some s) <-> (3 <= sn)%Z).
  { split; [|intros H; destruct (C28_one_generation sn H) as (s & E & _); eauto]. intros (s & E). destruct (Z_lt_le_dec sn 3) as [L|L]; [|exact L]. rewrite C28_others_fail in E by exact L. discriminate. }
  rewrite <- S, <- C, <- P, <- V. destruct (Z.eqb_spec adc 0); [|destruct (Z.eqb_spec adc 1)].
  3: { split; [intros (r & E); discriminate|intros (_ & [H|H] & _); congruence]. }
  all: destruct (get_gem_specs sn) as [g|]; [|split; [intros (r & E); discriminate|intros ((s & E) & _); discriminate]].
  all: destruct (eqb_bytes (upper units) (b "PA")); [split; eauto 8|]; destruct (eqb_bytes (upper units) (b "V")); [split; eauto 8|];
       destruct (eqb_bytes (lower units) (b "counts")); [split; eauto 8|]; split; [intros (r & E); discriminate|intros (_ & _ & [E|[E|E]]); discriminate].
Qed.
Theorem C29_selected_unit : forall sn adc units s w, get_bitweight_info sn adc units = Some (s, w) ->
  (same_word units (b "Pa") -> w = s_bw_Pa s) /\ (same_word units (b "V") -> w = s_bw_V s) /\ (same_word units (b "counts") -> w = 1).
Proof.
  intros sn adc units s w E.
  assert (PP : same_word units (b "PA") <-> same_word units (b "Pa")).
  { unfold same_word. change (b "PA") with [80; 65]%Z. change (b "Pa") with [80; 97]%Z. split; intros H; inversion H as [|? ? ? ? H1 H2]; subst; inversion H2 as [|? ? ? ? H3 H4]; subst; inversion H4; subst;
      (constructor; [exact H1|constructor; [|constructor]]); unfold same_letter in *; lia. }
  assert (P : eqb_bytes (upper units) (b "PA") = true <-> same_word units (b "Pa")).
  { rewrite <- PP, eqb_bytes_iff. apply upper_word. repeat (constructor; [cbn; lia|]). constructor. }
  assert (V : eqb_bytes (upper units) (b "V") = true <-> same_word units (b "V")).
  { rewrite eqb_bytes_iff. apply upper_word. repeat (constructor; [cbn; lia|]). constructor. }
  assert (C : eqb_bytes (lower units) (b "counts") = true <-> same_word units (b "counts")).
  { rewrite eqb_bytes_iff. apply lower_word. repeat (constructor; [cbn; lia|]). constructor. }
  assert (L : forall t t', same_word units t -> same_word units t' -> length t = length t').
  { intros t t' A B. apply Forall2_length_eq in A, B. congruence. }
  unfold get_bitweight_info in E. destruct (if (adc =? 0)%Z then _ else _) as [m|]; [|discriminate]. destruct (get_gem_specs sn) as [g|]; [|discriminate].
  destruct (eqb_bytes (upper units) (b "PA")) eqn:Ep; [|destruct (eqb_bytes (upper units) (b "V")) eqn:Ev; [|destruct (eqb_bytes (lower units) (b "counts")) eqn:Ec; [|discriminate]]].
  - injection E as <- <-. pose proof (proj1 P eq_refl) as X. split; [reflexivity|]. split; intros H; pose proof (L _ _ X H); discriminate.
  - injection E as <- <-. pose proof (proj1 V eq_refl) as X. split; [intros H; pose proof (L _ _ X H); discriminate|]. split; [reflexivity|]. intros H; pose proof (L _ _ X H); discriminate.
  - injection E as <- <-. pose proof (proj1 C eq_refl) as X. split; [intros H; pose proof (L _ _ X H); discriminate|]. split; [intros H; pose proof (L _ _ X H); discriminate|reflexivity].
Qed.
(** A conversion that leaves the bit weight to the program stores the weight of the unit asked for; a weight given is
    used as it is. *)
Theorem C29_conversion_weight : forall sn adc s w units, get_bitweight_info sn adc (b "Pa") = Some (s, w) ->
  In units [b "Pa"; b "V"; b "counts"; b "Counts"] ->
  (exists w', get_bitweight_info sn adc units = Some (s, w') /\ convert_bitweight None units s = Some w') /\
  forall g, convert_bitweight (Some g) units s = Some g.
Proof.
  intros sn adc s w units E I. split; [|reflexivity]. unfold get_bitweight_info in *. destruct (if (adc =? 0)%Z then _ else _) as [m|]; [|discriminate].
  destruct (get_gem_specs sn) as [g|]; [|discriminate].
  change (eqb_bytes (upper (b "Pa")) (b "PA")) with true in E. injection E as <- _. cbn [In] in I.
  repeat (destruct I as [<-|I]; [eexists; split; [reflexivity|vm_compute (eqb_bytes _ _); reflexivity]|]). destruct I.
Qed.
Example C29_case : exists s w s' w', get_bitweight_info 40 0 (b "pA") = Some (s, w) /\ get_bitweight_info 40 1 (b "pA") = Some (s', w') /\
  w' == 2 * w /\ get_bitweight_info 40 2 (b "Pa") = None /\ get_bitweight_info 40 1 (b "mV") = None.
Proof. do 4 eexists. split; [vm_compute; reflexivity|]. split; [vm_compute; reflexivity|]. repeat split; vm_compute; reflexivity. Qed.

(** In [convert] the unit is compared with upper and lower case: 'pa' is accepted but gives no weight. *)
Theorem C29_conversion_unit_case_refuted : exists s w, get_bitweight_info 40 0 (b "pa") = Some (s, w) /\ convert_bitweight None (b "pa") s = None.
Proof. do 2 eexists. split; vm_compute; reflexivity. Qed.

(** * C30 *)
Lemma scaled c : (if Qltb 0 (max_abs c) then map (fun v => qdiv v (max_abs c)) c else map Some c) =
  map Some (if Qltb 0 (max_abs c) then map (fun v => v / max_abs c) c else c).
Proof.
  destruct (Qltb 0 (max_abs c)) eqn:B; [|reflexivity]. rewrite map_map. apply map_ext. intros v. unfold qdiv.
  destruct (Qeq_bool _ 0) eqn:Z0; [|reflexivity]. apply Qeq_bool_iff in Z0. apply Qltb_lt in B. exfalso. revert Z0 B. generalize (max_abs c). intros m Z0 B. lra.
Qed.
Lemma wav_shape rate x n y : snd (write_wav rate x) = Some (n, y) -> x <> [] /\ rate == inject_Z n /\ fst (write_wav rate x) = y /\
  let c := map (fun v => v - meanQ x) x in y = map Some (if Qltb 0 (max_abs c) then map (fun v => v / max_abs c) c else c).
Proof.
  unfold write_wav. destruct x as [|x0 x]; [discriminate|]. set (l := x0 :: x). cbv zeta. cbn [snd fst].
  set (c := map (fun v => v - meanQ l) l). set (r := if Qle_bool 0 rate then _ else _). generalize (scaled c). set (z := if Qltb 0 (max_abs c) then map (fun v => qdiv v _) c else _).
  clearbody z. clearbody c. intros Hz. destruct (Qeq_bool (inject_Z r) rate) eqn:E; [|discriminate]. intros [= <- <-]. apply Qeq_bool_iff in E.
  split; [discriminate|]. split; [symmetry; exact E|]. split; [reflexivity|exact Hz].
Qed.

(** All samples written are numbers; their sum is zero, they are within -1 and 1, and the largest is 1 or -1 unless the
    trace is constant. *)
Theorem C30_centred_and_normalised : forall rate x n w, snd (write_wav rate x) = Some (n, w) ->
  rate == inject_Z n /\ exists y, w = map Some y /\ length y = length x /\ total y == 0 /\ (forall v, In v y -> -1 <= v <= 1) /\
  ((exists v, In v y /\ Qabs v == 1) \/ (forall v w, In v x -> In w x -> v == w) /\ forall v, In v y -> v == 0).
Proof.
  intros rate x n w H. destruct (wav_shape _ _ _ _ H) as (N & R & _ & Y). cbv zeta in Y. set (c := map (fun v => v - meanQ x) x) in *.
  split; [exact R|]. eexists. split; [exact Y|]. clear w H Y. set (y := if Qltb 0 (max_abs c) then _ else _).
  assert (Y : y = if Qltb 0 (max_abs c) then map (fun v => v / max_abs c) c else c) by reflexivity. clearbody y.
  assert (Lc : length c = length x) by apply map_length.
  assert (Tc : total c == 0).
  { unfold c. rewrite total_shift. unfold meanQ. change (sumQ x) with (total x). assert (~ inject_Z (Z.of_nat (length x)) == 0).
    { destruct x; [congruence|]. intros Z0. unfold Qeq, inject_Z in Z0. cbn [Qnum Qden length] in Z0. lia. }
    field. assumption. }
  pose proof (max_abs_nonneg c) as P. destruct (Qltb 0 (max_abs c)) eqn:E.
  - apply Qltb_lt in E. subst y. split; [rewrite map_length; exact Lc|]. split; [rewrite total_div; setoid_rewrite Tc; field; lra|]. split.
    + intros v Hv. apply in_map_iff in Hv as (u & <- & Hu). pose proof (max_abs_ge c u Hu) as B. apply Qabs_Qle_condition in B as [B1 B2]. split.
      * apply Qle_shift_div_l; [exact E|]. lra.
      * apply Qle_shift_div_r; [exact E|]. lra.
    + left. destruct (max_abs_in c) as (u & Iu & Eu); [destruct x; [congruence|discriminate]|]. exists (u / max_abs c). split; [apply in_map_iff; eauto|].
      unfold Qdiv. rewrite Qabs_Qmult, Eu. rewrite (Qabs_pos (/ max_abs c)) by (apply Qinv_le_0_compat; exact P). field. lra.
  - apply Qltb_ge in E. subst y. assert (Z0 : forall v, In v c -> v == 0).
    { intros v Hv. pose proof (max_abs_ge c v Hv) as B. apply Qabs_Qle_condition in B. lra. }
    split; [exact Lc|]. split; [exact Tc|]. split; [intros v Hv; specialize (Z0 v Hv); lra|]. right. split; [|exact Z0].
    assert (M : forall v, In v x -> v == meanQ x). { intros v Hv. specialize (Z0 (v - meanQ x) (in_map _ _ _ Hv)). lra. }
    intros v w Hv Hw. pose proof (M v Hv). pose proof (M w Hw). lra.
Qed.

(** The samples written are an increasing affine image of the samples given. *)
Theorem C30_affine : forall rate x n w, snd (write_wav rate x) = Some (n, w) ->
  exists a m, 0 < a /\ Forall2 (fun u o => exists v, o = Some v /\ v == a * (u - m)) x w.
Proof.
  intros rate x n w H. destruct (wav_shape _ _ _ _ H) as (N & R & _ & Y). cbv zeta in Y. set (c := map (fun v => v - meanQ x) x) in *.
  assert (K : forall (f : Q -> option Q -> Prop) (g : Q -> option Q) l, (forall u, f u (g u)) -> Forall2 f l (map g l)).
  { intros f g l F. induction l; constructor; auto. }
  destruct (Qltb 0 (max_abs c)) eqn:E; subst w.
  - apply Qltb_lt in E. exists (1 / max_abs c), (meanQ x). split; [apply Qlt_shift_div_l; [exact E|lra]|]. revert E. generalize (max_abs c). intros r E. unfold c. rewrite !map_map. apply K.
    intros u. eexists. split; [reflexivity|]. field. lra.
  - exists 1, (meanQ x). split; [lra|]. unfold c. rewrite map_map. apply K. intros u. eexists. split; [reflexivity|]. ring.
Qed.

(** Nothing is written exactly if the trace is empty or the sampling rate is not an integer. *)
Theorem C30_refused_iff : forall rate x, snd (write_wav rate x) = None <-> x = [] \/ ~ exists n, rate == inject_Z n.
Proof.
  intros rate x. unfold write_wav. destruct x as [|x0 x]; [cbn; tauto|]. cbv zeta. cbn [snd].
  pose proof (toward_zero rate) as T. destruct (Qeq_bool _ rate).
  - split; [discriminate|]. intros [X|X]; [discriminate|]. destruct X. apply T. reflexivity.
  - split; [|reflexivity]. intros _. right. intros X. apply T in X. discriminate.
Qed.
Example C30_case : exists y, snd (write_wav 100 [3; 5; 7; 1]) = Some (100%Z, map Some y) /\ Forall2 Qeq y [-1 # 3; 1 # 3; 1; -1 # 1].
Proof.
  exists (map (fun v => v / max_abs (map (fun v => v - meanQ [3; 5; 7; 1]) [3; 5; 7; 1])) (map (fun v => v - meanQ [3; 5; 7; 1]) [3; 5; 7; 1])).
  split; [vm_compute; reflexivity|]. repeat constructor.
Qed.
Example C30_constant_case : exists y, snd (write_wav 100 [5; 5; 5]) = Some (100%Z, map Some y) /\ Forall2 Qeq y [0; 0; 0].
Proof. exists (map (fun v => v - meanQ [5; 5; 5]) [5; 5; 5]). split; [vm_compute; reflexivity|]. repeat constructor. Qed.

(** The caller's trace is changed, even when nothing is written. *)
Theorem C30_trace_unchanged_refuted : exists rate x, snd (write_wav rate x) = None /\
  Forall2 (fun o v => exists u, o = Some u /\ u == v) (fst (write_wav rate x)) [-1 # 1; 1] /\ x = [3; 7].
Proof.
  exists (5 # 2), [3; 7]. split; [vm_compute; reflexivity|]. split; [|reflexivity]. vm_compute.
  constructor; [eexists; split; reflexivity|]. constructor; [eexists; split; reflexivity|constructor].
Qed.

Print Assumptions C28_one_generation.
Print Assumptions C28_others_fail.
Print Assumptions C28_documented_voltage.
Print Assumptions C28_pressure_of_voltage.
Print Assumptions C28_voltage_step.
Print Assumptions C29_low_gain_doubles.
Print Assumptions C29_accepted_iff.
Print Assumptions C29_selected_unit.
Print Assumptions C29_conversion_weight.
Print Assumptions C30_centred_and_normalised.
Print Assumptions C30_affine.
Print Assumptions C30_refused_iff.
