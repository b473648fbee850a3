(** Properties C07, C08, C09: unwrapping of the sample clock. *)
From Coq Require Import ZArith QArith Qround List Bool Lia Lqa.
From Verif Require Import Lib Base Unwrap UnwrapSpec UnwrapProofs.
Import ListNotations.
Open Scope Q_scope.

(** C07.  One output per recorded clock value; every output is congruent to its recorded value
    modulo the rollover; the first lies within half a period of the requested start; and (when the
    recorded values are what the format allows) no step exceeds half a period. *)
Theorem C07_only_adds_periods r offset saw : 0 < r ->
  Forall2 (congruent r) (unwrap r offset saw) saw /\
  (forall u us, unwrap r offset saw = u :: us -> offset - r / 2 <= u /\ u < offset + r / 2) /\
  (Forall (in_period r) saw -> chain (step_within (r / 2)) (unwrap r offset saw)).
Proof.
  intros Hr. split; [exact (unwrap_congruent r offset saw Hr)|]. split.
  - destruct saw as [|s xs]; [discriminate|]. intros u us E. exact (unwrap_first r offset s xs u us Hr E).
  - exact (unwrap_chain r offset saw Hr).
Qed.

Example C07_case : exists saw, Forall (in_period 8192) saw /\ length saw = 4%nat /\
  Forall2 Qeq (unwrap 8192 10000 saw) [8000; 8190; 8200; 8185].
Proof.
  exists [8000; 8190; 8; 8185]. split; [|split; [reflexivity|]].
  - repeat constructor; vm_compute; congruence.
  - repeat constructor.
Qed.

(** C08.  A clock that never moves by half a rollover or more between records, and starts within half
    a rollover of the requested offset, is recovered exactly. *)
Theorem C08_continuous_clock_recovered r offset tau saw : 0 < r ->
  recorded r tau saw ->
  chain (step_below (r / 2)) tau ->
  (forall t ts, tau = t :: ts -> offset - r / 2 <= t /\ t < offset + r / 2) ->
  Forall2 Qeq (unwrap r offset saw) tau.
Proof.
  intros Hr Hrec Hch H. destruct tau as [|t ts].
  - inversion Hrec; subst. constructor.
  - destruct (H t ts eq_refl). exact (unwrap_exact r offset (t :: ts) saw t ts Hr eq_refl Hrec Hch H0 H1).
Qed.

(** Whatever the start, the clock is recovered up to one constant number of whole periods. *)
Theorem C08_continuous_clock_any_start r offset tau saw : 0 < r ->
  recorded r tau saw -> chain (step_below (r / 2)) tau ->
  exists k : Z, Forall2 (fun u t => u == t + r * inject_Z k) (unwrap r offset saw) tau.
Proof. exact (unwrap_exact_mod r offset tau saw). Qed.

Example C08_case : let tau := [100; 4000; 8000; 12090; 12080; 16000; 20090] in
  let saw := [100; 4000; 8000; 3898; 3888; 7808; 3706] in
  recorded 8192 tau saw /\ chain (step_below (8192 / 2)) tau /\ (0 - 8192 / 2 <= 100 /\ 100 < 0 + 8192 / 2) /\
  Forall2 Qeq (unwrap 8192 0 saw) tau.
Proof.
  cbv zeta. split; [|split; [|split]].
  - repeat constructor; try (vm_compute; congruence);
      (exists 0%Z; reflexivity) || (exists 1%Z; reflexivity) || (exists 2%Z; reflexivity).
  - repeat split; vm_compute; reflexivity.
  - split; vm_compute; congruence.
  - repeat constructor.
Qed.

(** The bound is sharp: with a step of half a period the clock is not determined by the recording. *)
Theorem C08_half_period_refuted : exists tau saw,
  recorded 8192 tau saw /\ chain (step_within (8192 / 2)) tau /\
  ~ exists k : Z, Forall2 (fun u t => u == t + 8192 * inject_Z k) (unwrap 8192 0 saw) tau.
Proof.
  exists [0; -4096], [0; 4096]. split; [|split].
  - repeat constructor; try (vm_compute; congruence).
    + exists 0%Z. reflexivity.
    + exists (-1)%Z. reflexivity.
  - repeat split; vm_compute; congruence.
  - intros [k H]. inversion H as [|? ? ? ? E1 H']; subst. inversion H' as [|? ? ? ? E2 _]; subst.
    assert (A : 8192 * inject_Z k == 8192) by (rewrite <- (Qplus_inj_l _ _ (-(4096))); rewrite <- E2; reflexivity).
    assert (B : 8192 * inject_Z k == 0) by (rewrite <- (Qplus_inj_l _ _ 0); rewrite <- E1; reflexivity).
    rewrite B in A. discriminate.
Qed.

(** C09.  The vectorised and the line-by-line unwrapping agree up to the whole periods contained in
    the offset, unless some recorded step is exactly plus half a period. *)
Theorem C09_reference_agrees offset saw :
  Forall (in_period 8192) saw -> chain (fun p x => ~ x - p == 4096) saw ->
  Forall2 (fun u v => u == v + 8192 * inject_Z (Qfloor (offset / 8192))) (unwrap 8192 offset saw) (ref_unwrap offset saw).
Proof. exact (agree offset saw). Qed.

Example C09_case : let saw := [8190; 8; 18; 8185; 4000; 8000] in
  Forall (in_period 8192) saw /\ chain (fun p x => ~ x - p == 4096) saw /\
  ~ Forall2 Qeq (unwrap 8192 20000 saw) (ref_unwrap 20000 saw).
Proof.
  cbv zeta. split; [|split].
  - repeat constructor; vm_compute; congruence.
  - repeat split; vm_compute; discriminate.
  - intros H. inversion H as [|? ? ? ? E _]. revert E. vm_compute. discriminate.
Qed.

(** At the tie they disagree by a whole period from there on. *)
Theorem C09_tie_refuted : exists saw, Forall (in_period 8192) saw /\
  ~ exists c, Forall2 (fun u v => u == v + c) (unwrap 8192 0 saw) (ref_unwrap 0 saw).
Proof.
  exists [0; 4096]. split; [repeat constructor; vm_compute; congruence|].
  intros [c H]. inversion H as [|? ? ? ? E1 H']; subst. inversion H' as [|? ? ? ? E2 _]; subst.
  assert (A : c == 0) by (rewrite <- (Qplus_inj_l _ _ 0); rewrite <- E1; reflexivity).
  rewrite A in E2. revert E2. vm_compute. discriminate.
Qed.

Print Assumptions C07_only_adds_periods.
Print Assumptions C08_continuous_clock_recovered.
Print Assumptions C08_continuous_clock_any_start.
Print Assumptions C08_half_period_refuted.
Print Assumptions C09_reference_agrees.
Print Assumptions C09_tie_refuted.
