(** C49: giving times to a block of files. *)
From Coq Require Import ZArith QArith Qminmax List Bool Lia Lqa.
From Verif Require Import Base Lib UnwrapSpec UnwrapProofs Process ReadSeveral Drift Segments Interp InterpSpec InterpProps.
From Verif Require Import Calendar CalendarSpec CalendarProofs Fields FieldsProps Breaks BreaksSpec BreaksProofs.
Import ListNotations.
Open Scope Q_scope.

Lemma two_jumps_iff l : two_jumps l <-> jump_at l 0 /\ jump_at l 1.
Proof.
  unfold two_jumps, jump_at. split.
  - intros (x & y & z & r & -> & J1 & J2). split; [exists x, y|exists y, z]; auto.
  - intros [(x & y & X & Y & J1) (y' & z & Y' & Z & J2)]. destruct l as [|a [|c [|d r]]]; cbn in *; try discriminate.
    injection X as <-. injection Y as <-. injection Y' as <-. injection Z as <-. exists a, c, d, r. auto.
Qed.

Lemma split_at_nth {A} (l : list A) k x y z : nth_error l k = Some x -> nth_error l (S k) = Some y -> nth_error l (S (S k)) = Some z ->
  l = firstn k l ++ x :: y :: z :: skipn (k + 3) l.
Proof.
  revert l. induction k as [|k IH]; intros l X Y Z; destruct l as [|a l]; try discriminate.
  - destruct l as [|c [|d r]]; cbn in *; congruence.
  - cbn [firstn app Nat.add skipn nth_error] in *. f_equal. apply IH; assumption.
Qed.

(** With trusted GPS tags in time order, a block of five or more samples fails to get times exactly if the
    sample clock jumps at both of its first two steps, or the first two tags disagree about a jump. *)
Theorem C49_fails_iff now gps clock gs :
  gps <> [] -> (5 <= length clock)%nat -> usable now gps gs -> chain (fun e e' => (snd e < snd e')%Z) gs ->
  find_breaks now gps clock = None <-> two_jumps clock \/ first_tags_disagree gs clock.
Proof.
  intros Ng L5 U Ch. unfold find_breaks. apply (usable_iff _ _ _ Ng) in U. rewrite U. clear U Ng gps.
  destruct (inner_breaks_spec clock L5) as (off & mD & bs & -> & O & O1 & Lm & Nm & Bs & Bd).
  assert (Inner : forall k, In (S k) bs -> exists x y z, nth_error clock (k + off) = Some x /\ nth_error clock (S (k + off)) = Some y /\
            nth_error clock (S (S (k + off))) = Some z /\ around_break mD (S k) = [x; y; z] /\ jump y z).
  { intros k I. pose proof (Bd _ I) as B. apply Bs in I as ((y & z & Y & Z & J) & _ & _).
    destruct (nth_error mD k) as [x|] eqn:X; [|apply nth_error_None in X; lia].
    exists x, y, z. rewrite <- Nm by lia. cbn [Nat.add] in Y, Z. repeat (split; [assumption|]). split; [|exact J].
    apply around_inner; [exact X|rewrite Nm by lia; exact Y|rewrite Nm by lia; exact Z]. }
  assert (Zero : In 0%nat bs <-> two_jumps clock).
  { rewrite Bs, two_jumps_iff. cbn [Nat.add]. split.
    - intros (J & P & _). assert (off = 1%nat) as -> by lia. split; [apply O1; reflexivity|exact J].
    - intros [J0 J1]. apply O1 in J0. subst off. split; [exact J1|lia]. }
  destruct (data_limits mD bs) as [[ss es]|] eqn:DL.
  2:{ split; [|auto]. intros _. left. apply data_limits_none in DL as (i & I & A). destruct i as [|k]; [apply Zero; exact I|].
      destruct (Inner k I) as (x & y & z & _ & _ & _ & A' & _). congruence. }
  assert (NT : ~ two_jumps clock).
  { intros T. apply Zero in T. assert (data_limits mD bs = None); [|congruence]. apply data_limits_none. exists 0%nat. split; [exact T|]. apply around_first. lia. }
  destruct (data_limits_some _ _ _ _ DL) as [Ls Hs].
  destruct (amin mD) as [lo|] eqn:Elo; [|apply amin_none in Elo; subst mD; cbn in Lm; lia].
  destruct (amax mD) as [hi|] eqn:Ehi; [|apply amax_none in Ehi; subst mD; cbn in Lm; lia].
  set (mG := map (fun e => msPPS (fst e)) gs). set (tG := map (fun e => inject_Z (snd e)) gs).
  assert (Same : length mG = length tG) by (unfold mG, tG; rewrite !map_length; reflexivity).
  assert (Inc : forall i, (S i < length tG)%nat -> at_ tG i < at_ tG (S i)).
  { unfold tG. clear - Ch. induction gs as [|e [|e' r] IH]; intros i B; [cbn in B; lia|cbn in B; lia|]. destruct Ch as [C Ch].
    destruct i as [|i]; [unfold at_; cbn; rewrite <- Zlt_Qlt; exact C|]. apply IH; [exact Ch|cbn in *; lia]. }
  pose proof (loop_cases mG tG Same Inc (mkl ss es lo) Ls) as LC. cbn [starts ends] in LC.
  transitivity (first_tags_disagree gs clock); [|tauto].
  transitivity (gps_loop mG tG (gps_breaks mG tG) (mkl ss es lo) = None).
  { destruct (gps_loop _ _ _ _); split; congruence. }
  rewrite LC. clear LC. unfold gps_breaks, first_tags_disagree, overlaps. split.
  - intros (I0 & L3 & s & e & I & M0 & M1). destruct gs as [|e0 [|e1 [|e2 gr]]]; cbn in L3; try lia. clear L3.
    destruct Ch as [C01 _]. apply where_in in I0 as (k & Ek & Hk). assert (k = 0%nat) as -> by lia.
    cbn in Hk. injection Hk as Hk. apply gps_break_iff in Hk; [|exact C01].
    apply Hs in I as ([|k] & I & A1 & A2); [apply Zero in I; contradiction|].
    destruct (Inner k I) as (x & y & z & X & Y & Z & A & J). rewrite A in A1, A2.
    exists e0, e1, e2, gr, (firstn (k + off) clock), x, y, z, (skipn (k + off + 3) clock).
    split; [reflexivity|]. split; [exact Hk|]. split; [apply split_at_nth; assumption|].
    split. { apply Bs in I as (_ & _ & B). intros E. apply (f_equal (@length Q)) in E. rewrite skipn_length in E. cbn in *. lia. }
    split; [exact J|]. split; [apply (amax_iff _ _ A1); exact M0|apply (amin_iff _ _ A2); exact M1].
  - intros (e0 & e1 & e2 & gr & pre & x & y & z & post & -> & Of & Ec & Np & J & M0 & M1). destruct Ch as [C01 _].
    split; [|split].
    + apply where_in. exists 0%nat. split; [reflexivity|]. cbn. f_equal. apply gps_break_iff; assumption.
    + cbn. lia.
    + assert (N1 : nth_error clock (length pre) = Some x) by (rewrite Ec, nth_error_app2, Nat.sub_diag by lia; reflexivity).
      assert (N2 : nth_error clock (S (length pre)) = Some y) by (rewrite Ec, nth_error_app2 by lia; replace (S (length pre) - length pre)%nat with 1%nat by lia; reflexivity).
      assert (N3 : nth_error clock (S (S (length pre))) = Some z) by (rewrite Ec, nth_error_app2 by lia; replace (S (S (length pre)) - length pre)%nat with 2%nat by lia; reflexivity).
      assert (Ln : length clock = (length pre + 3 + length post)%nat) by (rewrite Ec, app_length; cbn; lia).
      assert (Lp : (1 <= length post)%nat) by (destruct post; [contradiction|cbn; lia]).
      assert (Jy : jump_at clock (S (length pre))) by (exists y, z; auto).
      assert (K : exists k, (k + off = length pre)%nat).
      { destruct O as [-> | ->]; [exists (length pre); lia|]. destruct (length pre) as [|k] eqn:Lpre; [|exists k; lia].
        exfalso. apply NT, two_jumps_iff. split; [apply O1; reflexivity|exact Jy]. }
      destruct K as (k & Ek).
      assert (I : In (S k) bs) by (apply Bs; replace (S k + off)%nat with (S (length pre)) by lia; split; [exact Jy|lia]).
      destruct (Inner k I) as (x' & y' & z' & X & Y & Z & A & _). rewrite Ek in X, Y, Z.
      rewrite N1 in X. rewrite N2 in Y. rewrite N3 in Z. injection X as <-. injection Y as <-. injection Z as <-.
      destruct (amax [x; y; z]) as [s|] eqn:A1; [|discriminate]. destruct (amin [x; y; z]) as [e|] eqn:A2; [|discriminate].
      exists s, e. split; [apply Hs; exists (S k); rewrite A; auto|].
      split; [apply (amax_iff _ _ A1); exact M0|apply (amin_iff _ _ A2); exact M1].
Qed.

(** In particular a record whose clock does not jump always gets past this step, whatever its tags
    (as long as they are in time order). *)
Theorem C49_steady_clock now gps clock gs :
  gps <> [] -> (5 <= length clock)%nat -> chain (fun x y => 0 <= y - x /\ y - x <= 25) clock ->
  usable now gps gs -> chain (fun e e' => (snd e < snd e')%Z) gs -> find_breaks now gps clock <> None.
Proof.
  intros N L C U T E. apply (C49_fails_iff _ _ _ _ N L U T) in E.
  assert (NJ : forall pre x y post, clock = pre ++ x :: y :: post -> ~ jump x y).
  { clear - C. intros pre. revert clock C. induction pre as [|a pre IH]; intros clock C x y post -> J.
    - destruct C as [[C1 C2] _]. destruct J; lra.
    - eapply (IH (pre ++ x :: y :: post)); [|reflexivity|exact J]. destruct pre; cbn [app chain] in *; tauto. }
  destruct E as [(x & y & z & r & E & J & _)|(e0 & e1 & e2 & gr & pre & x & y & z & post & _ & _ & E & _ & J & _)].
  - exact (NJ [] _ _ _ E J).
  - apply (NJ (pre ++ [x]) y z post); [rewrite <- app_assoc; exact E|exact J].
Qed.

(** If besides no two consecutive tags disagree with the clock, there is one stretch: from the lowest clock value to the
    highest. *)
Theorem C49_one_stretch now gps clock gs :
  gps <> [] -> clock <> [] -> chain (fun x y => 0 <= y - x /\ y - x <= 25) clock ->
  usable now gps gs -> chain (fun e e' => (snd e < snd e')%Z /\ ~ off_rate e e') gs ->
  exists s e, find_breaks now gps clock = Some ([s], [e]) /\ s == hd 0 clock /\ e == last clock 0.
Proof.
  intros Ng Nc C U T. apply (usable_iff _ _ _ Ng) in U. unfold find_breaks. rewrite U.
  assert (B : data_breaks clock = []).
  { unfold data_breaks. clear - C. generalize 0%nat. induction clock as [|x [|y l] IH]; intros i; [reflexivity|reflexivity|]. destruct C as [[C1 C2] C]. cbn [diffs map where_].
    assert (E1 : Qltb 25 (y - x) = false) by (apply Qltb_false; exact C2). assert (E2 : Qltb (y - x) 0 = false) by (apply Qltb_false; exact C1).
    rewrite E1, E2. cbn [orb where_]. apply IH. exact C. }
  assert (Gb : gps_breaks (map (fun e => msPPS (fst e)) gs) (map (fun e => inject_Z (snd e)) gs) = []).
  { unfold gps_breaks. clear - T. generalize 0%nat. induction gs as [|e [|e' l] IH]; intros i; [reflexivity|reflexivity|]. destruct T as [[T1 T2] T]. cbn [map diffs combine where_ fst snd].
    destruct (gps_break (msPPS (fst e') - msPPS (fst e)) (inject_Z (snd e') - inject_Z (snd e))) eqn:G; [exfalso; apply T2; apply gps_break_iff; assumption|]. apply IH. exact T. }
  unfold inner_breaks. rewrite B. cbn [without_first without_last existsb data_limits]. rewrite Gb. cbn [gps_loop].
  destruct (amin clock) as [lo|] eqn:Elo; [|apply amin_none in Elo; contradiction]. destruct (amax clock) as [hi|] eqn:Ehi; [|apply amax_none in Ehi; contradiction].
  exists lo, hi. split; [reflexivity|].
  assert (O : forall l x, chain (fun x y => 0 <= y - x /\ y - x <= 25) (x :: l) -> forall u, In u (x :: l) -> x <= u /\ u <= last (x :: l) 0).
  { clear. induction l as [|y l IH]; intros x C u I; [destruct I as [<-|[]]; cbn; lra|]. destruct C as [[C1 C2] C]. specialize (IH y C).
    change (last (x :: y :: l) 0) with (last (y :: l) 0). destruct I as [<-|I]; [pose proof (IH y (or_introl eq_refl)); lra|pose proof (IH u I); lra]. }
  destruct clock as [|x l]; [contradiction|]. specialize (O l x C). cbn [hd]. split.
  - apply amin_in in Elo as X. destruct X as (u & Iu & Eu). pose proof (O u Iu). pose proof (proj2 (amin_iff _ _ Elo x) (ex_intro _ x (conj (or_introl eq_refl) (Qle_refl x)))). lra.
  - apply amax_in in Ehi as X. destruct X as (u & Iu & Eu). pose proof (O u Iu).
    assert (Il : In (last (x :: l) 0) (x :: l)) by (rewrite (app_removelast_last 0 (l := x :: l)) at 2 by discriminate; apply in_or_app; right; left; reflexivity).
    pose proof (proj2 (amax_iff _ _ Ehi (last (x :: l) 0)) (ex_intro _ _ (conj Il (Qle_refl _)))). lra.
Qed.

(** What is returned does not depend on the time at which it is done: at another time the same result
    comes out, or the block is reported as corrupt. *)
Theorem C49_same_at_any_time spline F S now now' (L : joined F hinfo S) a :
  assign_times spline F S now L = inl a -> assign_times spline F S now' L = inl a \/ assign_times spline F S now' L = inr Corrupt_block.
Proof.
  unfold assign_times. destruct (reformat (jgps L)); [|discriminate]. destruct (find_breaks now _ _); [|discriminate].
  destruct (find_breaks now' _ _); [|auto]. auto.
Qed.

(** The table of positions has one row per fix, in order, with its coordinates and time, and with the year and
    the day of the year of that time. *)
Theorem C49_positions gps :
  Forall (fun e : tag => make_gps_time (fst e) = Some (snd e)) gps -> exists ps, reformat gps = Some ps /\ Forall2 located gps ps.
Proof.
  induction gps as [|e gps IH]; intros H; [exists []; split; [reflexivity|constructor]|].
  inversion H as [|? ? He Hr]; subst. destruct (IH Hr) as (ps & Ep & Fp). cbn [reformat]. unfold reformat_one.
  destruct (fields (snd e)) as [tm j] eqn:Ef.
  unfold make_gps_time in He. destruct (int_of (gyear (fst e))) as [y|]; [|discriminate].
  destruct (int_of (gmonth (fst e))) as [mo|]; [|discriminate]. destruct (int_of (gday (fst e))) as [d|]; [|discriminate].
  destruct (int_of (ghour (fst e))) as [h|]; [|discriminate]. destruct (int_of (gminute (fst e))) as [mi|]; [|discriminate].
  destruct (int_of (gsecond (fst e))) as [s|]; [|discriminate].
  pose proof (C48_time_of_fields (mkdt y mo d h mi s) (snd e) He) as T. rewrite Ef in T. cbn [fst] in T. subst tm.
  rewrite Ep. eexists. split; [reflexivity|]. constructor; [|exact Fp].
  unfold located. cbn [p_lat p_lon p_t p_year p_date hour minute second]. repeat (split; [reflexivity|]).
  assert (By : (1 <= y <= 9999)%Z).
  { assert (X : exists_in_calendar (mkdt y mo d h mi s)) by (apply stamp_defined; exists (snd e); exact He). destruct X as (X & _). exact X. }
  destruct (FieldsProofs.fields_spec _ _ _ Ef By) as [St Ej]. cbn [year month day] in Ej.
  apply stamp_inv in St as (Bm & Bd & Bh & Bmi & Bs & Et). cbn [year month day hour minute second] in *.
  unfold utc_timestamp.
  assert (D1 : is_date y 1 1 0 0 0 = true).
  { unfold is_date, in_range. change (days_in_month y 1) with 31%Z. rewrite !andb_true_iff, !Z.leb_le. lia. }
  rewrite D1. eexists. split; [reflexivity|].
  assert (Bj : (1 <= j <= 366)%Z).
  { pose proof (in_year y mo d Bm Bd) as I. rewrite year_step in I. unfold ordinal in I. destruct (is_leap y); lia. }
  assert (Z1 : (snd e = (ordinal y 1 1 - 719163) * 86400 + 0 * 3600 + 0 * 60 + 0 + (j - 1) * 86400 + h * 3600 + mi * 60 + s)%Z).
  { rewrite Et. unfold ordinal. rewrite month_1. lia. }
  set (t0 := ((ordinal y 1 1 - 719163) * 86400 + 0 * 3600 + 0 * 60 + 0)%Z) in *. clearbody t0.
  split.
  - rewrite Z1. unfold Z.sub. rewrite !inject_Z_plus, !inject_Z_mult, inject_Z_plus. change (inject_Z (- (1))) with (-(1)). field.
  - assert (Hf : forall a c k, (a <= k <= c)%Z -> inject_Z a <= inject_Z k /\ inject_Z k <= inject_Z c) by (intros a c k [H1 H2]; rewrite <- !Zle_Qle; auto).
    pose proof (Hf _ _ _ Bj) as Qj. pose proof (Hf _ _ _ Bh) as Qh. pose proof (Hf _ _ _ Bmi) as Qm. pose proof (Hf _ _ _ Bs) as Qs.
    change (inject_Z 1) with 1 in Qj. change (inject_Z 366) with 366 in Qj. change (inject_Z 0) with 0 in *.
    change (inject_Z 23) with 23 in Qh. change (inject_Z 59) with 59 in *.
    assert (E24 : inject_Z h / 24 == inject_Z h * (1 # 24)) by field. assert (E1440 : inject_Z mi / 1440 == inject_Z mi * (1 # 1440)) by field.
    assert (E86400 : inject_Z s / 86400 == inject_Z s * (1 # 86400)) by field. rewrite E24, E1440, E86400.
    split; lra.
Qed.

(** * Examples *)
Definition ex_fix (ms : Q) (t : Z) : tag :=
  let tm := fst (fields t) in
  (mkfix ms (Some 100) (Some (inject_Z (year tm))) (Some (inject_Z (month tm))) (Some (inject_Z (day tm))) (Some (inject_Z (hour tm)))
         (Some (inject_Z (minute tm))) (Some (inject_Z (second tm))) (Some 43) (Some (-116)), t).
Definition late : Q := 2000000000.
Definition ints (l : list Z) : list Q := map inject_Z l.

(** Tags at the right rate, one of them on the equator, and a clock with a jump: times are assigned. *)
Definition ex_gps : list tag :=
  [ex_fix 0 1700000000; ex_fix 1000000 1700001024; (mkfix 2 None None None None None None None (Some 0) (Some 1), 1700001025%Z); ex_fix 2000000 1700002048].
Definition ex_trusted : list tag := [ex_fix 0 1700000000; ex_fix 1000000 1700001024; ex_fix 2000000 1700002048].
Example C49_case :
  usable late ex_gps ex_trusted /\ chain (fun e e' => (snd e < snd e')%Z) ex_trusted /\
  find_breaks late ex_gps (ints [0; 10; 20; 10000; 10010; 50000]%Z) = Some (ints [0; 10000]%Z, ints [10; 10010]%Z) /\
  find_breaks late ex_gps (ints [0; 10; 20; 30; 40; 50]%Z) = Some (ints [0]%Z, ints [50]%Z) /\
  Forall (fun e : tag => make_gps_time (fst e) = Some (snd e)) ex_trusted.
Proof.
  split; [apply usable_iff; [discriminate|vm_compute; reflexivity]|]. split; [cbn; lia|].
  split; [vm_compute; reflexivity|]. split; [vm_compute; reflexivity|]. repeat constructor.
Qed.

(** Both kinds of failure occur: two jumps at the beginning ... *)
Example C49_two_jumps : two_jumps (ints [0; 100; 200; 210; 220]%Z) /\ find_breaks late ex_gps (ints [0; 100; 200; 210; 220]%Z) = None.
Proof. split; [|vm_compute; reflexivity]. exists 0, 100, 200, (ints [210; 220]%Z). repeat split; left; lra. Qed.

(** ... and two tags 1024 s apart, 2 s off, around a jump. *)
Definition ex_off : list tag := [ex_fix 0 1700000000; ex_fix 1002000 1700001024; ex_fix 2002000 1700002048].
Example C49_tags_disagree : usable late ex_off ex_off /\ first_tags_disagree ex_off (ints [0; 10; 1000; 1010; 1020]%Z) /\
  find_breaks late ex_off (ints [0; 10; 1000; 1010; 1020]%Z) = None.
Proof.
  split; [apply usable_iff; [discriminate|vm_compute; reflexivity]|]. split; [|vm_compute; reflexivity].
  exists (ex_fix 0 1700000000), (ex_fix 1002000 1700001024), (ex_fix 2002000 1700002048), [], [], 0, 10, 1000, (ints [1010; 1020]%Z).
  split; [reflexivity|]. split; [left; split; [reflexivity|left; vm_compute; reflexivity]|]. split; [reflexivity|]. split; [discriminate|].
  split; [left; lra|]. split; exists 10; (split; [cbn; auto|vm_compute; discriminate]).
Qed.

(** Tags out of time order can make a block fail although its clock is steady: four fixes with the same second
    at the end of the block. *)
Theorem C49_repeated_tags_refuted : exists gps clock,
  usable late gps gps /\ chain (fun x y => 0 <= y - x /\ y - x <= 25) clock /\ (5 <= length clock)%nat /\
  chain (fun e e' => (snd e <= snd e')%Z) gps /\ find_breaks late gps clock = None.
Proof.
  exists [ex_fix 0 1700000000; ex_fix 1000000 1700001024; ex_fix 1000000 1700001024; ex_fix 1000000 1700001024; ex_fix 1000000 1700001024],
         (ints [0; 10; 20; 30; 40; 50]%Z).
  split; [apply usable_iff; [discriminate|vm_compute; reflexivity]|].
  split; [cbn; repeat split; vm_compute; discriminate|]. split; [cbn; lia|]. split; [cbn; lia|]. vm_compute. reflexivity.
Qed.

(** Whether a block gets times can depend on the date: with the computer's clock behind the recording, the same
    tags are ignored and the block is accepted. *)
Theorem C49_date_refuted : exists gps clock, find_breaks late gps clock = None /\ find_breaks 1600000000 gps clock <> None.
Proof. exists ex_off, (ints [0; 10; 1000; 1010; 1020]%Z). split; vm_compute; [reflexivity|discriminate]. Qed.

(** A block without any fix (allowed if GPS is not required) comes with one: on the equator, on the first of
    January 1970. *)
Theorem C49_invented_fix_refuted : exists p,
  reformat (filled []) = Some [p] /\ p_t p = 0%Z /\ p_lat p = Some 0 /\ p_lon p = Some 0 /\ p_year p = 1970%Z /\
  find_breaks late (filled []) (ints [0; 10; 20; 30; 40]%Z) <> None.
Proof. eexists. split; [vm_compute; reflexivity|]. repeat split. vm_compute. discriminate. Qed.

Print Assumptions C49_fails_iff.
Print Assumptions C49_steady_clock.
Print Assumptions C49_same_at_any_time.
Print Assumptions C49_positions.
Print Assumptions C49_repeated_tags_refuted.
Print Assumptions C49_date_refuted.
Print Assumptions C49_invented_fix_refuted.
Print Assumptions C49_one_stretch.
