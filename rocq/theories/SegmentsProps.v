(** Properties C19 and C46: times of the samples. *)
From Coq Require Import String.
From Coq Require Import ZArith QArith Qabs List Bool Lia Lqa.
From Verif Require Import Lib Base Scan Parser ParserSpec UnwrapSpec UnwrapProofs Process ProcessSpec ReadSeveral ReadSeveralSpec ReadSeveralProofs ParserProps ReadSeveralProps
  Drift DriftSpec DriftProofs DriftProps Segments SegmentsSpec SegmentsProofs.
Import ListNotations.
Open Scope Q_scope.

(** C19.  The time of a clock value is given by the cubic of the last header line whose span contains it,
    and it has no time exactly if no line's span contains it. *)
Theorem C19_time_by_containing_line S (header : list (hrow hinfo S)) x y :
  (exists y', apply_segments header x = Some y' /\ y' == y) <->
  (exists h, last_containing (lines header) x h /\ y == cubic_at (h_fit h) x).
Proof.
  destruct (segments_lines header x) as [[N ->]|(h & Lh & ->)].
  - split; [intros (y' & E & _); discriminate|]. intros (h & Lh & _). apply last_containing_in in Lh as [I C].
    rewrite Forall_forall in N. exfalso. exact (N h I C).
  - split.
    + intros (y' & [= <-] & E). exists h. split; [exact Lh|]. rewrite <- E. apply apply_fit_cubic.
    + intros (h' & Lh' & E). rewrite (last_containing_unique _ _ _ _ Lh' Lh) in E.
      eexists. split; [reflexivity|]. rewrite E. apply apply_fit_cubic.
Qed.

(** The lines of rejected files have no part in this, except for a clock value of exactly 0: any other
    clock value is timed by the last fitted span that contains it, and by no span there is no time. *)
Theorem C19_time_by_containing_span S (header : list (hrow hinfo S)) x y : ~ x == 0 ->
  (exists y', apply_segments header x = Some y' /\ y' == y) <->
  (exists h, last_containing (spans header) x h /\ y == cubic_at (h_fit h) x).
Proof.
  intros X. destruct (segments_cases header x X) as [[N ->]|(h & Lh & ->)].
  - split; [intros (y' & E & _); discriminate|]. intros (h & Lh & _). apply last_containing_in in Lh as [I C].
    rewrite Forall_forall in N. exfalso. exact (N h I C).
  - split.
    + intros (y' & [= <-] & E). exists h. split; [exact Lh|]. rewrite <- E. apply apply_fit_cubic.
    + intros (h' & Lh' & E). rewrite (last_containing_unique _ _ _ _ Lh' Lh) in E.
      eexists. split; [reflexivity|]. rewrite E. apply apply_fit_cubic.
Qed.

Theorem C19_no_time_outside_spans S (header : list (hrow hinfo S)) x : ~ x == 0 ->
  apply_segments header x = None <-> Forall (fun h => ~ contains h x) (spans header).
Proof.
  intros X. destruct (segments_cases header x X) as [[N ->]|(h & Lh & ->)].
  - split; auto.
  - split; [discriminate|]. intros N. apply last_containing_in in Lh as [I C].
    rewrite Forall_forall in N. exfalso. exact (N h I C).
Qed.

(** With fits that rise over their spans, and spans in order on both time axes, times increase. *)
Theorem C19_times_increase S (header : list (hrow hinfo S)) x y s t :
  chain takes_over (spans header) -> Forall (fun h => h_start h <= h_end h) (spans header) -> Forall rises (spans header) ->
  apply_segments header x = Some s -> apply_segments header y = Some t -> ~ x == 0 -> ~ y == 0 -> x < y -> s < t.
Proof.
  intros C W R Ex Ey X Y L.
  destruct (segments_cases header x X) as [[_ E]|(h & Lh & E)]; rewrite E in Ex; [discriminate|]. injection Ex as <-.
  destruct (segments_cases header y Y) as [[_ E']|(h' & Lh' & E')]; rewrite E' in Ey; [discriminate|]. injection Ey as <-.
  rewrite !apply_fit_cubic. exact (containing_ordered _ x y h h' C W R Lh Lh' L).
Qed.

(** Every sample that is read gets a time (any format). *)
Theorem C19_every_sample_timed F S (read_v : F -> string -> Q -> bool -> res tables) fit3 fit1 (sn : F -> option S) version req fns out :
  read_several F hinfo S read_v (fun L _ r => calculate_drift fit3 fit1 L r) sn version req fns = Some out ->
  Forall (fun p => exists t, apply_segments (jheader out) (fst p) = Some t) (jdata out).
Proof.
  intros E. destruct (loop_layout F S read_v sn version req fit3 fit1 False fns (fun f => False_ind _ f) _ _ _ E)
    as (rows & parts & E1 & Ly & E2 & _). cbn [jheader jdata app] in *. rewrite E1, E2.
  apply Forall_forall. intros q I. apply in_concat in I as (D & ID & I). apply in_map_iff in ID as ([L h] & <- & IL). cbn [fst] in I.
  pose proof (layout_parts _ _ _ _ _ _ _ _ Ly) as P. rewrite Forall_forall in P. destruct (P _ IL) as (Dr & N & Ch). cbn [fst snd] in *.
  assert (C : contains h (fst q)) by (eapply own_span; [exact Dr|exact Ch|apply in_map; exact I]).
  destruct (layout_last _ _ _ _ _ _ _ _ Ly L h (fst q) IL C) as (h' & Lh & _).
  destruct (segments_lines rows (fst q)) as [[Nn _]|(k & _ & ->)]; [|eauto].
  exfalso. apply last_containing_in in Lh as [I' C']. rewrite Forall_forall in Nn. exact (Nn h' (span_is_line _ _ I') C').
Qed.

Lemma all_late sc buf0 ear version req fns : rollover_8192 version ->
  (forall fn df, In fn fns -> rows_read sc buf0 fn req df -> begins_well df) ->
  Forall (late_enough (read raw_file (read_raw sc buf0 ear) version req)) fns.
Proof.
  intros V W. apply Forall_forall. intros fn I start L t v l R D.
  rewrite (read_modern _ _ _ _ _ V) in R. apply read_raw_rows in R as [(df & Rd & C) _].
  eapply first_sample; [|exact C|exact (W fn df I Rd)|exact D]. right; left; reflexivity.
Qed.

(** In the 8192 ms formats each sample gets the time that the fit of its own file gives it; only the last
    sample of a file can instead be timed by a later span that begins exactly there. *)
Theorem C19_own_fit S sc buf0 ear fit3 fit1 (sn : raw_file -> option S) version req fns out :
  rollover_8192 version ->
  (forall fn df, In fn fns -> rows_read sc buf0 fn req df -> begins_well df) ->
  read_several raw_file hinfo S (read_raw sc buf0 ear) (fun L _ r => calculate_drift fit3 fit1 L r) sn version req fns = Some out ->
  exists parts : list (tables * hinfo),
    jdata out = concat (map (fun p => data (fst p)) parts) /\
    (length parts + length (jproblems out) = length fns)%nat /\
    forall L h, In (L, h) parts ->
      calculate_drift fit3 fit1 L req = inl h /\
      forall x v, In (x, v) (data L) -> ~ x == 0 -> exists t, apply_segments (jheader out) x = Some t /\
        (t == cubic_at (h_fit h) x \/
         (x == h_end h /\ exists h', In h' (spans (jheader out)) /\ h_start h' == x /\ t == cubic_at (h_fit h') x)).
Proof.
  intros V W E.
  destruct (loop_layout raw_file S _ sn version req fit3 fit1 True fns (fun _ => all_late _ _ ear _ _ _ V W) _ _ _ E)
    as (rows & parts & E1 & Ly & E2 & E3). cbn [jheader jdata jproblems app length] in *. exists parts.
  split; [exact E2|]. split; [lia|]. intros L h I.
  pose proof (layout_parts _ _ _ _ _ _ _ _ Ly) as P. rewrite Forall_forall in P. destruct (P _ I) as (Dr & N & Ch). cbn [fst snd] in *.
  split; [exact Dr|]. intros x v Ix X.
  assert (C : contains h x) by (eapply own_span; [exact Dr|exact Ch|apply (in_map fst _ _ Ix)]).
  destruct (layout_last _ _ _ _ _ _ _ _ Ly L h x I C) as (h' & Lh & D). rewrite E1.
  destruct (segments_cases rows x X) as [[Nn _]|(k & Lk & ->)].
  { exfalso. apply last_containing_in in Lh as [I' C']. rewrite Forall_forall in Nn. exact (Nn h' I' C'). }
  rewrite (last_containing_unique _ _ _ _ Lk Lh). eexists. split; [reflexivity|].
  destruct D as [->|D]; [left; apply apply_fit_cubic|right]. destruct (D Logic.I) as [D1 D2].
  split; [destruct C; lra|]. exists h'. apply last_containing_in in Lh as [I' C']. split; [exact I'|]. split; [exact D2|]. apply apply_fit_cubic.
Qed.

(** A header line left by a rejected file gives the time 0 to the clock value 0, even where a fitted span
    contains it: here the second file is rejected and the first sample of the first is at clock value 0. *)
Theorem C19_zero_clock_refuted :
  exists (read_v : nat -> string -> Q -> bool -> res tables) (sn : nat -> option nat) out h,
    read_several nat hinfo nat read_v (fun L _ r => calculate_drift through3 through L r) sn "0.9" false [1%nat; 2%nat] = Some out /\
    jproblems out = [Failed 2%nat] /\ map fst (jdata out) = [0; 10; 20] /\ spans (jheader out) = [h] /\ contains h 0 /\
    ~ cubic_at (h_fit h) 0 == 0 /\ apply_segments (jheader out) 0 = Some 0.
Proof.
  exists (fun n _ _ _ => if Nat.eqb n 1 then inl (mktab [(0, Some 1); (10, Some 2); (20, Some 3)] [(0, [])]
            [(mkfix 1000 (Some 0) (Some 2021) (Some 1) (Some 1) (Some 0) (Some 0) (Some 0) (Some 43) (Some (-116)), 1609459200%Z)]) else inr OtherExn).
  exists (fun _ => Some 5%nat). eexists. eexists. split; [vm_compute; reflexivity|].
  repeat (split; [vm_compute; reflexivity|]). split; [split; vm_compute; discriminate|]. split; [vm_compute; discriminate|].
  vm_compute. reflexivity.
Qed.

(** No sample is at clock value 0, because the readings in the file are whole numbers of milliseconds and
    the samples are 8.93 ms later. *)
Theorem C19_samples_not_at_zero H S sc buf0 ear (drift : tables -> raw_file -> bool -> H + failure) (sn : raw_file -> option S)
    version req fns out :
  rollover_8192 version ->
  (forall fn df, In fn fns -> rows_read sc buf0 fn req df -> Forall (fun d => exists k : Z, dsaw d == inject_Z k) df) ->
  read_several raw_file H S (read_raw sc buf0 ear) drift sn version req fns = Some out ->
  Forall (fun p => ~ fst p == 0) (jdata out).
Proof.
  intros V W E.
  destruct (C14_contributes_or_is_reported _ _ _ _ _ _ _ _ _ _ E) as (vs & Ef & Hi & E1 & _).
  rewrite E1. clear E E1. rewrite <- Ef in W. clear Ef.
  remember 0 as z eqn:Ez in Hi. clear Ez.
  induction Hi as [start|start fn L h s t rest (C & _) Et Hi IH|start fn m rest R Hi IH].
  - constructor.
  - change (goods ((fn, Good L h s) :: rest)) with ((fn, L, s) :: goods rest). cbn [flat_map fst snd]. apply Forall_app. split.
    2:{ apply IH. intros fn' df I. apply W. right. exact I. }
    assert (X : Forall (fun p => exists k : Z, fst p == inject_Z k + (893 # 100)) (data L)).
    { destruct C as (L0 & t0 & v0 & l0 & R & E0 & D). rewrite (read_modern _ _ _ _ _ V) in R.
      apply read_raw_rows in R as [(df & Rd & Cs) _]. specialize (W fn df (or_introl eq_refl) Rd).
      assert (Y : Forall (fun p => exists k : Z, fst p == inject_Z k + (893 # 100)) (data L0)).
      { destruct Cs as (r & clock & F & Cg & _ & _ & Dt & _). cbv zeta in Dt.
        assert (r = 8192) as ->.
        { destruct F as [[_ F]|[F _]]; [exact F|]. exfalso. destruct F as [F|[F|[]]]; discriminate. }
        clear - Cg Dt W. revert Dt. generalize (data L0).
        assert (Z : Forall (fun p => exists k : Z, fst p == inject_Z k) (of_kind KD (combine clock df))).
        { revert clock Cg. induction W as [|d df (k & Hk) W IH]; intros clock Cg; cbn [map] in Cg; inversion Cg as [|c ? cs ? Hc Cg']; subst; [constructor|].
          cbn [combine]. unfold of_kind. cbn [filter]. destruct Hc as (j & Hj).
          assert (A : exists i : Z, c == inject_Z i).
          { exists (k + 8192 * j)%Z. rewrite Hj, Hk, inject_Z_plus, inject_Z_mult. reflexivity. }
          match goal with |- Forall _ (if ?q then _ else _) => destruct q end; [constructor; [exact A|]|]; exact (IH cs Cg'). }
        intros l Dt. induction Dt as [|p q ps qs Hpq Dt IHd]; [constructor|]. inversion Z as [|? ? (k & Hk) Z']; subst.
        constructor; [exists k; rewrite Hpq, Hk; reflexivity|auto]. }
      destruct D as [[_ ->]|[_ (Ah & _)]]; [exact Y|]. clear - Y Ah. induction Ah as [|p q ps qs [Hq _] Ah IHa]; [constructor|].
      inversion Y as [|? ? (k & Hk) Y']; subst. constructor; [|auto]. exists (k + 8192)%Z. rewrite Hq, Hk, inject_Z_plus.
      change (inject_Z 8192) with 8192. ring. }
    eapply Forall_impl; [|exact X]. cbn. intros p (k & Hk) N. rewrite Hk in N. clear - N.
    unfold Qeq, Qplus, inject_Z in N. cbn in N. lia.
  - apply IH. intros fn' df I. apply W. right. exact I.
Qed.

(** C46.  With GPS required, every contributing file has ten GPS fixes or more whose clock values, where
    they fall inside its samples, are given a time within 0.01 s of the time reported by the GPS. *)
Theorem C46_times_agree_with_gps S sc buf0 ear fit3 fit1 (sn : raw_file -> option S) version fns out :
  rollover_8192 version ->
  (forall fn df, In fn fns -> rows_read sc buf0 fn true df -> begins_well df) ->
  read_several raw_file hinfo S (read_raw sc buf0 ear) (fun L _ r => calculate_drift fit3 fit1 L r) sn version true fns = Some out ->
  exists parts : list (tables * hinfo),
    jdata out = concat (map (fun p => data (fst p)) parts) /\
    (length parts + length (jproblems out) = length fns)%nat /\
    forall L h, In (L, h) parts -> exists kept,
      subsequence kept (fixes L) /\ (10 <= length kept)%nat /\
      forall x gps_time, In (x, gps_time) kept -> ~ x == 0 -> h_start h <= x -> x < h_end h ->
        exists t, apply_segments (jheader out) x = Some t /\ Qabs (gps_time - t) <= 1 # 100.
Proof.
  intros V W E.
  destruct (loop_layout raw_file S _ sn version true fit3 fit1 True fns (fun _ => all_late _ _ ear _ _ _ V W) _ _ _ E)
    as (rows & parts & E1 & Ly & E2 & E3). cbn [jheader jdata jproblems app length] in *. exists parts.
  split; [exact E2|]. split; [lia|]. intros L h I.
  pose proof (layout_parts _ _ _ _ _ _ _ _ Ly) as P. rewrite Forall_forall in P. destruct (P _ I) as (Dr & N & Ch). cbn [fst snd] in *.
  apply C17_accepted_iff in Dr as (_ & _ & _ & _ & kept & (Pr & K10 & Kr & _) & _); [|exact N].
  exists kept. split; [eapply pruned_sub; exact Pr|]. split; [exact K10|]. intros x t Ix X X1 X2.
  assert (C : contains h x) by (split; lra).
  destruct (layout_last _ _ _ _ _ _ _ _ Ly L h x I C) as (h' & Lh & D). rewrite E1.
  destruct (segments_cases rows x X) as [[Nn _]|(k & Lk & ->)].
  { exfalso. apply last_containing_in in Lh as [I' C']. rewrite Forall_forall in Nn. exact (Nn h' I' C'). }
  rewrite (last_containing_unique _ _ _ _ Lk Lh). eexists. split; [reflexivity|].
  destruct D as [->|D]; [|destruct (D Logic.I); lra].
  rewrite Forall_forall in Kr. exact (Kr (x, t) Ix).
Qed.

(** The three files of C14-C16 (one missing), without GPS: every sample is timed by the nominal clock. *)
Example C19_case : exists out,
  read_several raw_file hinfo unit (read_raw dec_scanner [] true) (fun L _ r => calculate_drift through3 through L r) (fun _ => Some tt)
    "1.10" false ex_files = Some out /\
  map (fun p => option_map Qred (apply_segments (jheader out) (fst p))) (jdata out) =
  map (fun t => Some (Qred ((t + (893 # 100)) * (1024 # 1000000))))
    [8000; 8900; 9800; 10400; 11300; 12200; 13100; 14000; 14900; 15800; 16700] /\
  chain takes_over (spans (jheader out)) /\ Forall (fun h => h_start h <= h_end h) (spans (jheader out)) /\ Forall rises (spans (jheader out)).
Proof.
  eexists. split; [vm_compute; reflexivity|]. split; [vm_compute; reflexivity|].
  assert (R : forall h, h_fit h = mkcubic 0 (1024 # 1000000) 0 0 -> rises h).
  { intros h Eh x y _ _ L. rewrite Eh. unfold cubic_at. cbn [c0 c1 c2 c3].
    rewrite !Qmult_0_l. lra. }
  split; [|split; [|repeat constructor; apply R; reflexivity]].
  - split; [|exact I]. split; vm_compute; reflexivity.
  - repeat constructor; vm_compute; discriminate.
Qed.

Example C19_case_whole : forall fn df, In fn ex_files -> rows_read dec_scanner [] fn false df ->
  Forall (fun d => exists k : Z, dsaw d == inject_Z k) df.
Proof. intros f df I R. rewrite (ex_rows f df I R). apply Forall_map, Forall_forall. intros p _. eexists. reflexivity. Qed.

(** A file of 240 s with a fix every 16 s: its samples, and the fourteen fixes, get GPS times. *)
Definition ex_gps_line (k : Z) : bytes :=
  b "G," ++ str_Z (15625 * k mod 8192) ++ b ",0,2021,1,1,0," ++ str_Z (16 * k / 60) ++ b "," ++ str_Z (16 * k mod 60) ++ b ",43,-116".
Definition ex_data_line (j : Z) : bytes := b "D" ++ str_Z (976 * j mod 8192) ++ b ",1".
Definition ex_block (k : Z) : list bytes :=
  map (fun j => ex_data_line (16 * k + j)%Z) [1;2;3;4;5;6;7;8;9;10;11;12;13;14;15;16]%Z ++ [ex_gps_line (k + 1)].
Definition ex_gps_file : raw_file :=
  mkraw (Some (file (ex_data_line 0 :: b "M,0,3.3,20.5,0,0,1,2,3,4,5,6,7" ::
           flat_map ex_block [0;1;2;3;4;5;6;7;8;9;10;11;12;13]%Z ++ [ex_data_line 225]) []))
        (fun _ => inr CorruptRaw) (fun _ => inr CorruptRaw).

Example C46_case : exists out,
  read_several raw_file hinfo unit (read_raw dec_scanner [] true) (fun L _ r => calculate_drift through3 through L r) (fun _ => Some tt)
    "0.9" true [ex_gps_file] = Some out /\
  length (jdata out) = 226%nat /\ jproblems out = [] /\
  map (fun g => option_map Qred (apply_segments (jheader out) (msPPS (fst g)))) (jgps out) =
  map (fun k => Some (inject_Z (1609459200 + 16 * k))) [1;2;3;4;5;6;7;8;9;10;11;12;13;14]%Z.
Proof. eexists. split; [vm_compute; reflexivity|]. split; [vm_compute; reflexivity|]. split; vm_compute; reflexivity. Qed.

Example C46_case_hypotheses df : rows_read dec_scanner [] ex_gps_file true df -> begins_well df.
Proof.
  intros [R|R]; [|discriminate R]. vm_compute in R. injection R as <-.
  exists []. eexists. eexists. split; [reflexivity|]. split; [constructor|]. split; [reflexivity|]. left. reflexivity.
Qed.

Print Assumptions C19_time_by_containing_line.
Print Assumptions C19_time_by_containing_span.
Print Assumptions C19_no_time_outside_spans.
Print Assumptions C19_times_increase.
Print Assumptions C19_every_sample_timed.
Print Assumptions C19_own_fit.
Print Assumptions C19_zero_clock_refuted.
Print Assumptions C19_samples_not_at_zero.
Print Assumptions C46_times_agree_with_gps.
