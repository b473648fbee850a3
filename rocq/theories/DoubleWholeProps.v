(** C78: from raw files to traces in double precision. *)
From Coq Require Import String.
From Coq Require Import ZArith QArith Qabs List Bool Lia Lqa.
From Verif Require Import Lib Base Scan Process ReadSeveral ParserSpec UnwrapSpec UnwrapProofs Drift Segments SegmentsSpec SegmentsProofs InterpSpec InterpProofs Interp
  DoubleSpec DoubleSeveral DoubleSeveralSpec DoubleSeveralProps DoubleTimesSpec DoubleTimes DoubleTimesProofs DoubleTimesProps DoubleInterp DoubleInterpSpec DoubleInterpProps DoubleWholeSpec DoubleWholeProofs RecordingSpec RecordingProofs.
Import ListNotations.
Open Scope Q_scope.

Section Whole.
  Variable rnd cube : Q -> Q.
  Hypothesis N : rounds_to_nearest rnd.
  Hypothesis Pr : respects rnd.
  Hypothesis Cu : cubes cube.
  Variable sc : scanner.
  Variable buf0 : bytes.
  Variable ear : bool.
  Variable S : Type.
  Variables ddrift drift : tables -> raw_file -> bool -> hinfo + failure.
  Variable sn : raw_file -> option S.
  Variable version : string.
  Variable req : bool.
  Variable eps : Q.
  Variable fns : list raw_file.
  Hypothesis Pe : 0 <= eps.
  (** The fits span the samples of their files, and every file has a serial number. *)
  Hypothesis Sd : spans_samples ddrift.
  Hypothesis Se : spans_samples drift.
  Hypothesis Hs : Forall (fun fn => sn fn <> None) fns.
  (** The files, and the run, are as in C77, with fits that agree within [eps] seconds. *)
  Hypothesis Lo : Forall (low_file sc buf0) fns.
  Hypothesis Ca : calm_run raw_file hinfo S (read_raw sc buf0 ear) ddrift drift (alike_fit eps) sn version req 0 [] fns.

  (** The times of all samples, computed in doubles from the files on, are within [eps] and two microseconds of the exact ones; and the samples are the same. *)
  Theorem C78_times : forall y, read_several raw_file hinfo S (read_raw sc buf0 ear) drift sn version req fns = Some y -> forward (map fst (jdata y)) ->
    exists x, dread_several rnd raw_file hinfo S (dread_raw rnd sc buf0 ear) ddrift sn version req fns = Some x /\
      ((forall c v, In (c, v) (jdata x) -> moderate_header (jheader x) c) ->
       Forall2 (fun p q => times_within (eps + (2 # 1000000)) (fst p) (fst q) /\ same_value (snd p) (snd q))
         (dtimed rnd cube (jheader x) (jdata x)) (timed (jheader y) (jdata y))).
  Proof.
    intros y Ey Fw. pose proof (C77_joined rnd sc buf0 ear hinfo S ddrift drift (alike_fit eps) sn version req fns N Pr Lo Ca) as J. rewrite Ey in J.
    destruct (dread_several rnd raw_file hinfo S (dread_raw rnd sc buf0 ear) ddrift sn version req fns) as [x|] eqn:Ex; [|contradiction]. exists x. split; [reflexivity|]. intros M.
    destruct J as (Nd & _ & _ & Al & _). assert (W : Forall (within (jdata y)) (jheader y)) by (apply (loop_within raw_file S (read_raw sc buf0 ear) drift sn version req Se fns Hs 0 (mkj [] [] [] [] [])); [constructor|exact Ey]).
    assert (W' : Forall (within (jdata x)) (jheader x)) by (apply (dloop_within rnd raw_file S (dread_raw rnd sc buf0 ear) ddrift sn version req Sd fns Hs 0 (mkj [] [] [] [] [])); [constructor|exact Ex]).
    pose proof (fun a c => segments_alike S eps _ _ _ _ Nd Fw Al W' W a c) as Sg.
    assert (G : forall p q, In (p, q) (combine (jdata x) (jdata y)) -> In p (jdata x) /\ In (fst p, fst q) (pairs (jdata x) (jdata y))).
    { unfold pairs. clear. generalize (jdata x), (jdata y). induction l as [|a l IH]; intros [|c m] p q I; try contradiction. destruct I as [E|I]; [injection E as -> ->; split; left; reflexivity|].
      destruct (IH m p q I). split; right; assumption. }
    assert (K : Forall2 (fun p q => In (p, q) (combine (jdata x) (jdata y)) /\ same_value (snd p) (snd q)) (jdata x) (jdata y)).
    { clear - Nd. unfold near_data in Nd. induction Nd as [|p q l m [_ V] F IH]; [constructor|]. cbn [combine]. constructor; [split; [left; reflexivity|exact V]|].
      eapply DoubleSeveralLoop.Forall2_weak; [exact IH|]. intros a c [I V']. split; [right; exact I|exact V']. }
    unfold dtimed, timed. eapply DoubleSeveralLoop.Forall2_maps; [exact K|]. intros p q [I V]. cbn [fst snd]. split; [|exact V]. destruct (G p q I) as [Ip Ipq]. specialize (Sg _ _ Ipq Pe).
    assert (Mp : moderate_header (jheader x) (fst p)) by (apply (M (fst p) (snd p)); destruct p; exact Ip). pose proof (C76_times rnd cube S (jheader x) (fst p) N Cu Mp) as T.
    unfold close_time, times_within in *. destruct (dapply_segments rnd cube (jheader x) (fst p)) as [a|], (apply_segments (jheader x) (fst p)) as [c|], (apply_segments (jheader y) (fst q)) as [e|]; try contradiction; [|exact Logic.I].
    apply Qabs_Qle_condition in Sg as [G1 G2], T as [T1 T2]. apply Qabs_Qle_condition. split; lra.
  Qed.

  (** From raw files to traces, all in doubles: the samples with a time are those of exact arithmetic, at times within [eps] and two microseconds,
      and they are resampled as in C75. *)
  Theorem C78_traces : forall spline y exact, eps <= 1 -> read_several raw_file hinfo S (read_raw sc buf0 ear) drift sn version req fns = Some y -> forward (map fst (jdata y)) ->
    points (timed (jheader y) (jdata y)) exact -> Forall (fun p => 1073741826 <= fst p <= 2999999998) exact ->
    exists x, dread_several rnd raw_file hinfo S (dread_raw rnd sc buf0 ear) ddrift sn version req fns = Some x /\
      ((forall c v, In (c, v) (jdata x) -> moderate_header (jheader x) c) ->
       exists pts, Forall2 (fun p q => Qabs (fst p - fst q) <= eps + (2 # 1000000) /\ same_value (snd p) (snd q)) pts exact /\
         match dinterp rnd spline (dtimed rnd cube (jheader x) (jdata x)) with
         | Some trs => pts <> [] /\ exists runs, runs_of (map fst pts) runs /\ dresampled spline pts runs trs
         | None => pts = [] \/ exists runs, runs_of (map fst pts) runs /\ Exists (roughly_too_short spline pts) runs
         end).
  Proof.
    intros spline y exact_ E1 Ey Fw P R. destruct (C78_times y Ey Fw) as (x & Ex & T). exists x. split; [exact Ex|]. intros M. specialize (T M). rewrite (points_unique _ _ P) in *. clear exact_ P.
    exists (timed_points (dtimed rnd cube (jheader x) (jdata x))).
    assert (Tp : Forall2 (fun p q => Qabs (fst p - fst q) <= eps + (2 # 1000000) /\ same_value (snd p) (snd q)) (timed_points (dtimed rnd cube (jheader x) (jdata x))) (timed_points (timed (jheader y) (jdata y)))).
    { clear - T. unfold timed_points. induction T as [|p q l m [A V] F IH]; [constructor|]. cbn [flat_map]. destruct p as [[a|] v], q as [[c|] w]; cbn [fst snd times_within] in A, V; try contradiction; [|exact IH].
      cbn [app]. constructor; [split; assumption|exact IH]. }
    split; [exact Tp|].
    assert (I : forall t v, In (Some t, v) (dtimed rnd cube (jheader x) (jdata x)) -> instant t).
    { intros t v I. assert (Ip : In (t, v) (timed_points (dtimed rnd cube (jheader x) (jdata x)))) by (unfold timed_points; apply in_flat_map; exists (Some t, v); split; [exact I|left; reflexivity]).
      assert (B : 1073741824 <= t <= 3000000000).
      { clear - Tp Ip R E1. revert R. induction Tp as [|p q l m [A _] F IH]; intros R; [contradiction|]. apply Forall_cons_iff in R as [R1 R2]. destruct Ip as [->|Ip]; [|exact (IH Ip R2)].
        cbn [fst] in A. apply Qabs_Qle_condition in A as [A1 A2]. lra. }
      unfold dtimed in I. apply in_map_iff in I as ((c & v') & E & I). cbn [fst snd] in E. injection E as E _.
      destruct (segments_close rnd cube N Cu (jheader x) c (M c v' I)) as [_ D]. split; [exact (D t E)|]. change (inject_Z (2 ^ 30)) with 1073741824. lra. }
    pose proof (C75_resampling rnd spline (dtimed rnd cube (jheader x) (jdata x)) N I) as Q. destruct (dinterp rnd spline (dtimed rnd cube (jheader x) (jdata x))) as [trs|].
    - destruct Q as (pts & runs & P & Ne & Ru & Q). rewrite (points_unique _ _ P) in *. split; [exact Ne|]. exists runs. auto.
    - destruct Q as [P|(pts & runs & P & Ru & Q)].
      + left. rewrite <- (points_unique _ _ P). reflexivity.
      + right. rewrite (points_unique _ _ P) in *. exists runs. auto.
  Qed.
End Whole.

Lemma last_in (l : list Q) : l <> [] -> In (last l 0) l.
Proof. intros M. destruct (exists_last M) as (m & a & E). rewrite E, last_last. apply in_or_app. right. left. reflexivity. Qed.
(** The fit of the program spans the samples of its file. *)
Theorem C78_fit_spans : forall fit3 fit1, spans_samples (fun (L : tables) (_ : raw_file) r => calculate_drift fit3 fit1 L r).
Proof.
  intros fit3 fit1 L fn r h Ne E. apply drift_describes in E as (E1 & E2 & _). rewrite E1, E2. assert (M : map fst (data L) <> []) by (destruct (data L); [congruence|discriminate]).
  split; [destruct (map fst (data L)); [congruence|left; reflexivity]|]. exact (last_in _ M).
Qed.

(** What was recorded comes out at its true time, in doubles: if the files are recordings whose GPS fixes are exact, and joining them gives no
    problem, then each recorded sample gets, in doubles, its value and a time within [eps] and two microseconds of the true one. *)
Theorem C78_true_times : forall rnd cube sc buf0 ear (S : Type) ddrift fit3 fit1 (sn : raw_file -> option S) eps fns (evs : raw_file -> list event) tau y,
  rounds_to_nearest rnd -> respects rnd -> cubes cube -> reads_decimal sc -> fits_cubics fit3 -> 0 <= eps -> spans_samples ddrift ->
  Forall (fun f => sn f <> None /\ recorded_file f (tau f) (evs f) /\ whole_events (evs f) /\
    (forall req df, f_pandas f req = inl df -> low_table df) /\ (forall req df, f_pandas08 f req = inl df -> low_table df)) fns ->
  chain (fun f g => apart (evs f) (evs g)) fns ->
  calm_run raw_file hinfo S (read_raw sc buf0 ear) ddrift (fun L _ r => calculate_drift fit3 fit1 L r) (alike_fit eps) sn "0.9" true 0 [] fns ->
  read_several raw_file hinfo S (read_raw sc buf0 ear) (fun L _ r => calculate_drift fit3 fit1 L r) sn "0.9" true fns = Some y -> jproblems y = [] ->
  forward (map fst (jdata y)) ->
  exists x, dread_several rnd raw_file hinfo S (dread_raw rnd sc buf0 ear) ddrift sn "0.9" true fns = Some x /\ jproblems x = [] /\
    ((forall c v, In (c, v) (jdata x) -> moderate_header (jheader x) c) ->
     Forall2 (fun p w => exists t v, p = (Some t, Some v) /\ Qabs (t - fst w) <= eps + (2 # 1000000) /\ v == inject_Z (snd w))
       (dtimed rnd cube (jheader x) (jdata x)) (flat_map (fun f => waveform (tau f) 0 (evs f)) fns)).
Proof.
  intros rnd cube sc buf0 ear S ddrift fit3 fit1 sn eps fns evs tau y N Pr Cu Sc Fc Pe Sd Fr Ap Ca Ey Py Fw.
  assert (Lo : Forall (low_file sc buf0) fns).
  { eapply Forall_impl; [|exact Fr]. intros f (_ & (bs & E & Rt & _) & We & P1 & P2). exact (C77_recorded_files sc buf0 f (evs f) bs Sc E Rt We P1 P2). }
  assert (Hs : Forall (fun fn => sn fn <> None) fns) by (eapply Forall_impl; [|exact Fr]; intros f (A & _); exact A).
  assert (Ir : Forall (is_recording raw_file (fun f => f) evs tau) fns) by (eapply Forall_impl; [|exact Fr]; intros f (_ & A & _); exact A).
  destruct (C78_times rnd cube N Pr Cu sc buf0 ear S ddrift _ sn "0.9" true eps fns Pe Sd (C78_fit_spans fit3 fit1) Hs Lo Ca y Ey Fw) as (x & Ex & T). exists x. split; [exact Ex|].
  pose proof (C77_joined rnd sc buf0 ear hinfo S ddrift _ (alike_fit eps) sn "0.9" true fns N Pr Lo Ca) as J. rewrite Ey, Ex in J. destruct J as (_ & _ & _ & _ & Pb). split; [rewrite Pb; exact Py|].
  intros M. specialize (T M).
  destruct (loop_laid raw_file S sc buf0 ear (fun f => f) sn fit3 fit1 evs tau Sc fns Ir 0 (mkj [] [] [] [] []) y Ey Py) as (parts & La & E1 & E2 & _). cbn [jheader jdata lines map app] in E1, E2.
  pose proof (laid_times raw_file (fun f => f) fit3 fit1 evs tau 0 fns parts Fc La Ir Ap []) as Lt. cbn [app] in Lt. rewrite <- E2, <- E1 in Lt.
  clear - T Lt. unfold dtimed, timed in *. revert T. generalize (map (fun p => (dapply_segments rnd cube (jheader x) (fst p), snd p)) (jdata x)).
  induction Lt as [|w p l m ((h & Lc & Hh) & v & Hv & Ev) Lt IH]; intros D T; cbn [map] in T; inversion T as [|q ? D' ? [Tq Vq] T']; subst; constructor; [|apply IH; exact T'].
  cbn [fst snd] in Tq, Vq. destruct (segments_lines (jheader y) (fst p)) as [[Nc _]|(h' & Lc' & Eh)].
  - exfalso. apply last_containing_in in Lc as [I C]. rewrite Forall_forall in Nc. exact (Nc h I C).
  - rewrite Eh in Tq. rewrite (last_containing_unique _ _ _ _ Lc' Lc) in Tq. rewrite Hv in Vq. destruct q as [[t|] [u|]]; cbn [fst snd times_within same_value] in Tq, Vq; try contradiction.
    exists t, u. split; [reflexivity|]. split; [rewrite <- Hh, <- apply_fit_cubic; exact Tq|]. rewrite Vq. exact Ev.
Qed.

(** A concrete case: the three files of C77, with a clock that shows milliseconds since 2020-09-13. *)
Definition clock_fit (t : tables) (fn : raw_file) (r : bool) : hinfo + failure :=
  match data t with [] => inr InadequateGPS | p :: _ => inl (mkhi (fst p) (last (map fst (data t)) 0) (mkcubic 1600000000 (1 # 1000) 0 0) 0%nat 0%nat (Some 0)) end.
Lemma clock_spans : spans_samples clock_fit.
Proof.
  intros L fn r h Ne E. unfold clock_fit in E. destruct (data L) as [|p l] eqn:Ed; [congruence|]. injection E as <-. cbn [h_start h_end]. split; [left; reflexivity|].
  exact (last_in (map fst (p :: l)) ltac:(discriminate)).
Qed.
Lemma last_near l m : near_data DoubleSeveralSpec.tiny l m -> Qabs (last (map fst l) 0 - last (map fst m) 0) <= DoubleSeveralSpec.tiny.
Proof.
  unfold near_data. induction 1 as [|p q l m [A _] F IH]; [apply Qle_bool_iff; reflexivity|]. destruct F as [|p' q' l m B F]; [exact A|exact IH].
Qed.
Lemma clock_alike t u fn r : near_tables DoubleSeveralSpec.tiny t u -> match clock_fit t fn r, clock_fit u fn r with inl h', inl h => alike_fit (1 # 100000000) h' h | inr f', inr f => f' = f | _, _ => False end.
Proof.
  intros (D & _). pose proof (last_near _ _ D) as La. unfold clock_fit. destruct D as [|p q l m [A _] _]; [reflexivity|]. split; [exact A|]. split; [exact La|].
  intros x' x _ X. cbn [h_fit]. unfold cubic_at, DoubleSeveralSpec.tiny in *. cbn [c0 c1 c2 c3]. apply Qabs_Qle_condition in X as [X1 X2].
  setoid_replace (1600000000 + (1 # 1000) * x' + 0 * x' ^ 2 + 0 * x' ^ 3 - (1600000000 + (1 # 1000) * x + 0 * x ^ 2 + 0 * x ^ 3)) with ((1 # 1000) * (x' - x)) by ring.
  apply Qabs_Qle_condition. split; lra.
Qed.
Lemma ex_calm_fit : calm_runb hinfo clock_fit 0 [] ReadSeveralProps.ex_files = true.
Proof. vm_compute. reflexivity. Qed.
Fixpoint sepb (l : list Q) : bool := match l with x :: ((y :: _) as r) => Qle_bool (x + (1 # 1000)) y && sepb r | _ => true end.
Definition forwardb (l : list Q) : bool := sepb l && forallb (fun x => Qltb (1 # 1000) x) l.
Lemma forwardb_forward l : forwardb l = true -> forward l.
Proof.
  unfold forwardb. intros H. apply andb_true_iff in H as [A B]. split.
  - clear B. induction l as [|x l IH]; [exact Logic.I|]. destruct l as [|y l]; [exact Logic.I|]. change (Qle_bool (x + (1 # 1000)) y && sepb (y :: l) = true) in A. apply andb_true_iff in A as [A1 A2].
    split; [apply Qle_bool_iff; exact A1|exact (IH A2)].
  - apply Forall_forall. intros x I. rewrite forallb_forall in B. apply Qltb_lt. exact (B x I).
Qed.
Definition moderateb (p : cubic) (x : Q) : bool :=
  Qle_bool 0 (c0 p) && Qle_bool (c0 p) 3000000000 && Qle_bool (Qabs x) 4294967296 && Qle_bool (Qabs (c1 p * x)) 8000000 && Qle_bool (Qabs (c2 p)) 1 && Qle_bool (Qabs (c2 p * x ^ 2)) 1000 && Qle_bool (Qabs (c3 p * x ^ 3)) 1000.
Lemma moderateb_ok p x : moderateb p x = true -> moderate p x.
Proof. unfold moderateb, moderate. rewrite !andb_true_iff, !Qle_bool_iff. tauto. Qed.
Notation exact_run := (read_several raw_file hinfo unit rd clock_fit (fun _ => Some tt) "1.10" false ReadSeveralProps.ex_files).
Notation double_run := (dread_several DoubleRound.round64 raw_file hinfo unit (dread_raw DoubleRound.round64 dec_scanner [] true) clock_fit (fun _ => Some tt) "1.10" false ReadSeveralProps.ex_files).
Lemma ex_runs : match double_run, exact_run with
  | Some x, Some y => (forwardb (map fst (jdata y)) && forallb (fun p => forallb (fun h => moderateb (h_fit h) (fst p)) (lines (jheader x))) (jdata x) &&
      (length (timed_points (timed (jheader y) (jdata y))) =? 11)%nat && forallb (fun p => Qle_bool 1073741826 (fst p) && Qle_bool (fst p) 2999999998) (timed_points (timed (jheader y) (jdata y))))%bool = true
  | _, _ => False
  end.
Proof. vm_compute. reflexivity. Qed.
Example C78_case : spans_samples clock_fit /\ Forall (low_file dec_scanner []) ReadSeveralProps.ex_files /\
  calm_run raw_file hinfo unit rd clock_fit clock_fit (alike_fit (1 # 100000000)) (fun _ => Some tt) "1.10" false 0 [] ReadSeveralProps.ex_files /\
  exists x y, double_run = Some x /\ exact_run = Some y /\ forward (map fst (jdata y)) /\ (forall c v, In (c, v) (jdata x) -> moderate_header (jheader x) c) /\
    exists exact, points (timed (jheader y) (jdata y)) exact /\ length exact = 11%nat /\ Forall (fun p => 1073741826 <= fst p <= 2999999998) exact.
Proof.
  split; [exact clock_spans|]. split; [exact (proj1 (proj2 (proj2 C77_case)))|]. split; [exact (calm_runb_run hinfo clock_fit _ clock_alike _ 0 [] ex_calm_fit)|].
  pose proof ex_runs as K. destruct double_run as [x|]; [|contradiction]. destruct exact_run as [y|]; [|contradiction]. exists x, y. split; [reflexivity|]. split; [reflexivity|].
  apply andb_true_iff in K as [K K4]. apply andb_true_iff in K as [K K3]. apply andb_true_iff in K as [K1 K2]. split; [apply forwardb_forward; exact K1|]. split.
  - intros c v I h J _. rewrite forallb_forall in K2. pose proof (K2 _ I) as K. rewrite forallb_forall in K. apply moderateb_ok. exact (K h J).
  - exists (timed_points (timed (jheader y) (jdata y))). split; [apply timed_points_points|]. split; [apply Nat.eqb_eq; exact K3|]. apply Forall_forall. intros p I. rewrite forallb_forall in K4.
    specialize (K4 p I). apply andb_true_iff in K4 as [A B]. split; apply Qle_bool_iff; assumption.
Qed.
Print Assumptions C78_times.
Print Assumptions C78_traces.
Print Assumptions C78_fit_spans.
Print Assumptions C78_true_times.
