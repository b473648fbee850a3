(** C77: joining several files in double precision. *)
From Coq Require Import String.
From Coq Require Import ZArith QArith Qabs Qround Qpower List Bool Lia Lqa.
From Verif Require Import Lib Base Scan Parser ParserSpec Unwrap UnwrapProofs Process ReadSeveral ReadSeveralProps UnwrapSpec InterpProofs DoubleSpec Double DoubleProofs DoubleRound DoubleProps DoubleSeveral DoubleSeveralSpec DoubleSeveralProofs DoubleSeveralLoop RecordingSpec RecordingProofs RecordingCase.
Import ListNotations.
Open Scope Q_scope.

(** Reading and joining the files of a station in doubles: an interrupt stops it exactly if it stops the exact reading; otherwise the same files
    are rejected, for the same reasons, the samples, the metadata and the fixes are the same, and the clock values are within 10 nanoseconds of
    the exact ones, however many files there are (the error does not grow from file to file). *)
Theorem C77_joined : forall rnd sc buf0 ear H S ddrift drift alike (sn : raw_file -> option S) version req fns,
  rounds_to_nearest rnd -> respects rnd -> Forall (low_file sc buf0) fns ->
  calm_run raw_file H S (read_raw sc buf0 ear) ddrift drift alike sn version req 0 [] fns ->
  match dread_several rnd raw_file H S (dread_raw rnd sc buf0 ear) ddrift sn version req fns, read_several raw_file H S (read_raw sc buf0 ear) drift sn version req fns with
  | Some x, Some y => near_joined alike x y
  | None, None => True
  | _, _ => False
  end.
Proof.
  intros rnd sc buf0 ear H S ddrift drift alike sn version req fns N Pr L C. apply (several_alike rnd N Pr) with (alike := alike) (good := low_file sc buf0); [|exact L|exact C].
  intros fn v s' s r G St. apply (read_raw_on rnd N Pr); assumption.
Qed.

(** The files that loggers write are such files (when the reserve reader refuses them, or reads whole numbers). *)
Theorem C77_recorded_files : forall sc buf0 f evs bs, reads_decimal sc -> f_content f = Some bs -> raw_text evs bs -> whole_events evs ->
  (forall req df, f_pandas f req = inl df -> low_table df) -> (forall req df, f_pandas08 f req = inl df -> low_table df) -> low_file sc buf0 f.
Proof.
  intros sc buf0 f evs bs Sc Ec Rt W P1 P2. split; [|split; assumption]. intros bs' n rows E P. assert (bs' = bs) as -> by congruence. clear E.
  destruct (raw_rows sc buf0 evs bs Sc Rt) as (rows' & P' & Lg & _ & _).
  assert (rows = rows') as ->.
  { unfold parse_gemfile in P. destruct (_ <=? n)%Z; [|discriminate]. injection P as <-. unfold parse_retry, parse_gemfile in P'.
    destruct (_ <=? 1560000)%Z; [injection P' as <-; reflexivity|]. destruct (_ <=? _)%Z; [injection P' as <-; reflexivity|discriminate]. }
  clear P P' Rt Ec P1 P2. unfold whole_events in W. induction Lg as [|e r evs rows (Hk & (R1 & R2 & k & R3) & Hv) Lg IH]; constructor; [|apply IH; inversion W; assumption].
  apply Forall_inv in W as [(z & Ez) Wd]. assert (Em : rmillis r == inject_Z (z - 8192 * k)) by (unfold Zminus; rewrite inject_Z_plus, inject_Z_opp; lra).
  assert (Bm : (Z.abs (z - 8192 * k) <= 8192)%Z).
  { rewrite Em in R1, R2. change 0 with (inject_Z 0) in R1. change 8192 with (inject_Z 8192) in R2. rewrite <- Zle_Qle in R1. rewrite <- Zlt_Qlt in R2. lia. }
  split; [split|].
  - exists (z - 8192 * k)%Z. split; [exact Em|lia].
  - intros Kd. change (dkind (drow_of r)) with (rkind r) in Kd. rewrite Kd in Hk. destruct e as [c d|c t|c|c]; try discriminate. destruct Hv as (v & Ev & E).
    change (dcells (drow_of r)) with (map Num (rvals r)). rewrite Ev. constructor; [|constructor]. intros x X. injection X as <-. exists d. split; [exact E|exact Wd].
  - exists (z - 8192 * k)%Z. split; [exact Em|lia].
Qed.

Lemma exponent_same x y : x == y -> ~ x == 0 -> exponent x = exponent y.
Proof.
  intros E Nx. assert (Ny : ~ y == 0) by (rewrite <- E; exact Nx). pose proof (exponent_spec x Nx) as [L U]. pose proof (exponent_spec y Ny) as [L' U']. assert (Ea : Qabs x == Qabs y) by (rewrite E; reflexivity).
  assert (A : (exponent x - 1 < exponent y)%Z) by (apply two_lt_inv; lra). assert (B : (exponent y - 1 < exponent x)%Z) by (apply two_lt_inv; lra). lia.
Qed.
(** Rounding to nearest with ties to even is a function of the number. *)
Theorem C77_rounding_respects : respects round64.
Proof.
  intros x y E. unfold round64. destruct (Qeq_bool x 0) eqn:Ex.
  - apply Qeq_bool_iff in Ex. assert (Ey : Qeq_bool y 0 = true) by (apply Qeq_bool_iff; rewrite <- E; exact Ex). rewrite Ey. reflexivity.
  - assert (Nx : ~ x == 0) by (intros X; apply Qeq_bool_iff in X; congruence).
    assert (Ey : Qeq_bool y 0 = false) by (destruct (Qeq_bool y 0) eqn:Q0; [apply Qeq_bool_iff in Q0; exfalso; apply Nx; rewrite E; exact Q0|reflexivity]). rewrite Ey.
    rewrite (exponent_same x y E Nx). cbv zeta. set (k := 2 ^ Z.max (-1074) (exponent y - 53)). assert (X : np_round (x / k) = np_round (y / k)) by (rewrite E; reflexivity). rewrite X. reflexivity.
Qed.

(** Without the condition on seconds: samples at 16 and 1016 ms are exactly a second apart, which is continuous, but their corrected times
    (24.93 and 1024.93 ms) differ by more than that in doubles. *)
Theorem C77_second_refuted : discontinuous [16 + (893 # 100); 1016 + (893 # 100)] = false /\
  ddiscontinuous round64 [round64 (16 + round64 (893 # 100)); round64 (1016 + round64 (893 # 100))] = true.
Proof. split; vm_compute; reflexivity. Qed.

(** A concrete case: the three files of C14 (one missing, two rollovers), with a fit that returns the first clock value. *)
Definition first_clock (t : tables) (fn : raw_file) (r : bool) : Q + failure := match data t with [] => inr InadequateGPS | p :: _ => inl (fst p) end.
Definition within_tiny (x y : Q) : Prop := Qabs (x - y) <= tiny.
Fixpoint no_secondb (l : list Q) : bool := match l with x :: ((y :: _) as r) => negb (Qeq_bool (y - x) 1000) && no_secondb r | _ => true end.
Definition calmb (start : Q) (L : tables) : bool :=
  forallb (fun p => Qle_bool (Qabs (fst p)) (inject_Z (2 ^ 32))) (data L) && forallb (fun p => Qle_bool (Qabs (fst p)) (inject_Z (2 ^ 32))) (metadata L) &&
  forallb (fun g => Qle_bool (Qabs (msPPS (fst g))) (inject_Z (2 ^ 32))) (gps L) && match data L with p :: _ => negb (Qeq_bool (fst p) start) | [] => true end && no_secondb (map fst (data L)).
Lemma first_alike t u fn r : near_tables tiny t u ->
  match first_clock t fn r, first_clock u fn r with inl h', inl h => within_tiny h' h | inr f', inr f => f' = f | _, _ => False end.
Proof. intros (D & _). unfold first_clock. destruct D as [|p q l m [A _] _]; [reflexivity|exact A]. Qed.
Definition rd : raw_file -> string -> Q -> bool -> res tables := read_raw dec_scanner [] true.
Section Calm.
  Variable H : Type.
  Variable drift : tables -> raw_file -> bool -> H + failure.
  Variable alike : H -> H -> Prop.
  Hypothesis A : forall t u fn r, near_tables tiny t u -> match drift t fn r, drift u fn r with inl h', inl h => alike h' h | inr f', inr f => f' = f | _, _ => False end.
  Lemma calmb_calm start fn L : calmb start L = true -> calm raw_file H drift drift alike false start fn L.
  Proof.
    unfold calmb. rewrite !andb_true_iff, !forallb_forall. intros ((((B1 & B2) & B3) & D) & E).
    split; [apply Forall_forall; intros p I; apply Qle_bool_iff; exact (B1 p I)|]. split; [apply Forall_forall; intros p I; apply Qle_bool_iff; exact (B2 p I)|].
    split; [apply Forall_forall; intros p I; apply Qle_bool_iff; exact (B3 p I)|]. split; [|split].
    - intros p Hp X. destruct (data L) as [|q l]; [discriminate|]. injection Hp as ->. apply Qeq_bool_iff in X. rewrite X in D. discriminate.
    - clear - E. induction (map fst (data L)) as [|x l IH]; [exact Logic.I|]. destruct l as [|y l]; [exact Logic.I|].
      change (negb (Qeq_bool (y - x) 1000) && no_secondb (y :: l) = true) in E. apply andb_true_iff in E as [E1 E2]. split; [|exact (IH E2)].
      intros X. apply Qeq_bool_iff in X. rewrite X in E1. discriminate.
    - intros u t _ Nt. apply A. exact Nt.
  Qed.
  Fixpoint calm_runb (start : Q) (acc : list (Q * option Q)) (fns : list raw_file) : bool :=
    match fns with
    | [] => true
    | fn :: rest =>
        match read raw_file rd "1.10" false fn start with inl L => calmb start L | inr _ => true end &&
        match snd (one_file raw_file H unit rd drift (fun _ => Some tt) "1.10" false fn start) with
        | inl L => calm_runb (last_of start (acc ++ data L)) (acc ++ data L) rest
        | inr _ => calm_runb start acc rest
        end
    end.
  Lemma calm_runb_run fns : forall start acc, calm_runb start acc fns = true ->
    calm_run raw_file H unit rd drift drift alike (fun _ => Some tt) "1.10" false start acc fns.
  Proof.
    induction fns as [|fn fns IH]; intros start acc E; [exact Logic.I|]. cbn [calm_runb calm_run] in *. apply andb_true_iff in E as [E1 E2]. split.
    - intros L E. rewrite E in E1. exact (calmb_calm start fn L E1).
    - destruct (snd (one_file _ _ _ _ _ _ _ _ fn start)); apply IH; exact E2.
  Qed.
End Calm.
Definition low_rowb (d : drow) : bool := whole_rowb d && wholeb (2 ^ 20) (dsaw d).
Lemma low_rowb_row d : low_rowb d = true -> low_row d.
Proof. unfold low_rowb. intros H. apply andb_true_iff in H as [A B]. split; [apply whole_rowb_row; exact A|apply wholeb_whole; exact B]. Qed.
Lemma ex_low rec : forallb (fun r => low_rowb (drow_of r)) (run dec_scanner (init []) (chunks (file (map ex_line rec) []))) = true -> low_file dec_scanner [] (ex_file rec).
Proof.
  intros K. split; [|split; intros r df E; discriminate]. intros bs n rows E P. injection E as E. rewrite <- E in P. unfold parse_gemfile in P. destruct (_ <=? n)%Z; [|discriminate]. apply some_same in P. rewrite <- P.
  apply Forall_forall. intros r I. apply low_rowb_row. rewrite forallb_forall in K. exact (K r I).
Qed.
Lemma ex_low1 : forallb (fun r => low_rowb (drow_of r)) (run dec_scanner (init []) (chunks (file (map ex_line ex_rec1) []))) = true.
Proof. vm_compute. reflexivity. Qed.
Lemma ex_low3 : forallb (fun r => low_rowb (drow_of r)) (run dec_scanner (init []) (chunks (file (map ex_line ex_rec3) []))) = true.
Proof. vm_compute. reflexivity. Qed.
Lemma ex_calm : calm_runb Q first_clock 0 [] ex_files = true.
Proof. vm_compute. reflexivity. Qed.
Definition differ (x y : list (Q * option Q)) : bool := forallb (fun pq => negb (Qeq_bool (fst (fst pq)) (fst (snd pq)))) (combine x y).
Lemma ex_joined : match dread_several round64 raw_file Q unit (dread_raw round64 dec_scanner [] true) first_clock (fun _ => Some tt) "1.10" false ex_files, read_several raw_file Q unit rd first_clock (fun _ => Some tt) "1.10" false ex_files with
  | Some x, Some y => (length (jdata x) =? 11)%nat && (length (jproblems y) =? 1)%nat && differ (jdata x) (jdata y) = true
  | _, _ => False
  end.
Proof. vm_compute. reflexivity. Qed.
Example C77_case : rounds_to_nearest round64 /\ respects round64 /\ Forall (low_file dec_scanner []) ex_files /\
  calm_run raw_file Q unit rd first_clock first_clock within_tiny (fun _ => Some tt) "1.10" false 0 [] ex_files /\
  match dread_several round64 raw_file Q unit (dread_raw round64 dec_scanner [] true) first_clock (fun _ => Some tt) "1.10" false ex_files, read_several raw_file Q unit rd first_clock (fun _ => Some tt) "1.10" false ex_files with
  | Some x, Some y => (length (jdata x) =? 11)%nat && (length (jproblems y) =? 1)%nat && differ (jdata x) (jdata y) = true
  | _, _ => False
  end.
Proof.
  split; [exact round64_nearest|]. split; [exact C77_rounding_respects|]. split; [|split; [exact (calm_runb_run Q first_clock within_tiny first_alike ex_files 0 [] ex_calm)|exact ex_joined]].
  constructor; [exact (ex_low ex_rec1 ex_low1)|]. constructor; [|constructor; [exact (ex_low ex_rec3 ex_low3)|constructor]].
  split; [intros bs n rows E; discriminate|split; intros r df E; discriminate].
Qed.
Definition whole_eventb (e : event) : bool := Qeq_bool (reading e) (inject_Z (Qfloor (reading e))) && match e with Sample _ d => (Z.abs d <=? 2 ^ 26)%Z | _ => true end.
Definition ww_events : list event := [Health 9000; Sample 9010 3; Fix 9020 1609459209; Sample 9030 (-2)].
Definition ww_records : list record :=
  [Full_M [FDec (dlit 808 None); FDec (dlit 3 (Some [3%Z])); FDec (dlit 20 (Some [5%Z])); FDec (dlit 0 None); FDec (dlit 0 None);
          FInt (lit 1); FInt (lit 2); FInt (lit 3); FInt (lit 4); FInt (lit 5); FInt (lit 6); FInt (lit 7)] [];
   Full_D (dlit 818 None) (lit 3) [];
   Full_G [FDec (dlit 828 None); FDec (dlit 0 None); FInt (lit 2021); FInt (lit 1); FInt (lit 1); FInt (lit 0); FInt (lit 0); FDec (dlit 9 None); FDec (dlit 43 (Some [5%Z])); FDec (dlit 116 None)] [];
   Compact2 10 (-2) []].
Lemma ww_written : raw_text ww_events (file (map record_text ww_records) []).
Proof.
  exists ww_records, (Other []). split; [reflexivity|]. assert (A : forallb (fun r => record_okb r && line_okb (record_text r)) ww_records = true) by (vm_compute; reflexivity).
  rewrite forallb_forall in A. split; [|split; [|split]].
  - apply Forall_app. split; [|repeat constructor]. apply Forall_forall. intros r Hr. apply A in Hr. apply andb_true_iff in Hr as [Hr _]. apply record_okb_ok. exact Hr.
  - apply Forall_app. split; [|constructor; [|constructor]]. { apply Forall_forall. intros r Hr. apply A in Hr. apply andb_true_iff in Hr as [_ Hr]. apply line_okb_ok. exact Hr. }
    apply line_okb_ok. reflexivity.
  - apply writesb_ok. vm_compute. reflexivity.
  - apply Z.leb_le. vm_compute. reflexivity.
Qed.
Lemma ww_eventsb : forallb whole_eventb ww_events = true.
Proof. vm_compute. reflexivity. Qed.
Example C77_recorded_case : raw_text ww_events (file (map record_text ww_records) []) /\ whole_events ww_events.
Proof.
  split; [exact ww_written|]. apply Forall_forall. intros e I. pose proof (proj1 (forallb_forall _ _) ww_eventsb e I) as K.
  unfold whole_eventb in K. apply andb_true_iff in K as [A B]. split; [exists (Qfloor (reading e)); apply Qeq_bool_iff; exact A|]. destruct e; try exact Logic.I. apply Z.leb_le. exact B.
Qed.
Print Assumptions C77_joined.
Print Assumptions C77_rounding_respects.
Print Assumptions C77_second_refuted.
Print Assumptions C77_recorded_files.
