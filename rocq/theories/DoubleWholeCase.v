(** A concrete recording for C78: the program's own fit, compared with the fit of a double-precision run. *)
From Coq Require Import String.
From Coq Require Import ZArith QArith Qabs Qround List Bool Lia Lqa.
From Verif Require Import Lib Base Scan ScanProofs Parser ParserSpec ParserProps Process ReadSeveral UnwrapSpec UnwrapProofs Drift Segments SegmentsSpec SegmentsProofs
  DoubleSpec DoubleRound DoubleSeveral DoubleSeveralSpec DoubleSeveralProps DoubleTimesSpec DoubleTimesProps DoubleWholeSpec DoubleWholeProps RecordingSpec RecordingProofs RecordingCase Polyfit PolyfitProps.
Import ListNotations.
Open Scope Q_scope.

(** 12 s with two samples and a fix each second; the counter shows milliseconds since 2021-01-01. *)
Definition fw_events : list event :=
  Health 0 :: flat_map (fun j => [Sample (inject_Z (1000 * j)) (j mod 7 - 3); Fix (inject_Z (1000 * j)) (1609459200 + j); Sample (inject_Z (1000 * j + 500)) (j mod 5)]) (rc_range 0 12).
Definition fw_records : list record :=
  rc_M 0 :: flat_map (fun j => [Full_D (dlit (1000 * j mod 8192) None) (lit (j mod 7 - 3)) [];
    Full_G [FDec (dlit (1000 * j mod 8192) None); FDec (dlit 0 None); FInt (lit 2021); FInt (lit 1); FInt (lit 1); FInt (lit 0); FInt (lit 0); FDec (dlit j None); FDec (dlit 43 (Some [5%Z])); FDec (dlit 116 None)] [];
    Full_D (dlit ((1000 * j + 500) mod 8192) None) (lit (j mod 5)) []]) (rc_range 0 12).
Definition fw_file : raw_file := mkraw (Some (file (map record_text fw_records) [])) (fun _ => inr CorruptRaw) (fun _ => inr CorruptRaw).
Definition fw_clock : cubic := mkcubic 1609459200 (1 # 1000) 0 0.

Lemma fw_written : raw_text fw_events (file (map record_text fw_records) []).
Proof.
  exists fw_records, (Other []). split; [reflexivity|]. assert (A : forallb (fun r => record_okb r && line_okb (record_text r)) fw_records = true) by (vm_compute; reflexivity).
  rewrite forallb_forall in A. split; [|split; [|split]].
  - apply Forall_app. split; [|repeat constructor]. apply Forall_forall. intros r Hr. apply A in Hr. apply andb_true_iff in Hr as [Hr _]. apply record_okb_ok. exact Hr.
  - apply Forall_app. split; [|constructor; [|constructor]]. { apply Forall_forall. intros r Hr. apply A in Hr. apply andb_true_iff in Hr as [_ Hr]. apply line_okb_ok. exact Hr. }
    apply line_okb_ok. reflexivity.
  - apply writesb_ok. vm_compute. reflexivity.
  - apply Z.leb_le. vm_compute. reflexivity.
Qed.
Lemma fw_true : true_clock fw_clock fw_events.
Proof.
  constructor.
  - apply (chainb_chain (fun x y => Qltb (-4096) (y - x) && Qltb (y - x) 4096)); [|vm_compute; reflexivity].
    intros x y H. apply andb_true_iff in H as [H1 H2]. apply Qltb_lt in H1, H2. split; assumption.
  - exists [Health 0], 0, (-3)%Z, (tl (tl fw_events)). split; [vm_compute; reflexivity|]. split; [reflexivity|]. split; [apply Qle_refl|exact Logic.I].
  - eexists. left. reflexivity.
  - apply (chainb_chain Qltb); [intros x y; apply Qltb_lt|]. vm_compute. reflexivity.
  - assert (A : forallb (fun p => Qeq_bool (inject_Z (snd p)) (cubic_at fw_clock (fst p))) (fixes_of fw_events) = true) by (vm_compute; reflexivity).
    rewrite forallb_forall in A. left. intros c t Hi. apply A in Hi. apply Qeq_bool_iff in Hi. exact Hi.
Qed.
Lemma fw_eventsb : forallb whole_eventb fw_events = true.
Proof. vm_compute. reflexivity. Qed.
Lemma fw_whole : whole_events fw_events.
Proof.
  apply Forall_forall. intros e I. pose proof (proj1 (forallb_forall _ _) fw_eventsb e I) as K.
  unfold whole_eventb in K. apply andb_true_iff in K as [A B]. split; [exists (Qfloor (reading e)); apply Qeq_bool_iff; exact A|]. destruct e; try exact Logic.I. apply Z.leb_le. exact B.
Qed.

(** The fit of the double-precision run: the same polynomial, over the samples of its own table. *)
Definition fw_fit (t : tables) (fn : raw_file) (r : bool) : hinfo + failure :=
  match data t with [] => inr InadequateGPS | p :: _ => inl (mkhi (fst p) (last (map fst (data t)) 0) fw_clock 12%nat 12%nat (Some 0)) end.
Definition own_fit (L : tables) (_ : raw_file) (r : bool) : hinfo + failure := calculate_drift polyfit3 polyfit1 L r.
Lemma fw_spans : spans_samples fw_fit.
Proof.
  intros L fn r h Ne E. unfold fw_fit in E. destruct (data L) as [|p l] eqn:Ed; [congruence|]. injection E as <-. cbn [h_start h_end]. split; [left; reflexivity|].
  exact (last_in (map fst (p :: l)) ltac:(discriminate)).
Qed.
Notation fw_read := (read raw_file (read_raw dec_scanner [] true) "0.9" true fw_file 0).
(** All that is needed of the exact table. *)
Definition fw_check (L : tables) : bool :=
  calmb 0 L && match align 0 L with
  | Some u => match own_fit u fw_file true with
      | inl h => Qeq_bool (c0 (h_fit h)) 1609459200 && Qeq_bool (c1 (h_fit h)) (1 # 1000) && Qeq_bool (c2 (h_fit h)) 0 && Qeq_bool (c3 (h_fit h)) 0
      | inr _ => false
      end
  | None => false
  end.
Lemma fw_checked : match fw_read with inl L => fw_check L | inr _ => false end = true.
Proof. vm_compute. reflexivity. Qed.
Lemma own_ends u h : own_fit u fw_file true = inl h -> h_start h = hd 0 (map fst (data u)) /\ h_end h = last (map fst (data u)) 0.
Proof. intros E. unfold own_fit in E. apply drift_describes in E as (A & B & _). auto. Qed.
Lemma fw_alike t u h : near_tables DoubleSeveralSpec.tiny t u -> data u <> [] -> own_fit u fw_file true = inl h ->
  Qeq_bool (c0 (h_fit h)) 1609459200 && Qeq_bool (c1 (h_fit h)) (1 # 1000) && Qeq_bool (c2 (h_fit h)) 0 && Qeq_bool (c3 (h_fit h)) 0 = true ->
  match fw_fit t fw_file true with inl h' => alike_fit (1 # 100000000) h' h | inr _ => False end.
Proof.
  intros (D & _) Ne E C. destruct (own_ends u h E) as [E1 E2]. rewrite !andb_true_iff, !Qeq_bool_iff in C. destruct C as (((C0 & C1) & C2) & C3).
  pose proof (last_near _ _ D) as La. unfold fw_fit. destruct D as [|p q l m [A _] D]; [congruence|]. split; [rewrite E1; exact A|]. split; [rewrite E2; exact La|].
  intros x' x _ X. cbn [h_fit]. unfold cubic_at, fw_clock, DoubleSeveralSpec.tiny in *. cbn [c0 c1 c2 c3]. apply Qabs_Qle_condition in X as [X1 X2]. rewrite C0, C1, C2, C3.
  setoid_replace (1609459200 + (1 # 1000) * x' + 0 * x' ^ 2 + 0 * x' ^ 3 - (1609459200 + (1 # 1000) * x + 0 * x ^ 2 + 0 * x ^ 3)) with ((1 # 1000) * (x' - x)) by ring.
  apply Qabs_Qle_condition. split; lra.
Qed.
Lemma fw_calm : calm_run raw_file hinfo unit (read_raw dec_scanner [] true) fw_fit own_fit (alike_fit (1 # 100000000)) (fun _ => Some tt) "0.9" true 0 [] [fw_file].
Proof.
  cbn [calm_run]. split; [|destruct (snd _); exact Logic.I]. intros L E. pose proof fw_checked as K. rewrite E in K. unfold fw_check in K. apply andb_true_iff in K as [K1 K2].
  pose proof (calmb_calm Q first_clock within_tiny first_alike 0 fw_file L K1) as (B1 & B2 & B3 & B4 & B5 & _). split; [exact B1|]. split; [exact B2|]. split; [exact B3|]. split; [exact B4|]. split; [exact B5|].
  intros u t Eu Nt. rewrite Eu in K2. destruct (own_fit u fw_file true) as [h|] eqn:Eo; [|discriminate]. pose proof (fw_alike t u h Nt (DoubleWholeProofs.align_some _ _ _ Eu) Eo K2) as A.
  destruct (fw_fit t fw_file true); [exact A|contradiction].
Qed.
Notation fw_exact := (read_several raw_file hinfo unit (read_raw dec_scanner [] true) own_fit (fun _ => Some tt) "0.9" true [fw_file]).
Notation fw_double := (dread_several round64 raw_file hinfo unit (dread_raw round64 dec_scanner [] true) fw_fit (fun _ => Some tt) "0.9" true [fw_file]).
Lemma fw_runs : match fw_double, fw_exact with
  | Some x, Some y => (forwardb (map fst (jdata y)) && forallb (fun p => forallb (fun h => moderateb (h_fit h) (fst p)) (lines (jheader x))) (jdata x) &&
      nilb (jproblems y) && (length (jdata x) =? 24)%nat)%bool = true
  | _, _ => False
  end.
Proof. vm_compute. reflexivity. Qed.
(** The hypotheses of [C78_true_times] hold, with a fit in doubles that agrees within 10 nanoseconds. *)
Example C78_true_case : fits_cubics polyfit3 /\ reads_decimal dec_scanner /\ recorded_file fw_file fw_clock fw_events /\ whole_events fw_events /\ spans_samples fw_fit /\
  calm_run raw_file hinfo unit (read_raw dec_scanner [] true) fw_fit own_fit (alike_fit (1 # 100000000)) (fun _ => Some tt) "0.9" true 0 [] [fw_file] /\
  exists x y, fw_double = Some x /\ fw_exact = Some y /\ jproblems y = [] /\ forward (map fst (jdata y)) /\ (forall c v, In (c, v) (jdata x) -> moderate_header (jheader x) c) /\ length (jdata x) = 24%nat.
Proof.
  split; [exact (proj1 C81_fits)|]. split; [exact dec_scanner_reads|]. split; [exists (file (map record_text fw_records) []); split; [reflexivity|split; [exact fw_written|exact fw_true]]|].
  split; [exact fw_whole|]. split; [exact fw_spans|]. split; [exact fw_calm|].
  pose proof fw_runs as K. destruct fw_double as [x|]; [|contradiction]. destruct fw_exact as [y|]; [|contradiction]. exists x, y. split; [reflexivity|]. split; [reflexivity|].
  apply andb_true_iff in K as [K K4]. apply andb_true_iff in K as [K K3]. apply andb_true_iff in K as [K1 K2]. split; [destruct (jproblems y); [reflexivity|discriminate]|]. split; [apply forwardb_forward; exact K1|]. split; [|apply Nat.eqb_eq; exact K4].
  intros c v I h J _. rewrite forallb_forall in K2. pose proof (K2 _ I) as K. rewrite forallb_forall in K. apply moderateb_ok. exact (K h J).
Qed.
