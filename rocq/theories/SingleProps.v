(** Property C53: converting one file. *)
From Coq Require Import String.
From Coq Require Import ZArith QArith Qround List Bool Lia Lqa.
From Verif Require Import Lib Base UnwrapSpec UnwrapProofs Scan ParserProps Process ReadSeveral ReadSeveralProofs Drift DriftSpec DriftProps Segments SegmentsSpec SegmentsProofs SegmentsProps
  Interp InterpSpec InterpProofs InterpProps Stream StreamSpec Select SelectSpec Breaks Block BlockSpec BlockProofs BlockProps Cli CliSpec CliProofs Single SingleSpec SingleProofs.
Import ListNotations.
Open Scope Z_scope.

Section Props.
  Variable sc : scanner.
  Variable buf0 : bytes.
  Variable ear : bool.
  Variable fit3 : list point -> option cubic.
  Variable fit1 : list point -> option Drift.linear.
  Variable spline : list (Q * option Q) -> option (Q -> Q).
  Variable content : entry -> raw_file.
  Variable disk : bytes -> option entry.
  Notation convert := (convert_one sc buf0 ear fit3 fit1 spline content disk).
  Notation read e req := (read_raw sc buf0 ear (content e) "0.9" 0 req).

  (** The tables read from a file, its clock moved by one rollover if it begins below zero. *)
  Definition tables_of (e : entry) (req : bool) (L : tables) : Prop :=
    exists L0 t v r, read e req = inl L0 /\ data L0 = (t, v) :: r /\ (L = L0 /\ (0 <= t)%Q \/ L = shift 8192 L0 /\ (t < 0)%Q).

  Lemma one_file_iff e req row L :
    one_file entry hinfo bytes (fun e => read_raw sc buf0 ear (content e)) (fun L _ r => calculate_drift fit3 fit1 L r) e_sn "0.9" req e 0 = (row, inl L) <->
    tables_of e req L /\ steady (map fst (data L)) /\
    exists h s, calculate_drift fit3 fit1 L req = inl h /\ e_sn e = Some s /\
      row = mkh (if negb req || negb (Nat.eqb (length (gps L)) 0) then Some h else None) (Some (length (data L))) (Some s).
  Proof.
    unfold one_file. change (ReadSeveral.read entry (fun e0 => read_raw sc buf0 ear (content e0)) "0.9" req e 0) with (read e req).
    split.
    - destruct (read e req) as [L0|x] eqn:R; [|discriminate]. unfold align. destruct (data L0) as [|[t v] r] eqn:D; [discriminate|].
      set (L1 := if Qltb t 0 then shift 8192 L0 else L0). destruct (discontinuous (map fst (data L1))) eqn:C; [discriminate|].
      destruct (calculate_drift fit3 fit1 L1 req) as [h|] eqn:Dr; [|discriminate]. destruct (e_sn e) as [s|] eqn:Sn; [|discriminate].
      intros E. injection E as <- <-. split; [|split; [now apply steady_continuous|now exists h, s]].
      exists L0, t, v, r. split; [exact R|]. split; [exact D|]. unfold L1. destruct (Qltb t 0) eqn:T; [right|left]; (split; [reflexivity|]).
      + now apply Qltb_lt.
      + now apply Qltb_ge.
    - intros ((L0 & t & v & r & R & D & T) & C & h & s & Dr & Sn & ->). rewrite R. unfold align. rewrite D.
      assert (E : (if Qltb t 0 then shift 8192 L0 else L0) = L).
      { destruct T as [[-> T]|[-> T]]; [apply Qltb_ge in T|apply Qltb_lt in T]; now rewrite T. }
      rewrite E. apply steady_continuous in C. now rewrite C, Dr, Sn.
  Qed.

  Lemma tables_nonempty e req L : tables_of e req L -> data L <> [].
  Proof. intros (L0 & t & v & r & _ & D & [[-> _]|[-> _]]); [rewrite D|unfold shift; cbn [data]; rewrite D]; discriminate. Qed.

  Lemma drift_gps L req h : calculate_drift fit3 fit1 L req = inl h -> (negb req || negb (Nat.eqb (length (gps L)) 0)) = true.
  Proof.
    unfold calculate_drift. cbv zeta. destruct req; [|reflexivity]. destruct (Nat.eqb (length (gps L)) 0); [discriminate|reflexivity].
  Qed.

  Lemma join_iff e req j : join sc buf0 ear fit3 fit1 content req None [e] = Some j /\ jdata j <> [] <->
    exists L h s, tables_of e req L /\ steady (map fst (data L)) /\ calculate_drift fit3 fit1 L req = inl h /\ e_sn e = Some s /\
      j = mkj (data L) (metadata L) (gps L) [mkh (Some h) (Some (length (data L))) (Some s)] [].
  Proof.
    unfold Block.join, ReadSeveral.read_several. cbn [loop as_version].
    destruct (one_file entry hinfo bytes (fun e => read_raw sc buf0 ear (content e)) (fun L _ r => calculate_drift fit3 fit1 L r) e_sn "0.9" req e 0) as [row [L|f]] eqn:O.
    - pose proof (proj1 (one_file_iff _ _ _ _) O) as (T & C & h & s & Dr & Sn & Er). rewrite (drift_gps _ _ _ Dr) in Er. cbn [jdata jmeta jgps jheader jproblems app].
      split.
      + intros [E _]. injection E as <-. exists L, h, s. rewrite Er. auto.
      + intros (L' & h' & s' & T' & C' & Dr' & Sn' & ->).
        assert (L' = L) as ->.
        { destruct T as (L0 & t & v & r & R & D & T), T' as (L0' & t' & v' & r' & R' & D' & T').
          assert (L0' = L0) as -> by congruence. rewrite D in D'. injection D' as <- <- <-.
          destruct T as [[-> ?]|[-> ?]], T' as [[-> ?]|[-> ?]]; try reflexivity; exfalso; lra. }
        assert (h' = h) as -> by congruence. assert (s' = s) as -> by congruence. rewrite Er. split; [reflexivity|]. cbn [jdata]. now apply tables_nonempty in T.
    - split.
      + intros [E N]. exfalso. destruct f as [[]| |]; try discriminate E; injection E as <-; now apply N.
      + intros (L & h & s & T & C & Dr & Sn & _). exfalso.
        assert (X : (row, inr f) = (mkh (Some h) (Some (length (data L))) (Some s), inl L)); [|discriminate].
        rewrite <- O. apply one_file_iff. split; [exact T|]. split; [exact C|]. exists h, s. rewrite (drift_gps _ _ _ Dr). auto.
  Qed.

  (** C53.  What is written when a file is converted: the file exists, it can be read, its clock is steady, its header has
      a serial number, and its clock could be fitted; the name is the one given or the name of the input file with
      ".mseed"; the stream is the resampling of the samples of the file, run by run, each at the time the fit gives. *)
  Theorem C53_written input output req n st :
    convert input output req = Writes n st ->
    exists e L h s pts runs,
      disk input = Some e /\ tables_of e req L /\ steady (map fst (data L)) /\ e_sn e = Some s /\ calculate_drift fit3 fit1 L req = inl h /\
      (output = Some n \/ output = None /\ exists base, file_name_of input base /\ n = base ++ b ".mseed") /\
      Forall2 (fun p q => snd q = snd p /\ (fst q == cubic_at (h_fit h) (fst p))%Q) (data L) pts /\
      runs_of (map fst pts) runs /\ resampled spline pts runs st /\
      forall k v, sample (map to_grid st) k v -> explained spline pts k v.
  Proof.
    unfold convert_one. destruct (disk input) as [e|] eqn:Di; [|discriminate].
    destruct (join sc buf0 ear fit3 fit1 content req None [e]) as [j|] eqn:J; [|discriminate].
    intros E. assert (ND : jdata j <> []) by (destruct (jdata j); discriminate).
    destruct (proj1 (join_iff e req j) (conj J ND)) as (L & h & s & T & C & Dr & Sn & Ej).
    destruct (join_times _ _ _ _ _ _ _ _ _ J) as (row & Hr & Ht).
    destruct (jdata j) as [|p0 D0] eqn:Dj; [contradiction|]. rewrite Hr in E. rewrite <- Ht in E.
    destruct (interp spline (timed (jheader j) (p0 :: D0))) as [st'|] eqn:Ei; [|discriminate]. injection E as En ->.
    pose proof (timed_points_points (timed (jheader j) (p0 :: D0))) as P.
    destruct (has_runs _ _ _ _ Ei P) as (_ & runs & Ru & Rs).
    exists e, L, h, s, (timed_points (timed (jheader j) (p0 :: D0))), runs.
    split; [reflexivity|]. split; [exact T|]. split; [exact C|]. split; [exact Sn|]. split; [exact Dr|].
    split; [|split; [|split; [exact Ru|split; [exact Rs|intros k v; exact (grid_explained _ _ _ _ Ei P k v)]]]].
    - destruct output as [o|]; [left; congruence|right]. split; [reflexivity|]. exists (base_name input). split; [apply base_name_of|now symmetry].
    - rewrite Ht. assert (row = mkh (Some h) (Some (length (data L))) (Some s)) as ->.
      { rewrite Ej in Hr. cbn [jheader] in Hr. congruence. }
      assert (p0 :: D0 = data L) as -> by (rewrite <- Dj, Ej; reflexivity). clear. induction (data L) as [|p D IH]; [constructor|].
      cbn [map]. unfold timed_points. cbn [flat_map fst snd app]. constructor; [|exact IH]. cbn [fst snd line h_info].
      split; [reflexivity|]. apply apply_fit_cubic.
  Qed.

  (** With GPS data required, what is written rests on fixes that cover the file, show no step and fit a cubic clock. *)
  Theorem C53_required input output n st : convert input output true = Writes n st ->
    exists e L p kept, disk input = Some e /\ tables_of e true L /\ gps L <> [] /\ covers L /\ no_step fit1 L /\ good_fit fit3 L p kept.
  Proof.
    intros E. destruct (C53_written _ _ _ _ _ E) as (e & L & h & s & pts & runs & Di & T & _ & _ & Dr & _).
    pose proof (tables_nonempty _ _ _ T) as N. apply (C17_accepted_iff fit3 fit1 L h N) in Dr as (G & Cv & Ns & _ & kept & Gf & _).
    exists e, L, (h_fit h), kept. auto 8.
  Qed.

  (** C53.  Exactly when a file is refused for lack of GPS data (so the message says): it could be read to no usable
      samples, its clock is not steady, its header has no serial number, or the clock could not be fitted. *)
  Theorem C53_refused_iff input output req :
    convert input output req = Refused <->
    exists e, disk input = Some e /\ read e req <> inr Interrupt /\
      forall L h s, tables_of e req L -> steady (map fst (data L)) -> calculate_drift fit3 fit1 L req = inl h -> e_sn e = Some s -> False.
  Proof.
    unfold convert_one. split.
    - destruct (disk input) as [e|] eqn:Di; [|discriminate].
      destruct (join sc buf0 ear fit3 fit1 content req None [e]) as [j|] eqn:J; [|discriminate].
      intros E. exists e. split; [reflexivity|]. split.
      + intros R. unfold Block.join, ReadSeveral.read_several in J. cbn [loop as_version] in J. unfold one_file in J.
        change (ReadSeveral.read entry (fun e0 => read_raw sc buf0 ear (content e0)) "0.9" req e 0) with (read e req) in J. rewrite R in J. discriminate.
      + intros L h s T C Dr Sn. destruct (proj2 (join_iff e req (mkj (data L) (metadata L) (gps L) [mkh (Some h) (Some (length (data L))) (Some s)] []))) as [J' N]; [exists L, h, s; repeat (split; [eassumption|]); reflexivity|].
        rewrite J in J'. injection J' as ->. cbn [jdata jheader] in E, N. destruct (data L); [contradiction|].
        destruct (interp _ _); discriminate.
    - intros (e & Di & NI & X). rewrite Di. destruct (join sc buf0 ear fit3 fit1 content req None [e]) as [j|] eqn:J.
      + destruct (jdata j) as [|p D] eqn:Dj; [reflexivity|]. exfalso.
        destruct (proj1 (join_iff e req j)) as (L & h & s & T & C & Dr & Sn & _); [split; [exact J|rewrite Dj; discriminate]|].
        exact (X L h s T C Dr Sn).
      + exfalso. unfold Block.join, ReadSeveral.read_several in J. cbn [loop as_version] in J. unfold one_file in J.
        change (ReadSeveral.read entry (fun e0 => read_raw sc buf0 ear (content e0)) "0.9" req e 0) with (read e req) in J.
        destruct (read e req) as [L0|x].
        * destruct (align 0 L0) as [L|]; [|discriminate]. destruct (discontinuous _); [discriminate|].
          destruct (calculate_drift fit3 fit1 L req) as [h|f] eqn:Dr; [destruct (e_sn e); discriminate|].
          destruct f as [[]| |]; try discriminate.
          unfold calculate_drift in Dr. cbv zeta in Dr. destruct (req && negb _); [discriminate|]. destruct (req && negb _); [discriminate|].
          destruct (if req then _ else _) as [[]|]; try discriminate. destruct (if _ && _ then _ else _) as [[]|]; [discriminate|]. destruct (_ && req); discriminate.
        * destruct x; try discriminate. now apply NI.
  Qed.

  (** C53.  Forced conversion never refuses a file for its GPS data; without a usable clock fit the nominal clock of
      1.024 ms per count is used, and without any fix the times begin at 1970. *)
  Theorem C53_forced input output e L s :
    disk input = Some e -> tables_of e false L -> steady (map fst (data L)) -> e_sn e = Some s ->
    convert input output false <> Refused /\ convert input output false <> Not_found /\ convert input output false <> Interrupted /\
    exists h, calculate_drift fit3 fit1 L false = inl h /\
      (gps L = [] -> forall x, (cubic_at (h_fit h) x == (1024 # 1000000) * x)%Q).
  Proof.
    intros Di T C Sn. pose proof (tables_nonempty _ _ _ T) as N.
    destruct (C17_optional_gps fit3 fit1 L N) as (h & Dr & _ & X).
    destruct (proj2 (join_iff e false (mkj (data L) (metadata L) (gps L) [mkh (Some h) (Some (length (data L))) (Some s)] []))) as [J ND]; [exists L, h, s; repeat (split; [eassumption|]); reflexivity|].
    assert (E : convert input output false = Broken \/ exists n st, convert input output false = Writes n st).
    { unfold convert_one. rewrite Di, J. cbn [jdata jheader] in *. destruct (data L); [contradiction|]. destruct (interp _ _); eauto. }
    split; [|split; [|split]]; try (destruct E as [E|(n & st & E)]; rewrite E; discriminate).
    exists h. split; [exact Dr|]. intros G x. destruct X as [(G' & _)|(_ & E1 & E2 & E3 & E0 & _)]; [contradiction|].
    destruct E0 as [E0 _]; [unfold fixes; now rewrite G|]. unfold cubic_at. rewrite E0, E1, E2, E3. ring.
  Qed.

  (** C53.  If reading a folder that holds just this file (in one of the present formats) succeeds, converting the file
      alone gives the same waveform. *)
  Theorem C53_same_as_block adc_range now req e sn nums v g input output :
    read_files sc buf0 ear fit3 fit1 spline content adc_range now req [e] sn nums = Gives (inl g) -> sn <> b "TXT" ->
    e_version e = Some v -> In v [b "0.85C"; b "0.9"; b "0.91"; b "1.10"] -> disk input = Some e ->
    exists n, convert input output req = Writes n (a_data (g_times g)).
  Proof.
    intros R Ns Ve Iv Di. destruct (read_joined _ _ _ _ _ _ _ _ _ _ _ _ _ _ R Ns) as (out & trs & ps & J & Ei & _ & Eg & _).
    rewrite Eg. cbn [a_data]. destruct J as (v' & arg & fl & (before & f & rest & -> & A & Nd & _ & _ & Vf) & Va & J & ND).
    assert (L1 : before ++ f :: rest = [e]).
    { assert (Nd' : NoDup (before ++ f :: rest)) by (apply Nd; constructor; [intros []|constructor]).
      assert (Al : forall x, In x (before ++ f :: rest) -> x = e) by (intros x I; apply A in I as [[I|[]] _]; now symmetry).
      destruct (before ++ f :: rest) as [|x [|y l]] eqn:El; [destruct before; discriminate|f_equal; apply Al; now left|].
      exfalso. inversion Nd' as [|? ? K _]. apply K. left. rewrite (Al x), (Al y); [reflexivity|right; now left|now left]. }
    assert (f = e /\ rest = []) as [-> ->].
    { destruct before as [|x before]; [now injection L1 as -> ->|]. injection L1 as _ L1. apply app_eq_nil in L1 as [_ L1]. discriminate. }
    assert (v' = v) as -> by congruence.
    assert (arg = None) as ->.
    { destruct Va as [[_ ->]|[K _]]; [reflexivity|]. exfalso. simpl in K, Iv.
      destruct K as [<-|[<-|[]]]; repeat (destruct Iv as [Iv|Iv]; [discriminate Iv|]); exact Iv. }
    unfold convert_one. rewrite Di, J. destruct (join_times _ _ _ _ _ _ _ _ _ J) as (row & Hr & Ht). rewrite Hr.
    destruct (jdata out) as [|p0 D0] eqn:Dj; [contradiction|]. rewrite <- Ht, Ei. eexists. reflexivity.
  Qed.

  (** C53.  The command converts the file given last with -i, to the file given last with -o, and requires GPS data
      unless -f is given. *)
  Theorem C53_command l : Forall single_known l ->
    exists input output req, single_main sc buf0 ear fit3 fit1 spline content disk (words l) = Ran (convert input output req) /\
      (forall a, given_last 105 a l -> input = a) /\ (not_given 105 l -> input = []) /\
      (forall a, given_last 111 a l -> output = Some a) /\ (not_given 111 l -> output = None) /\
      (req = false <-> In (Flag 102) l).
  Proof.
    intros K. destruct (choice_follows l K) as (s & E & [I1 I2] & [O1 O2] & Fo).
    exists (input_file s), (output_file s), (negb (force s)). unfold single_main. rewrite (single_getopt l K _ (le_n _)), E.
    repeat (split; [assumption || reflexivity|]). rewrite <- Fo. destruct (force s); simpl; split; congruence.
  Qed.
End Props.

(** The first file of the example of C50, from a folder of its own; and a file without fixes, forced. *)
Definition ex53_bare : bytes := ParserSpec.file [b "D10,5"; b "D20,1"; b "D30,-2"; b "D40,3"; b "M,8,3.3,20.5,0,0,1,2,3,4,5,6,7"] [].
Definition ex53_content (e : entry) : raw_file :=
  if (e_size e =? 5000)%Z then ex_content e else mkraw (Some ex53_bare) (fun _ => inr CorruptRaw) (fun _ => inr CorruptRaw).
Definition ex53_disk (p : bytes) : option entry :=
  if eqb_bytes p (b "raw/FILE0000.059") then Some (ex_e (b "FILE0000.059"))
  else if eqb_bytes p (b "raw/FILE0007.059") then Some (mke (b "FILE0007.059") (Some (b "059")) 80 (Some (b "0.9"))) else None.
Notation ex53_main := (single_main dec_scanner [] true through3 through linear ex53_content ex53_disk).
Example C53_case :
  match ex53_main [b "-i"; b "raw/FILE0000.059"] with
  | Ran (Writes n st) => n = b "FILE0000.059.mseed" /\ map to_grid st = [mkg 160945920001 [1; 11; 31; 61; 100]; mkg 160945942478 [2054; 2052; 2050]]
  | _ => False end.
Proof. vm_compute. repeat split; reflexivity. Qed.
Example C53_case_forced :
  ex53_main [b "-i"; b "raw/FILE0007.059"] = Ran Refused /\ ex53_main [b "-i"; b "raw/FILE0008.059"] = Ran Not_found /\
  match ex53_main [b "-f"; b "-o"; b "x.mseed"; b "-i"; b "raw/FILE0007.059"] with
  | Ran (Writes n st) => n = b "x.mseed" /\ map to_grid st = [mkg 2 [5; 6; 4]] | _ => False end.
Proof. vm_compute. repeat split; reflexivity. Qed.

(** The long names in the help text do not exist. *)
Theorem C53_long_option_refuted : forall sc buf0 ear fit3 fit1 spline content disk a,
  single_main sc buf0 ear fit3 fit1 spline content disk [b "--input_file"; a] = Bad_usage.
Proof. intros. reflexivity. Qed.
(** A readable file with a steady clock but no serial number is refused with the message that GPS data are missing, even
    if none are required. *)
Theorem C53_wrong_reason_refuted : exists e L,
  tables_of dec_scanner [] true ex53_content e false L /\ steady (map fst (data L)) /\ e_sn e = None /\
  convert_one dec_scanner [] true through3 through linear ex53_content (fun _ => Some e) (b "FILE0007.059") None false = Refused.
Proof.
  exists (mke (b "FILE0007.059") None 80 (Some (b "0.9"))).
  destruct (read_raw dec_scanner [] true (ex53_content (mke (b "FILE0007.059") None 80 (Some (b "0.9")))) "0.9" 0 false) as [L|] eqn:R; [|vm_compute in R; discriminate].
  exists L. vm_compute in R. injection R as <-. split; [|split; [|split; vm_compute; reflexivity]].
  - eexists _, _, _, _. split; [vm_compute; reflexivity|]. split; [reflexivity|]. left. split; [reflexivity|]. discriminate.
  - apply steady_continuous. vm_compute. reflexivity.
Qed.

Print Assumptions C53_written.
Print Assumptions C53_required.
Print Assumptions C53_refused_iff.
Print Assumptions C53_forced.
Print Assumptions C53_same_as_block.
Print Assumptions C53_command.
Print Assumptions C53_long_option_refuted.
Print Assumptions C53_wrong_reason_refuted.
