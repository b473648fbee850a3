(** Property C50: from the raw files of a block to the samples of the output files. *)
From Coq Require Import String.
From Coq Require Import ZArith QArith Qabs Qround List Bool Lia Lqa.
From Verif Require Import Base Lib UnwrapSpec UnwrapProofs Scan Parser ParserSpec ParserProps Process ReadSeveral ReadSeveralSpec ReadSeveralProofs ReadSeveralProps Drift DriftProps
  Segments SegmentsSpec SegmentsProofs SegmentsProps Interp InterpSpec InterpProofs InterpProps Stream StreamSpec StreamProofs
  Convert ConvertSpec ConvertProps Select SelectSpec SelectProofs SelectProps Specs Fields Breaks BreaksSpec BreaksProps Block BlockSpec BlockProofs Names Convert110Props.
Import ListNotations.
Open Scope Q_scope.

Section Props.
  Variable sc : scanner.
  Variable buf0 : bytes.
  Variable ear : bool.
  Variable fit3 : list point -> option cubic.
  Variable fit1 : list point -> option Drift.linear.
  Variable spline : list (Q * option Q) -> option (Q -> Q).
  Variable content : entry -> raw_file.
  Variable adc_range : entry -> Z.
  Variable now : Q.
  Variable req : bool.
  Notation read := (read_files sc buf0 ear fit3 fit1 spline content adc_range now req).
  Notation join := (join sc buf0 ear fit3 fit1 content req).

  (** The joined files of a block. *)
  Definition joined_of (d : list entry) (sn : bytes) (nums : list Z) (out : joined entry hinfo bytes) : Prop :=
    exists v arg fl, files_of d sn nums v fl /\
      (In v [b "0.85C"; b "0.9"; b "0.91"; b "1.10"] /\ arg = None \/ In v [b "0.85"; b "0.8"] /\ arg = Some v) /\
      join arg fl = Some out /\ jdata out <> [].

  Lemma read_details d sn nums g : read d sn nums = Gives (inl g) -> sn <> b "TXT" ->
    exists out trs ps, joined_of d sn nums out /\
      interp spline (timed (jheader out) (jdata out)) = Some trs /\ reformat (filled (jgps out)) = Some ps /\
      g_times g = mka trs (map (fun p => (apply_segments (jheader out) (fst p), snd p)) (jmeta out))
                    (map (fun r => (apply_segments (jheader out) (h_start (line r)), apply_segments (jheader out) (h_end (line r)))) (jheader out)) ps /\
      g_problems g = jproblems out /\
      exists v f rest w, files_of d sn nums v (f :: rest) /\ get_bitweight_info (val_digits (map (fun c => c - 48)%Z sn)) (adc_range f) (b "Pa") = Some (g_specs g, w).
  Proof.
    intros E N.
    assert (Ex : exists f, In f d /\ readable sn nums f /\ e_version f <> None).
    { unfold read_files, read_gem in E. pose proof (fun f => find_in d sn nums f N) as F. pose proof (drop_spec (find_nonmissing d sn nums)) as Dr.
      destruct (find_nonmissing d sn nums) as [|f0 r]; [discriminate|]. destruct (drop_unreadable (f0 :: r)) as [[v fl]|]; [|discriminate].
      destruct Dr as (l1 & f & l2 & El & -> & _ & V). exists f. destruct (proj1 (F f)) as [A B]; [rewrite El; apply in_elt|].
      split; [exact A|]. split; [exact B|congruence]. }
    destruct (C27_files_read (joined_files * option entry) (gem + trouble)
                (fun v fl => match join v fl with Some j => Some (j, hd_error fl) | None => None end)
                (fun j => match jdata (fst j) with [] => false | _ => true end)
                (fun j => finish_block spline adc_range now sn (snd j) (fst j)) d sn nums N Ex)
      as (before & f & rest & v & P1 & P2 & P3 & P4 & P5 & P6). cbv zeta in P6. destruct P6 as (M1 & M2 & M3).
    unfold read_files in E.
    assert (Fo : files_of d sn nums v (f :: rest)) by (exists before, f, rest; split; [reflexivity|]; split; [exact P1|]; split; [exact P2|]; split; [exact P3|]; split; assumption).
    assert (X : exists arg, (In v [b "0.85C"; b "0.9"; b "0.91"; b "1.10"] /\ arg = None \/ In v [b "0.85"; b "0.8"] /\ arg = Some v) /\
      match (match join arg (f :: rest) with Some j => Some (j, hd_error (f :: rest)) | None => None end) with
      | None => Fails
      | Some j => if match jdata (fst j) with [] => false | _ => true end
                  then match finish_block spline adc_range now sn (snd j) (fst j) with Some r => Gives r | None => Fails end else NoUsableGPS
      end = Gives (inl g)).
    { destruct (in_dec (list_eq_dec Z.eq_dec) v [b "0.85C"; b "0.9"; b "0.91"; b "1.10"]) as [I|I].
      - exists None. split; [left; auto|]. rewrite <- E. symmetry. exact (M1 I).
      - destruct (in_dec (list_eq_dec Z.eq_dec) v [b "0.85"; b "0.8"]) as [J|J].
        + exists (Some v). split; [right; auto|]. rewrite <- E. symmetry. exact (M2 J).
        + exfalso. rewrite M3 in E; [discriminate|]. intros K. apply (in_app_or [b "0.85C"; b "0.9"; b "0.91"; b "1.10"]) in K as [K|K]; auto. }
    destruct X as (arg & V & X). destruct (join arg (f :: rest)) as [out|] eqn:J; [|discriminate]. cbn [fst snd hd_error] in X.
    destruct (jdata out) as [|p0 D] eqn:Ed; [discriminate|]. unfold finish_block, assign_times in X. cbn [jgps jdata jheader jmeta] in X. rewrite Ed in X.
    destruct (reformat (filled (jgps out))) as [ps|] eqn:Ep; [|discriminate].
    destruct (find_breaks now (filled (jgps out)) (map fst (p0 :: D))); [|discriminate]. rewrite <- Ed in X.
    destruct (interp spline (timed (jheader out) (jdata out))) as [trs|] eqn:Ei; [|discriminate].
    destruct (get_bitweight_info _ _ _) as [[s w]|] eqn:Ew; [|discriminate]. injection X as <-.
    exists out, trs, ps. split; [exists v, arg, (f :: rest); split; [exact Fo|]; split; [exact V|]; split; [exact J|]; rewrite Ed; discriminate|].
    split; [exact Ei|]. split; [first [exact Ep|reflexivity]|]. split; [reflexivity|]. split; [reflexivity|]. exists v, f, rest, w. split; [exact Fo|exact Ew].
  Qed.
  Lemma read_joined d sn nums g : read d sn nums = Gives (inl g) -> sn <> b "TXT" ->
    exists out trs ps, joined_of d sn nums out /\
      interp spline (timed (jheader out) (jdata out)) = Some trs /\ reformat (filled (jgps out)) = Some ps /\
      g_times g = mka trs (map (fun p => (apply_segments (jheader out) (fst p), snd p)) (jmeta out))
                    (map (fun r => (apply_segments (jheader out) (h_start (line r)), apply_segments (jheader out) (h_end (line r)))) (jheader out)) ps /\
      g_problems g = jproblems out.
  Proof.
    intros E N. destruct (read_details d sn nums g E N) as (out & trs & ps & A & B & C & D & P & _). exists out, trs, ps. auto.
  Qed.

  Lemma joined_timed d sn nums out : joined_of d sn nums out -> timed_by out (timed_points (timed (jheader out) (jdata out))).
  Proof. intros (v & arg & fl & _ & _ & J & _). apply timed_points_by. exact (C19_every_sample_timed _ _ _ _ _ _ _ _ _ _ J). Qed.

  (** What reading a block gives: the samples of its files, joined, each timed by the last header line that spans it;
      the stream is their resampling, run by run; state-of-health rows are timed in the same way; the position table
      has the GPS rows, in order, with their own times (one invented row if there are none). *)
  Theorem C50_block d sn nums g : read d sn nums = Gives (inl g) -> sn <> b "TXT" ->
    exists out pts runs, joined_of d sn nums out /\ timed_by out pts /\ runs_of (map fst pts) runs /\
      resampled spline pts runs (a_data (g_times g)) /\ meta_timed out (a_meta (g_times g)) /\
      Forall2 located (filled (jgps out)) (a_gps (g_times g)) /\ g_problems g = jproblems out.
  Proof.
    intros E N. destruct (read_joined _ _ _ _ E N) as (out & trs & ps & J & Ei & Ep & -> & ->). cbn [a_data a_meta a_gps].
    destruct (has_runs _ _ _ _ Ei (timed_points_points _)) as (_ & runs & Ru & Rs).
    exists out, (timed_points (timed (jheader out) (jdata out))), runs.
    split; [exact J|]. split; [exact (joined_timed _ _ _ _ J)|]. split; [exact Ru|]. split; [exact Rs|]. split; [apply meta_times|]. split; [|reflexivity].
    assert (D : Forall dated (filled (jgps out))).
    { apply filled_dated. destruct J as (v & arg & fl & _ & _ & J & _). unfold Block.join, ReadSeveral.read_several in J.
      eapply loop_dated; [|exact J|constructor]. intros fn v' start L. cbn beta. apply read_raw_dated. }
    destruct (C49_positions _ D) as (ps' & Ep' & F). assert (ps' = ps) as -> by congruence. exact F.
  Qed.

  (** The bit weights are those of the generation of the serial number, twice as large at low gain, by the configuration
      of the first file with a readable format line. *)
  Theorem C50_gain d sn nums g : read d sn nums = Gives (inl g) -> sn <> b "TXT" ->
    exists v f rest s0, files_of d sn nums v (f :: rest) /\ get_gem_specs (val_digits (map (fun c => c - 48)%Z sn)) = Some s0 /\
      s_version (g_specs g) = s_version s0 /\
      (adc_range f = 0%Z /\ s_bw_Pa (g_specs g) == s_bw_Pa s0 /\ s_bw_V (g_specs g) == s_bw_V s0 \/
       adc_range f = 1%Z /\ s_bw_Pa (g_specs g) == 2 * s_bw_Pa s0 /\ s_bw_V (g_specs g) == 2 * s_bw_V s0).
  Proof.
    intros E N. destruct (read_details d sn nums g E N) as (out & trs & ps & _ & _ & _ & _ & _ & v & f & rest & w & Fo & W). exists v, f, rest.
    unfold get_bitweight_info in W. destruct (Z.eqb_spec (adc_range f) 0) as [R|R]; [|destruct (Z.eqb_spec (adc_range f) 1) as [R'|]; [|discriminate]].
    - destruct (get_gem_specs _) as [s0|]; [|discriminate]. change (eqb_bytes (upper (b "Pa")) (b "PA")) with true in W. cbv iota zeta in W. injection W as W _. exists s0.
      split; [exact Fo|]. split; [reflexivity|]. rewrite <- W. split; [reflexivity|]. left. split; [exact R|]. cbn [s_bw_Pa s_bw_V]. split; ring.
    - destruct (get_gem_specs _) as [s0|]; [|discriminate]. change (eqb_bytes (upper (b "Pa")) (b "PA")) with true in W. cbv iota zeta in W. injection W as W _. exists s0.
      split; [exact Fo|]. split; [reflexivity|]. rewrite <- W. split; [reflexivity|]. right. split; [exact R'|]. cbn [s_bw_Pa s_bw_V]. split; ring.
  Qed.

  (** A block is skipped if none of its files has a readable format line, or no sample of its files can be used. *)
  Theorem C50_skipped d sn nums : sn <> b "TXT" ->
    ((forall f, In f d -> readable sn nums f -> e_version f = None) -> block_outcome (read d sn nums) = Skipped) /\
    (forall v arg fl out, files_of d sn nums v fl ->
       (In v [b "0.85C"; b "0.9"; b "0.91"; b "1.10"] /\ arg = None \/ In v [b "0.85"; b "0.8"] /\ arg = Some v) ->
       (forall v' fl', files_of d sn nums v' fl' -> fl' = fl) -> join arg fl = Some out -> jdata out = [] -> block_outcome (read d sn nums) = Skipped).
  Proof.
    intros N. split.
    - intros H. unfold read_files, read_gem. pose proof (fun f => find_in d sn nums f N) as F. pose proof (drop_spec (find_nonmissing d sn nums)) as Dr.
      destruct (find_nonmissing d sn nums) as [|f0 r]; [reflexivity|]. destruct (drop_unreadable (f0 :: r)) as [[v fl]|]; [|reflexivity].
      destruct Dr as (l1 & f & l2 & El & -> & _ & V). destruct (proj1 (F f)) as [A B]; [rewrite El; apply in_elt|]. rewrite (H f A B) in V. discriminate.
    - intros v arg fl out Fo Va Un J Ed.
      assert (Ex : exists f, In f d /\ readable sn nums f /\ e_version f <> None).
      { destruct Fo as (before & f & rest & -> & A & _ & _ & _ & V). exists f. destruct (proj1 (A f)) as [A1 A2]; [apply in_elt|]. split; [exact A1|]. split; [exact A2|congruence]. }
      destruct (C27_files_read (joined_files * option entry) (gem + trouble)
                (fun v fl => match join v fl with Some j => Some (j, hd_error fl) | None => None end)
                (fun j => match jdata (fst j) with [] => false | _ => true end)
                (fun j => finish_block spline adc_range now sn (snd j) (fst j)) d sn nums N Ex)
        as (before & f & rest & v' & P1 & P2 & P3 & P4 & P5 & P6). cbv zeta in P6. destruct P6 as (M1 & M2 & M3).
      assert (Fo' : files_of d sn nums v' (f :: rest)) by (exists before, f, rest; split; [reflexivity|]; split; [exact P1|]; split; [exact P2|]; split; [exact P3|]; split; assumption).
      pose proof (Un v' _ Fo') as Efl. subst fl.
      assert (v' = v) as ->. { destruct Fo as (b1 & f1 & r1 & E1 & _ & _ & _ & _ & V1). injection E1 as <- _. congruence. }
      unfold read_files. destruct Va as [[Va ->]|[Va ->]]; [rewrite (M1 Va)|rewrite (M2 Va)]; rewrite J; cbn [fst]; rewrite Ed; reflexivity.
  Qed.

  (** What a block that is read contributes: its stream, and if there is any, the state-of-health rows, the positions
      and the problems of its files. *)
  Theorem C50_reported d sn nums g : read d sn nums = Gives (inl g) -> sn <> b "TXT" ->
    exists out, joined_of d sn nums out /\
      data_of (block_outcome (read d sn nums)) = map to_grid (a_data (g_times g)) /\
      (a_data (g_times g) <> [] ->
       meta_timed out (meta_of (block_outcome (read d sn nums))) /\
       (exists ps, gps_of (block_outcome (read d sn nums)) = [ps] /\ Forall2 located (filled (jgps out)) ps) /\
       problems_of (block_outcome (read d sn nums)) = jproblems out).
  Proof.
    intros E N. destruct (C50_block d sn nums g E N) as (out & pts & runs & J & _ & _ & _ & M & L & P). exists out. split; [exact J|]. rewrite E. split; [reflexivity|].
    intros Nd. cbn [block_outcome meta_of gps_of problems_of]. destruct (a_data (g_times g)) as [|tr trs]; [contradiction|]. cbn [map].
    split; [exact M|]. split; [eexists; split; [reflexivity|exact L]|exact P].
  Qed.

  (** The samples of the block on the sampling grid: in order and without overlap if the sample times increase, and
      each of them explained by a run of the timed samples. *)
  Theorem C50_block_samples d sn nums g : read d sn nums = Gives (inl g) -> sn <> b "TXT" ->
    exists out pts, joined_of d sn nums out /\ timed_by out pts /\
      (chain Qlt (map fst pts) -> in_order (map to_grid (a_data (g_times g)))) /\
      (forall k v, sample (map to_grid (a_data (g_times g))) k v -> explained spline pts k v).
  Proof.
    intros E N. destruct (read_joined _ _ _ _ E N) as (out & trs & ps & J & Ei & Ep & -> & _). cbn [a_data].
    exists out, (timed_points (timed (jheader out) (jdata out))). split; [exact J|]. split; [exact (joined_timed _ _ _ _ J)|].
    pose proof (timed_points_points (timed (jheader out) (jdata out))) as P.
    split; [exact (grid_in_order _ _ _ _ Ei P)|intros k v; exact (grid_explained _ _ _ _ Ei P k v)].
  Qed.

  (** No run is left out: with increasing times and a value in every sample, there is a sample of the stream at each
      grid time from half an interval after the beginning of a run to 25 ms before its end. *)
  Theorem C50_block_covered d sn nums g : read d sn nums = Gives (inl g) -> sn <> b "TXT" -> spline_contract spline ->
    exists out pts, joined_of d sn nums out /\ timed_by out pts /\
      (chain Qlt (map fst pts) -> Forall (fun p => snd p <> None) pts ->
       forall runs r s e k, runs_of (map fst pts) runs -> In r runs -> begins r s -> finishes r e -> ~ s == e ->
         s + (1 # 200) <= inject_Z k * (1 # 100) <= e - (25 # 1000) ->
         exists v, sample (map to_grid (a_data (g_times g))) k v).
  Proof.
    intros E N SC. destruct (read_joined _ _ _ _ E N) as (out & trs & ps & J & Ei & Ep & -> & _). cbn [a_data].
    exists out, (timed_points (timed (jheader out) (jdata out))). split; [exact J|]. split; [exact (joined_timed _ _ _ _ J)|].
    pose proof (timed_points_points (timed (jheader out) (jdata out))) as P. intros C V runs r s e k Ru Ir B F Ne K.
    destruct (C20_runs_covered _ _ _ _ _ _ _ _ SC Ei P Ru C V Ir B F Ne) as (tr & It & K1 & K2).
    destruct (trace_within _ _ _ _ Ei P tr It) as (G & Nd & _).
    rewrite (to_grid_time _ _ G) in K2. rewrite (to_grid_start _ G) in K1.
    assert (X1 : (gs (to_grid tr) <= k)%Z) by (rewrite Zle_Qle; lra).
    assert (X2 : (k < gs (to_grid tr) + Z.of_nat (length (tr_data tr)))%Z).
    { assert (Y : (k < gs (to_grid tr) + Z.of_nat (length (tr_data tr) - 1))%Z) by (rewrite Zlt_Qlt; lra). lia. }
    destruct (nth_error (tr_data tr) (Z.to_nat (k - gs (to_grid tr)))) as [v|] eqn:Ev.
    - exists v, (to_grid tr), (Z.to_nat (k - gs (to_grid tr))). split; [apply in_map; exact It|]. split; [exact Ev|lia].
    - apply nth_error_None in Ev. lia.
  Qed.

  (** ** Whole conversions *)
  Variable d : list entry.
  Variable sn : bytes.
  Notation outcome_of := (fun bl => block_outcome (read d sn bl)).

  (** The times of the samples of a block that is read. *)
  Definition times_of (bl : list Z) (ts : list Q) : Prop :=
    forall out pts, joined_of d sn bl out -> timed_by out pts -> Forall2 Qeq (map fst pts) ts.
  Definition has_data (bl : list Z) : bool := match read d sn bl with Gives (inl _) => true | _ => false end.

  (** Conversions for which C22, C25 and C47 hold: file numbers divided in blocks; none of the blocks raises anything
      but the exceptions of missing, corrupt or GPS-less files; the sample times increase throughout, within and across
      blocks; they are at least half an interval after the epoch, and the end time of the conversion is a block, a file
      and two seconds after the last.  Times are in seconds, [f] and [t2] in intervals of 0.01 s. *)
  Definition good_conversion (times : list Z -> list Q) (nums : list Z) (blockdays : Q) (f : Z) (t2 : Q) (blocks : list (list Z)) : Prop :=
    0 < blockdays /\ (0 < f)%Z /\ divided nums (12 * blockdays) blocks /\
    Forall (fun bl => outcome_of bl <> Raises) blocks /\
    Forall (fun bl => times_of bl (times bl)) blocks /\
    chain Qlt (flat_map times (filter has_data blocks)) /\
    forall t, In t (flat_map times (filter has_data blocks)) -> 1 # 200 <= t /\ t * 100 + day * blockdays + inject_Z f + 200 <= t2.

  Lemma data_block bl g : read d sn bl = Gives (inl g) -> data_of (outcome_of bl) = map to_grid (a_data (g_times g)).
  Proof. intros E. cbn beta. rewrite E. reflexivity. Qed.

  Lemma no_data bl : has_data bl = false -> data_of (outcome_of bl) = [].
  Proof. unfold has_data. intros H. cbn beta. destruct (read d sn bl) as [| | | | |[g|[]]]; try reflexivity. discriminate. Qed.

  (** Each trace of a block lies between two of its times. *)
  Lemma block_between bl ts : sn <> b "TXT" -> times_of bl ts -> forall tr, In tr (data_of (outcome_of bl)) ->
    exists s e, In s ts /\ In e ts /\ s - (1 # 200) <= inject_Z (gs tr) * (1 # 100) /\ inject_Z (gend tr) * (1 # 100) <= e - (1 # 200).
  Proof.
    intros N T tr I. destruct (read d sn bl) as [| | | | |[g|[]]] eqn:E; cbn beta in I; rewrite ?E in I; try destruct I.
    cbn [block_outcome data_of] in I. apply in_map_iff in I as (tr0 & <- & I).
    destruct (read_joined _ _ _ _ E N) as (out & trs & ps & J & Ei & _ & Eg & _). rewrite Eg in I. cbn [a_data] in I.
    pose proof (T _ _ J (joined_timed _ _ _ _ J)) as F. pose proof (timed_points_points (timed (jheader out) (jdata out))) as P.
    destruct (trace_within _ _ _ _ Ei P tr0 I) as (G & Nd & s & e & Is & Ie & X).
    assert (Eq : forall x l m, Forall2 Qeq l m -> In x l -> exists y, In y m /\ x == y).
    { clear. intros x l m F. induction F as [|u w l m H F IH]; [intros []|]. intros [<-|J]; [exists w; split; [left; reflexivity|exact H]|].
      destruct (IH J) as (y & A & B). exists y. split; [right; exact A|exact B]. }
    destruct (Eq _ _ _ F Is) as (s' & Is' & Es). destruct (Eq _ _ _ F Ie) as (e' & Ie' & Ee). exists s', e'. split; [exact Is'|]. split; [exact Ie'|].
    rewrite (gend_time _ _ _ _ Ei P tr0 I), <- (to_grid_start _ G), <- Es, <- Ee.
    assert (L : (0 < length (tr_data tr0))%nat) by (destruct (tr_data tr0); [contradiction|cbn; lia]).
    pose proof (X 0%nat L) as X0. specialize (X (length (tr_data tr0) - 1)%nat ltac:(lia)). unfold time_of in X0. change (inject_Z (Z.of_nat 0)) with 0 in X0. lra.
  Qed.

  Lemma data_in_order (times : list Z -> list Q) blocks : sn <> b "TXT" ->
    Forall (fun bl => times_of bl (times bl)) blocks -> chain Qlt (flat_map times (filter has_data blocks)) ->
    in_order (all_of outcome_of data_of blocks).
  Proof.
    intros N T. induction T as [|bl blocks T0 T IH]; [split; [constructor|exact I]|]. cbn [filter flat_map all_of].
    change (all_of outcome_of data_of (bl :: blocks)) with (data_of (outcome_of bl) ++ all_of outcome_of data_of blocks).
    destruct (has_data bl) eqn:H.
    - cbn [flat_map]. intros C. pose proof (chain_skip _ _ _ C) as C2. specialize (IH C2). apply in_order_app; [|exact IH|].
      + unfold has_data in H. destruct (read d sn bl) as [| | | | |[g|]] eqn:E; try discriminate. cbn beta. rewrite ?E. cbn [block_outcome data_of].
        destruct (read_joined _ _ _ _ E N) as (out & trs & ps & J & Ei & _ & Eg & _). rewrite Eg. cbn [a_data].
        apply (grid_in_order _ _ _ _ Ei (timed_points_points _)). eapply chain_Qeq; [|exact (chain_app_l _ _ _ C)].
        pose proof (T0 _ _ J (joined_timed _ _ _ _ J)) as F. clear - F. induction F; constructor; [symmetry; assumption|assumption].
      + intros x y Ix Iy. destruct (block_between bl (times bl) N T0 x Ix) as (s & e & Is & Ie & B1 & B2).
        unfold all_of in Iy. apply in_flat_map in Iy as (bl' & Ib & Iy). rewrite Forall_forall in T.
        destruct (block_between bl' (times bl') N (T _ Ib) y Iy) as (s' & e' & Is' & Ie' & B3 & B4).
        assert (L : e < s').
        { apply (chain_app_lt _ _ C); [exact Ie|]. apply in_flat_map. exists bl'. split; [|exact Is']. apply filter_In. split; [exact Ib|].
          destruct (has_data bl') eqn:H'; [reflexivity|]. rewrite (no_data _ H') in Iy. destruct Iy. }
        rewrite Zlt_Qlt. lra.
    - intros C. rewrite (no_data _ H). cbn [app]. exact (IH C).
  Qed.

  (** Such conversions satisfy the hypotheses of C22, C25 and C47, and all samples of their blocks are explained by
      the timed samples of a block. *)
  Theorem C50_conversion times nums blockdays f t2 blocks : sn <> b "TXT" ->
    good_conversion times nums blockdays f t2 blocks ->
    whole_conversion outcome_of nums blockdays f t2 blocks /\
    forall k v, sample (all_of outcome_of data_of blocks) k v ->
      exists bl out pts, In bl blocks /\ joined_of d sn bl out /\ timed_by out pts /\ explained spline pts k v.
  Proof.
    intros N (Hb & Hf & Hd & HR & HT & HC & Hs). split.
    - split; [exact Hb|]. split; [exact Hf|]. split; [exact Hd|]. rewrite Forall_forall in HR. split; [exact HR|].
      split; [exact (data_in_order times blocks N HT HC)|]. intros k v (tr & i & I & Ev & Ek).
      unfold all_of in I. apply in_flat_map in I as (bl & Ib & I). rewrite Forall_forall in HT.
      destruct (block_between bl (times bl) N (HT _ Ib) tr I) as (s & e & Is & Ie & B1 & B2).
      assert (Hd' : has_data bl = true) by (destruct (has_data bl) eqn:H; [reflexivity|rewrite (no_data _ H) in I; destruct I]).
      assert (A : forall t, In t (times bl) -> 1 # 200 <= t /\ t * 100 + day * blockdays + inject_Z f + 200 <= t2).
      { intros t It. apply Hs. apply in_flat_map. exists bl. split; [apply filter_In; auto|exact It]. }
      pose proof (A s Is) as [A1 _]. pose proof (A e Ie) as [_ A2].
      assert (Li : (i < length (gd tr))%nat) by (apply nth_error_Some; congruence).
      assert (K1 : (gs tr <= k)%Z) by lia. assert (K2 : (k <= gend tr)%Z) by (unfold gend; lia).
      rewrite Zle_Qle in K1, K2 |- *. change (inject_Z 0) with 0. split; [lra|].
      set (W := day * blockdays) in *. lra.
    - intros k v (tr & i & I & Ev & Ek). unfold all_of in I. apply in_flat_map in I as (bl & Ib & I).
      destruct (read d sn bl) as [| | | | |[g|[]]] eqn:E; cbn beta in I; rewrite ?E in I; try destruct I.
      cbn [block_outcome data_of] in I. destruct (C50_block_samples _ _ _ _ E N) as (out & pts & J & T & _ & X).
      exists bl, out, pts. split; [exact Ib|]. split; [exact J|]. split; [exact T|]. apply X. exists tr, i. auto.
  Qed.

  (** From raw files to output files: a conversion returns, its output files are in time order without overlap, each
      inside one window of the file length, and each sample of them is at or after the first whole second and is either
      explained by the raw samples of a block or fills a gap of at most three samples of the resampled record; nothing of
      this record from the first whole second on is missing. *)
  Theorem C50_output_files times nums blockdays f t2 blocks T1 : sn <> b "TXT" ->
    good_conversion times nums blockdays f t2 blocks ->
    first_second (all_of outcome_of data_of blocks) T1 -> (exists k v, sample (all_of outcome_of data_of blocks) k v /\ (T1 <= k)%Z) ->
    exists n h, (forall fuel, (n <= fuel)%nat ->
        convert _ _ _ position_time outcome_of nums blockdays (inject_Z f) None t2 fuel = (h, Returns (all_of outcome_of problems_of blocks))) /\
      in_order (written h) /\ Forall (in_window (inject_Z f)) (written h) /\
      (forall k v, sample (written h) k v -> (T1 <= k)%Z /\
        ((exists bl out pts, In bl blocks /\ joined_of d sn bl out /\ timed_by out pts /\ explained spline pts k v) \/
         fills (sample (all_of outcome_of data_of blocks)) k v)) /\
      (forall k v, sample (all_of outcome_of data_of blocks) k v -> (T1 <= k)%Z -> sample (written h) k v).
  Proof.
    intros N H F S. destruct (C50_conversion _ _ _ _ _ _ N H) as [W X].
    destruct (C22_default_start _ _ _ position_time outcome_of _ _ _ _ _ _ W F S) as (n & h & Run & A & B & C).
    exists n, h. split; [exact Run|]. split; [exact A|]. split; [exact B|]. split; intros k v.
    - intros Hk. apply C in Hk as [K [Hk|Hk]]; (split; [exact K|]); [left; exact (X _ _ Hk)|right; exact Hk].
    - intros Hk K. apply C. auto.
  Qed.
  (** The times of a block whose files are known. *)
  Definition times_from (o : option (joined entry hinfo bytes)) : list Q :=
    match o with Some out => map fst (timed_points (timed (jheader out) (jdata out))) | None => [] end.
  Lemma times_of_files bl fl0 v0 : (forall v fl, files_of d sn bl v fl -> fl = fl0 /\ v = v0) -> ~ In v0 [b "0.85"; b "0.8"] ->
    times_of bl (times_from (join None fl0)).
  Proof.
    intros X V out pts (v & arg & fl & Fo & Va & J & Nd) T. destruct (X v fl Fo) as [-> ->].
    assert (arg = None) as -> by (destruct Va as [[_ ->]|[K _]]; [reflexivity|contradiction]).
    rewrite J. cbn [times_from].
    pose proof (timed_points_by out (C19_every_sample_timed _ _ _ _ _ _ _ _ _ _ J)) as T'.
    pose proof (timed_by_unique _ _ _ T T') as F. clear - F. induction F as [|p q l m [H _] F IH]; [constructor|]. constructor; assumption.
  Qed.
End Props.

(** Two files of one logger, one at midnight and one an hour later, each of 220 s with a GPS fix every 16 s: six samples
    at 10 ms, one per second, and four at 10 ms again; and a file of another logger.  They are converted in blocks of one. *)
Definition ex_fix_line (hour k : Z) : bytes :=
  b "G," ++ str_Z (15625 * k mod 8192) ++ b ",0,2021,1,1," ++ str_Z hour ++ b "," ++ str_Z (16 * k / 60) ++ b "," ++ str_Z (16 * k mod 60) ++ b ",43,-116".
Definition ex_sample (t v : Z) : bytes := b "D" ++ str_Z (t mod 8192) ++ b "," ++ str_Z v.
Definition ex_part (hour k : Z) : list bytes :=
  map (fun j => ex_sample (976 * (16 * k + j)) j) [1;2;3;4;5;6;7;8;9;10;11;12;13;14;15;16]%Z ++ [ex_fix_line hour (k + 1)].
Definition ex_bytes (hour : Z) : bytes :=
  file (map (fun j => ex_sample (10 * j) (10 * j)) [0;1;2;3;4;5]%Z ++ b "M,0,3.3,20.5,0,0,1,2,3,4,5,6,7" ::
        flat_map (ex_part hour) [0;1;2;3;4;5;6;7;8;9;10;11;12;13]%Z ++ map (fun j => ex_sample (219500 + 10 * j) (-j)) [0;1;2;3]%Z) [].
Definition ex_content (e : entry) : raw_file :=
  mkraw (Some (ex_bytes (num e))) (fun _ => inr CorruptRaw) (fun _ => inr CorruptRaw).
Definition ex_e (n : bytes) : entry := mke n (Some (b "059")) 5000 (Some (b "0.9")).
Definition ex_d : list entry := [ex_e (b "FILE0001.059"); ex_e (b "FILE0000.059"); ex_e (b "FILE0000.060")].
Notation ex_read := (read_files dec_scanner [] true through3 through linear ex_content (fun _ => 0%Z) 1700000000 true ex_d (b "059")).
Definition ex_join (n : Z) : option (joined entry hinfo bytes) :=
  join dec_scanner [] true through3 through ex_content true None [ex_e (if (n =? 0)%Z then b "FILE0000.059" else b "FILE0001.059")].
Definition ex_times (bl : list Z) : list Q := match bl with [n] => times_from (ex_join n) | _ => [] end.
Fixpoint incb (l : list Q) : bool := match l with x :: ((y :: _) as r) => Qltb x y && incb r | _ => true end.
Lemma incb_chain l : incb l = true -> chain Qlt l.
Proof.
  induction l as [|x l IH]; [intros _; exact I|]. destruct l as [|y l]; [intros _; exact I|]. intros H.
  change (Qltb x y && incb (y :: l) = true) in H. apply andb_true_iff in H as [A C]. split; [apply Qltb_lt; exact A|exact (IH C)].
Qed.
Definition ex_t2 : Q := inject_Z 25340230079999.

Lemma ex_files_of n v fl : n = 0%Z \/ n = 1%Z -> files_of ex_d (b "059") [n] v fl ->
  fl = [ex_e (if (n =? 0)%Z then b "FILE0000.059" else b "FILE0001.059")] /\ v = b "0.9".
Proof.
  intros Hn (before & f & rest & E & A & Nd & _ & _ & V). set (f0 := ex_e (if (n =? 0)%Z then b "FILE0000.059" else b "FILE0001.059")).
  assert (X : forall g, In g (before ++ fl) -> g = f0).
  { intros g I. apply A in I as [I (m & x & (_ & Nm & _) & [<-|[]] & _ & [[-> _]|[-> (s & _ & _)]])].
    - unfold f0. destruct Hn as [->| ->]; destruct I as [<-|[<-|[<-|[]]]]; try reflexivity; vm_compute in Nm; discriminate.
    - exfalso. destruct Hn as [->| ->]; destruct I as [<-|[<-|[<-|[]]]]; vm_compute in Nm; discriminate. }
  assert (Y : In f (before ++ fl)) by (rewrite E; apply in_elt).
  assert (Z : NoDup (before ++ fl)).
  { apply Nd. unfold ex_d. repeat constructor; cbn; intros K; repeat (destruct K as [K|K]; [vm_compute in K; discriminate|]); exact K. }
  assert (L : before ++ fl = [f0]).
  { destruct (before ++ fl) as [|g l] eqn:El; [destruct Y|]. rewrite (X g (or_introl eq_refl)) in *. f_equal.
    destruct l as [|g' l]; [reflexivity|]. exfalso. inversion Z as [|? ? K _]. apply K. rewrite (X g' (or_intror (or_introl eq_refl))). left. reflexivity. }
  assert (Ef : f = f0) by (apply X; exact Y). split.
  - destruct before as [|g before]; [exact L|]. injection L as _ L. apply app_eq_nil in L as [_ L]. rewrite L in E. discriminate.
  - rewrite Ef in V. destruct Hn as [->| ->]; injection V as <-; reflexivity.
Qed.

Lemma ex_times_of n : n = 0%Z \/ n = 1%Z ->
  times_of dec_scanner [] true through3 through ex_content true ex_d (b "059") [n] (ex_times [n]).
Proof.
  intros Hn. unfold ex_times, ex_join.
  apply times_of_files with (v0 := b "0.9"); [intros v fl Fo; exact (ex_files_of n v fl Hn Fo)|].
  intros [K|[K|[]]]; vm_compute in K; discriminate.
Qed.

Notation ex_outcome := (fun bl => block_outcome (ex_read bl)).

Example C50_case :
  data_of (ex_outcome [0%Z]) = [mkg 160945920001 [1; 11; 31; 61; 100]; mkg 160945942478 [2054; 2052; 2050]]%Z /\
  data_of (ex_outcome [1%Z]) = [mkg 160946280001 [1; 11; 31; 61; 100]; mkg 160946302478 [2054; 2052; 2050]]%Z.
Proof. split; vm_compute; reflexivity. Qed.

Lemma ex_not_raises bl tr l : data_of (ex_outcome bl) = tr :: l -> ex_outcome bl <> Raises /\
  has_data dec_scanner [] true through3 through linear ex_content (fun _ => 0%Z) 1700000000 true ex_d (b "059") bl = true.
Proof.
  cbn beta. unfold has_data. destruct (ex_read bl) as [| | | | |[g|[]]]; intros H; try discriminate H.
  split; [discriminate|reflexivity].
Qed.

Lemma ex_data : ex_outcome [0%Z] <> Raises /\ ex_outcome [1%Z] <> Raises /\
  all_of ex_outcome data_of [[0%Z]; [1%Z]] = [mkg 160945920001 [1; 11; 31; 61; 100]; mkg 160945942478 [2054; 2052; 2050];
                                             mkg 160946280001 [1; 11; 31; 61; 100]; mkg 160946302478 [2054; 2052; 2050]]%Z.
Proof.
  destruct C50_case as (D1 & D2). unfold all_of. cbn [flat_map]. rewrite D1, D2.
  split; [apply (ex_not_raises _ _ _ D1)|]. split; [apply (ex_not_raises _ _ _ D2)|]. reflexivity.
Qed.

Definition ex_check (l : list Q) : bool :=
  incb l && forallb (fun t => Qle_bool (1 # 200) t && Qle_bool (t * 100 + day * (1 # 12) + inject_Z 360000 + 200) ex_t2) l.
Lemma ex_checked : ex_check (ex_times [0%Z] ++ ex_times [1%Z]) = true.
Proof. vm_compute. reflexivity. Qed.

Lemma ex_divided : divided [0; 1]%Z (12 * (1 # 12)) [[0]; [1]]%Z.
Proof.
  split; [discriminate|]. split; [reflexivity|]. split; [discriminate|]. intros i bl n Ei I.
  destruct i as [|[|i]]; [| |destruct i; discriminate]; injection Ei as <-; destruct I as [<-|[]]; split; (apply Qle_bool_iff || apply Qltb_lt); vm_compute; reflexivity.
Qed.

Example C50_case_hypotheses : good_conversion dec_scanner [] true through3 through linear ex_content (fun _ => 0%Z) 1700000000 true ex_d (b "059")
    ex_times [0; 1]%Z (1 # 12) 360000 ex_t2 [[0]; [1]]%Z /\
  spline_contract linear /\
  first_second (all_of ex_outcome data_of [[0]; [1]]%Z) 160945920100 /\
  exists k v, sample (all_of ex_outcome data_of [[0]; [1]]%Z) k v /\ (160945920100 <= k)%Z.
Proof.
  destruct ex_data as (R1 & R2 & D).
  pose proof ex_checked as T. unfold ex_check in T.
  apply andb_true_iff in T as [T1 T2]. rewrite forallb_forall in T2.
  assert (H : forall n, n = 0%Z \/ n = 1%Z -> has_data dec_scanner [] true through3 through linear ex_content (fun _ => 0%Z) 1700000000 true ex_d (b "059") [n] = true).
  { destruct C50_case as (D1 & D2). intros n [->| ->]; [apply (ex_not_raises _ _ _ D1)|apply (ex_not_raises _ _ _ D2)]. }
  split.
  { split; [reflexivity|]. split; [reflexivity|]. split; [|split; [|split; [|split]]].
    - exact ex_divided.
    - constructor; [exact R1|]. constructor; [exact R2|constructor].
    - constructor; [apply ex_times_of; auto|]. constructor; [apply ex_times_of; auto|constructor].
    - cbn [filter]. rewrite !H by auto. cbn [flat_map]. rewrite app_nil_r. apply incb_chain. exact T1.
    - cbn [filter]. rewrite !H by auto. cbn [flat_map]. rewrite app_nil_r. intros t It. specialize (T2 t It).
      apply andb_true_iff in T2 as [A B]. apply Qle_bool_iff in A, B. exact (conj A B). }
  split; [exact linear_contract|]. rewrite D. split.
  - split; [exists 1609459201%Z; reflexivity|]. exists 160945920001%Z, 1%Z. split; [|split; [|lia]].
    + eexists. exists 0%nat. split; [left; reflexivity|]. split; reflexivity.
    + intros l w S. assert (160945920001 <= l <= 160946302480)%Z; [|lia]. revert l w S. apply bounded_samples. repeat constructor; vm_compute; discriminate.
  - exists 160945942478%Z, 2054%Z. split; [|lia]. eexists. exists 0%nat. split; [right; left; reflexivity|]. split; reflexivity.
Qed.

(** A file without a format line, and one that cannot be opened: both blocks are skipped. *)
Definition ex_lost (e : entry) : raw_file := mkraw None (fun _ => inr CorruptRaw) (fun _ => inr CorruptRaw).
Example C50_case_skipped :
  (forall f, In f [mke (b "FILE0000.059") None 5000 None] -> readable (b "059") [0%Z] f -> e_version f = None) /\
  files_of [ex_e (b "FILE0000.059")] (b "059") [0%Z] (b "0.9") [ex_e (b "FILE0000.059")] /\
  exists out, join dec_scanner [] true through3 through ex_lost true None [ex_e (b "FILE0000.059")] = Some out /\ jdata out = [].
Proof.
  split; [intros f [<-|[]] _; reflexivity|]. split; [|eexists; split; [vm_compute; reflexivity|reflexivity]].
  exists [], (ex_e (b "FILE0000.059")), []. split; [reflexivity|]. split; [|split; [|split; [exact I|split; [intros g []|reflexivity]]]].
  - intros g. split; [|tauto]. intros [<-|[]]. split; [left; reflexivity|]. exists 0%Z, (b "059"). split; [split; [lia|]; split; reflexivity|].
    split; [left; reflexivity|]. split; [cbn; lia|]. left. split; [reflexivity|discriminate].
  - intros _. repeat constructor; intros [].
Qed.

Print Assumptions C50_block.
Print Assumptions C50_block_samples.
Print Assumptions C50_block_covered.
Print Assumptions C50_conversion.
Print Assumptions C50_output_files.
Print Assumptions C50_gain.
Print Assumptions C50_skipped.
Print Assumptions C50_reported.
