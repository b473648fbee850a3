(** Properties of the huddle test (C43). *)
From Coq Require Import String.
From Coq Require Import ZArith QArith Qround Qabs List Bool Lia Lqa.
From Verif Require DaysProofs CliProps.
From Verif Require Import Base Lib UnwrapProofs Names NamesProofs Process Outliers OutliersSpec OutliersProofs Windows Stations Select SelectSpec SelectProofs
  GpsSpec GpsProofs Cli CliProofs Huddle HuddleSpec HuddleProofs HuddleGroupProofs HuddleTempProofs.
Import ListNotations.
Open Scope Z_scope.

Section Runs.
  (** What is on disk, the loggers asked for, and the options. *)
  Variables (read : bytes -> option (list health)) (rest_ok : bytes -> bool) (find_lags : list bytes -> option (list window))
    (folders : bool) (path : bytes) (names sns exclude : list bytes).
  Let run (individual_only run_xc : bool) : option report :=
    verify read rest_ok find_lags folders path names sns exclude individual_only run_xc.
  Let tested : list bytes := loggers_of path names sns exclude.

  Lemma run_inv ind xc rep : run ind xc = Some rep -> exists loggers,
    tested <> [] /\ NoDup tested /\
    individual (fun sn => read (health_file path sn)) rest_ok tested (mkstate [] [] [] []) = Some (individual_part rep, loggers) /\
    group ind (if xc then Some (find_lags tested) else None) (individual_part rep) loggers = Some rep.
  Proof.
    unfold run, verify. fold tested. destruct (folders && _ && distinct tested) eqn:E; [|discriminate].
    apply andb_true_iff in E. destruct E as [E D]. apply andb_true_iff in E. destruct E as [_ N].
    destruct (individual _ rest_ok tested _) as [[s loggers]|] eqn:F; [|discriminate]. intro G. exists loggers.
    split; [destruct tested; [discriminate|discriminate]|]. split.
    - clear - D. induction tested as [|x l IH]; [constructor|]. cbn in D. apply andb_true_iff in D. destruct D as [D1 D2]. constructor; [|apply IH, D2].
      intro I. apply existsb_bytes in I. rewrite I in D1. discriminate.
    - assert (S : individual_part rep = s).
      { clear - G. unfold group in G. destruct (spans loggers); [|discriminate]. cbv zeta in G. destruct (temperatures _ _ _); [|discriminate].
        destruct (if xc then _ else _) as [[ws|]|]; [|discriminate|]; [destruct (lag_message ws)|]; injection G as <-; reflexivity. }
      rewrite S. split; [reflexivity|exact G].
  Qed.
  Lemma run_rows ind xc rep loggers : run ind xc = Some rep ->
    individual (fun sn => read (health_file path sn)) rest_ok tested (mkstate [] [] [] []) = Some (individual_part rep, loggers) ->
    map fst loggers = tested /\ (forall sn rows, In (sn, rows) loggers -> read (health_file path sn) = Some rows /\ (2 <= length rows)%nat) /\
    forall sn, In sn tested -> exists rows, In (sn, rows) loggers.
  Proof.
    intros _ E. destruct (individual_spec _ _ _ _ _ _ E) as (F & A & _). split; [exact F|]. split.
    - intros sn rows I. destruct (A _ _ I) as (R & D & _). split; [exact R|]. apply dated_two, D.
    - intros sn I. rewrite <- F in I. apply in_map_iff in I. destruct I as ([sn' rows] & <- & I). exists rows. exact I.
  Qed.

  (** Every logger has exactly one result for every check, the one that its data deserve. *)
  Theorem C43_results : forall ind xc rep, run ind xc = Some rep ->
    NoDup (map fst (table (individual_part rep))) /\
    (forall sn c st, In (sn, c, st) (table (individual_part rep)) -> In sn tested) /\
    (forall sn c, In sn tested -> exists rows st, read (health_file path sn) = Some rows /\ (2 <= length rows)%nat /\
       In (sn, c, st) (table (individual_part rep)) /\ deserves rows c st).
  Proof.
    intros ind xc rep R. destruct (run_inv _ _ _ R) as (loggers & N & ND & E & _). destruct (run_rows _ _ _ _ R E) as (F & A & B).
    destruct (individual_spec _ _ _ _ _ _ E) as (_ & _ & RS & FR & AR & T & _). cbn [table app] in T. rewrite T. split; [|split].
    - rewrite <- FR in ND. clear - ND AR. induction RS as [|[sn l] RS IH]; [constructor|]. cbn [flat_map map fst snd] in *.
      rewrite map_app, map_map. cbn [fst]. inversion ND as [|x y Nx Ny]; subst. apply DaysProofs.NoDup_app_intro.
      + destruct (AR sn l (or_introl eq_refl)) as (rows & _ & Rl). apply results_checks in Rl.
        apply (NoDup_map_inv snd). rewrite map_map. cbn [snd]. change (NoDup (map fst l)). rewrite Rl. vm_compute. repeat constructor; intro H; cbn in H; repeat destruct H as [H|H]; try discriminate; exact H.
      + apply IH; [exact Ny|]. intros sn' l' I. destruct (AR sn' l' (or_intror I)) as (rows & I' & H). exists rows. split; assumption.
      + intros p I J. apply in_map_iff in I. destruct I as ([c st] & <- & I). apply in_map_iff in J. destruct J as ([q st'] & Eq & J).
        cbn [fst snd] in Eq. subst q. apply in_flat_map in J. destruct J as ([sn' l'] & I' & J). apply in_map_iff in J. destruct J as (cs & Ej & _).
        cbn [fst snd] in Ej. injection Ej as -> _ _. apply Nx. apply in_map_iff. exists (sn, l'). auto.
    - intros sn c st I. apply in_flat_map in I. destruct I as ([sn' l] & I & J). apply in_map_iff in J. destruct J as (cs & Ej & _).
      cbn [fst snd] in Ej. injection Ej as -> _ _. rewrite <- FR. apply in_map_iff. exists (sn, l). auto.
    - intros sn c I. rewrite <- FR in I. apply in_map_iff in I. destruct I as ([sn' l] & E' & I). cbn [fst] in E'. subst sn'.
      destruct (AR _ _ I) as (rows & Ir & Rl). destruct (A _ _ Ir) as [Rd L2]. exists rows.
      assert (Ic : In c (map fst l)) by (rewrite (results_checks _ _ Rl); apply all_checks_in).
      apply in_map_iff in Ic. destruct Ic as ([c' st] & E' & Ic). cbn [fst] in E'. subst c'. exists st.
      split; [exact Rd|]. split; [exact L2|]. split; [|exact (results_deserved _ _ _ _ L2 Rl Ic)].
      apply in_flat_map. exists (sn, l). split; [exact I|]. apply in_map_iff. exists (c, st). auto.
  Qed.

  (** The lists hold exactly the results: one message per cell of the table. *)
  Theorem C43_messages : forall ind xc rep, run ind xc = Some rep ->
    let s := individual_part rep in
    let cells st := filter (fun x : bytes * check * status => severity (snd x) =? severity st) (table s) in
    length (errors s) = length (cells ERROR) /\ length (warnings s) = length (cells WARNING) /\ length (notes s) = length (cells NOTE) /\
    forall sn c, c <> UnusedStack ->
      (In (mkmessage (Some sn) c) (errors s) <-> In (sn, c, ERROR) (table s)) /\
      (In (mkmessage (Some sn) c) (warnings s) <-> In (sn, c, WARNING) (table s)) /\
      (In (mkmessage (Some sn) c) (notes s) <-> In (sn, c, NOTE) (table s)).
  Proof.
    intros ind xc rep R. destruct (run_inv _ _ _ R) as (loggers & N & ND & E & _).
    destruct (individual_spec _ _ _ _ _ _ E) as (_ & _ & RS & _ & _ & T & Er & W & No). cbn [table errors warnings notes app] in T, Er, W, No.
    cbv zeta. rewrite T, Er, W, No.
    assert (Len : forall st, length (flat_map (fun x => of_status st (fst x) (snd x)) RS) =
      length (filter (fun x : bytes * check * status => severity (snd x) =? severity st) (flat_map (fun x => map (fun cs => (fst x, fst cs, snd cs)) (snd x)) RS))).
    { clear. intro st. induction RS as [|[sn l] RS IH]; [reflexivity|]. cbn [flat_map fst snd]. rewrite filter_app, !app_length, IH. f_equal.
      unfold of_status. rewrite map_length, filter_map_length. cbn [snd]. reflexivity. }
    split; [apply Len|]. split; [apply Len|]. split; [apply Len|]. intros sn c Nc.
    assert (Mem : forall st, In (mkmessage (Some sn) c) (flat_map (fun x => of_status st (fst x) (snd x)) RS) <->
      In (sn, c, st) (flat_map (fun x => map (fun cs => (fst x, fst cs, snd cs)) (snd x)) RS)).
    { intro st. rewrite !in_flat_map. split; intros ([sn' l] & I & J); cbn [fst snd] in J; exists (sn', l); (split; [exact I|]); cbn [fst snd].
      - unfold of_status in J. apply in_map_iff in J. destruct J as ([c' st'] & M & J). cbn [fst] in M. apply filter_In in J. destruct J as [J K]. cbn [snd] in K.
        assert (st' = st) by (destruct st', st; try discriminate; reflexivity). subst st'.
        unfold message_of in M. injection M as M1 M2. subst c'. apply in_map_iff. exists (c, st). cbn [fst snd]. split; [|exact J].
        destruct c; try contradiction; injection M1 as ->; reflexivity.
      - apply in_map_iff in J. destruct J as ([c' st'] & M & J). cbn [fst snd] in M. injection M as -> -> ->. unfold of_status. apply in_map_iff.
        exists (c, st). split; [cbn [fst]; unfold message_of; destruct c; try contradiction; reflexivity|]. apply filter_In. split; [exact J|]. cbn [snd]. apply Z.eqb_refl. }
    split; [apply Mem|]. split; apply Mem.
  Qed.

  (** First and last times: the note that they agree is there if and only if no two loggers begin, or end, more than
      twenty minutes apart; otherwise the loggers that begin (end) more than twenty minutes after (before) another are named. *)
  Theorem C43_times : forall ind xc rep, run ind xc = Some rep ->
    (forall sn rows, In sn tested -> read (health_file path sn) = Some rows -> timed rows) ->
    let late sn := exists sn' rows rows' a a', In sn' tested /\ read (health_file path sn) = Some rows /\ read (health_file path sn') = Some rows' /\
      earliest rows a /\ earliest rows' a' /\ (a - a' > 1200)%Q in
    let early sn := exists sn' rows rows' e e', In sn' tested /\ read (health_file path sn) = Some rows /\ read (health_file path sn') = Some rows' /\
      latest rows e /\ latest rows' e' /\ (e' - e > 1200)%Q in
    (In TimesAgree (group_notes rep) <-> forall sn, In sn tested -> ~ late sn /\ ~ early sn) /\
    (forall sn, In (StartsLate sn) (group_errors rep) <-> In sn tested /\ late sn) /\
    (forall sn, In (StopsEarly sn) (group_errors rep) <-> In sn tested /\ early sn).
  Proof.
    intros ind xc rep R T late early. destruct (run_inv _ _ _ R) as (loggers & N & ND & E & G). destruct (run_rows _ _ _ _ R E) as (F & A & B).
    assert (Nl : loggers <> []) by (intros ->; cbn in F; congruence).
    assert (Tl : forall x, In x loggers -> timed (snd x)).
    { intros [sn rows] I. destruct (A _ _ I) as [Rd _]. apply (T sn rows); [rewrite <- F; apply in_map_iff; exists (sn, rows); auto|exact Rd]. }
    unfold group in G. destruct (spans loggers) as [sp|] eqn:Sp; [|discriminate]. cbv zeta in G.
    destruct (group_times _ _ Nl Tl Sp) as (lo & hi & El & Eh & (xl & Ixl & Hl) & Al & (xh & Ixh & Hh) & Ah & F1 & F2).
    rewrite El, Eh in G. destruct (temperatures _ _ _) as [temps|] eqn:Te; [|discriminate].
    assert (Kind : forall m, In m temps -> exists X c, m = Temperatures X c).
    { intros m I. unfold temperatures in Te. destruct (comparison _ _ _) as [[[t1 t2] n]|]; [|discriminate]. destruct (all_some _) as [ts|]; [|discriminate].
      destruct (width _) as [st|]; [|discriminate]. exact (temperature_kind _ _ _ _ _ Te I). }
    set (times := times_messages (Some lo) (Some hi) sp) in *.
    assert (H : (forall m, In m (group_errors rep) <-> In m times \/ In m temps \/ (m = LagsNonzero /\ In LagsNonzero (group_errors rep))) /\
                (In TimesAgree (group_notes rep) <-> times = [])).
    { destruct (if xc then _ else _) as [[ws|]|] eqn:X; [|discriminate|].
      - destruct (lag_message ws) eqn:Lm; injection G as <-; cbn [group_errors group_notes];
          try (unfold lag_message in Lm; destruct (filter coherent ws); [discriminate|]; destruct (Qltb _ _); discriminate).
        + split; [intro m; rewrite !in_app_iff; cbn [In]; intuition congruence|]. destruct times; cbn [In]; intuition congruence.
        + split.
          * intro m. rewrite !in_app_iff. split; [tauto|]. intros [I|[I|[-> I]]]; [tauto|tauto|exact I].
          * rewrite in_app_iff. destruct times; cbn [In]; intuition congruence.
      - injection G as <-. cbn [group_errors group_notes]. split.
        + intro m. rewrite !in_app_iff. split; [tauto|]. intros [I|[I|[-> I]]]; [tauto|tauto|exact I].
        + destruct times; cbn [In]; intuition congruence. }
    destruct H as [Herr Hnote].
    assert (Late : forall sn, In (StartsLate sn) times <-> In sn tested /\ late sn).
    { intro sn. unfold times. rewrite times_in. split.
      - intros (a & e & I & L). destruct (F1 _ I) as ([sn' rows] & a' & e' & Ix & Ey & Ha & _). cbn [fst snd] in *. injection Ey as -> -> ->.
        split; [rewrite <- F; apply in_map_iff; exists (sn', rows); auto|]. destruct xl as [snl rowsl]. cbn [snd] in Hl.
        exists snl, rows, rowsl, a', lo. split; [rewrite <- F; apply in_map_iff; exists (snl, rowsl); auto|].
        split; [apply A, Ix|]. split; [apply A, Ixl|]. split; [exact Ha|]. split; [exact Hl|].
        cbn [le_nan] in L. unfold max_secs in L. assert (Q : ~ (a' <= lo + 1200)%Q) by (rewrite <- Qle_bool_iff, L; discriminate). lra.
      - intros (I & sn' & rows & rows' & a & a' & I' & Rd & Rd' & Ha & Ha' & D). destruct (B _ I) as (rows1 & J). destruct (B _ I') as (rows1' & J').
        assert (rows1 = rows) by (destruct (A _ _ J); congruence). assert (rows1' = rows') by (destruct (A _ _ J'); congruence). subst rows1 rows1'.
        destruct (F2 _ J) as (a1 & e1 & Is & Ha1 & _). cbn [fst snd] in *. exists (Some a1), (Some e1). split; [exact Is|].
        cbn [le_nan]. destruct (Qle_bool a1 (lo + max_secs)) eqn:Q; [exfalso|reflexivity]. apply Qle_bool_iff in Q. unfold max_secs in Q.
        pose proof (Al _ _ J' Ha') as Q1. pose proof (earliest_fun _ _ _ Ha Ha1) as Q2. lra. }
    assert (Early : forall sn, In (StopsEarly sn) times <-> In sn tested /\ early sn).
    { intro sn. unfold times. rewrite times_in'. split.
      - intros (a & e & I & L). destruct (F1 _ I) as ([sn' rows] & a' & e' & Ix & Ey & _ & He). cbn [fst snd] in *. injection Ey as -> -> ->.
        split; [rewrite <- F; apply in_map_iff; exists (sn', rows); auto|]. destruct xh as [snh rowsh]. cbn [snd] in Hh.
        exists snh, rows, rowsh, e', hi. split; [rewrite <- F; apply in_map_iff; exists (snh, rowsh); auto|].
        split; [apply A, Ix|]. split; [apply A, Ixh|]. split; [exact He|]. split; [exact Hh|].
        cbn [le_nan] in L. unfold max_secs in L. assert (Q : ~ (hi + - (1200) <= e')%Q) by (rewrite <- Qle_bool_iff, L; discriminate). lra.
      - intros (I & sn' & rows & rows' & a & a' & I' & Rd & Rd' & Ha & Ha' & D). destruct (B _ I) as (rows1 & J). destruct (B _ I') as (rows1' & J').
        assert (rows1 = rows) by (destruct (A _ _ J); congruence). assert (rows1' = rows') by (destruct (A _ _ J'); congruence). subst rows1 rows1'.
        destruct (F2 _ J) as (a1 & e1 & Is & _ & He1). cbn [fst snd] in *. exists (Some a1), (Some e1). split; [exact Is|].
        cbn [le_nan]. destruct (Qle_bool (hi + - max_secs) e1) eqn:Q; [exfalso|reflexivity]. apply Qle_bool_iff in Q. unfold max_secs in Q.
        pose proof (Ah _ _ J' Ha') as Q1. pose proof (latest_fun _ _ _ Ha He1) as Q2. lra. }
    split; [|split].
    - rewrite Hnote. split.
      + intros Em sn I. rewrite Em in Late, Early. split; intro K; [apply (proj2 (Late sn)); auto|apply (proj2 (Early sn)); auto].
      + intro K. destruct times as [|m l] eqn:Em; [reflexivity|exfalso]. destruct (times_kind (Some lo) (Some hi) sp m) as [(sn & ->)|(sn & ->)].
        * fold times. rewrite Em. left. reflexivity.
        * destruct (proj1 (Late sn) (or_introl eq_refl)) as [I J]. exact (proj1 (K sn I) J).
        * destruct (proj1 (Early sn) (or_introl eq_refl)) as [I J]. exact (proj2 (K sn I) J).
    - intro sn. rewrite Herr, <- Late. split; [|tauto]. intros [I|[I|[I _]]]; [exact I| |discriminate]. destruct (Kind _ I) as (X & c & K). discriminate.
    - intro sn. rewrite Herr, <- Early. split; [|tauto]. intros [I|[I|[I _]]]; [exact I| |discriminate]. destruct (Kind _ I) as (X & c & K). discriminate.
  Qed.

  (** From here on the loggers are steady: the rows of each are some fixed time apart, at least a second, and the whole
      seconds of that time divide a minute. *)
  Lemma steady_loggers rows ind xc rep loggers : run ind xc = Some rep ->
    individual (fun sn => read (health_file path sn)) rest_ok tested (mkstate [] [] [] []) = Some (individual_part rep, loggers) ->
    (forall sn, In sn tested -> read (health_file path sn) = Some (rows sn)) ->
    loggers = map (fun sn => (sn, rows sn)) tested.
  Proof.
    intros R E H. destruct (run_rows _ _ _ _ R E) as (F & A & _). rewrite <- F, map_map.
    assert (K : forall x, In x loggers -> (fst x, rows (fst x)) = x).
    { intros [sn l] I. cbn [fst]. destruct (A _ _ I) as [Rd _]. rewrite H in Rd; [congruence|]. rewrite <- F. apply in_map_iff. exists (sn, l). auto. }
    clear - K. induction loggers as [|x l IH]; [reflexivity|]. cbn [map]. rewrite (K x (or_introl eq_refl)). f_equal. apply IH. intros y I. apply K. right. exact I.
  Qed.

  (** Temperatures: a comparison names exactly the loggers whose reading is more than 1.5 degrees from the median of the
      readings, rounded to hundredths. *)
  Theorem C43_temperatures : forall ind xc rep rows s d i, run ind xc = Some rep ->
    (forall sn, In sn tested -> read (health_file path sn) = Some (rows sn) /\ regular (rows sn) (s sn) (d sn) /\ whole (d sn) (i sn)) ->
    exists w until, (exists sn, In sn tested /\ 60 = i sn * w /\ forall sn', In sn' tested -> i sn <= i sn') /\
      (exists sn e, In sn tested /\ latest (rows sn) e /\ (forall sn' e', In sn' tested -> latest (rows sn') e' -> (e' <= e)%Q) /\ comparison_end w e until) /\
      forall X c, In (Temperatures X c) (group_errors rep) <->
        X <> [] /\ exists values m y,
          Forall2 (fun sn v => forall x, v = Some x <-> reading (rows sn) (d sn) (60 / i sn) until c x) tested values /\
          is_median (present values) m /\ hundredths m y /\
          only (fun sn => exists x, reading (rows sn) (d sn) (60 / i sn) until c x /\ (Qabs (x - y) > 3 # 2)%Q) tested X.
  Proof.
    intros ind xc rep rows s d i R H. destruct (run_inv _ _ _ R) as (loggers & N & ND & E & G).
    assert (El := steady_loggers rows _ _ _ _ R E (fun sn I => proj1 (H sn I))). subst loggers.
    assert (St : forall sn, In sn tested -> regular (rows sn) (s sn) (d sn) /\ whole (d sn) (i sn)) by (intros sn I; apply H, I).
    unfold group in G. destruct (spans _) as [sp|] eqn:Sp; [|discriminate]. cbv zeta in G.
    assert (Nl : map (fun sn => (sn, rows sn)) tested <> []) by (intro K; apply map_eq_nil in K; contradiction).
    assert (Tl : forall x, In x (map (fun sn => (sn, rows sn)) tested) -> timed (snd x)).
    { intros x I. apply in_map_iff in I. destruct I as (sn & <- & I). cbn [snd]. exact (regular_timed _ _ _ (proj1 (St sn I))). }
    destruct (group_times _ _ Nl Tl Sp) as (lo & hi & El & Eh & (xl & Ixl & Hl) & Al & (xh & Ixh & Hh) & Ah & F1 & F2).
    rewrite El, Eh in G.
    assert (Lo : forall sn, In sn tested -> (lo <= s sn)%Q).
    { intros sn I. destruct (St sn I) as [Rg W]. apply (Al (sn, rows sn)); [apply in_map_iff; exists sn; auto|]. cbn [snd]. exact (regular_earliest _ _ _ Rg (whole_pos _ _ W)). }
    destruct (temperatures_steady rows s d i tested St lo hi N Lo) as (sn0 & w & until & n & I0 & M & E0 & Pw & CE & En & [[Hn Tn]|(Hn & t1 & T & l & ET & Tl' & Hin & Kind & HT)]).
    { rewrite Tn in G. discriminate. }
    rewrite Tl' in G. exists w, until. split; [exists sn0; auto|]. split.
    { apply in_map_iff in Ixh. destruct Ixh as (snh & <- & Ih). cbn [snd] in Hh. exists snh, hi. split; [exact Ih|]. split; [exact Hh|]. split; [|exact CE].
      intros sn' e' I' He'. apply (Ah (sn', rows sn')); [apply in_map_iff; exists sn'; auto|exact He']. }
    intros X c. assert (Hg : In (Temperatures X c) (group_errors rep) <-> In (Temperatures X c) l).
    { set (times := times_messages (Some lo) (Some hi) sp) in *.
      assert (Nt : ~ In (Temperatures X c) times) by (intro I; destruct (times_kind _ _ _ _ I) as [(? & K)|(? & K)]; discriminate).
      destruct (if xc then _ else _) as [[ws|]|]; [|discriminate|].
      - destruct (lag_message ws) eqn:Lm; injection G as <-; cbn [group_errors];
          try (unfold lag_message in Lm; destruct (filter coherent ws); [discriminate|]; destruct (Qltb _ _); discriminate);
          rewrite !in_app_iff; cbn [In]; intuition congruence.
      - injection G as <-. cbn [group_errors]. rewrite !in_app_iff. tauto. }
    rewrite Hg, Hin. clear Hg Hin.
    assert (Q60 : forall sn, In sn tested -> 60 = i sn * (60 / i sn)).
    { intros sn I. destruct (St sn I) as [_ (P & _ & _ & (q & Eq))]. rewrite Eq. rewrite Z.div_mul by lia. lia. }
    assert (HV : forall sn, In sn tested -> 0 <= c -> forall x, nth (Z.to_nat c) (T sn) None = Some x <-> reading (rows sn) (d sn) (60 / i sn) until c x).
    { intros sn I Pc x. apply (proj1 (HT sn (60 / i sn) c I (Q60 sn I) Pc)). }
    split.
    - intros ([Pc Lc] & NX & FX). split; [exact NX|]. destruct (far_spec T tested c) as [[_ K]|(m & y & Md & Hy & Oy)]; [congruence|].
      exists (map (fun sn => nth (Z.to_nat c) (T sn) None) tested), m, y. split.
      { clear - HV Pc. induction tested as [|sn t IH]; constructor; [apply HV; [left; reflexivity|exact Pc]|]. apply IH. intros sn' I. apply HV. right. exact I. }
      split; [exact Md|]. split; [exact Hy|]. rewrite FX in Oy.
      assert (K : forall P P' : bytes -> Prop, (forall sn, In sn tested -> (P sn <-> P' sn)) -> only P tested X -> only P' tested X).
      { clear. intros P P' H O. induction O as [|x l m p O IH|x l m p O IH]; [constructor| |].
        - apply only_yes; [apply (H x (or_introl eq_refl)), p|]. apply IH. intros; apply H; right; assumption.
        - apply only_no; [rewrite <- (H x (or_introl eq_refl)); exact p|]. apply IH. intros; apply H; right; assumption. }
      refine (K _ _ _ Oy). intros sn I. split; intros (x & Ex & Q); exists x; (split; [|exact Q]); apply (HV sn I Pc); exact Ex.
    - intros (NX & values & m & y & FV & Md & Hy & Oy).
      assert (Ex0 : exists sn x, In sn tested /\ reading (rows sn) (d sn) (60 / i sn) until c x).
      { clear - NX Oy. induction Oy as [|sn l m (x & Rx & _) O IH|sn l m p O IH]; [contradiction| |].
        - exists sn, x. split; [left; reflexivity|exact Rx].
        - destruct (IH NX) as (sn' & x & I & Rx). exists sn', x. split; [right; exact I|exact Rx]. }
      destruct Ex0 as (sn1 & x1 & I1 & R1). assert (Pc : 0 <= c) by (destruct R1 as (r & t & Pc & _); exact Pc).
      assert (Lc : c < n).
      { destruct (Z.lt_ge_cases c n) as [L|L]; [exact L|exfalso]. pose proof (proj2 (HT sn1 (60 / i sn1) c I1 (Q60 sn1 I1) Pc) L) as K.
        apply (HV sn1 I1 Pc) in R1. congruence. }
      split; [lia|]. split; [exact NX|].
      assert (Ev : values = map (fun sn => nth (Z.to_nat c) (T sn) None) tested).
      { clear - FV HV Pc. revert FV. generalize values. clear values. induction tested as [|sn t IH]; intros values FV; inversion FV as [|? v ? vs Hv Hvs]; subst; [reflexivity|].
        cbn [map]. f_equal; [|apply IH; [intros sn' I; apply HV; right; exact I|exact Hvs]].
        pose proof (HV sn (or_introl eq_refl) Pc) as K. destruct v as [x|].
        - symmetry. apply K. apply Hv. reflexivity.
        - destruct (nth (Z.to_nat c) (T sn) None) as [x|]; [exfalso|reflexivity]. assert (Q : reading (rows sn) (d sn) (60 / i sn) until c x) by (apply K; reflexivity).
          apply Hv in Q. discriminate. }
      destruct (far_spec T tested c) as [[Kn _]|(m' & y' & Md' & Hy' & Oy')].
      { exfalso. apply (HV sn1 I1 Pc) in R1. rewrite (Kn _ I1) in R1. discriminate. }
      rewrite <- Ev in Md'. pose proof (median_unique _ _ _ Md Md') as Em. pose proof (hundredths_fun _ _ _ _ Em Hy Hy') as Ey.
      assert (K : forall P P' : bytes -> Prop, (forall sn, In sn tested -> (P sn <-> P' sn)) -> only P tested X -> only P' tested X).
      { clear. intros P P' H O. induction O as [|x l m p O IH|x l m p O IH]; [constructor| |].
        - apply only_yes; [apply (H x (or_introl eq_refl)), p|]. apply IH. intros; apply H; right; assumption.
        - apply only_no; [rewrite <- (H x (or_introl eq_refl)); exact p|]. apply IH. intros; apply H; right; assumption. }
      refine (only_fun _ _ _ _ Oy' (K _ _ _ Oy)). intros sn I. split; intros (x & Ex & Q); exists x; (split; [apply (HV sn I Pc); exact Ex|]).
      + rewrite <- Ey. exact Q.
      + rewrite Ey. exact Q.
  Qed.

  Lemma group_part ind xc loggers rows s d i st : tested <> [] -> loggers = map (fun sn => (sn, rows sn)) tested ->
    (forall sn, In sn tested -> regular (rows sn) (s sn) (d sn) /\ whole (d sn) (i sn)) ->
    (xc = true -> find_lags tested <> None) ->
    exists lo hi sn0 w, (exists sn, In sn tested /\ earliest (rows sn) lo) /\ (exists sn, In sn tested /\ latest (rows sn) hi) /\
      (forall sn a, In sn tested -> earliest (rows sn) a -> (lo <= a)%Q) /\ (forall sn e, In sn tested -> latest (rows sn) e -> (e <= hi)%Q) /\
      60 = i sn0 * w /\ 0 < w /\ 0 < i sn0 /\
      (group ind (if xc then Some (find_lags tested) else None) st loggers = None <->
       Qfloor (hi / inject_Z w) - Qfloor (lo / inject_Z w) - 10 * i sn0 <= 0).
  Proof.
    intros N -> St Hx. assert (Nl : map (fun sn => (sn, rows sn)) tested <> []) by (intro K; apply map_eq_nil in K; contradiction).
    assert (Tl : forall x, In x (map (fun sn => (sn, rows sn)) tested) -> timed (snd x)).
    { intros x I. apply in_map_iff in I. destruct I as (sn & <- & I). cbn [snd]. exact (regular_timed _ _ _ (proj1 (St sn I))). }
    destruct (spans_some (map (fun sn => (sn, rows sn)) tested)) as (sp & Sp).
    { intros x I. apply in_map_iff in I. destruct I as (sn & <- & I). cbn [snd]. destruct (St sn I) as [[L _] _]. intro K. rewrite K in L. cbn in L. lia. }
    destruct (group_times _ _ Nl Tl Sp) as (lo & hi & El & Eh & (xl & Ixl & Hl) & Al & (xh & Ixh & Hh) & Ah & F1 & F2).
    assert (Lo : forall sn, In sn tested -> (lo <= s sn)%Q).
    { intros sn I. destruct (St sn I) as [Rg W]. apply (Al (sn, rows sn)); [apply in_map_iff; exists sn; auto|]. cbn [snd]. exact (regular_earliest _ _ _ Rg (whole_pos _ _ W)). }
    destruct (temperatures_steady rows s d i tested St lo hi N Lo) as (sn0 & w & until & n & I0 & M & E0 & Pw & CE & En & Te).
    exists lo, hi, sn0, w. split. { apply in_map_iff in Ixl. destruct Ixl as (sn & <- & I). exists sn. auto. }
    split. { apply in_map_iff in Ixh. destruct Ixh as (sn & <- & I). exists sn. auto. }
    split. { intros sn a I Ha. apply (Al (sn, rows sn)); [apply in_map_iff; exists sn; auto|exact Ha]. }
    split. { intros sn a I Ha. apply (Ah (sn, rows sn)); [apply in_map_iff; exists sn; auto|exact Ha]. }
    split; [exact E0|]. split; [exact Pw|]. split; [destruct (St sn0 I0) as [_ (P & _)]; lia|].
    rewrite <- En. unfold group. rewrite Sp. cbv zeta. rewrite El, Eh. destruct Te as [[Hn ->]|(Hn & t1 & T & l & _ & -> & _)].
    - split; [intros _; exact Hn|reflexivity].
    - split; [|lia]. destruct xc; [|discriminate]. specialize (Hx eq_refl). destruct (find_lags tested) as [ws|]; [|contradiction].
      destruct (lag_message ws); discriminate.
  Qed.

  (** The test finishes with a report: for any number of distinct loggers, with data that can be read, if there are at
      least eleven minutes from the first time of one to the last time of one. *)
  Theorem C43_finishes : forall ind xc rows s d i,
    folders = true -> tested <> [] -> NoDup tested ->
    (forall sn, In sn tested -> integer_literal sn /\ rest_ok sn = true /\ read (health_file path sn) = Some (rows sn) /\
       regular (rows sn) (s sn) (d sn) /\ whole (d sn) (i sn)) ->
    (exists sn sn' a e, In sn tested /\ In sn' tested /\ earliest (rows sn) a /\ latest (rows sn') e /\ (660 <= e - a)%Q) ->
    (xc = true -> find_lags tested <> None) ->
    exists rep, run ind xc = Some rep.
  Proof.
    intros ind xc rows s d i Hf N ND H (sn1 & sn2 & a1 & e1 & I1 & I2 & Ha & He & Long) Hx.
    unfold run, verify. fold tested. rewrite Hf.
    assert (Dt : distinct tested = true).
    { clear - ND. induction ND as [|x l Nx ND IH]; [reflexivity|]. cbn. rewrite IH, andb_true_r. apply negb_true_iff. apply not_true_iff_false. rewrite existsb_bytes. exact Nx. }
    rewrite Dt. assert (Ne : negb match tested with [] => true | _ :: _ => false end = true) by (destruct tested; [contradiction|reflexivity]). rewrite Ne. cbn [andb].
    assert (Ind : forall st, exists st', individual (fun sn => read (health_file path sn)) rest_ok tested st = Some (st', map (fun sn => (sn, rows sn)) tested)).
    { clear - H. induction tested as [|sn l IH]; intro st; [eexists; reflexivity|]. cbn [individual map].
      destruct (H sn (or_introl eq_refl)) as (Li & Ok & Rd & Rg & W). rewrite Rd, Ok. apply is_int_spec in Li. rewrite Li.
      assert (Dd : dated (rows sn) = true).
      { unfold dated. destruct (_ <? _); [|reflexivity]. destruct Rg as [L Rg]. destruct (rows sn) as [|r0 [|r1 rest]]; try (cbn in L; lia).
        destruct (Rg 1%nat r1 eq_refl) as (t & -> & _). reflexivity. }
      rewrite Dd. cbn [andb]. destruct (results_some (rows sn)) as (res & Er); [destruct Rg as [L _]; intro K; rewrite K in L; cbn in L; lia|]. rewrite Er.
      destruct (IH (fun sn' I => H sn' (or_intror I)) (fold_left (put sn) res st)) as (st' & E). rewrite E. eexists. reflexivity. }
    destruct (Ind (mkstate [] [] [] [])) as (st & E). change (fun sn : bytes => read (path ++ b "/metadata/" ++ sn ++ b "metadata_000.txt")) with (fun sn => read (health_file path sn)).
    rewrite E. destruct (group_part ind xc _ rows s d i st N eq_refl) as (lo & hi & sn0 & w & _ & _ & Al & Ah & E60 & Pw & Pi & G).
    { intros sn I. destruct (H sn I) as (_ & _ & _ & Rg & W). auto. }
    { exact Hx. }
    destruct (group _ _ _ _) as [rep|] eqn:Gr; [exists rep; reflexivity|exfalso]. assert (K := proj1 G eq_refl). clear G.
    pose proof (Al sn1 a1 I1 Ha) as L1. pose proof (Ah sn2 e1 I2 He) as L2.
    pose proof (inject_pos _ Pw) as PW. destruct (floor_bounds hi _ PW) as [_ B1]. destruct (floor_bounds lo _ PW) as [B2 _].
    set (f := Qfloor (hi / inject_Z w)) in *. set (g := Qfloor (lo / inject_Z w)) in *.
    assert (Q : (inject_Z 660 < inject_Z (w * f + w - w * g))%Q).
    { unfold Zminus. rewrite !inject_Z_plus, inject_Z_opp, !inject_Z_mult. change (inject_Z 660) with 660%Q. lra. }
    rewrite <- Zlt_Qlt in Q. assert (w <= 60) by nia. assert (w * (f - g) > w * (10 * i sn0)) by lia. nia.
  Qed.

  (** With less than ten minutes from the first time to the last there is no report. *)
  Theorem C43_short : forall ind xc rows s d i,
    (forall sn, In sn tested -> read (health_file path sn) = Some (rows sn) /\ regular (rows sn) (s sn) (d sn) /\ whole (d sn) (i sn)) ->
    (forall sn sn' a e, In sn tested -> In sn' tested -> earliest (rows sn) a -> latest (rows sn') e -> (e - a < 600)%Q) ->
    run ind xc = None.
  Proof.
    intros ind xc rows s d i H Short. destruct (run ind xc) as [rep|] eqn:R; [exfalso|reflexivity].
    destruct (run_inv _ _ _ R) as (loggers & N & ND & E & G).
    assert (El := steady_loggers rows _ _ _ _ R E (fun sn I => proj1 (H sn I))).
    assert (Hx : xc = true -> find_lags tested <> None).
    { intros -> K. rewrite K in G. unfold group in G. destruct (spans _); [|discriminate]. cbv zeta in G. destruct (temperatures _ _ _); discriminate. }
    destruct (group_part ind xc loggers rows s d i (individual_part rep) N El) as (lo & hi & sn0 & w & (sn1 & I1 & H1) & (sn2 & I2 & H2) & _ & _ & E60 & Pw & Pi & K).
    { intros sn I. apply H, I. }
    { exact Hx. }
    assert (C : ~ Qfloor (hi / inject_Z w) - Qfloor (lo / inject_Z w) - 10 * i sn0 <= 0) by (rewrite <- K, G; discriminate). clear K.
    pose proof (Short sn1 sn2 lo hi I1 I2 H1 H2) as S.
    pose proof (inject_pos _ Pw) as PW. destruct (floor_bounds hi _ PW) as [B1 _]. destruct (floor_bounds lo _ PW) as [_ B2].
    set (f := Qfloor (hi / inject_Z w)) in *. set (g := Qfloor (lo / inject_Z w)) in *.
    assert (Q : (inject_Z (w * f - w * g - w) < inject_Z 600)%Q).
    { unfold Zminus. rewrite !inject_Z_plus, !inject_Z_opp, !inject_Z_mult. change (inject_Z 600) with 600%Q. lra. }
    rewrite <- Zlt_Qlt in Q. assert (w * (f - g - 1) < w * (10 * i sn0)) by lia. nia.
  Qed.

  (** If the rows of some logger are on average less than a second apart there is no report. *)
  Theorem C43_fast_clock : forall ind xc sn first middle last t0 t1,
    In sn tested -> read (health_file path sn) = Some (first :: middle ++ [last]) -> timed (first :: middle ++ [last]) ->
    h_t first = Some t0 -> h_t last = Some t1 -> (t0 <= t1)%Q -> (t1 - t0 < inject_Z (Z.of_nat (length middle) + 1))%Q ->
    run ind xc = None.
  Proof.
    intros ind xc sn first middle last' t0 t1 I Rd T E0 E1 L0 L1. destruct (run ind xc) as [rep|] eqn:R; [exfalso|reflexivity].
    destruct (run_inv _ _ _ R) as (loggers & N & ND & E & G). destruct (run_rows _ _ _ _ R E) as (F & A & B).
    destruct (B sn I) as (rows & J). destruct (A _ _ J) as [Rd' _]. assert (rows = first :: middle ++ [last']) by congruence. subst rows.
    unfold group in G. destruct (spans _) as [sp|]; [|discriminate]. cbv zeta in G. destruct (temperatures _ _ _) as [l|] eqn:Te; [|discriminate]. clear G.
    unfold temperatures in Te. destruct (comparison _ _ _) as [[[a e] n]|]; [|discriminate]. destruct (all_some _) as [ts|] eqn:As; [|discriminate]. clear Te.
    assert (S : exists c, sampled a e n (first :: middle ++ [last']) = Some c).
    { clear - As J. revert ts As. induction loggers as [|x l IH]; intros ts As; [destruct J|]. cbn [map all_some] in As.
      destruct (sampled a e n (snd x)) as [c|] eqn:S; [|discriminate]. destruct J as [ -> |J].
      - exists c. exact S.
      - destruct (all_some _) as [m|]; [|discriminate]. exact (IH J m eq_refl). }
    destruct S as (c & S). unfold sampled in S.
    destruct (timed_map _ T) as (ts' & Et). destruct ts' as [|x0 ts']; [discriminate|].
    assert (Ex0 : x0 = t0) by (cbn in Et; congruence). subst x0.
    assert (Nt : ts' <> []) by (intros ->; cbn in Et; destruct middle; discriminate).
    destruct (interval_spec _ _ _ Et Nt) as (v & Ev & Qv).
    assert (Lt : length ts' = (length middle + 1)%nat).
    { assert (K : length (map h_t (first :: middle ++ [last'])) = length (map Some (t0 :: ts'))) by (rewrite Et; reflexivity).
      rewrite !map_length in K. cbn [length] in K. rewrite app_length in K. cbn [length] in K. lia. }
    assert (La : List.last ts' t0 = t1).
    { assert (K : List.last (map h_t (first :: middle ++ [last'])) None = List.last (map Some (t0 :: ts')) None) by (rewrite Et; reflexivity).
      rewrite (last_map h_t _ last' _) in K by discriminate. change (first :: middle ++ [last']) with ((first :: middle) ++ [last']) in K. rewrite last_last, E1 in K.
      rewrite (last_map Some _ t0 _) in K by discriminate. injection K as K. destruct ts' as [|y ts']; [contradiction|]. symmetry. exact K. }
    rewrite Lt, La, Nat2Z.inj_add in Qv. change (Z.of_nat 1) with 1 in Qv. set (m := inject_Z (Z.of_nat (length middle) + 1)) in *.
    assert (Pm : (0 < m)%Q) by (apply inject_pos; lia).
    assert (V0 : (0 <= v)%Q).
    { apply Qnot_lt_le. intro K. assert (Q : (v * m < 0 * m)%Q) by (apply Qmult_lt_compat_r; assumption). lra. }
    assert (V1 : (v < 1)%Q).
    { apply Qnot_le_lt. intro K. assert (Q : (1 * m <= v * m)%Q) by (apply Qmult_le_compat_r; lra). lra. }
    rewrite Ev in S. unfold width, py_trunc in S. assert (Qb : Qle_bool 0 v = true) by (apply Qle_bool_iff, V0). rewrite Qb in S.
    rewrite (floor_is v 0) in S; [discriminate|change (inject_Z 0) with 0%Q; lra|change (inject_Z 0) with 0%Q; lra].
  Qed.

  (** Asking for individual tests only adds a warning and leaves everything else as it is. *)
  Theorem C43_individual_only : forall xc,
    match run true xc, run false xc with
    | Some r, Some r' => individual_part r = individual_part r' /\ group_errors r = group_errors r' /\ group_notes r = group_notes r' /\
        group_warnings r = [OneLogger] /\ (In OneLogger (group_warnings r') <-> length tested = 1%nat)
    | None, None => True
    | _, _ => False
    end.
  Proof.
    intro xc. unfold run, verify. fold tested. destruct (folders && _ && distinct tested); [|exact Logic.I].
    destruct (individual _ rest_ok tested _) as [[s loggers]|] eqn:E; [|exact Logic.I].
    destruct (individual_spec _ _ _ _ _ _ E) as (F & _). assert (Ln : length loggers = length tested) by (rewrite <- F, map_length; reflexivity).
    unfold group. destruct (spans loggers) as [sp|]; [|exact Logic.I]. cbv zeta. destruct (temperatures _ _ _) as [l|]; [|exact Logic.I].
    rewrite orb_true_r, orb_false_r, Ln.
    assert (H : In OneLogger (if (length tested =? 1)%nat then [OneLogger] else []) <-> length tested = 1%nat).
    { destruct (Nat.eqb_spec (length tested) 1) as [->|K]; cbn [In]; tauto. }
    destruct (if xc then _ else _) as [[ws|]|]; [|exact Logic.I|].
    - destruct (lag_message ws); cbn [individual_part group_errors group_notes group_warnings]; auto.
    - cbn [individual_part group_errors group_notes group_warnings]. auto.
  Qed.

  (** Lags: with the cross-correlation asked for, it is an error if and only if there are windows in which the waveforms
      agree and no lag is found in fewer than four of five of them. *)
  Theorem C43_lags : forall ind rep ws, run ind true = Some rep -> find_lags tested = Some ws ->
    (forall w, In w ws -> w_coef w <> []) ->
    exists total good, number_of agrees ws total /\ number_of (fun w => agrees w /\ no_lag w) ws good /\
      (In LagsNonzero (group_errors rep) <-> 0 < total /\ 5 * good < 4 * total) /\
      (In LagsZero (group_notes rep) <-> ~ In LagsNonzero (group_errors rep)).
  Proof.
    intros ind rep ws R Ew Nc. destruct (run_inv _ _ _ R) as (loggers & N & ND & E & G). rewrite Ew in G.
    assert (Ag : forall w, In w ws -> (coherent w = true <-> agrees w)).
    { intros w I. unfold coherent, agrees. rewrite andb_true_iff, is_zero_true, Qltb_lt. pose proof (median_is _ (Nc w I)) as M. split.
      - intros [Z L]. split; [exact Z|]. intros m Hm. rewrite (median_unique _ _ _ Hm M). exact L.
      - intros [Z L]. split; [exact Z|]. apply L, M. }
    assert (Nl : forall w, forallb is_zero (w_lag w) = true <-> no_lag w).
    { intro w. rewrite forallb_forall. unfold no_lag. split; intros H x I; apply is_zero_true, H, I. }
    set (c := filter coherent ws). set (z := filter (fun w => forallb is_zero (w_lag w)) c).
    exists (Z.of_nat (length c)), (Z.of_nat (length z)).
    assert (NF : forall (P : window -> Prop) (f : window -> bool) l, (forall x, In x l -> (f x = true <-> P x)) -> number_of P l (Z.of_nat (length (filter f l)))).
    { clear. intros P f l. induction l as [|x l IH]; intro H; [constructor|]. cbn [filter].
      assert (K : number_of P l (Z.of_nat (length (filter f l)))) by (apply IH; intros y I; apply H; right; exact I). destruct (f x) eqn:Fx.
      - cbn [length]. rewrite Nat2Z.inj_succ. apply number_yes; [apply (H x (or_introl eq_refl)), Fx|exact K].
      - apply number_no; [rewrite <- (H x (or_introl eq_refl)), Fx; discriminate|exact K]. }
    split; [apply NF, Ag|]. split.
    { unfold z, c. rewrite DaysProofs.filter_filter. apply NF. intros w I. rewrite andb_true_iff, (Ag w I), Nl. tauto. }
    assert (Lm : lag_message ws = if (0 <? Z.of_nat (length c)) && (5 * Z.of_nat (length z) <? 4 * Z.of_nat (length c)) then LagsNonzero else LagsZero).
    { unfold lag_message. fold c. fold z. destruct c as [|w c'] eqn:Ec; [reflexivity|]. rewrite <- Ec.
      assert (P : 0 < Z.of_nat (length c)) by (rewrite Ec; cbn; lia). assert (P' : 0 <? Z.of_nat (length c) = true) by (apply Z.ltb_lt, P). rewrite P'. cbn [andb].
      assert (Q : Qltb (inject_Z (Z.of_nat (length z)) / inject_Z (Z.of_nat (length c))) (8 # 10) = (5 * Z.of_nat (length z) <? 4 * Z.of_nat (length c))).
      { assert (X : (inject_Z (Z.of_nat (length z)) / inject_Z (Z.of_nat (length c)) == Z.of_nat (length z) # Z.to_pos (Z.of_nat (length c)))%Q).
        { unfold Qeq, Qdiv, Qmult, Qinv, inject_Z. cbn [Qnum Qden]. destruct (Z.of_nat (length c)) as [|p|p]; try lia. cbn. lia. }
        destruct (Z.ltb_spec (5 * Z.of_nat (length z)) (4 * Z.of_nat (length c))) as [H|H].
        - apply Qltb_lt. rewrite X. unfold Qlt. cbn [Qnum Qden]. rewrite Z2Pos.id by lia. lia.
        - apply Qltb_ge. rewrite X. unfold Qle. cbn [Qnum Qden]. rewrite Z2Pos.id by lia. lia. }
      rewrite Q. reflexivity. }
    unfold group in G. destruct (spans _) as [sp|]; [|discriminate]. cbv zeta in G. destruct (temperatures _ _ _) as [l|] eqn:Te; [|discriminate].
    assert (K1 : forall lo hi, ~ In LagsNonzero (times_messages lo hi sp)) by (intros lo hi I; destruct (times_kind _ _ _ _ I) as [(? & K)|(? & K)]; discriminate).
    assert (K2 : ~ In LagsNonzero l).
    { intro I. unfold temperatures in Te. destruct (comparison _ _ _) as [[[a e] n]|]; [|discriminate]. destruct (all_some _) as [ts|]; [|discriminate].
      destruct (width _) as [st|]; [|discriminate]. destruct (temperature_kind _ _ _ _ _ Te I) as (? & ? & K). discriminate. }
    rewrite Lm in G. rewrite <- (Z.ltb_lt 0), <- Z.ltb_lt, <- andb_true_iff.
    destruct (_ && _); injection G as <-; cbn [group_errors group_notes]; rewrite !in_app_iff.
    - split; [split; [reflexivity|intros _; right; right; left; reflexivity]|].
      split; [|intro K; exfalso; apply K; right; right; left; reflexivity]. intro K. destruct (times_messages _ _ sp); cbn [In] in K; intuition discriminate.
    - split; [split; [intros [K|K]; [exfalso; exact (K1 _ _ K)|contradiction]|discriminate]|].
      split; [intros _ [K|K]; [exact (K1 _ _ K)|contradiction]|]. intros _. right. left. reflexivity.
  Qed.
End Runs.

(** Only the first file of state-of-health data of each logger tested counts. *)
Theorem C43_first_log : forall read read' rest_ok find_lags folders path names sns exclude ind xc,
  (forall sn, In sn (loggers_of path names sns exclude) -> read (health_file path sn) = read' (health_file path sn)) ->
  verify read rest_ok find_lags folders path names sns exclude ind xc = verify read' rest_ok find_lags folders path names sns exclude ind xc.
Proof.
  intros read read' rest_ok find_lags folders path names sns exclude ind xc H. unfold verify. destruct (_ && _); [|reflexivity].
  assert (E : forall l st, (forall sn, In sn l -> read (health_file path sn) = read' (health_file path sn)) ->
    individual (fun sn => read (health_file path sn)) rest_ok l st = individual (fun sn => read' (health_file path sn)) rest_ok l st).
  { clear. induction l as [|sn l IH]; intros st H; [reflexivity|]. cbn [individual]. rewrite (H sn (or_introl eq_refl)).
    destruct (read' _) as [rows|]; [|reflexivity]. destruct (_ && _); [|reflexivity]. destruct (results rows) as [res|]; [|reflexivity].
    rewrite IH by (intros sn' I; apply H; right; exact I). reflexivity. }
  unfold health_file in E. rewrite E by exact H. reflexivity.
Qed.

(** What a logger gets is decided by its own data: the other loggers tested with it, those left out
    and the other options do not change its results. *)
Theorem C43_alone : forall read read' rest_ok rest_ok' find_lags find_lags' path path' names names' sns sns' exclude exclude' ind ind' xc xc' rep rep' sn,
  verify read rest_ok find_lags true path names sns exclude ind xc = Some rep ->
  verify read' rest_ok' find_lags' true path' names' sns' exclude' ind' xc' = Some rep' ->
  In sn (loggers_of path names sns exclude) -> In sn (loggers_of path' names' sns' exclude') ->
  read (health_file path sn) = read' (health_file path' sn) ->
  forall c st, In (sn, c, st) (table (individual_part rep)) <-> In (sn, c, st) (table (individual_part rep')).
Proof.
  intros read read' rest_ok rest_ok' fl fl' path path' names names' sns sns' ex ex' ind ind' xc xc' rep rep' sn R R' I I' Er c st.
  destruct (C43_results _ _ _ _ _ _ _ _ _ _ _ R) as (ND & _ & H). destruct (C43_results _ _ _ _ _ _ _ _ _ _ _ R') as (ND' & _ & H').
  destruct (H sn c I) as (rows & s1 & E1 & _ & J1 & D1). destruct (H' sn c I') as (rows' & s2 & E2 & _ & J2 & D2).
  assert (rows' = rows) by congruence. subst rows'. rewrite (deserves_fun _ _ _ _ D2 D1) in J2.
  assert (U : forall (t : list (bytes * check * status)) a x y, NoDup (map fst t) -> In (a, x) t -> In (a, y) t -> x = y :> status).
  { clear. intros t. induction t as [|[a0 x0] t IH]; intros a x y N K L; [destruct K|]. cbn [In] in K, L. destruct K as [K|K], L as [L|L].
    - congruence.
    - injection K as -> ->. inversion N as [|? ? Q _]; subst. exfalso. apply Q. change a with (fst (a, y)). apply in_map, L.
    - injection L as -> ->. inversion N as [|? ? Q _]; subst. exfalso. apply Q. change a with (fst (a, x)). apply in_map, K.
    - inversion N; subst. eapply IH; eauto. }
  split; intro K.
  - rewrite (U _ (sn, c) st s1 ND K J1). exact J2.
  - rewrite (U _ (sn, c) st s1 ND' K J2). exact J1.
Qed.

(** Which loggers are tested: those given, or else those with a GPS log, each once and in order; without
    those to be left out. *)
Theorem C43_loggers : forall path names exclude,
  (forall n, In n names -> ~ hidden n -> exists sn d, length sn = 3%nat /\ length d = 3%nat /\ n = sn ++ b "gps_" ++ d ++ b ".txt") ->
  let l := loggers_of path names [] exclude in
  in_order l /\ NoDup l /\
  forall sn, In sn l <-> ~ In sn exclude /\ length sn = 3%nat /\ ~ hidden sn /\ exists d, length d = 3%nat /\ In (sn ++ b "gps_" ++ d ++ b ".txt") names.
Proof.
  intros path names exclude H. cbv zeta. unfold loggers_of.
  assert (Hid : forall n, starts_with (b ".") n = false <-> ~ hidden n) by (intro n; rewrite <- not_true_iff_false; split; intros K L; apply K; [destruct L as (r & ->); apply starts_with_app|apply starts_with_true, L]).
  set (u := unique_sorted _). destruct (unique_sorted_spec (map (fun n => serial_of (path ++ b "/gps/" ++ n)) (filter (fun n => negb (starts_with (b ".") n)) names))) as [O M].
  fold u in O, M. split; [apply in_order_filter, O|]. split; [apply CliProps.in_order_nodup, in_order_filter, O|].
  assert (Sf : forall sn d, length sn = 3%nat -> length d = 3%nat -> serial_of (path ++ b "/gps/" ++ sn ++ b "gps_" ++ d ++ b ".txt") = sn).
  { intros sn d L1 L2. unfold serial_of. set (pre := path ++ b "/gps/"). rewrite (app_assoc path). fold pre.
    assert (Ln : length (pre ++ sn ++ b "gps_" ++ d ++ b ".txt") = (length pre + 14)%nat) by (rewrite !app_length, L1, L2; reflexivity).
    rewrite Ln. replace (length pre + 14 - 14)%nat with (length pre) by lia. replace (length pre + 14 - 11)%nat with (length pre + 3)%nat by lia.
    rewrite firstn_app, firstn_all2 by lia. replace (length pre + 3 - length pre)%nat with 3%nat by lia.
    rewrite firstn_app, L1, Nat.sub_diag, (firstn_all2 sn) by lia. cbn [firstn]. rewrite app_nil_r, skipn_app, skipn_all, Nat.sub_diag. reflexivity. }
  assert (Dot : forall sn x, length sn = 3%nat -> starts_with (b ".") (sn ++ x) = starts_with (b ".") sn).
  { intros sn x L. destruct sn as [|c sn]; [discriminate|]. reflexivity. }
  intro sn. rewrite filter_In, negb_true_iff, M, in_map_iff. rewrite <- not_true_iff_false, existsb_bytes. split.
  - intros [(n & E & I) Ne]. apply filter_In in I. destruct I as [I Nd]. apply negb_true_iff in Nd. destruct (H n I (proj1 (Hid n) Nd)) as (sn' & d & L1 & L2 & ->).
    rewrite Sf in E by assumption. subst sn'. split; [exact Ne|]. split; [exact L1|]. rewrite Dot in Nd by exact L1. split; [apply Hid, Nd|]. exists d. auto.
  - intros (Ne & L1 & Nd & d & L2 & I). apply Hid in Nd. split; [|exact Ne]. exists (sn ++ b "gps_" ++ d ++ b ".txt"). split; [apply Sf; assumption|].
    apply filter_In. split; [exact I|]. rewrite Dot, Nd by exact L1. reflexivity.
Qed.
Theorem C43_loggers_given : forall path names sns exclude, sns <> [] ->
  only (fun sn => ~ In sn exclude) sns (loggers_of path names sns exclude).
Proof.
  intros path names sns exclude N. unfold loggers_of. destruct sns as [|s0 sns]; [contradiction|]. generalize (s0 :: sns). clear. intro l.
  induction l as [|x l IH]; [constructor|]. cbn [filter]. destruct (existsb (eqb_bytes x) exclude) eqn:E; cbn [negb].
  - apply only_no; [|exact IH]. intro K. apply K, existsb_bytes, E.
  - apply only_yes; [|exact IH]. rewrite <- existsb_bytes, E. discriminate.
Qed.

(** Every check has exactly one result for every logger with at least two rows of data. *)
Theorem C43_one_result : forall rows c, (2 <= length rows)%nat -> exists! st, deserves rows c st.
Proof.
  intros rows c N. destruct (results_some rows) as (l & E); [intros ->; cbn in N; lia|]. assert (C := results_checks _ _ E). pose proof (all_checks_in c) as A. rewrite <- C in A.
  apply in_map_iff in A. destruct A as ([c' st] & <- & I). cbn [fst]. exists st. split; [exact (results_deserved _ _ _ _ N E I)|].
  intros st' D. exact (deserves_fun _ _ _ _ (results_deserved _ _ _ _ N E I) D).
Qed.

(** Worse data never get a better result: if every row has a counterpart among the rows [rows'] that
    is at least as bad for the check, the result for [rows'] is at least as severe. *)
Theorem C43_worse : forall c rows rows' st st', rows <> [] -> usable c rows' -> (forall r, In r rows -> exists r', In r' rows' /\ as_bad c r r') ->
  deserves rows c st -> deserves rows' c st' -> severity st <= severity st'.
Proof.
  intros c rows rows' st st' Ne U H D D'.
  assert (V : forall (f : health -> option Q) (P : Q -> Prop), (forall r r', as_bad c r r' -> forall v, f r = Some v -> P v -> exists w, f r' = Some w /\ P w) ->
    some_value f rows P -> some_value f rows' P).
  { intros f P K (r & v & I & E & Pv). destruct (H r I) as (r' & I' & B). destruct (K r r' B v E Pv) as (w & Ew & Pw). exists r', w. auto. }
  assert (G : forall (f : health -> option Q) (P P' : Q -> Prop), begins_known f rows' ->
    (forall r r', as_bad c r r' -> forall v, f r = Some v -> P v -> exists w, f r' = Some w /\ P w) ->
    (forall r r', as_bad c r r' -> forall v, f r = Some v -> P' v -> exists w, f r' = Some w /\ P' w) ->
    graded f rows P P' st -> graded f rows' P P' st' -> severity st <= severity st').
  { clear D D'. intros f P P' Bk K K' D D'. pose proof (V f P K) as V1. pose proof (V f P' K') as V2. unfold graded in D, D'.
    destruct D as [[_ ->]|(_ & [(-> & S1)|[(-> & S1 & S2)|(-> & _)]])]; destruct D' as [[Nb _]|(_ & [(-> & S3)|[(-> & S3 & S4)|(-> & S3 & S4)]])];
      cbn [severity]; try lia; try contradiction; exfalso; tauto. }
  destruct c; cbn [deserves usable as_bad] in *; try contradiction;
    try (refine (G _ _ _ U _ _ D D'); intros r r' B v E L; destruct (B v E) as (w & Ew & Lw); exists w; (split; [exact Ew|]); unfold not_above, not_below in *; lra).
  - destruct rows as [|r rows]; [contradiction|destruct (H r (or_introl eq_refl)) as (? & _ & [])].
  - destruct D as [(-> & _)|(-> & r & I & Nv)]; [destruct D' as [(-> & _)|(-> & _)]; cbn; lia|]. destruct (H r I) as (r' & I' & B).
    destruct D' as [(-> & A)|(-> & _)]; [|cbn; lia]. exfalso. apply Nv, B, A, I'.
  - destruct rows as [|r rows]; [contradiction|destruct (H r (or_introl eq_refl)) as (? & _ & [])].
  - destruct D as [(-> & _)|(-> & r & I & Nv)]; [destruct D' as [(-> & _)|(-> & _)]; cbn; lia|]. destruct (H r I) as (r' & I' & B).
    destruct D' as [(-> & A)|(-> & _)]; [|cbn; lia]. exfalso. apply Nv, B, A, I'.
  - destruct rows as [|r rows]; [contradiction|destruct (H r (or_introl eq_refl)) as (? & _ & [])].
  - destruct D as [(-> & Sv)|(-> & _)]; [|destruct st'; cbn; lia]. destruct D' as [(-> & _)|(-> & Nv)]; [lia|exfalso; apply Nv].
    apply (V h_fifo (fun v => v > 50)%Q); [|exact Sv]. intros r r' B v E L. destruct (B v E) as (w & Ew & Lw). exists w. split; [exact Ew|]. lra.
  - destruct D as [(-> & r & I & Nv)|(-> & _)]; [|destruct st'; cbn; lia]. destruct D' as [(-> & _)|(-> & A)]; [lia|exfalso].
    destruct (H r I) as (r' & I' & B). destruct (B (A r' I')) as (v & Ev & Zv). exact (Nv v Ev Zv).
  - destruct D as [(-> & Sv)|(-> & _)]; [|destruct st'; cbn; lia]. destruct D' as [(-> & _)|(-> & Nv & Nv')]; [lia|exfalso].
    destruct Sv as [Sv|Sv]; [apply Nv, (V h_stack1 (fun v => v <= 30)%Q); [|exact Sv]|apply Nv', (V h_idle (fun v => v <= 30)%Q); [|exact Sv]];
      intros r r' [B B'] v E L; [destruct (B v E) as (w & Ew & Lw)|destruct (B' v E) as (w & Ew & Lw)]; exists w; (split; [exact Ew|]); lra.
  - destruct rows as [|r rows]; [contradiction|destruct (H r (or_introl eq_refl)) as (? & _ & [])].
Qed.

(** Cases.  Loggers with a row every ten seconds, 80 of them. *)
Definition row_at (t batt temp : Q) (k : Z) : health :=
  mkhealth (Some t) (Some batt) (Some temp) (Some (inject_Z (1 + k mod 2))) (Some (inject_Z (2 - k mod 2))) (Some 3%Q) (Some 0%Q) (Some 1%Q) (Some 50%Q) (Some 60%Q).
Definition steady (start batt temp : Q) : list health := map (fun k => row_at (start + 10 * inject_Z k) batt temp k) (range 80).
Definition three (name : bytes) : option (list health) :=
  if eqb_bytes name (health_file (b "p") (b "041")) then Some (steady 1000 4 20)
  else if eqb_bytes name (health_file (b "p") (b "042")) then Some (steady 1020 5 (41 # 2))
  else if eqb_bytes name (health_file (b "p") (b "043")) then Some (steady 2300 (2 # 1) 28)
  else None.
Definition two_windows (sns : list bytes) : option (list window) :=
  Some [mkwindow (Some 0%Q) [9 # 10; 95 # 100; 9 # 10] [Some 0%Q; Some (1 # 100); Some (1 # 100)]; mkwindow (Some 0%Q) [1 # 10; 1 # 2; 1 # 10] [Some 0%Q; Some 0%Q; Some 0%Q]].
Definition gps_names : list bytes := [b "043gps_000.txt"; b "041gps_000.txt"; b "041gps_001.txt"; b ".DS_Store"; b "044gps_000.txt"; b "042gps_000.txt"].
Definition the_run (ind xc : bool) : option report := verify three (fun _ => true) two_windows true (b "p") gps_names [] [b "044"] ind xc.

Example C43_loggers_case : loggers_of (b "p") gps_names [] [b "044"] = [b "041"; b "042"; b "043"].
Proof. vm_compute. reflexivity. Qed.
Example C43_case : exists rep, the_run false true = Some rep /\
  errors (individual_part rep) = [] /\ warnings (individual_part rep) = [mkmessage (Some (b "043")) BatteryMin] /\
  group_errors rep = [StopsEarly (b "041"); StopsEarly (b "042"); StartsLate (b "043"); Temperatures [b "043"] 0; Temperatures [b "043"] 1;
    Temperatures [b "043"] 2; Temperatures [b "043"] 3; LagsNonzero] /\ group_warnings rep = [] /\ group_notes rep = [].
Proof. eexists. split; [vm_compute; reflexivity|]. repeat (split; [reflexivity|]). reflexivity. Qed.
(** Those loggers meet the conditions of C43_finishes, C43_temperatures and C43_times. *)
Example C43_steady_case : forall start batt temp, regular (steady start batt temp) start 10 /\ whole 10 10 /\ timed (steady start batt temp).
Proof.
  intros start batt temp. assert (R : regular (steady start batt temp) start 10).
  { unfold steady, range. split; [rewrite !map_length, seq_length; cbn; lia|]. intros k r E.
    rewrite map_map, nth_error_map in E. destruct (nth_error (seq 0 (Z.to_nat 80)) k) as [j|] eqn:Ej; [|discriminate]. injection E as <-.
    assert (j = k).
    { assert (L : (k < Z.to_nat 80)%nat) by (rewrite <- (seq_length (Z.to_nat 80) 0); apply nth_error_Some; rewrite Ej; discriminate).
      apply (nth_error_nth _ _ 0%nat) in Ej. rewrite seq_nth in Ej by exact L. lia. }
    subst j. exists (start + 10 * inject_Z (Z.of_nat k))%Q. split; [reflexivity|]. reflexivity. }
  split; [exact R|]. split; [|exact (regular_timed _ _ _ R)]. split; [lia|]. split; [apply Qle_bool_iff; reflexivity|]. split; [reflexivity|exists 6; reflexivity].
Qed.
Example C43_finishes_case : exists sn sn' rows rows' a e, In sn [b "041"; b "042"; b "043"] /\ In sn' [b "041"; b "042"; b "043"] /\
  three (health_file (b "p") sn) = Some rows /\ three (health_file (b "p") sn') = Some rows' /\ earliest rows a /\ latest rows' e /\ (660 <= e - a)%Q.
Proof.
  exists (b "041"), (b "041"), (steady 1000 4 20), (steady 1000 4 20), 1000%Q, 1790%Q. split; [left; reflexivity|]. split; [left; reflexivity|].
  split; [reflexivity|]. split; [reflexivity|]. destruct (C43_steady_case 1000 4 20) as (R & _).
  assert (F : Forall (fun r => match h_t r with Some u => 1000 <= u <= 1790 | None => True end)%Q (steady 1000 4 20)).
  { apply Forall_forall. intros r I. apply In_nth_error in I. destruct I as (k & I). destruct R as [L R]. destruct (R k r I) as (t & -> & T).
    assert (K : (k < 80)%nat) by (assert (X : (k < length (steady 1000 4 20))%nat) by (apply nth_error_Some; rewrite I; discriminate); exact X).
    assert (A : (0 <= inject_Z (Z.of_nat k))%Q) by (change 0%Q with (inject_Z 0); rewrite <- Zle_Qle; lia).
    assert (B : (inject_Z (Z.of_nat k) <= 79)%Q) by (change 79%Q with (inject_Z 79); rewrite <- Zle_Qle; lia). split; lra. }
  rewrite Forall_forall in F. split; [split|].
  - exists (row_at (1000 + 10 * inject_Z 0) 4 20 0), (1000 + 10 * inject_Z 0)%Q. split; [left; reflexivity|]. split; reflexivity.
  - intros r u I E. specialize (F r I). rewrite E in F. apply F.
  - split; [split|].
    + exists (row_at (1000 + 10 * inject_Z 79) 4 20 79), (1000 + 10 * inject_Z 79)%Q. split; [|split; reflexivity].
      apply in_map_iff. exists 79. split; [reflexivity|]. apply in_map_iff. exists 79%nat. split; [reflexivity|]. apply in_seq. cbn. lia.
    + intros r u I E. specialize (F r I). rewrite E in F. apply F.
    + apply Qle_bool_iff. reflexivity.
Qed.
(** With 50 rows there is less than ten minutes of data, and with a row every half second the rows are too close. *)
Definition brief (n : Z) (d : Q) (name : bytes) : option (list health) := Some (map (fun k => row_at (d * inject_Z k) 4 20 k) (range n)).
Example C43_short_case : verify (brief 50 10) (fun _ => true) two_windows true (b "p") [] [b "041"; b "042"] [] false false = None /\
  verify (brief 2000 (1 # 2)) (fun _ => true) two_windows true (b "p") [] [b "041"; b "042"] [] false false = None /\
  verify (brief 80 10) (fun _ => true) two_windows true (b "p") [] [b "041"; b "042"] [] false false <> None.
Proof. split; [vm_compute; reflexivity|]. split; [vm_compute; reflexivity|]. vm_compute. discriminate. Qed.
Example C43_worse_case : let r := row_at 0 (19 # 10) 20 0 in let r' := row_at 5 (16 # 10) 20 0 in
  as_bad BatteryMin r r' /\ usable BatteryMin [r'] /\ deserves [r] BatteryMin WARNING /\ deserves [r'] BatteryMin ERROR.
Proof.
  cbv zeta. split; [intros v E; injection E as <-; exists (16 # 10); split; [reflexivity|apply Qle_bool_iff; reflexivity]|].
  assert (K : forall t v w k, begins_known h_batt [row_at t v w k]) by (intros; exists (row_at t v w k), [], v; split; reflexivity).
  split; [apply K|]. split; right; (split; [apply K|]).
  - right. left. split; [reflexivity|]. split.
    + intros (r & v & [<-|[]] & E & L). injection E as <-. discriminate L.
    + exists (row_at 0 (19 # 10) 20 0), (19 # 10). split; [left; reflexivity|]. split; reflexivity.
  - left. split; [reflexivity|]. exists (row_at 5 (16 # 10) 20 0), (16 # 10). split; [left; reflexivity|]. split; reflexivity.
Qed.

(** A missing first value hides everything that follows: the battery is far too low and passes. *)
Theorem C43_missing_refuted : exists rows, some_value h_batt rows (fun v => v < 17 # 10)%Q /\ deserves rows BatteryMin OKAY.
Proof.
  exists [mkhealth (Some 0%Q) None None None None None None None None None; row_at 10 1 20 1]. split.
  - exists (row_at 10 1 20 1), 1%Q. split; [right; left; reflexivity|]. split; reflexivity.
  - left. split; [|reflexivity]. intros (r & l & v & E & F). injection E as <- _. discriminate F.
Qed.
(** Individual tests only: the errors about the group are reported all the same. *)
Theorem C43_individual_only_refuted : exists rep, the_run true false = Some rep /\ group_errors rep <> [].
Proof. eexists. split; [vm_compute; reflexivity|]. discriminate. Qed.
(** Loggers with the same temperature at the same time are reported as different if they were not
    started at the same time, here ten minutes apart: the comparison begins with the first row of each. *)
Definition warming (start : Q) : list health := map (fun k => row_at (start + 10 * inject_Z k) 4 ((start + 10 * inject_Z k) * (1 # 100)) k) (range 160).
Definition warming_pair (name : bytes) : option (list health) := if eqb_bytes name (health_file (b "p") (b "041")) then Some (warming 0) else Some (warming 600).
Theorem C43_same_time_refuted :
  (forall r r' t t' x x', In r (warming 0) -> In r' (warming 600) -> h_t r = Some t -> h_t r' = Some t' -> (t == t')%Q ->
     h_temp r = Some x -> h_temp r' = Some x' -> (x == x')%Q) /\
  exists rep X c, verify warming_pair (fun _ => true) two_windows true (b "p") [] [b "041"; b "042"] [] false false = Some rep /\
    In TimesAgree (group_notes rep) /\ In (Temperatures X c) (group_errors rep).
Proof.
  split.
  - intros r r' t t' x x' I I' E E' T F F'. apply in_map_iff in I. destruct I as (k & <- & _). apply in_map_iff in I'. destruct I' as (k' & <- & _).
    injection E as <-. injection E' as <-. injection F as <-. injection F' as <-. rewrite T. reflexivity.
  - eexists. exists [b "041"; b "042"], 0. split; [vm_compute; reflexivity|]. split; left; reflexivity.
Qed.
(** Without a window in which the waveforms agree the lags are called zero. *)
Theorem C43_no_agreement_refuted : exists rep, verify (brief 80 10) (fun _ => true) (fun _ => Some [mkwindow (Some 0%Q) [1 # 10] [Some (1 # 2)]]) true (b "p") [] [b "041"; b "042"] [] false true = Some rep /\
  In LagsZero (group_notes rep).
Proof. eexists. split; [vm_compute; reflexivity|]. cbn [group_notes In]. tauto. Qed.
(** The warning about the unused stack does not say which logger it is about. *)
Theorem C43_stack_refuted : exists rep,
  verify (fun _ => Some (map (fun k => mkhealth (Some (10 * inject_Z k)%Q) (Some 4%Q) (Some 20%Q) (Some (inject_Z (1 + k mod 2))) (Some (inject_Z (1 + k mod 2))) (Some 3%Q) (Some 0%Q) (Some 1%Q) (Some 20%Q) (Some 60%Q)) (range 80)))
    (fun _ => true) two_windows true (b "p") [] [b "041"] [] false false = Some rep /\
  In (b "041", UnusedStack, WARNING) (table (individual_part rep)) /\ warnings (individual_part rep) = [mkmessage None UnusedStack].
Proof. eexists. split; [vm_compute; reflexivity|]. split; [cbn [table individual_part In]; tauto|reflexivity]. Qed.

Print Assumptions C43_results.
Print Assumptions C43_messages.
Print Assumptions C43_times.
Print Assumptions C43_temperatures.
Print Assumptions C43_finishes.
Print Assumptions C43_short.
Print Assumptions C43_fast_clock.
Print Assumptions C43_individual_only.
Print Assumptions C43_lags.
Print Assumptions C43_first_log.
Print Assumptions C43_alone.
Print Assumptions C43_loggers.
Print Assumptions C43_loggers_given.
Print Assumptions C43_one_result.
Print Assumptions C43_worse.
Print Assumptions C43_missing_refuted.
Print Assumptions C43_individual_only_refuted.
Print Assumptions C43_same_time_refuted.
Print Assumptions C43_no_agreement_refuted.
Print Assumptions C43_stack_refuted.
