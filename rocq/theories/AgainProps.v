(** Property C59: conversions that are interrupted and run again. *)
From Coq Require Import String.
From Coq Require Import ZArith QArith List Bool Lia.
From Verif Require Import Base CalendarSpec Names NamesSpec NamesProofs NamesProps Workers WorkersSpec WorkersProofs WorkersProps Again AgainProofs
  AgainGps Gps GpsSpec GpsProps.
Import ListNotations.
Open Scope Z_scope.

(** C59.  A conversion that was killed any number of times, at any points, and is then run again to its end leaves the
    same files and folders as one that was never interrupted: the same waveforms, whole, and everything else as it was.
    Only the logs differ: each call has its own. *)
Theorem C59_run_again : forall D out format (jobs : list (job D)) n t0 ta t1 tc,
  fit out format jobs -> jobs <> [] ->
  sessions out format (repeat jobs n) t0 ta -> complete out format jobs ta t1 -> complete out format jobs t0 tc ->
  (forall q, file t1 q = file tc q \/ exists j k, In j jobs /\ 0 <= k /\ (q = gps_log j k \/ q = meta_log j k)) /\
  (forall q, is_dir t1 q = is_dir tc q) /\
  forall j, In j jobs -> exists g m, first_free ta (gps_log j) g /\ first_free ta (meta_log j) m /\
    file t1 (gps_log j g) = log_contents (gps_rows (all_outputs j)) /\ file t1 (meta_log j m) = log_contents (meta_rows (all_outputs j)).
Proof.
  intros D out format jobs n t0 ta t1 tc F NE S C1 Cc. destruct (again out format jobs n t0 ta t1 tc F NE S C1 Cc) as [A B].
  split; [exact A|]. split; [exact B|]. intros j Ij. destruct (proj1 (complete_wrote out format jobs ta t1 F C1) j Ij) as [(g & m & G & M & Cg & Cm & _) _].
  exists g, m. auto.
Qed.

(** C59.  After any interruptions the conversion can be run again: with finitely many logs there is an end to reach, and
    one process (the default) never fails to make a folder. *)
Theorem C59_can_run_again : forall D out format (jobs : list (job D)) n t0 ta,
  fit out format jobs -> finite_logs t0 jobs -> folders_possible out t0 -> sessions out format (repeat jobs n) t0 ta ->
  (exists schedule p t1, run out format schedule (begin jobs) ta = Some (p, t1) /\ idle out format p = true) /\
  (forall schedule p t1, in_turn schedule -> run out format schedule (begin jobs) ta = Some (p, t1) -> idle out format p = true ->
     complete out format jobs ta t1).
Proof.
  intros D out format jobs n t0 ta F Fl Fp S. pose proof (sessions_finite out format n jobs F t0 ta S Fl) as Fl'. pose proof (sessions_folders out format n jobs F t0 ta S Fp) as Fp'.
  split.
  - destruct (proj2 (C42_finishes D out format jobs ta F Fl') [] (begin jobs) ta eq_refl) as (rest & p & t1 & R & Id). exists rest, p, t1. auto.
  - intros schedule p t1 T R Id. exists schedule, p. split; [exact R|]. split; [exact Id|]. exact (C42_one_process D out format jobs schedule p ta t1 F Fp' T R Id).
Qed.

(** C59.  A log that is there after a call stays as it is, whatever calls follow and wherever they are killed, also if they
    convert other files or other instruments. *)
Theorem C59_logs_kept : forall D out format later (t0 t1 : tree D) sn n d,
  Forall (fit out format) later -> sessions out format later t0 t1 -> length sn = 3%nat -> ~ In 47 sn -> 0 <= n ->
  (file t0 (log_name (b "gps/" ++ sn ++ b "gps") n) = Some d -> file t1 (log_name (b "gps/" ++ sn ++ b "gps") n) = Some d) /\
  (file t0 (log_name (b "metadata/" ++ sn ++ b "metadata") n) = Some d -> file t1 (log_name (b "metadata/" ++ sn ++ b "metadata") n) = Some d).
Proof.
  intros D out format later t0 t1 sn n d F S L N Hn. destruct (sessions_log out format later t0 t1 sn n F S L N Hn) as [A B].
  unfold gps_of, meta_of in *. split; intros E; [rewrite A|rewrite B]; congruence.
Qed.

(** C59.  Whatever calls there were, up to a thousand and each perhaps killed, the GPS summary of an instrument reads the
    rows that the last call converting it wrote ([rows], in the log [g]), not an older log.  [es] lists the folder of the
    logs, [parse] is what pandas makes of a log. *)
Theorem C59_summary_reads_last : forall D out format parse sn earlier jobs later (t0 ta tb t1 : tree D) n0 j g rows es,
  Forall dig sn -> length sn = 3%nat ->
  Forall (fit out format) (earlier ++ jobs :: later) -> Forall (Forall (fun j => Forall dig (j_sn j))) (earlier ++ jobs :: later) ->
  out <> b "gps" -> ~ begins (b "gps/") out ->
  (* before the first call: the logs 0 to n0-1 of the instrument, and no hidden files *)
  0 <= n0 ->
  (forall k, 0 <= k -> (present t0 (log_name (b "gps/" ++ sn ++ b "gps") k) = true <-> k < n0)) ->
  (forall name, ~ In 47 name -> file t0 (b "gps/" ++ name) <> None ->
     ~ begins (b ".") name /\ (begins sn name -> exists k, 0 <= k < n0 /\ name = log_name (sn ++ b "gps") k)) ->
  n0 + Z.of_nat (length earlier) < 1000 ->
  sessions out format earlier t0 ta -> session out format jobs ta tb -> sessions out format later tb t1 ->
  In j jobs -> j_sn j = sn -> (forall js k, In js later -> In k js -> j_sn k <> sn) ->
  first_free ta (gps_log j) g -> file tb (gps_log j g) = Some rows ->
  NoDup (map fst es) ->
  (forall name c, In (name, c) es <-> exists d, file t1 (b "gps/" ++ name) = Some d /\ ~ In 47 name /\ c = parse d) ->
  read_gps sn [Folder es] = parse rows.
Proof.
  intros D out format parse sn earlier jobs later t0 ta tb t1 n0 j g rows es Dg L3 F DG O1 O2 N0 C V Bd S1 S2 S3 Ij Ej No Fr Ft ND Es.
  assert (Sl : ~ In 47 sn) by (intros I; rewrite Forall_forall in Dg; specialize (Dg 47 I); unfold dig in Dg; lia).
  assert (Out : out <> gps_dir /\ ~ begins (b "gps/") out) by (split; assumption). assert (Sn : length sn = 3%nat /\ ~ In 47 sn) by auto.
  apply Forall_app in F. destruct F as [F1 F]. apply Forall_cons_iff in F. destruct F as [F2 F3].
  apply Forall_app in DG. destruct DG as [DG1 DG]. apply Forall_cons_iff in DG. destruct DG as [DG2 DG3].
  assert (L0 : logs sn t0 n0) by (split; [exact N0|split; [exact C|exact V]]).
  destruct (sessions_logs out format Out sn Sn earlier t0 ta n0 F1 DG1 S1 L0) as (na & Ha & La & _).
  assert (g = na) as -> by (apply (free_next sn Sn ta na g La); rewrite <- Ej; exact Fr).
  destruct (session_logs out format Out sn Sn jobs ta tb na F2 DG2 S2 La) as (nb & Hb & Lb & Pb & _).
  assert (nb = na + 1) as ->.
  { apply Pb. unfold present. rewrite <- Ej, <- gps_log_of, Ft. apply orb_true_r. }
  destruct (sessions_logs out format Out sn Sn later tb t1 (na + 1) F3 DG3 S3 Lb) as (n1 & _ & L1 & E1). rewrite (E1 No) in L1. clear E1 n1.
  assert (Fin : file t1 (gps_of sn na) = Some rows).
  { destruct (sessions_log out format later tb t1 sn na F3 S3 L3 Sl ltac:(lia)) as [A _]. rewrite A; rewrite <- Ej, <- gps_log_of, Ft; [reflexivity|discriminate]. }
  assert (Nm : log_name (sn ++ b "gps") na = sn ++ b "gps" ++ b "_" ++ pad 3 na ++ b ".txt") by (unfold log_name; rewrite <- app_assoc; reflexivity).
  assert (I : In (log_name (sn ++ b "gps") na, parse rows) es).
  { apply Es. exists rows. split; [rewrite <- gps_of_name; exact Fin|]. split; [|reflexivity]. apply rest_no_slash; [exact Sl|vm_compute; lia|lia]. }
  destruct L1 as (_ & C1 & V1).
  apply (C44_newest_log sn es na (pad 3 na) (log_name (sn ++ b "gps") na, parse rows) I).
  - exact Nm.
  - apply pad_decimal. lia.
  - lia.
  - exact ND.
  - intros [name c] Ie. apply Es in Ie. destruct Ie as (d & Ed & Ns & _). cbn [fst]. apply (V1 name Ns). rewrite Ed. discriminate.
  - intros [name c] Ie Be. apply Es in Ie. destruct Ie as (d & Ed & Ns & _). cbn [fst] in *. destruct (proj2 (V1 name Ns ltac:(rewrite Ed; discriminate)) Be) as (k & Hk & ->).
    left. exists k, (pad 3 k). split; [apply pad_decimal; lia|]. split; [lia|]. unfold log_name. rewrite <- app_assoc. reflexivity.
Qed.

(** C59.  What a call leaves that is killed at any moment.  Each conversion has finished a first part of what it writes.
    Its logs have all the rows of that part, and possibly the beginning of the next rows; a waveform of that part is
    whole, unless the conversion was just writing another one of the same name; no other file of the conversion has
    changed, except for the beginning of the file it was writing. *)
Definition kept {D} (finished coming : list (list D)) (f : option (list D)) : Prop :=
  f = log_contents finished \/ exists y z, concat coming = y ++ z /\ f = Some (concat finished ++ y).
Theorem C59_killed : forall D out format (jobs : list (job D)) schedule p t0 tk t1,
  fit out format jobs -> run out format schedule (begin jobs) t0 = Some (p, tk) -> cut out format p tk t1 ->
  forall j, In j jobs -> exists done rest, all_outputs j = done ++ rest /\
    (untouched out format t0 tk j /\ done = [] \/ wrote out format t0 tk j done) /\
    (forall n, first_free t0 (gps_log j) n -> kept (gps_rows done) (gps_rows rest) (file t1 (gps_log j n))) /\
    (forall n, first_free t0 (meta_log j) n -> kept (meta_rows done) (meta_rows rest) (file t1 (meta_log j n))) /\
    (forall before t us d after, done = before ++ Wave t us d :: after ->
       (forall t' us' d', In (Wave t' us' d') after -> wave_file out format j t' us' <> wave_file out format j t us) ->
       (forall t' us' d' rest', rest = Wave t' us' d' :: rest' -> wave_file out format j t' us' <> wave_file out format j t us) ->
       file t1 (wave_file out format j t us) = Some d) /\
    (forall t us d rest', rest = Wave t us d :: rest' ->
       file t1 (wave_file out format j t us) = file tk (wave_file out format j t us) \/
       exists x y, d = x ++ y /\ file t1 (wave_file out format j t us) = Some x) /\
    (forall q n m, first_free t0 (gps_log j) n -> first_free t0 (meta_log j) m -> its_path out format j q ->
       q <> gps_log j n -> q <> meta_log j m -> (forall t us d, In (Wave t us d) (all_outputs j) -> q <> wave_file out format j t us) ->
       file t1 q = file t0 q).
Proof.
  intros D out format jobs schedule p t0 tk t1 F R C j Ij.
  destruct (inv_all_run out format jobs F t0 schedule _ _ _ _ (inv_all_begin out format jobs t0) R) as (M & V & _).
  assert (X : exists s, In (j, s) p).
  { rewrite <- M in Ij. apply in_map_iff in Ij as ([k s] & E & I). cbn in E. subst k. exists s. exact I. }
  destruct X as [s I]. specialize (V j s I).
  assert (P : forall q, its_path out format j q -> file t1 q = file tk q \/ exists d, part out format tk (j, s) q d /\ file t1 q = Some d).
  { intros q Iq. exact (part_own out format jobs schedule p t0 tk t1 j s q F R C I Iq). }
  (* nothing finished and nothing under way *)
  assert (U : untouched out format t0 tk j -> (forall q d, ~ part out format tk (j, s) q d) -> exists done rest, all_outputs j = done ++ rest /\
    (untouched out format t0 tk j /\ done = [] \/ wrote out format t0 tk j done) /\
    (forall n, first_free t0 (gps_log j) n -> kept (gps_rows done) (gps_rows rest) (file t1 (gps_log j n))) /\
    (forall n, first_free t0 (meta_log j) n -> kept (meta_rows done) (meta_rows rest) (file t1 (meta_log j n))) /\
    (forall before t us d after, done = before ++ Wave t us d :: after ->
       (forall t' us' d', In (Wave t' us' d') after -> wave_file out format j t' us' <> wave_file out format j t us) ->
       (forall t' us' d' rest', rest = Wave t' us' d' :: rest' -> wave_file out format j t' us' <> wave_file out format j t us) ->
       file t1 (wave_file out format j t us) = Some d) /\
    (forall t us d rest', rest = Wave t us d :: rest' ->
       file t1 (wave_file out format j t us) = file tk (wave_file out format j t us) \/
       exists x y, d = x ++ y /\ file t1 (wave_file out format j t us) = Some x) /\
    (forall q n m, first_free t0 (gps_log j) n -> first_free t0 (meta_log j) m -> its_path out format j q ->
       q <> gps_log j n -> q <> meta_log j m -> (forall t us d, In (Wave t us d) (all_outputs j) -> q <> wave_file out format j t us) ->
       file t1 q = file t0 q)).
  { intros U N. assert (E : forall q, its_path out format j q -> file t1 q = file t0 q).
    { intros q Iq. destruct (P q Iq) as [E|(d & Pd & _)]; [rewrite E; apply U, Iq|destruct (N q d Pd)]. }
    exists [], (all_outputs j). split; [reflexivity|]. split; [left; split; [exact U|reflexivity]|].
    split; [intros n H; left; rewrite (E _ (its_gps out format j n (proj1 H))); exact (free_none _ _ _ H)|].
    split; [intros n H; left; rewrite (E _ (its_meta out format j n (proj1 H))); exact (free_none _ _ _ H)|].
    split; [intros before t us d after X; destruct before; discriminate|].
    split; [intros t us d rest' X; discriminate|]. intros q n m _ _ Iq _ _ _. apply E, Iq. }
  destruct s as [| |n|g|g|g n|g m|g m|g m|g m|g m l|]; cbn [inv] in V;
    try (apply U; [solve [tauto | destruct V as (gn & mn & _ & _ & _ & _ & X); exact X]|intros q d; unfold part; cbn [fst snd next]; tauto]).
  - (* writing the first metadata *)
    clear U. destruct V as (gn & mn & -> & -> & G & Mf & U).
    assert (E : forall q, its_path out format j q -> q <> meta_log j mn -> file t1 q = file t0 q).
    { intros q Iq N. destruct (P q Iq) as [E|(d & [Pd _] & _)]; [rewrite E; apply U, Iq|contradiction]. }
    exists [], (all_outputs j). split; [reflexivity|]. split; [left; split; [exact U|reflexivity]|].
    split; [intros n H; left; rewrite (E _ (its_gps out format j n (proj1 H))) by apply gps_meta; exact (free_none _ _ _ H)|].
    split.
    + intros n H. rewrite (first_free_unique _ _ _ _ H Mf). destruct (P _ (its_meta out format j mn (proj1 Mf))) as [X|(d & [_ (y & Y)] & X)].
      * left. rewrite X, (U _ (its_meta out format j mn (proj1 Mf))). exact (free_none _ _ _ Mf).
      * right. exists d, (y ++ concat (meta_rows (match j_gps j with Some rows => [Gps rows] | None => [] end ++ j_later j))). split; [|exact X].
        unfold all_outputs. cbn [meta_rows flat_map app concat]. cbn [fst] in Y. rewrite Y, <- app_assoc. reflexivity.
    + split; [intros before t us d after X; destruct before; discriminate|]. split; [intros t us d rest' X; discriminate|].
      intros q n m _ Hm Iq _ N _. apply E; [exact Iq|]. rewrite (first_free_unique _ _ _ _ Mf Hm). exact N.
  - (* writing the first fixes *)
    clear U. destruct V as (gn & mn & -> & -> & Gp & W). unfold part in P. cbn [fst snd next] in P. destruct (j_gps j) as [rows|] eqn:Ej; [|congruence].
    pose proof W as (G & Mf & Cg & Cm & Wv & Wr).
    assert (E : forall q, its_path out format j q -> q <> gps_log j gn -> file t1 q = file tk q).
    { intros q Iq N. destruct (P q Iq) as [E|(d & [Pd _] & _)]; [exact E|contradiction]. }
    exists [Meta (j_meta j)], (Gps rows :: j_later j). split; [unfold all_outputs; rewrite Ej; reflexivity|]. split; [right; exists gn, mn; exact W|].
    split; [|split; [|split; [|split]]].
    + intros n H. rewrite (first_free_unique _ _ _ _ H G). destruct (P _ (its_gps out format j gn (proj1 G))) as [X|(d & [_ (y & Y)] & X)].
      * left. rewrite X. exact Cg.
      * right. exists d, (y ++ concat (gps_rows (j_later j))). split; [|exact X].
        cbn [gps_rows flat_map app concat]. rewrite Y, <- app_assoc. reflexivity.
    + intros n H. left. rewrite (E _ (its_meta out format j n (proj1 H))) by (intros X; exact (gps_meta _ _ _ _ (eq_sym X))). rewrite (first_free_unique _ _ _ _ H Mf). exact Cm.
    + intros before t us d after X. destruct before as [|o [|]]; discriminate.
    + intros t us d rest' X. discriminate.
    + intros q n m Hn Hm Iq Nn Nm Nw. rewrite E; [|exact Iq|rewrite (first_free_unique _ _ _ _ G Hn); exact Nn].
      apply Wr; [exact Iq|rewrite (first_free_unique _ _ _ _ G Hn); exact Nn|rewrite (first_free_unique _ _ _ _ Mf Hm); exact Nm|]. intros t us d [X|[]]. discriminate.
  - (* later *)
    clear U. destruct V as (gn & mn & done & -> & -> & A & W). pose proof W as (G & Mf & Cg & Cm & Wv & Wr). unfold part in P. cbn [fst snd next] in P.
    assert (Sub : forall o, In o done -> In o (all_outputs j)) by (intros o Io; rewrite A; apply in_or_app; left; exact Io).
    assert (Gl : forall f, f = log_contents (gps_rows done) -> match f with Some x => x | None => [] end = concat (gps_rows done)).
    { intros f ->. destruct (gps_rows done); reflexivity. }
    assert (Ml : forall f, f = log_contents (meta_rows done) -> match f with Some x => x | None => [] end = concat (meta_rows done)).
    { intros f ->. destruct (meta_rows done); reflexivity. }
    exists done, l. split; [exact A|]. split; [right; exists gn, mn; exact W|].
    split; [|split; [|split; [|split]]].
    + intros n H. rewrite (first_free_unique _ _ _ _ H G). destruct (P _ (its_gps out format j gn (proj1 G))) as [X|(d & Pd & X)]; [left; rewrite X; exact Cg|].
      destruct l as [|[r|r|tm us x] l]; [contradiction| | |]; destruct Pd as [Q Pd].
      * exfalso. exact (gps_meta _ _ _ _ Q).
      * destruct Pd as (y & z & -> & ->). rewrite (Gl _ Cg) in X. right. exists y, (z ++ concat (gps_rows l)). split; [|exact X].
        cbn [gps_rows flat_map app concat]. rewrite <- app_assoc. reflexivity.
      * exfalso. assert (Iw : In (Wave tm us x) (j_later j)) by (apply outputs_wave; rewrite A; apply in_or_app; right; left; reflexivity).
        exact (proj1 (wave_log out format jobs F j j tm us x gn Ij Ij Iw (proj1 G)) (eq_sym Q)).
    + intros n H. rewrite (first_free_unique _ _ _ _ H Mf). destruct (P _ (its_meta out format j mn (proj1 Mf))) as [X|(d & Pd & X)]; [left; rewrite X; exact Cm|].
      destruct l as [|[r|r|tm us x] l]; [contradiction| | |]; destruct Pd as [Q Pd].
      * destruct Pd as (y & z & -> & ->). rewrite (Ml _ Cm) in X. right. exists y, (z ++ concat (meta_rows l)). split; [|exact X].
        cbn [meta_rows flat_map app concat]. rewrite <- app_assoc. reflexivity.
      * exfalso. exact (gps_meta _ _ _ _ (eq_sym Q)).
      * exfalso. assert (Iw : In (Wave tm us x) (j_later j)) by (apply outputs_wave; rewrite A; apply in_or_app; right; left; reflexivity).
        exact (proj2 (wave_log out format jobs F j j tm us x mn Ij Ij Iw (proj1 Mf)) (eq_sym Q)).
    + intros before t us d after X N1 N2. assert (Iw : In (Wave t us d) (j_later j)) by (apply outputs_wave, Sub; rewrite X; apply in_or_app; right; left; reflexivity).
      destruct (P _ (its_wave out format j t us d Iw)) as [Y|(d' & Pd & _)]; [rewrite Y; exact (Wv _ _ _ _ _ X N1)|]. exfalso.
      destruct l as [|[r|r|tm us' x] l]; [contradiction| | |]; destruct Pd as [Q _].
      * exact (proj2 (wave_log out format jobs F j j t us d mn Ij Ij Iw (proj1 Mf)) Q).
      * exact (proj1 (wave_log out format jobs F j j t us d gn Ij Ij Iw (proj1 G)) Q).
      * exact (N2 tm us' x l eq_refl (eq_sym Q)).
    + intros t us d rest' ->. assert (Iw : In (Wave t us d) (j_later j)) by (apply outputs_wave; rewrite A; apply in_or_app; right; left; reflexivity).
      destruct (P _ (its_wave out format j t us d Iw)) as [Y|(d' & [_ (y & Pd)] & Y)]; [left; exact Y|]. right. exists d', y. split; [exact Pd|exact Y].
    + intros q n m Hn Hm Iq Nn Nm Nw. rewrite (first_free_unique _ _ _ _ Hn G) in Nn. rewrite (first_free_unique _ _ _ _ Hm Mf) in Nm.
      destruct (P q Iq) as [X|(d & Pd & _)].
      * rewrite X. apply Wr; try assumption. intros t us d Io. exact (Nw t us d (Sub _ Io)).
      * exfalso. destruct l as [|[r|r|tm us' x] l]; [contradiction| | |]; destruct Pd as [Q _]; [contradiction|contradiction|].
        apply (Nw tm us' x); [rewrite A; apply in_or_app; right; left; reflexivity|exact Q].
Qed.

(** * Cases *)

(** Two instruments with a first log of one of them.  The first call is killed while it writes the first waveform of 014
    (nothing of 077 is done yet); the second one runs to its end. *)
Definition wave_014 : bytes := b "mseed/2021-03-04T05_06_07..014..HDF.mseed".
Definition half : tree Z :=
  match run (b "mseed") (b "MSEED") (repeat 0%nat 9) (begin case_jobs) old_files with
  | Some (_, t) => set_file t wave_014 []
  | None => old_files
  end.

Lemma half_session : session (b "mseed") (b "MSEED") case_jobs old_files half.
Proof.
  destruct (run (b "mseed") (b "MSEED") (repeat 0%nat 9) (begin case_jobs) old_files) as [[p t]|] eqn:E; [|vm_compute in E; discriminate E].
  exists (repeat 0%nat 9), p, t. split; [exact E|]. unfold half. rewrite E. split; [reflexivity|]. intros q. cbn [file set_file].
  destruct (eqb_bytes q wave_014) eqn:Q; [|left; reflexivity]. right. apply eqb_bytes_iff in Q. subst q.
  vm_compute in E. injection E as <- _. eexists _, []. split; [left; reflexivity|]. split; [|reflexivity]. unfold part. cbn [fst snd next]. split; [reflexivity|].
  exists [13]. reflexivity.
Qed.

(** The same kill: the log of fixes has both its rows, that of the metadata not yet the later ones, and the waveform is empty. *)
Example C59_killed_case : exists p tk, fit (b "mseed") (b "MSEED") case_jobs /\
  run (b "mseed") (b "MSEED") (repeat 0%nat 9) (begin case_jobs) old_files = Some (p, tk) /\ cut (b "mseed") (b "MSEED") p tk half /\
  first_free old_files (gps_log (case_job (b "014") 10)) 1 /\
  file half (b "gps/014gps_000.txt") = Some [7] /\ file half (b "gps/014gps_001.txt") = Some [11; 12] /\ file half (b "metadata/014metadata_000.txt") = Some [10] /\
  file half wave_014 = Some [] /\ file half (b "gps/077gps_000.txt") = None.
Proof.
  destruct (run (b "mseed") (b "MSEED") (repeat 0%nat 9) (begin case_jobs) old_files) as [[p t]|] eqn:E; [|vm_compute in E; discriminate E].
  exists p, t. split; [exact case_jobs_fit|]. split; [reflexivity|]. split.
  - unfold half. rewrite E. split; [reflexivity|]. intros q. cbn [file set_file].
    destruct (eqb_bytes q wave_014) eqn:Q; [|left; reflexivity]. right. apply eqb_bytes_iff in Q. subst q.
    vm_compute in E. injection E as <- _. eexists _, []. split; [left; reflexivity|]. split; [|reflexivity]. unfold part. cbn [fst snd next]. split; [reflexivity|].
    exists [13]. reflexivity.
  - split; [split; [lia|]; split; [vm_compute; reflexivity|]; intros k Hk; assert (k = 0) as -> by lia; vm_compute; reflexivity|].
    unfold half. rewrite E. vm_compute in E. injection E as _ <-. repeat (split; [vm_compute; reflexivity|]). vm_compute; reflexivity.
Qed.

Lemma ends (t : tree Z) schedule :
  match run (b "mseed") (b "MSEED") schedule (begin case_jobs) t with Some (p, _) => idle (b "mseed") (b "MSEED") p | None => false end = true ->
  folders_there (b "mseed") t -> exists p u, run (b "mseed") (b "MSEED") schedule (begin case_jobs) t = Some (p, u) /\ complete (b "mseed") (b "MSEED") case_jobs t u.
Proof.
  destruct (run (b "mseed") (b "MSEED") schedule (begin case_jobs) t) as [[p u]|] eqn:E; [|discriminate]. intros Id Ft. exists p, u. split; [reflexivity|].
  exists schedule, p. split; [exact E|]. split; [exact Id|]. exact (C42_folders_there Z _ _ _ _ _ _ _ Ft E).
Qed.

Example C59_case : exists t1 tc,
  fit (b "mseed") (b "MSEED") case_jobs /\ sessions (b "mseed") (b "MSEED") (repeat case_jobs 1) old_files half /\
  complete (b "mseed") (b "MSEED") case_jobs half t1 /\ complete (b "mseed") (b "MSEED") case_jobs old_files tc /\
  file half wave_014 = Some [] /\ file t1 wave_014 = Some [15] /\ file tc wave_014 = Some [15] /\
  file t1 (b "gps/014gps_000.txt") = Some [7] /\ file t1 (b "gps/014gps_001.txt") = Some [11; 12] /\ file t1 (b "gps/014gps_002.txt") = Some [11; 12] /\
  file tc (b "gps/014gps_002.txt") = None.
Proof.
  destruct (ends half (repeat 0 14 ++ repeat 1 11)%nat) as (p & t1 & E1 & C1); [vm_compute; reflexivity|vm_compute; auto|].
  destruct (ends old_files (repeat 0 12 ++ repeat 1 11)%nat) as (pc & tc & Ec & Cc); [vm_compute; reflexivity|vm_compute; auto|].
  exists t1, tc. split; [exact case_jobs_fit|]. split; [exists half; split; [exact half_session|split; reflexivity]|]. split; [exact C1|]. split; [exact Cc|].
  vm_compute in E1, Ec. injection E1 as _ <-. injection Ec as _ <-. vm_compute. repeat (split; [reflexivity|]). reflexivity.
Qed.

(** The summary after the killed call: its log has the rows written so far. *)
Example C59_summary_case : forall parse : list Z -> option (list fix_),
  let es := [(b "014gps_001.txt", parse [11; 12]); (b "014gps_000.txt", parse [7])] in
  first_free old_files (gps_log (case_job (b "014") 10)) 1 /\ file half (gps_log (case_job (b "014") 10) 1) = Some [11; 12] /\
  (forall name c, In (name, c) es <-> exists d, file half (b "gps/" ++ name) = Some d /\ ~ In 47 name /\ c = parse d) /\
  read_gps (b "014") [Folder es] = parse [11; 12].
Proof.
  intros parse es.
  assert (H0 : forall q, file old_files q = if eqb_bytes q (b "gps/014gps_000.txt") then Some [7] else None) by reflexivity.
  assert (H1 : forall q, file half q = if eqb_bytes q wave_014 then Some [] else if eqb_bytes q (b "gps/014gps_001.txt") then Some [11; 12] else
    if eqb_bytes q (b "gps/014gps_001.txt") then Some [11] else if eqb_bytes q (b "metadata/014metadata_000.txt") then Some [10] else file old_files q) by reflexivity.
  assert (Fr : first_free old_files (gps_log (case_job (b "014") 10)) 1).
  { split; [lia|]. split; [vm_compute; reflexivity|]. intros k Hk. assert (k = 0) as -> by lia. vm_compute. reflexivity. }
  assert (Ls : forall name c, In (name, c) es <-> exists d, file half (b "gps/" ++ name) = Some d /\ ~ In 47 name /\ c = parse d).
  { intros name c. split.
    - intros [E|[E|[]]]; injection E as <- <-; [exists [11; 12]|exists [7]]; (split; [vm_compute; reflexivity|split; [vm_compute; lia|reflexivity]]).
    - intros (d & E & _ & ->). rewrite H1, H0 in E.
      repeat match type of E with context [eqb_bytes ?a ?c] => let X := fresh "X" in destruct (eqb_bytes a c) eqn:X; [apply eqb_bytes_iff in X; try discriminate X|] end; try discriminate.
      + injection E as <-. change (b "gps/014gps_001.txt") with (b "gps/" ++ b "014gps_001.txt") in *. apply app_inv_head in X0. subst. left. reflexivity.
      + injection E as <-. change (b "gps/014gps_000.txt") with (b "gps/" ++ b "014gps_000.txt") in *. apply app_inv_head in X2. subst. right. left. reflexivity. }
  split; [exact Fr|]. split; [reflexivity|]. split; [exact Ls|].
  apply (C59_summary_reads_last Z (b "mseed") (b "MSEED") parse (b "014") [] case_jobs [] old_files old_files half half 1 (case_job (b "014") 10) 1 [11; 12] es).
  - repeat constructor; vm_compute; discriminate.
  - reflexivity.
  - constructor; [exact case_jobs_fit|constructor].
  - constructor; [|constructor]. repeat constructor; vm_compute; discriminate.
  - discriminate.
  - intros (r & E). discriminate.
  - lia.
  - intros k Hk. split.
    + intros P. unfold present in P. rewrite H0 in P. apply orb_true_iff in P. destruct P as [P|P]; [vm_compute in P; discriminate|].
      destruct (eqb_bytes _ _) eqn:X in P; [|discriminate]. apply eqb_bytes_iff in X. assert (Y : gps_log (case_job (b "014") 10) k = gps_log (case_job (b "014") 10) 0) by exact X.
      apply gps_inj in Y; [lia|reflexivity|exact Hk|lia].
    + intros Lk. assert (k = 0) as -> by lia. vm_compute. reflexivity.
  - intros name _ Hf. rewrite H0 in Hf. destruct (eqb_bytes (b "gps/" ++ name) (b "gps/014gps_000.txt")) eqn:X; [|contradiction]. apply eqb_bytes_iff in X.
    change (b "gps/014gps_000.txt") with (b "gps/" ++ b "014gps_000.txt") in X. apply app_inv_head in X. subst name. split; [intros (r & E); discriminate|].
    intros _. exists 0. split; [lia|reflexivity].
  - cbn. lia.
  - split; reflexivity.
  - exact half_session.
  - split; reflexivity.
  - left. reflexivity.
  - reflexivity.
  - intros js k [].
  - exact Fr.
  - reflexivity.
  - constructor; [intros [E|[]]; discriminate|]. constructor; [intros []|constructor].
  - exact Ls.
Qed.

(** * What does not hold *)

(** A waveform file that is there is not always whole: after a kill there may be a part under the final name. *)
Theorem C59_whole_files_refuted : exists (t0 t1 : tree Z), session (b "mseed") (b "MSEED") case_jobs t0 t1 /\
  file t0 wave_014 = None /\ file t1 wave_014 = Some [] /\ (forall t us d, In (Wave t us d) (j_later (case_job (b "014") 10)) -> d <> []).
Proof.
  exists old_files, half. split; [exact half_session|]. split; [reflexivity|]. split; [reflexivity|].
  intros t us d I. cbn in I. repeat (destruct I as [I|I]; [try discriminate; injection I as _ _ <-; discriminate|]). destruct I.
Qed.

(** The summary prefers the log of the last call, also if that was killed and an earlier one is complete. *)
Theorem C59_complete_log_refuted : exists (t1 t2 : tree Z),
  complete (b "mseed") (b "MSEED") case_jobs old_files t1 /\ session (b "mseed") (b "MSEED") case_jobs t1 t2 /\
  file t2 (b "gps/014gps_001.txt") = Some [11; 12] /\ file t2 (b "gps/014gps_002.txt") = Some [11] /\
  forall parse : list Z -> option (list fix_), read_gps (b "014") [Folder [(b "014gps_000.txt", parse [7]); (b "014gps_001.txt", parse [11; 12]); (b "014gps_002.txt", parse [11])]] = parse [11].
Proof.
  destruct (ends old_files (repeat 0 12 ++ repeat 1 11)%nat) as (pc & tc & Ec & Cc); [vm_compute; reflexivity|vm_compute; auto|].
  destruct (run (b "mseed") (b "MSEED") (repeat 0%nat 10) (begin case_jobs) tc) as [[p t]|] eqn:E; [|vm_compute in Ec; injection Ec as _ <-; vm_compute in E; discriminate E].
  exists tc, t. split; [exact Cc|]. split.
  - exists (repeat 0%nat 10), p, t. split; [exact E|]. split; [reflexivity|]. intros q. left. reflexivity.
  - vm_compute in Ec. injection Ec as _ <-. vm_compute in E. injection E as _ <-. split; [vm_compute; reflexivity|]. split; [vm_compute; reflexivity|].
    intros parse. cbn [read_gps]. change (read_item (b "014") _) with (parse [11]). destruct (parse [11]) as [l|]; [|reflexivity]. rewrite app_nil_r. reflexivity.
Qed.

Print Assumptions C59_run_again.
Print Assumptions C59_can_run_again.
Print Assumptions C59_logs_kept.
Print Assumptions C59_summary_reads_last.
Print Assumptions C59_killed.
Print Assumptions C59_whole_files_refuted.
Print Assumptions C59_complete_log_refuted.
