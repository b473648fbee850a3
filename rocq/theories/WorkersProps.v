(** Properties of conversions that run at the same time (C42). *)
From Coq Require Import String.
From Coq Require Import ZArith List Bool Lia.
From Verif Require Import Base CalendarSpec Names NamesSpec NamesProofs NamesProps Workers WorkersSpec WorkersProofs.
Import ListNotations.
Open Scope Z_scope.

(** At any moment of any schedule (also if everything is killed there) each conversion has written a beginning of its
    outputs, to files of its own, and nothing else has changed. *)
Theorem C42_any_moment : forall D out format (jobs : list (job D)) schedule p t0 t1,
  fit out format jobs -> run out format schedule (begin jobs) t0 = Some (p, t1) ->
  map fst p = jobs /\
  (forall j, In j jobs -> untouched out format t0 t1 j \/
    exists done rest, all_outputs j = done ++ rest /\ wrote out format t0 t1 j done) /\
  (forall q, file t1 q = file t0 q \/ exists j, In j jobs /\ its_path out format j q) /\
  (forall q, is_dir t1 q = is_dir t0 q \/ (q = gps_dir \/ q = meta_dir \/ q = out) /\ is_dir t1 q = true).
Proof.
  intros D out format jobs schedule p t0 t1 F R. destruct (inv_all_run out format jobs F t0 schedule _ _ _ _ (inv_all_begin out format jobs t0) R) as (M & V & Hd & Hq).
  split; [exact M|]. split; [|split; [exact Hq|exact Hd]]. intros j Ij. rewrite <- M in Ij. apply in_map_iff in Ij as ([k s] & E & I). cbn in E. subst k.
  specialize (V j s I). destruct s; cbn [inv] in V; try (left; tauto).
  - left. destruct V as (gn & mn & _ & _ & _ & _ & U). exact U.
  - left. destruct V as (gn & mn & _ & _ & _ & _ & U). exact U.
  - left. destruct V as (gn & mn & _ & _ & _ & _ & U). exact U.
  - right. destruct V as (gn & mn & _ & _ & _ & W). exists [Meta (j_meta j)], (match j_gps j with Some rows => [Gps rows] | None => [] end ++ j_later j).
    split; [reflexivity|exists gn, mn; exact W].
  - right. destruct V as (gn & mn & done & _ & _ & A & W). exists done, l. split; [exact A|exists gn, mn; exact W].
Qed.

(** At the end of any schedule each conversion has written everything, or nothing because it failed to make a
    folder; in the first case the folders are there. *)
Theorem C42_outcome : forall D out format (jobs : list (job D)) schedule p t0 t1,
  fit out format jobs -> run out format schedule (begin jobs) t0 = Some (p, t1) -> idle out format p = true ->
  forall j s, In (j, s) p ->
    (s = Exited /\ untouched out format t0 t1 j) \/
    (s <> Exited /\ wrote out format t0 t1 j (all_outputs j) /\ folders_there out t1).
Proof.
  intros D out format jobs schedule p t0 t1 F R Id j s I.
  destruct (inv_all_run out format jobs F t0 schedule _ _ _ _ (inv_all_begin out format jobs t0) R) as (M & V & Hd & Hq).
  specialize (V j s I). pose proof (idle_in out format p Id j s I) as N.
  assert (S0 : seen_all out (begin jobs) t0).
  { intros k sk Ik. unfold begin in Ik. apply in_map_iff in Ik as (x & E & _). injection E as _ <-. exact Logic.I. }
  pose proof (seen_run out format schedule _ _ _ _ S0 R j s I) as Sj.
  destruct s as [| |n|g|g|g n|g m|g m|g m|g m|g m l|]; try discriminate N; cbn [inv] in V.
  - cbn [next] in N. destruct V as (gn & mn & _ & _ & Ng & _). destruct (j_gps j); [discriminate N|congruence].
  - right. split; [discriminate|]. destruct V as (gn & mn & done & _ & _ & A & W). destruct l as [|[r|r|tm us d] l]; try discriminate N.
    rewrite app_nil_r in A. rewrite A. split; [exists gn, mn; exact W|exact Sj].
  - left. split; [reflexivity|exact V].
Qed.

(** With the folders there at the beginning no conversion fails, in any schedule. *)
Theorem C42_folders_there : forall D out format (jobs : list (job D)) schedule p t0 t1,
  folders_there out t0 -> run out format schedule (begin jobs) t0 = Some (p, t1) -> forall j, ~ In (j, Exited) p.
Proof.
  intros D out format jobs schedule p t0 t1 Ft R j I.
  assert (C : calm out (begin jobs) t0).
  { split; [exact Ft|]. intros k sk Ik. unfold begin in Ik. apply in_map_iff in Ik as (x & E & _). injection E as _ <-. split; [discriminate|reflexivity]. }
  destruct (calm_run out format schedule _ _ _ _ C R) as [_ C']. exact (proj1 (C' j Exited I) eq_refl).
Qed.

(** With one process no conversion fails, wherever it starts (the default, -p 1). *)
Theorem C42_one_process : forall D out format (jobs : list (job D)) schedule p t0 t1,
  fit out format jobs -> folders_possible out t0 -> in_turn schedule ->
  run out format schedule (begin jobs) t0 = Some (p, t1) -> idle out format p = true -> forall j, ~ In (j, Exited) p.
Proof.
  intros D out format jobs schedule p t0 t1 F FP T R Id j I.
  apply (one_by_one_run out format jobs F t0 schedule FP 0%nat (begin jobs) p t0 t1 (inv_all_begin out format jobs t0)) with (j := j) (s := Exited); try assumption; try reflexivity; [|intros; lia].
  intros i k s E. unfold begin in E. apply nth_error_In in E. apply in_map_iff in E as (x & E & _). injection E as _ <-. split; [discriminate|]. intros d H. discriminate.
Qed.

Section Same.
  Context {D : Type}.
  Variables out format : bytes.
  Lemma first_unique (t : tree D) name n m : first_free t name n -> first_free t name m -> n = m.
  Proof.
    intros (A1 & A2 & A3) (B1 & B2 & B3). destruct (Z.lt_trichotomy n m) as [H|[H|H]]; [|exact H|].
    - rewrite B3 in A2 by lia. discriminate.
    - rewrite A3 in B2 by lia. discriminate.
  Qed.
  Lemma last_wave (j : job D) (done : list (output D)) q : (exists tm us d, In (Wave tm us d) done /\ q = wave_file out format j tm us) ->
    exists before tm us d after, done = before ++ Wave tm us d :: after /\ q = wave_file out format j tm us /\
      forall tm' us' d', In (Wave tm' us' d') after -> wave_file out format j tm' us' <> wave_file out format j tm us.
  Proof.
    induction done as [|o done IH]; intros (tm & us & d & I & E); [destruct I|].
    set (f := fun o : output D => match o with Wave a c _ => eqb_bytes q (wave_file out format j a c) | _ => false end).
    destruct (existsb f done) eqn:X.
    - apply existsb_exists in X as (w & Iw & Fw). destruct w as [r|r|a c e]; try discriminate Fw. apply eqb_bytes_iff in Fw.
      destruct IH as (b0 & tm1 & us1 & d1 & af & -> & E1 & N); [exists a, c, e; auto|]. exists (o :: b0), tm1, us1, d1, af. auto.
    - assert (N : forall a c e, In (Wave a c e) done -> q <> wave_file out format j a c).
      { intros a c e Ia Ea. assert (existsb f done = true); [|congruence]. apply existsb_exists. exists (Wave a c e). split; [exact Ia|]. cbn. apply eqb_bytes_iff. exact Ea. }
      destruct I as [->|I]; [|exfalso; exact (N tm us d I E)]. exists [], tm, us, d, done. split; [reflexivity|]. split; [exact E|].
      intros a c e Ia Ea. apply (N a c e Ia). congruence.
  Qed.
  Lemma wrote_same (t0 t1 t2 : tree D) j done q : its_path out format j q -> wrote out format t0 t1 j done -> wrote out format t0 t2 j done -> file t1 q = file t2 q.
  Proof.
    intros Iq (g & m & G & M & Cg & Cm & W & R) (g' & m' & G' & M' & Cg' & Cm' & W' & R').
    rewrite <- (first_unique _ _ _ _ G G') in *. rewrite <- (first_unique _ _ _ _ M M') in *.
    destruct (list_eq_dec Z.eq_dec q (gps_log j g)) as [->|Ng]; [congruence|].
    destruct (list_eq_dec Z.eq_dec q (meta_log j m)) as [->|Nm]; [congruence|].
    set (f := fun o : output D => match o with Wave a c _ => eqb_bytes q (wave_file out format j a c) | _ => false end).
    destruct (existsb f done) eqn:X.
    - apply existsb_exists in X as (w & Iw & Fw). destruct w as [r|r|a c e]; try discriminate Fw. apply eqb_bytes_iff in Fw.
      destruct (last_wave j done q) as (b0 & tm & us & d & af & E & -> & N); [exists a, c, e; auto|]. rewrite (W _ _ _ _ _ E N), (W' _ _ _ _ _ E N). reflexivity.
    - assert (N : forall a c e, In (Wave a c e) done -> q <> wave_file out format j a c).
      { intros a c e Ia Ea. assert (existsb f done = true); [|congruence]. apply existsb_exists. exists (Wave a c e). split; [exact Ia|]. cbn. apply eqb_bytes_iff. exact Ea. }
      rewrite (R q Iq Ng Nm N), (R' q Iq Ng Nm N). reflexivity.
  Qed.
End Same.

(** All schedules in which nobody fails to make a folder leave the same files and folders. *)
Theorem C42_same_tree : forall D out format (jobs : list (job D)) s1 s2 p1 p2 t0 t1 t2,
  fit out format jobs ->
  run out format s1 (begin jobs) t0 = Some (p1, t1) -> idle out format p1 = true -> (forall j, ~ In (j, Exited) p1) ->
  run out format s2 (begin jobs) t0 = Some (p2, t2) -> idle out format p2 = true -> (forall j, ~ In (j, Exited) p2) ->
  forall q, file t1 q = file t2 q /\ is_dir t1 q = is_dir t2 q.
Proof.
  intros D out format jobs s1 s2 p1 p2 t0 t1 t2 F R1 I1 N1 R2 I2 N2 q.
  destruct (C42_any_moment D out format jobs s1 p1 t0 t1 F R1) as (M1 & _ & Q1 & D1).
  destruct (C42_any_moment D out format jobs s2 p2 t0 t2 F R2) as (M2 & _ & Q2 & D2).
  pose proof (C42_outcome D out format jobs s1 p1 t0 t1 F R1 I1) as O1. pose proof (C42_outcome D out format jobs s2 p2 t0 t2 F R2 I2) as O2.
  assert (W1 : forall j, In j jobs -> wrote out format t0 t1 j (all_outputs j) /\ folders_there out t1).
  { intros j Ij. rewrite <- M1 in Ij. apply in_map_iff in Ij as ([k s] & E & I). cbn in E. subst k. destruct (O1 j s I) as [[-> _]|[_ H]]; [exfalso; exact (N1 j I)|exact H]. }
  assert (W2 : forall j, In j jobs -> wrote out format t0 t2 j (all_outputs j) /\ folders_there out t2).
  { intros j Ij. rewrite <- M2 in Ij. apply in_map_iff in Ij as ([k s] & E & I). cbn in E. subst k. destruct (O2 j s I) as [[-> _]|[_ H]]; [exfalso; exact (N2 j I)|exact H]. }
  assert (P : forall j, In j jobs -> its_path out format j q -> file t1 q = file t2 q).
  { intros j Ij Iq. exact (wrote_same out format t0 t1 t2 j (all_outputs j) q Iq (proj1 (W1 j Ij)) (proj1 (W2 j Ij))). }
  split.
  - destruct (Q1 q) as [E1|(j & Ij & Iq)]; [|exact (P j Ij Iq)]. destruct (Q2 q) as [E2|(j & Ij & Iq)]; [congruence|exact (P j Ij Iq)].
  - destruct jobs as [|j jobs].
    + destruct s1 as [|i s1]; [|destruct i; discriminate R1]. destruct s2 as [|i s2]; [|destruct i; discriminate R2]. cbn in R1, R2. congruence.
    + destruct (W1 j (or_introl eq_refl)) as [_ (A1 & A2 & A3)]. destruct (W2 j (or_introl eq_refl)) as [_ (B1 & B2 & B3)].
      destruct (D1 q) as [E1|[Fq E1]], (D2 q) as [E2|[Fq' E2]]; try congruence.
      * destruct Fq' as [->|[->| ->]]; congruence.
      * destruct Fq as [->|[->| ->]]; congruence.
Qed.

(** No schedule goes on for ever, and from any moment the run can be brought to its end. *)
Theorem C42_finishes : forall D out format (jobs : list (job D)) t0,
  fit out format jobs -> finite_logs t0 jobs ->
  (exists bound, forall schedule, run out format schedule (begin jobs) t0 <> None -> (length schedule <= bound)%nat) /\
  (forall schedule p t, run out format schedule (begin jobs) t0 = Some (p, t) ->
     exists rest p' t', run out format (schedule ++ rest) (begin jobs) t0 = Some (p', t') /\ idle out format p' = true).
Proof.
  intros D out format jobs t0 F (N & B). split.
  - exists (all_left N (begin jobs)). intros schedule R. destruct (run out format schedule (begin jobs) t0) as [[p t]|] eqn:E; [|contradiction].
    pose proof (run_bound out format jobs F t0 N schedule B _ _ _ _ (inv_all_begin out format jobs t0) E). lia.
  - intros schedule p t R. pose proof (inv_all_run out format jobs F t0 schedule _ _ _ _ (inv_all_begin out format jobs t0) R) as V.
    destruct (can_finish out format jobs F t0 N B p t V) as (l & p' & t' & X & Y). exists l, p', t'. split; [rewrite run_app, R; exact X|exact Y].
Qed.

(** * Cases *)

Definition day_one : datetime := mkdt 2021 3 4 5 6 7.
Definition case_job (sn : bytes) (x : Z) : job Z :=
  mkjob sn (b "." ++ sn ++ b "..HDF") [x] (Some [x + 1]) [Gps [x + 2]; Wave day_one 0 [x + 3]; Meta [x + 4]; Wave day_one 500000 [x + 5]].
Definition case_jobs : list (job Z) := [case_job (b "014") 10; case_job (b "077") 20].
Definition no_files : tree Z := mktree (fun _ => false) (fun _ => None).
(** Folders, and a log of an earlier conversion. *)
Definition old_files : tree Z :=
  mktree (fun q => eqb_bytes q (b "gps") || eqb_bytes q (b "metadata") || eqb_bytes q (b "mseed"))
    (fun q => if eqb_bytes q (b "gps/014gps_000.txt") then Some [7] else None).

Lemma case_fit (id1 id2 : bytes) x y : id1 <> id2 -> ~ In 47 id1 -> ~ In 47 id2 ->
  fit (b "mseed") (b "MSEED") [mkjob (b "014") id1 [x] (Some [x + 1]) [Gps [x + 2]; Wave day_one 0 [x + 3]; Meta [x + 4]; Wave day_one 500000 [x + 5]];
    mkjob (b "077") id2 [y] (Some [y + 1]) [Gps [y + 2]; Wave day_one 0 [y + 3]; Meta [y + 4]; Wave day_one 500000 [y + 5]]].
Proof.
  intros Ne N1 N2.
  assert (Dt : exists_in_calendar day_one).
  { split; [cbn; lia|]. split; [exists 31; split; [apply ml_31; cbn; tauto|cbn; lia]|cbn; lia]. }
  constructor.
  - constructor; [intros [H|[]]; discriminate|]. constructor; [intros []|constructor].
  - constructor; [intros [H|[]]; cbn in H; congruence|]. constructor; [intros []|constructor].
  - intros j [<-|[<-|[]]]; reflexivity.
  - intros j [<-|[<-|[]]]; cbn [j_sn j_id]; (split; [vm_compute; lia|assumption]).
  - intros j t us d [<-|[<-|[]]] I; cbn [j_later] in I; repeat (destruct I as [I|I]; [try discriminate; injection I as <- _ _; exact Dt|]); destruct I.
  - split; vm_compute; lia.
  - intros j n [<-|[<-|[]]] _; (split; intros E; vm_compute in E; discriminate E).
Qed.
Lemma case_jobs_fit : fit (b "mseed") (b "MSEED") case_jobs.
Proof. apply case_fit; vm_compute; [discriminate|lia|lia]. Qed.

(** Two workers in turn. *)
Definition alternate : list nat := concat (repeat [0; 1]%nat 11) ++ [0]%nat.
Example C42_case : exists p t1,
  fit (b "mseed") (b "MSEED") case_jobs /\ folders_there (b "mseed") old_files /\ finite_logs old_files case_jobs /\
  run (b "mseed") (b "MSEED") alternate (begin case_jobs) old_files = Some (p, t1) /\ idle (b "mseed") (b "MSEED") p = true /\
  file t1 (b "gps/014gps_000.txt") = Some [7] /\ file t1 (b "gps/014gps_001.txt") = Some [11; 12] /\ file t1 (b "metadata/014metadata_000.txt") = Some [10; 14] /\
  file t1 (b "gps/077gps_000.txt") = Some [21; 22] /\
  file t1 (b "mseed/2021-03-04T05_06_07..014..HDF.mseed") = Some [15] /\ file t1 (b "mseed/2021-03-04T05_06_07..077..HDF.mseed") = Some [25].
Proof.
  destruct (run (b "mseed") (b "MSEED") alternate (begin case_jobs) old_files) as [[p t1]|] eqn:E; [|vm_compute in E; discriminate E].
  exists p, t1. split; [exact case_jobs_fit|]. split; [vm_compute; auto|]. split.
  - exists 1. intros j n Ij Hn. assert (A : gps_log j n <> b "gps/014gps_000.txt").
    { change (b "gps/014gps_000.txt") with (gps_log (case_job (b "014") 10) 0). intros X. apply gps_inj in X; [lia| |lia|lia]. destruct Ij as [<-|[<-|[]]]; reflexivity. }
    assert (B : forall q : bytes, (12 < length q)%nat -> q <> b "gps/014gps_000.txt" -> present old_files q = false).
    { intros q L Nq. unfold present, old_files. cbn [is_dir file].
      assert (X : forall r : bytes, (length r <= 12)%nat -> eqb_bytes q r = false) by (intros r Lr; destruct (eqb_bytes q r) eqn:Er; [apply eqb_bytes_iff in Er; subst; lia|reflexivity]).
      rewrite !X by (vm_compute; lia). destruct (eqb_bytes q (b "gps/014gps_000.txt")) eqn:Er; [apply eqb_bytes_iff in Er; contradiction|reflexivity]. }
    split; apply B; try assumption.
    + unfold gps_log, log_name. rewrite !app_length. destruct Ij as [<-|[<-|[]]]; cbn; lia.
    + unfold meta_log, log_name. rewrite !app_length. destruct Ij as [<-|[<-|[]]]; cbn; lia.
    + intros X. vm_compute in X. discriminate X.
  - split; [reflexivity|]. vm_compute in E. injection E as <- <-. vm_compute. repeat (split; [reflexivity|]). reflexivity.
Qed.

(** One process in a new folder. *)
Example C42_new_folder_case : exists p t1,
  let schedule := (repeat 0 14 ++ repeat 1 11)%nat in
  folders_possible (b "mseed") no_files /\ in_turn schedule /\
  run (b "mseed") (b "MSEED") schedule (begin case_jobs) no_files = Some (p, t1) /\ idle (b "mseed") (b "MSEED") p = true /\
  file t1 (b "gps/014gps_000.txt") = Some [11; 12] /\ file t1 (b "mseed/2021-03-04T05_06_07..077..HDF.mseed") = Some [25].
Proof.
  destruct (run (b "mseed") (b "MSEED") (repeat 0 14 ++ repeat 1 11)%nat (begin case_jobs) no_files) as [[p t1]|] eqn:E; [|vm_compute in E; discriminate E].
  exists p, t1. cbv zeta. split; [vm_compute; auto|]. split.
  - intros l i r k s Es. assert (Si : In i (repeat 0 14 ++ repeat 1 11)%nat) by (rewrite Es; apply in_or_app; right; left; reflexivity).
    apply in_app_iff in Si as [Si|Si]; apply repeat_spec in Si; subst i; [lia|]. assert (C : (length l < 14)%nat \/ (14 <= length l)%nat) by lia.
    assert (N1 : nth_error (repeat 0 14 ++ repeat 1 11)%nat (length l) = Some 1%nat) by (rewrite Es, nth_error_app2, Nat.sub_diag by lia; reflexivity).
    assert (N2 : nth_error (repeat 0 14 ++ repeat 1 11)%nat (length l + Datatypes.S (length r)) = Some k).
    { rewrite Es, nth_error_app2 by lia. replace (length l + Datatypes.S (length r) - length l)%nat with (Datatypes.S (length r)) by lia. cbn [nth_error].
      rewrite nth_error_app2, Nat.sub_diag by lia. reflexivity. }
    destruct C as [C|C].
    + rewrite nth_error_app1 in N1 by (rewrite repeat_length; exact C). apply nth_error_In, repeat_spec in N1. discriminate.
    + rewrite nth_error_app2 in N2 by (rewrite repeat_length; lia). apply nth_error_In, repeat_spec in N2. lia.
  - split; [exact E|]. vm_compute in E. injection E as <- <-. vm_compute. repeat (split; [reflexivity|]). reflexivity.
Qed.

(** In a new folder two workers may both find that gps/ is missing; the one that is late to make it ends without a
    word (sys.exit is not an Exception) and its serial number is not converted. *)
Theorem C42_new_folder_refuted : exists (jobs : list (job Z)) schedule p t1 j,
  fit (b "mseed") (b "MSEED") jobs /\ folders_possible (b "mseed") no_files /\
  run (b "mseed") (b "MSEED") schedule (begin jobs) no_files = Some (p, t1) /\ idle (b "mseed") (b "MSEED") p = true /\
  In (j, Exited) p /\ forall q, its_path (b "mseed") (b "MSEED") j q -> file t1 q = None.
Proof.
  destruct (run (b "mseed") (b "MSEED") ([0; 1; 0; 1] ++ repeat 0 12)%nat (begin case_jobs) no_files) as [[p t1]|] eqn:E; [|vm_compute in E; discriminate E].
  exists case_jobs, ([0; 1; 0; 1] ++ repeat 0 12)%nat, p, t1, (case_job (b "077") 20). 
  split; [exact case_jobs_fit|]. split; [vm_compute; auto|]. split; [exact E|].
  assert (Id : idle (b "mseed") (b "MSEED") p = true) by (vm_compute in E; injection E as <- _; reflexivity).
  assert (I : In (case_job (b "077") 20, Exited) p) by (vm_compute in E; injection E as <- _; right; left; reflexivity).
  split; [exact Id|]. split; [exact I|].
  destruct (C42_outcome Z _ _ _ _ _ _ _ case_jobs_fit E Id _ _ I) as [[_ U]|[X _]]; [|congruence]. intros q Iq. rewrite (U q Iq). reflexivity.
Qed.

(** Two instruments with the same codes: what is left depends on the schedule. *)
Definition same_codes : list (job Z) :=
  [mkjob (b "014") (b "XX.STA..HDF") [10] None [Wave day_one 0 [13]]; mkjob (b "077") (b "XX.STA..HDF") [20] None [Wave day_one 0 [23]]].
Theorem C42_same_codes_refuted : exists s1 s2 p1 p2 t1 t2,
  run (b "mseed") (b "MSEED") s1 (begin same_codes) old_files = Some (p1, t1) /\ idle (b "mseed") (b "MSEED") p1 = true /\
  run (b "mseed") (b "MSEED") s2 (begin same_codes) old_files = Some (p2, t2) /\ idle (b "mseed") (b "MSEED") p2 = true /\
  (forall j, ~ In (j, Exited) p1 /\ ~ In (j, Exited) p2) /\
  file t1 (b "mseed/2021-03-04T05_06_07.XX.STA..HDF.mseed") = Some [23] /\ file t2 (b "mseed/2021-03-04T05_06_07.XX.STA..HDF.mseed") = Some [13].
Proof.
  destruct (run (b "mseed") (b "MSEED") (repeat 0 8 ++ repeat 1 7)%nat (begin same_codes) old_files) as [[p1 t1]|] eqn:E1; [|vm_compute in E1; discriminate E1].
  destruct (run (b "mseed") (b "MSEED") (repeat 1 7 ++ repeat 0 8)%nat (begin same_codes) old_files) as [[p2 t2]|] eqn:E2; [|vm_compute in E2; discriminate E2].
  exists (repeat 0 8 ++ repeat 1 7)%nat, (repeat 1 7 ++ repeat 0 8)%nat, p1, p2, t1, t2. split; [exact E1|].
  assert (Ft : folders_there (b "mseed") old_files) by (vm_compute; auto).
  pose proof (C42_folders_there Z _ _ _ _ _ _ _ Ft E1) as X1. pose proof (C42_folders_there Z _ _ _ _ _ _ _ Ft E2) as X2.
  split; [vm_compute in E1; injection E1 as <- _; reflexivity|]. split; [exact E2|]. split; [vm_compute in E2; injection E2 as <- _; reflexivity|]. split; [auto|].
  vm_compute in E1, E2. injection E1 as <- <-. injection E2 as <- <-. split; vm_compute; reflexivity.
Qed.

Print Assumptions C42_any_moment.
Print Assumptions C42_outcome.
Print Assumptions C42_folders_there.
Print Assumptions C42_one_process.
Print Assumptions C42_same_tree.
Print Assumptions C42_finishes.
Print Assumptions C42_new_folder_refuted.
Print Assumptions C42_same_codes_refuted.
