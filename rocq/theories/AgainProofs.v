(** Lemmas about conversions that are interrupted and run again. *)
From Coq Require Import String.
From Coq Require Import ZArith List Bool Lia.
From Verif Require Import Base CalendarSpec Names NamesSpec NamesProofs NamesProps Workers WorkersSpec WorkersProofs WorkersProps Again.
Import ListNotations.
Open Scope Z_scope.

Section Proofs.
  Context {D : Type}.
  Variables out format : bytes.
  Notation tree := (tree D).
  Notation job := (job D).

  Definition gps_of (sn : bytes) (n : Z) : bytes := log_name (b "gps/" ++ sn ++ b "gps") n.
  Definition meta_of (sn : bytes) (n : Z) : bytes := log_name (b "metadata/" ++ sn ++ b "metadata") n.
  Lemma gps_log_of (j : job) n : gps_log j n = gps_of (j_sn j) n.
  Proof. reflexivity. Qed.
  Lemma meta_log_of (j : job) n : meta_log j n = meta_of (j_sn j) n.
  Proof. reflexivity. Qed.

  (** The path of a waveform is never that of a log. *)
  Lemma wave_no_log jobs (j : job) tm us d sn n : fit out format jobs -> In j jobs -> In (Wave tm us d) (j_later j) ->
    length sn = 3%nat -> ~ In 47 sn -> 0 <= n ->
    wave_file out format j tm us <> gps_of sn n /\ wave_file out format j tm us <> meta_of sn n.
  Proof.
    intros F Ij Iw L N Hn.
    split; intros X.
      + unfold gps_of, log_name, wave_file in X. rewrite <- !app_assoc in X.
        change (b "/" ++ converted_name tm us (j_id j) format) with (47 :: converted_name tm us (j_id j) format) in X.
        change (b "gps/" ++ sn ++ b "gps" ++ b "_" ++ pad 3 n ++ b ".txt") with (b "gps" ++ 47 :: sn ++ b "gps" ++ b "_" ++ pad 3 n ++ b ".txt") in X.
        apply last_slash in X.
        * destruct X as [-> X].
          destruct (converted_fourth tm us (j_id j) format (fit_time _ _ _ _ F j tm us d Ij Iw)) as (c & Ec & Hc).
          rewrite X, nth_error_app2, L in Ec by lia. cbn in Ec. injection Ec as <-. lia.
        * apply converted_no_slash; [exact (fit_time _ _ _ _ F j tm us d Ij Iw)|exact (proj2 (fit_slash _ _ _ _ F j Ij))|exact (proj2 (fit_format _ _ _ _ F))].
        * pose proof (rest_no_slash sn (b "gps") n N ltac:(vm_compute; lia) Hn) as R. unfold log_name in R. rewrite <- app_assoc in R. exact R.
      + unfold meta_of, log_name, wave_file in X. rewrite <- !app_assoc in X.
        change (b "/" ++ converted_name tm us (j_id j) format) with (47 :: converted_name tm us (j_id j) format) in X.
        change (b "metadata/" ++ sn ++ b "metadata" ++ b "_" ++ pad 3 n ++ b ".txt") with (b "metadata" ++ 47 :: sn ++ b "metadata" ++ b "_" ++ pad 3 n ++ b ".txt") in X.
        apply last_slash in X.
        * destruct X as [-> X].
          destruct (converted_fourth tm us (j_id j) format (fit_time _ _ _ _ F j tm us d Ij Iw)) as (c & Ec & Hc).
          rewrite X, nth_error_app2, L in Ec by lia. cbn in Ec. injection Ec as <-. lia.
        * apply converted_no_slash; [exact (fit_time _ _ _ _ F j tm us d Ij Iw)|exact (proj2 (fit_slash _ _ _ _ F j Ij))|exact (proj2 (fit_format _ _ _ _ F))].
        * pose proof (rest_no_slash sn (b "metadata") n N ltac:(vm_compute; lia) Hn) as R. unfold log_name in R. rewrite <- app_assoc in R. exact R.
  Qed.

  (** Where a call may have written. *)
  Definition target (t0 : tree) (jobs : list job) (q : bytes) : Prop := exists j, In j jobs /\
    ((exists n, first_free t0 (gps_log j) n /\ q = gps_log j n) \/ (exists n, first_free t0 (meta_log j) n /\ q = meta_log j n) \/
     (exists tm us d, In (Wave tm us d) (j_later j) /\ q = wave_file out format j tm us)).

  Lemma wave_dec (j : job) q (l : list (output D)) :
    (exists tm us d, In (Wave tm us d) l /\ q = wave_file out format j tm us) \/ (forall tm us d, In (Wave tm us d) l -> q <> wave_file out format j tm us).
  Proof.
    induction l as [|o l [(tm & us & d & I & E)|IH]]; [right; intros tm us d []|left; exists tm, us, d; split; [right; exact I|exact E]|].
    destruct o as [r|r|tm us d]; try (right; intros tm us d [X|I]; [discriminate|exact (IH tm us d I)]).
    destruct (list_eq_dec Z.eq_dec q (wave_file out format j tm us)) as [->|N].
    - left. exists tm, us, d. split; [left; reflexivity|reflexivity].
    - right. intros tm' us' d' [X|I]; [injection X as <- <- <-; exact N|exact (IH _ _ _ I)].
  Qed.

  Lemma wrote_target t0 t1 jobs (j : job) done rest q : In j jobs -> all_outputs j = done ++ rest -> wrote out format t0 t1 j done ->
    its_path out format j q -> file t1 q = file t0 q \/ target t0 jobs q.
  Proof.
    intros Ij A (g & m & G & M & _ & _ & _ & R) Iq.
    destruct (list_eq_dec Z.eq_dec q (gps_log j g)) as [->|Ng]; [right; exists j; eauto|].
    destruct (list_eq_dec Z.eq_dec q (meta_log j m)) as [->|Nm]; [right; exists j; eauto 7|].
    destruct (wave_dec j q done) as [(tm & us & d & I & ->)|Nw].
    - right. exists j. split; [exact Ij|]. right; right. exists tm, us, d. split; [|reflexivity]. apply outputs_wave. rewrite A. apply in_or_app. left. exact I.
    - left. apply R; assumption.
  Qed.

  Lemma run_target jobs sched p t0 t1 q : fit out format jobs -> run out format sched (begin jobs) t0 = Some (p, t1) ->
    file t1 q = file t0 q \/ target t0 jobs q.
  Proof.
    intros F R. destruct (C42_any_moment D out format jobs sched p t0 t1 F R) as (_ & W & Q & _).
    destruct (Q q) as [E|(j & Ij & Iq)]; [left; exact E|]. destruct (W j Ij) as [U|(done & rest & A & Wr)]; [left; apply U, Iq|].
    exact (wrote_target t0 t1 jobs j done rest q Ij A Wr Iq).
  Qed.

  Lemma part_target jobs sched p t0 t1 js q d : fit out format jobs -> run out format sched (begin jobs) t0 = Some (p, t1) ->
    In js p -> part out format t1 js q d -> target t0 jobs q.
  Proof.
    intros F R I P. destruct (inv_all_run out format jobs F t0 sched _ _ _ _ (inv_all_begin out format jobs t0) R) as (M & V & _).
    destruct js as [j s]. assert (Ij : In j jobs) by (rewrite <- M; apply (in_map fst) in I; exact I).
    specialize (V j s I). exists j. split; [exact Ij|]. unfold part in P. cbn [fst snd] in P.
    destruct s as [| |n|g|g|g n|g m|g m|g m|g m|g m l|]; cbn [next] in P; try contradiction; cbn [inv] in V.
    - destruct P as [-> _]. destruct V as (gn & mn & _ & -> & _ & M1 & _). right; left. eauto.
    - destruct (j_gps j); [|contradiction]. destruct P as [-> _]. destruct V as (gn & mn & -> & _ & _ & (G1 & _)). left. eauto.
    - destruct V as (gn & mn & done & -> & -> & A & (G1 & M1 & _)). destruct l as [|[r|r|tm us x] l]; [contradiction| | |]; destruct P as [-> _].
      + right; left. eauto.
      + left. eauto.
      + right; right. exists tm, us, x. split; [|reflexivity]. apply outputs_wave. rewrite A. apply in_or_app. right. left. reflexivity.
  Qed.

  Lemma session_target jobs t0 t1 q : fit out format jobs -> session out format jobs t0 t1 -> file t1 q = file t0 q \/ target t0 jobs q.
  Proof.
    intros F (sched & p & u & R & _ & C). destruct (C q) as [E|(js & d & I & P & _)].
    - rewrite E. exact (run_target jobs sched p t0 u q F R).
    - right. exact (part_target jobs sched p t0 u js q d F R I P).
  Qed.

  Lemma session_dirs jobs (t0 t1 : tree) q : fit out format jobs -> session out format jobs t0 t1 ->
    is_dir t1 q = is_dir t0 q \/ (q = gps_dir \/ q = meta_dir \/ q = out) /\ is_dir t1 q = true.
  Proof.
    intros F (sched & p & u & R & C & _). destruct (C42_any_moment D out format jobs sched p t0 u F R) as (_ & _ & _ & Hd). rewrite C. apply Hd.
  Qed.

  (** ** What a kill leaves of one conversion *)
  Lemma first_free_unique (t : tree) name n m : first_free t name n -> first_free t name m -> n = m.
  Proof.
    intros (N & Fn & An) (M & Fm & Am). destruct (Z.lt_trichotomy n m) as [L|[E|L]]; [|exact E|].
    - rewrite Am in Fn by lia. discriminate.
    - rewrite An in Fm by lia. discriminate.
  Qed.

  Lemma part_own jobs sched p (t0 t1 t2 : tree) (j : job) s q : fit out format jobs -> run out format sched (begin jobs) t0 = Some (p, t1) -> cut out format p t1 t2 ->
    In (j, s) p -> its_path out format j q -> file t2 q = file t1 q \/ exists d, part out format t1 (j, s) q d /\ file t2 q = Some d.
  Proof.
    intros F R [_ C] I Iq. destruct (C q) as [E|([k sk] & d & Ik & P & E)]; [left; exact E|]. right. exists d. split; [|exact E].
    destruct (inv_all_run out format jobs F t0 sched _ _ _ _ (inv_all_begin out format jobs t0) R) as (M & V & _).
    assert (Ij : In j jobs) by (rewrite <- M; apply (in_map fst) in I; exact I).
    assert (Ikj : In k jobs) by (rewrite <- M; apply (in_map fst) in Ik; exact Ik).
    assert (T : its_path out format k q).
    { specialize (V k sk Ik). unfold part in P. cbn [fst snd] in P.
      destruct sk as [| |n|g|g|g n|g m|g m|g m|g m|g m l|]; cbn [next] in P; try contradiction; cbn [inv] in V.
      - destruct P as [-> _]. destruct V as (gn & mn & _ & -> & _ & (M1 & _) & _). right; left. eauto.
      - destruct (j_gps k); [|contradiction]. destruct P as [-> _]. destruct V as (gn & mn & -> & _ & _ & ((G1 & _) & _)). left. eauto.
      - destruct V as (gn & mn & done & -> & -> & A & ((G1 & _) & (M1 & _) & _)). destruct l as [|[r|r|tm us x] l]; [contradiction| | |]; destruct P as [-> _].
        + right; left. eauto.
        + left. eauto.
        + right; right. exists tm, us, x. split; [|reflexivity]. apply outputs_wave. rewrite A. apply in_or_app. right. left. reflexivity. }
    pose proof (disjoint out format jobs F j k q Ij Ikj Iq T) as <-.
    assert (sk = s) as ->; [|exact P].
    assert (N : NoDup (map fst p)) by (rewrite M; exact (NoDup_map_inv _ _ (fit_sn _ _ _ _ F))).
    pose proof (nodup_map fst p (j, sk) (j, s) N Ik I eq_refl) as X. injection X as X. exact X.
  Qed.

  (** A log that is there stays as it is. *)
  Lemma session_log jobs (t0 t1 : tree) sn n : fit out format jobs -> session out format jobs t0 t1 -> length sn = 3%nat -> ~ In 47 sn -> 0 <= n ->
    (file t0 (gps_of sn n) <> None -> file t1 (gps_of sn n) = file t0 (gps_of sn n)) /\
    (file t0 (meta_of sn n) <> None -> file t1 (meta_of sn n) = file t0 (meta_of sn n)).
  Proof.
    intros F S L N Hn. split; intros H.
    - destruct (session_target jobs t0 t1 (gps_of sn n) F S) as [E|(j & Ij & [(m & M & E)|[(m & M & E)|(tm & us & d & Iw & E)]])]; [exact E| | |].
      + exfalso. apply H. rewrite E. exact (free_none _ _ _ M).
      + exfalso. apply (gps_meta (mkjob sn [] [] None []) j n m). rewrite gps_log_of. exact E.
      + exfalso. exact (proj1 (wave_no_log jobs j tm us d sn n F Ij Iw L N Hn) (eq_sym E)).
    - destruct (session_target jobs t0 t1 (meta_of sn n) F S) as [E|(j & Ij & [(m & M & E)|[(m & M & E)|(tm & us & d & Iw & E)]])]; [exact E| | |].
      + exfalso. apply (gps_meta j (mkjob sn [] [] None []) m n). rewrite meta_log_of. symmetry. exact E.
      + exfalso. apply H. rewrite E. exact (free_none _ _ _ M).
      + exfalso. exact (proj2 (wave_no_log jobs j tm us d sn n F Ij Iw L N Hn) (eq_sym E)).
  Qed.

  Lemma sessions_log l : forall (t0 t1 : tree) sn n, Forall (fit out format) l -> sessions out format l t0 t1 -> length sn = 3%nat -> ~ In 47 sn -> 0 <= n ->
    (file t0 (gps_of sn n) <> None -> file t1 (gps_of sn n) = file t0 (gps_of sn n)) /\
    (file t0 (meta_of sn n) <> None -> file t1 (meta_of sn n) = file t0 (meta_of sn n)).
  Proof.
    induction l as [|jobs l IH]; intros t0 t1 sn n F S L N Hn; cbn [sessions] in S.
    - destruct S as [_ S]. split; intros _; apply S.
    - destruct S as (u & S1 & S2). apply Forall_cons_iff in F. destruct F as [F1 F2].
      destruct (session_log jobs t0 u sn n F1 S1 L N Hn) as [A B]. destruct (IH u t1 sn n F2 S2 L N Hn) as [A' B'].
      split; intros H.
      + rewrite A' by (rewrite A by exact H; exact H). apply A, H.
      + rewrite B' by (rewrite B by exact H; exact H). apply B, H.
  Qed.

  (** The same conversions again. *)
  Lemma same_sessions n jobs : fit out format jobs -> forall (t0 t1 : tree), sessions out format (repeat jobs n) t0 t1 ->
    (forall q, file t1 q = file t0 q \/ exists j, In j jobs /\ its_path out format j q) /\
    (forall q, is_dir t1 q = is_dir t0 q \/ (q = gps_dir \/ q = meta_dir \/ q = out) /\ is_dir t1 q = true).
  Proof.
    intros F. induction n as [|n IH]; intros t0 t1 S; cbn [repeat sessions] in S.
    - destruct S as [A B]. split; intros q; left; auto.
    - destruct S as (u & S1 & S2). destruct (IH u t1 S2) as [A B]. split; intros q.
      + destruct (A q) as [E|X]; [|right; exact X]. rewrite E. destruct (session_target jobs t0 u q F S1) as [X|(j & Ij & X)]; [left; exact X|].
        right. exists j. split; [exact Ij|]. destruct X as [(m & (M & _) & X)|[(m & (M & _) & X)|X]]; [left|right; left|right; right; exact X]; eauto.
      + destruct (B q) as [E|X]; [|right; exact X]. rewrite E. destruct (session_dirs jobs t0 u q F S1) as [X|[X Y]]; [left; exact X|right; auto].
  Qed.

  Lemma complete_wrote jobs (t0 t1 : tree) : fit out format jobs -> complete out format jobs t0 t1 ->
    (forall j, In j jobs -> wrote out format t0 t1 j (all_outputs j) /\ folders_there out t1) /\
    (forall q, file t1 q = file t0 q \/ exists j, In j jobs /\ its_path out format j q) /\
    (forall q, is_dir t1 q = is_dir t0 q \/ (q = gps_dir \/ q = meta_dir \/ q = out) /\ is_dir t1 q = true).
  Proof.
    intros F (sched & p & R & Id & N). destruct (C42_any_moment D out format jobs sched p t0 t1 F R) as (M & _ & Q & Hd).
    split; [|split; assumption]. intros j Ij. rewrite <- M in Ij. apply in_map_iff in Ij as ([k s] & E & I). cbn in E. subst k.
    destruct (C42_outcome D out format jobs sched p t0 t1 F R Id j s I) as [[-> _]|[_ H]]; [exfalso; exact (N j I)|exact H].
  Qed.

  Lemma again jobs n (t0 ta t1 tc : tree) : fit out format jobs -> jobs <> [] -> sessions out format (repeat jobs n) t0 ta ->
    complete out format jobs ta t1 -> complete out format jobs t0 tc ->
    (forall q, file t1 q = file tc q \/ exists j k, In j jobs /\ 0 <= k /\ (q = gps_log j k \/ q = meta_log j k)) /\
    (forall q, is_dir t1 q = is_dir tc q).
  Proof.
    intros F NE S C1 Cc. destruct (same_sessions n jobs F t0 ta S) as [Sa Sd].
    destruct (complete_wrote jobs ta t1 F C1) as (W1 & Q1 & D1). destruct (complete_wrote jobs t0 tc F Cc) as (Wc & Qc & Dc).
    assert (P : forall q j, In j jobs -> its_path out format j q -> file t1 q = file tc q \/ exists j k, In j jobs /\ 0 <= k /\ (q = gps_log j k \/ q = meta_log j k)).
    { intros q j Ij [(k & Hk & ->)|[(k & Hk & ->)|(tm & us & d & Iw & ->)]]; [right; eauto 7|right; eauto 7|]. left.
      destruct (W1 j Ij) as [(_ & _ & _ & _ & _ & _ & X1 & _) _]. destruct (Wc j Ij) as [(_ & _ & _ & _ & _ & _ & Xc & _) _].
      destruct (last_wave out format j (all_outputs j) (wave_file out format j tm us)) as (b0 & tm1 & us1 & d1 & af & E & Eq & N).
      { exists tm, us, d. split; [|reflexivity]. right. apply in_or_app. right. exact Iw. }
      rewrite Eq, (X1 _ _ _ _ _ E N), (Xc _ _ _ _ _ E N). reflexivity. }
    split.
    - intros q. destruct (Q1 q) as [E1|(j & Ij & Iq)]; [|exact (P q j Ij Iq)]. destruct (Sa q) as [E2|(j & Ij & Iq)]; [|exact (P q j Ij Iq)].
      destruct (Qc q) as [E3|(j & Ij & Iq)]; [|exact (P q j Ij Iq)]. left. congruence.
    - intros q. destruct jobs as [|j jobs]; [contradiction|].
      destruct (W1 j (or_introl eq_refl)) as [_ (A1 & A2 & A3)]. destruct (Wc j (or_introl eq_refl)) as [_ (B1 & B2 & B3)].
      assert (T : q = gps_dir \/ q = meta_dir \/ q = out -> is_dir t1 q = is_dir tc q) by (intros [->|[->| ->]]; congruence).
      destruct (D1 q) as [E1|[X _]]; [|exact (T X)]. destruct (Sd q) as [E2|[X _]]; [|exact (T X)]. destruct (Dc q) as [E3|[X _]]; [congruence|exact (T X)].
  Qed.

  (** There are only finitely many logs, and the folders can be made. *)
  Lemma session_finite jobs (t0 t1 : tree) : fit out format jobs -> session out format jobs t0 t1 -> finite_logs t0 jobs -> finite_logs t1 jobs.
  Proof.
    intros F S (N & H). exists (Z.max 0 N + 1). intros j n Ij Hn. destruct (H j n Ij ltac:(lia)) as [A B].
    assert (L : length (j_sn j) = 3%nat) by exact (fit_length _ _ _ _ F j Ij).
    assert (Sl : ~ In 47 (j_sn j)) by exact (proj1 (fit_slash _ _ _ _ F j Ij)).
    assert (Dir : forall q, is_dir t0 q = false -> ~ (q = gps_dir \/ q = meta_dir \/ q = out) -> is_dir t1 q = false).
    { intros q E X. destruct (session_dirs jobs t0 t1 q F S) as [Y|[Y _]]; [congruence|contradiction]. }
    destruct (log_no_folder out format jobs F j n Ij ltac:(lia)) as [Ng Nm]. unfold present in A, B. apply orb_false_iff in A, B.
    assert (Fr : forall (name : job -> Z -> bytes) k m, In k jobs -> (forall i, N <= i -> present t0 (name k i) = false) -> first_free t0 (name k) m -> m <= Z.max 0 N).
    { intros name k m Ik Hk (M0 & M1 & M2). destruct (Z_le_gt_dec m (Z.max 0 N)) as [X|X]; [exact X|]. specialize (M2 (Z.max 0 N) ltac:(lia)). rewrite Hk in M2 by lia. discriminate. }
    split; unfold present; apply orb_false_iff; split.
    - apply Dir; [apply A|exact Ng].
    - destruct (session_target jobs t0 t1 (gps_log j n) F S) as [E|(k & Ik & [(m & M & E)|[(m & M & E)|(tm & us & d & Iw & E)]])].
      + rewrite E. apply A.
      + exfalso. apply (Fr gps_log k m Ik) in M as X; [|intros i Hi; apply (H k i Ik Hi)]. apply gps_inj in E; [lia| |lia|apply M].
        rewrite L. symmetry. exact (fit_length _ _ _ _ F k Ik).
      + exfalso. exact (gps_meta _ _ _ _ E).
      + exfalso. exact (proj1 (wave_no_log jobs k tm us d (j_sn j) n F Ik Iw L Sl ltac:(lia)) (eq_sym E)).
    - apply Dir; [apply B|exact Nm].
    - destruct (session_target jobs t0 t1 (meta_log j n) F S) as [E|(k & Ik & [(m & M & E)|[(m & M & E)|(tm & us & d & Iw & E)]])].
      + rewrite E. apply B.
      + exfalso. exact (gps_meta _ _ _ _ (eq_sym E)).
      + exfalso. apply (Fr meta_log k m Ik) in M as X; [|intros i Hi; apply (H k i Ik Hi)]. apply meta_inj in E; [lia| |lia|apply M].
        rewrite L. symmetry. exact (fit_length _ _ _ _ F k Ik).
      + exfalso. exact (proj2 (wave_no_log jobs k tm us d (j_sn j) n F Ik Iw L Sl ltac:(lia)) (eq_sym E)).
  Qed.
  Lemma sessions_finite n jobs : fit out format jobs -> forall (t0 t1 : tree), sessions out format (repeat jobs n) t0 t1 -> finite_logs t0 jobs -> finite_logs t1 jobs.
  Proof.
    intros F. induction n as [|n IH]; intros t0 t1 S H; cbn [repeat sessions] in S.
    - destruct S as [A B]. destruct H as (N & H). exists N. intros j i Ij Hi. unfold present. rewrite !A, !B. exact (H j i Ij Hi).
    - destruct S as (u & S1 & S2). exact (IH u t1 S2 (session_finite jobs t0 u F S1 H)).
  Qed.
  Lemma session_folders jobs (t0 t1 : tree) : fit out format jobs -> session out format jobs t0 t1 -> folders_possible out t0 -> folders_possible out t1.
  Proof.
    intros F S P. assert (X : forall q, folder out q -> file t1 q = file t0 q).
    { intros q Fq. destruct (session_target jobs t0 t1 q F S) as [E|(j & Ij & [(m & (M & _) & E)|[(m & (M & _) & E)|(tm & us & d & Iw & E)]])]; [exact E| | |]; exfalso.
      - subst q. exact (proj1 (log_no_folder out format jobs F j m Ij M) Fq).
      - subst q. exact (proj2 (log_no_folder out format jobs F j m Ij M) Fq).
      - assert (Y : In 47 (wave_file out format j tm us)) by (apply in_or_app; right; left; reflexivity). rewrite <- E in Y.
        destruct Fq as [->|[->| ->]]; [vm_compute in Y; lia|vm_compute in Y; lia|]. apply (f_equal (@length Z)) in E.
        unfold wave_file in E. rewrite !app_length in E. change (length (b "/")) with 1%nat in E. lia. }
    unfold folders_possible. rewrite !X by (unfold folder; auto). exact P.
  Qed.
  Lemma sessions_folders n jobs : fit out format jobs -> forall (t0 t1 : tree), sessions out format (repeat jobs n) t0 t1 -> folders_possible out t0 -> folders_possible out t1.
  Proof.
    intros F. induction n as [|n IH]; intros t0 t1 S H; cbn [repeat sessions] in S.
    - destruct S as [_ B]. unfold folders_possible. rewrite !B. exact H.
    - destruct S as (u & S1 & S2). exact (IH u t1 S2 (session_folders jobs t0 u F S1 H)).
  Qed.
End Proofs.
