(** The GPS logs of an instrument over many conversions. *)
From Coq Require Import String.
From Coq Require Import ZArith QArith List Bool Lia.
From Verif Require Import Base CalendarSpec Names NamesSpec NamesProofs NamesProps Workers WorkersSpec WorkersProofs WorkersProps Again AgainProofs Gps GpsSpec.
Import ListNotations.
Open Scope Z_scope.

Section Logs.
  Context {D : Type}.
  Variables out format : bytes.
  Hypothesis Out : out <> gps_dir /\ ~ begins (b "gps/") out.
  Variable sn : bytes.
  Hypothesis Sn : length sn = 3%nat /\ ~ In 47 sn.
  Notation tree := (tree D).
  Notation job := (job D).

  (** The logs of the instrument are those with the numbers below [n]; nothing is hidden. *)
  Definition logs (t : tree) (n : Z) : Prop :=
    0 <= n /\ (forall k, 0 <= k -> (present t (gps_of sn k) = true <-> k < n)) /\
    (forall name, ~ In 47 name -> file t (b "gps/" ++ name) <> None ->
       ~ begins (b ".") name /\ (begins sn name -> exists k, 0 <= k < n /\ name = log_name (sn ++ b "gps") k)).

  Lemma gps_of_name s k : gps_of s k = b "gps/" ++ log_name (s ++ b "gps") k.
  Proof. unfold gps_of, log_name. rewrite <- !app_assoc. reflexivity. Qed.

  Lemma free_next t n m : logs t n -> first_free t (gps_of sn) m -> m = n.
  Proof.
    intros (N0 & C & _) (M0 & M1 & M2). destruct (Z.lt_trichotomy m n) as [X|[X|X]]; [|exact X|].
    - apply C in X; [congruence|exact M0].
    - specialize (M2 n ltac:(lia)). apply C in M2; lia.
  Qed.

  Lemma session_logs jobs (t t' : tree) n : fit out format jobs -> Forall (fun j => Forall dig (j_sn j)) jobs -> session out format jobs t t' ->
    logs t n -> exists n', n <= n' <= n + 1 /\ logs t' n' /\ (n' = n + 1 <-> present t' (gps_of sn n) = true) /\
      ((forall j, In j jobs -> j_sn j <> sn) -> n' = n).
  Proof.
    intros F Dg S L. pose proof L as (N0 & C & V). destruct Sn as [L3 Sl].
    assert (Dir : forall k, 0 <= k -> is_dir t' (gps_of sn k) = is_dir t (gps_of sn k)).
    { intros k Hk. destruct (session_dirs out format jobs t t' (gps_of sn k) F S) as [X|[X _]]; [exact X|]. exfalso. destruct X as [X|[X|X]].
      - vm_compute in X. discriminate X.
      - vm_compute in X. discriminate X.
      - apply (proj2 Out). exists (log_name (sn ++ b "gps") k). rewrite <- X. apply gps_of_name. }
    assert (Same : forall k, 0 <= k -> file t' (gps_of sn k) = file t (gps_of sn k) \/ (k = n /\ exists j, In j jobs /\ j_sn j = sn)).
    { intros k Hk. destruct (session_target out format jobs t t' (gps_of sn k) F S) as [X|(j & Ij & [(m & M & X)|[(m & M & X)|(tm & us & d & Iw & X)]])]; [left; exact X| | |].
      - right. assert (Y : gps_log (mkjob sn [] (@nil D) None []) k = gps_log j m) by exact X. apply gps_inj in Y; [| |exact Hk|apply M].
        + cbn [j_sn] in Y. destruct Y as [Y ->]. split; [|exists j; auto]. apply (free_next t n m L). rewrite Y. exact M.
        + cbn [j_sn]. rewrite L3. symmetry. exact (fit_length _ _ _ _ F j Ij).
      - exfalso. exact (gps_meta (mkjob sn [] (@nil D) None []) j k m X).
      - exfalso. exact (proj1 (wave_no_log out format jobs j tm us d sn k F Ij Iw L3 Sl Hk) (eq_sym X)). }
    assert (Pn : present t (gps_of sn n) = false) by (destruct (present t (gps_of sn n)) eqn:E; [apply C in E; lia|reflexivity]).
    set (n' := if present t' (gps_of sn n) then n + 1 else n).
    assert (Hn' : n <= n' <= n + 1) by (unfold n'; destruct (present t' (gps_of sn n)); lia).
    assert (Q : n' = n + 1 <-> present t' (gps_of sn n) = true) by (unfold n'; destruct (present t' (gps_of sn n)); split; intros; try reflexivity; try lia; discriminate).
    exists n'. split; [exact Hn'|]. split; [|split; [exact Q|]].
    - split; [lia|]. split.
      + intros k Hk. destruct (Same k Hk) as [X|[-> _]].
        * destruct (Z.eq_dec k n) as [->|Nk]; [rewrite <- Q; lia|]. unfold present. rewrite X, Dir by exact Hk. fold (present t (gps_of sn k)). rewrite C by exact Hk. lia.
        * rewrite <- Q. lia.
      + intros name Ns Hf.
        destruct (session_target out format jobs t t' (b "gps/" ++ name) F S) as [X|(j & Ij & [(m & M & X)|[(m & M & X)|(tm & us & d & Iw & X)]])].
        * rewrite X in Hf. destruct (V name Ns Hf) as [A B]. split; [exact A|]. intros Y. destruct (B Y) as (k & Hk & E). exists k. split; [lia|exact E].
        * pose proof X as X'. rewrite gps_log_of, gps_of_name in X'. apply app_inv_head in X'. pose proof (fit_length _ _ _ _ F j Ij) as Lj.
          rewrite Forall_forall in Dg. specialize (Dg j Ij). split.
          -- intros (r & Y). rewrite X' in Y. unfold log_name in Y. destruct (j_sn j) as [|c s]; [discriminate Lj|].
             injection Y as Y _. apply Forall_inv in Dg. unfold dig in Dg. lia.
          -- intros (r & Y). assert (E : j_sn j = sn).
             { rewrite X' in Y. unfold log_name in Y. rewrite <- app_assoc in Y. apply app_eq_len in Y; [tauto|lia]. }
             assert (m = n) as -> by (apply (free_next t n m L); rewrite <- E; exact M).
             exists n. split; [|rewrite <- E; exact X']. split; [lia|]. enough (n' = n + 1) by lia. apply Q. unfold present. rewrite <- E, <- gps_log_of, <- X.
             destruct (file t' (b "gps/" ++ name)); [apply orb_true_r|contradiction].
        * exfalso. vm_compute in X. discriminate X.
        * exfalso. apply (proj1 Out). unfold wave_file in X. change (b "gps/" ++ name) with (b "gps" ++ 47 :: name) in X.
          change (b "/" ++ converted_name tm us (j_id j) format) with (47 :: converted_name tm us (j_id j) format) in X.
          symmetry in X. apply last_slash in X; [exact (proj1 X)| |exact Ns].
          apply converted_no_slash; [exact (fit_time _ _ _ _ F j tm us d Ij Iw)|exact (proj2 (fit_slash _ _ _ _ F j Ij))|exact (proj2 (fit_format _ _ _ _ F))].
    - intros No. destruct (Same n N0) as [X|(_ & j & Ij & E)]; [|exfalso; exact (No j Ij E)].
      unfold n'. unfold present. rewrite X, Dir by exact N0. fold (present t (gps_of sn n)). rewrite Pn. reflexivity.
  Qed.

  Lemma sessions_logs l : forall (t t' : tree) n, Forall (fit out format) l -> Forall (Forall (fun j => Forall dig (j_sn j))) l -> sessions out format l t t' ->
    logs t n -> exists n', n <= n' <= n + Z.of_nat (length l) /\ logs t' n' /\ ((forall jobs j, In jobs l -> In j jobs -> j_sn j <> sn) -> n' = n).
  Proof.
    induction l as [|jobs l IH]; intros t t' n F Dg S L; cbn [sessions] in S.
    - destruct S as [A B]. exists n. split; [cbn; lia|]. split; [|reflexivity]. destruct L as (N0 & C & V). split; [exact N0|]. split.
      + intros k Hk. unfold present. rewrite A, B. exact (C k Hk).
      + intros name Ns Hf. rewrite B in Hf. exact (V name Ns Hf).
    - destruct S as (u & S1 & S2). apply Forall_cons_iff in F. destruct F as [F1 F2]. apply Forall_cons_iff in Dg. destruct Dg as [D1 D2].
      destruct (session_logs jobs t u n F1 D1 S1 L) as (n1 & H1 & L1 & _ & E1). destruct (IH u t' n1 F2 D2 S2 L1) as (n2 & H2 & L2 & E2).
      exists n2. split; [cbn [length]; lia|]. split; [exact L2|]. intros No. rewrite E2, E1; [reflexivity| |].
      + intros j Ij. exact (No jobs j (or_introl eq_refl) Ij).
      + intros js j I Ij. exact (No js j (or_intror I) Ij).
  Qed.
End Logs.
