(** C65.  How the commands end and what they log. *)
From Coq Require Import String.
From Coq Require Import ZArith List Bool Lia Permutation.
From Verif Require Import Lib Base Names NamesProofs Stations Select Cli CliSpec CliProofs CliProps Pool PoolSpec PoolProofs.
Import ListNotations.
Open Scope Z_scope.

(** * The pool *)

(** C65.  At every moment, whatever the schedule and whichever worker died: the tasks begun are the first ones, in order;
    the log is made of the first lines of each of them, each in its order; and of at most [n] tasks begun some line is
    still missing. *)
Theorem C65_every_moment : forall n tasks l p, acts n (start tasks) l = Some p ->
  exists begun parts, tasks = begun ++ waiting p /\ Forall2 prefix_of parts begun /\ interleaving parts (logged p) /\ (unfinished parts begun <= n)%nat.
Proof.
  intros n tasks l p E. destruct (inv_acts n tasks l _ _ (inv_start n tasks) E) as (D & ET & IL & LN & _).
  exists (map whole D), (map fst D). split; [exact ET|]. split; [apply whole_prefix|]. split; [exact IL|]. pose proof (unfinished_live D). lia.
Qed.

(** C65.  When all has ended and no worker died, the log is made of all lines of all tasks, those of each task in their
    order. *)
Theorem C65_log : forall n tasks l p, acts n (start tasks) l = Some p -> over p = true -> broken p = false -> interleaving tasks (logged p).
Proof.
  intros n tasks l p E O B. destruct (inv_acts n tasks l _ _ (inv_start n tasks) E) as (D & ET & IL & _ & R). specialize (R B).
  unfold over in O. rewrite B in O. cbn in O. destruct (waiting p); [|discriminate]. destruct (running p); [|discriminate]. rewrite app_nil_r in ET. subst tasks.
  enough (map whole D = map fst D) as -> by exact IL. clear - R. induction D as [|[a [r|]] D IH]; [reflexivity|discriminate|].
  cbn [map fst]. unfold whole at 1. cbn [fst snd]. rewrite app_nil_r. f_equal. apply IH. exact R.
Qed.

(** C65.  With one process the tasks are run one after the other: the log is at every moment the first part of their
    lines in order, and at the end all of them. *)
Theorem C65_sequential : forall tasks l p, acts 1 (start tasks) l = Some p ->
  prefix_of (logged p) (concat tasks) /\ (over p = true -> broken p = false -> logged p = concat tasks).
Proof.
  intros tasks l p E. destruct (seq_acts l (start tasks) p eq_refl (le_S _ _ (le_n _)) E) as [H1 H2]. cbn in H1, H2. split; [exact H1|].
  intros O B. specialize (H2 B). unfold over in O. rewrite B in O. cbn in O. destruct (waiting p); [|discriminate]. destruct (running p); [|discriminate].
  cbn in H2. rewrite app_nil_r in H2. exact H2.
Qed.

(** C65.  The pool ends: no schedule is longer than a bound given by the tasks; while it has not ended something can be
    done without a worker dying; and it can end with no worker dead. *)
Theorem C65_ends : forall n tasks,
  (forall l p, acts n (start tasks) l = Some p -> (length l <= 2 * length tasks + length (concat tasks) + 1)%nat) /\
  ((0 < n)%nat -> forall l p, acts n (start tasks) l = Some p -> over p = false -> exists a, a <> Die /\ acts n (start tasks) (l ++ [a]) <> None) /\
  ((0 < n)%nat -> exists l p, acts n (start tasks) l = Some p /\ over p = true /\ broken p = false).
Proof.
  intros n tasks. split; [|split].
  - intros l p E. apply acts_less in E. unfold left_over, start in E. cbn [waiting running broken] in E. unfold lines in E. cbn [concat length] in E. lia.
  - intros N l p E O. destruct (enabled n p N O) as (a & p' & A & B & _). exists a. split; [exact A|].
    enough (acts n (start tasks) (l ++ [a]) = Some p') as -> by discriminate. clear - E B. revert E. generalize (start tasks). induction l as [|x l IH]; intros q E; cbn in *.
    + injection E as ->. rewrite B. reflexivity.
    + destruct (act n q x); [apply IH; exact E|discriminate].
  - intros N. apply finish; [exact N|reflexivity].
Qed.

(** * gemconvert *)

Section Convert.
  Variable list_dir : bytes -> option (list bytes).
  Variable read_codes : bytes -> option (list row).
  Variable convert : settings -> bytes -> bytes * (bytes * bytes * bytes) -> result.
  Notation command := (gemconvert list_dir read_codes convert).

  (** C65.  Tasks are run exactly if the command line gives a plan, is no test and asks for at least one process; one
      task for each serial number of the plan, in their order, and none twice. *)
  Theorem C65_tasks : forall argv st n tasks, command argv = (st, Some (n, tasks)) <->
    exists jobs s out, main list_dir read_codes argv = Plan jobs s out /\ test s = false /\ 0 < processes s /\
      Z.of_nat n = processes s /\ st = 0 /\ tasks = map (fun j => log_of (fst j) (convert s out j)) jobs.
  Proof.
    intros argv st n tasks. unfold gemconvert. split.
    - destruct (main _ _ argv) as [ | | | | | |jobs s out]; try discriminate. destruct (test s) eqn:T; [discriminate|]. destruct (Z.leb_spec (processes s) 0) as [|P]; [discriminate|].
      intros E. injection E as <- <- <-. exists jobs, s, out. repeat split; try assumption. apply Z2Nat.id. lia.
    - intros (jobs & s & out & -> & -> & P & N & -> & ->). destruct (Z.leb_spec (processes s) 0) as [|_]; [lia|]. rewrite <- N, Nat2Z.id. reflexivity.
  Qed.

  Lemma job_of argv jobs s out : main list_dir read_codes argv = Plan jobs s out -> forall j j', In j jobs -> In j' jobs -> fst j = fst j' -> j = j'.
  Proof.
    intros M. pose proof (in_order_nodup _ (proj1 (C42_plan _ _ _ _ _ _ M))) as N. clear M. induction jobs as [|x jobs IH]; intros j j' I I' E; [destruct I|].
    cbn in N. inversion N as [|? ? N1 N2]. subst. destruct I as [<-|I], I' as [<-|I']; [reflexivity| | |apply IH; assumption].
    - exfalso. apply N1. rewrite E. apply in_map. exact I'.
    - exfalso. apply N1. rewrite <- E. apply in_map. exact I.
  Qed.

  (** C65.  After a run in which no worker died, the log tells for every serial number of the plan how its conversion
      ended: "Beginning" for all and only them; "Fatal error in" exactly for those that raised; "Completed" for all
      that were not interrupted, so also for those that raised; and a list of problems is there exactly if a conversion
      returned it. *)
  Theorem C65_log_tells : forall argv jobs s out n tasks l p,
    main list_dir read_codes argv = Plan jobs s out -> command argv = (0, Some (n, tasks)) ->
    acts n (start tasks) l = Some p -> over p = true -> broken p = false ->
    (forall sn, In (Beginning sn) (logged p) <-> In sn (map fst jobs)) /\
    (forall j, In j jobs -> (In (Fatal (fst j)) (logged p) <-> exists e, convert s out j = Failed e)) /\
    (forall j, In j jobs -> (In (Completed (fst j)) (logged p) <-> convert s out j <> Stopped)) /\
    (forall x, In (Problems x) (logged p) <-> x <> [] /\ exists j, In j jobs /\ convert s out j = Converted x).
  Proof.
    intros argv jobs s out n tasks l p M C E O B. pose proof (C65_log _ _ _ _ E O B) as IL. apply C65_tasks in C as (jobs' & s' & out' & M' & _ & _ & _ & _ & ->).
    rewrite M in M'. injection M' as <- <- <-. pose proof (job_of _ _ _ _ M) as U.
    assert (K : forall x, In x (logged p) <-> exists j, In j jobs /\ In x (log_of (fst j) (convert s out j))).
    { intros x. rewrite (il_in _ _ x IL). split.
      - intros (t & I & X). apply in_map_iff in I as (j & <- & I). eauto.
      - intros (j & I & X). exists (log_of (fst j) (convert s out j)). split; [|exact X]. apply in_map_iff. eauto. }
    split; [|split; [|split]].
    - intros sn. rewrite K, in_map_iff. split; intros (j & H1 & H2); exists j; [apply log_beginning in H2; auto|subst; split; [auto|apply log_beginning; reflexivity]].
    - intros j I. rewrite K. split.
      + intros (j' & I' & H). apply log_fatal in H as [F H]. rewrite (U j j' I I' F). exact H.
      + intros H. exists j. split; [exact I|]. apply log_fatal. auto.
    - intros j I. rewrite K. split.
      + intros (j' & I' & H). apply log_completed in H as [F H]. rewrite (U j j' I I' F). exact H.
      + intros H. exists j. split; [exact I|]. apply log_completed. auto.
    - intros x. rewrite K. split.
      + intros (j & I & H). apply log_problems in H as [X H]. eauto.
      + intros (X & j & I & H). exists j. split; [exact I|]. apply log_problems. auto.
  Qed.

  (** C65.  At every moment, also if a worker died: a serial number with "Completed" and no "Fatal error in" in the log
      has been converted. *)
  Theorem C65_completed_means_converted : forall argv jobs s out n tasks l p j,
    main list_dir read_codes argv = Plan jobs s out -> command argv = (0, Some (n, tasks)) ->
    acts n (start tasks) l = Some p -> In j jobs ->
    In (Completed (fst j)) (logged p) -> ~ In (Fatal (fst j)) (logged p) -> exists problems, convert s out j = Converted problems.
  Proof.
    intros argv jobs s out n tasks l p j M C E I Co Fa. destruct (C65_every_moment _ _ _ _ E) as (begun & parts & ET & F2 & IL & _).
    apply C65_tasks in C as (jobs' & s' & out' & M' & _ & _ & _ & _ & T). rewrite M in M'. injection M' as <- <- <-. pose proof (job_of _ _ _ _ M) as U.
    apply (il_in _ _ _ IL) in Co as (part & Ip & Ic). destruct (in_split _ _ Ip) as (P1 & P2 & ->).
    apply Forall2_app_inv_l in F2 as (B1 & B2 & F1 & F2 & ->). inversion F2 as [|? t ? B3 (rest & Er) F3 E1 E2]. subst B2. clear E1.
    assert (It : In t tasks) by (rewrite ET; apply in_or_app; left; apply in_or_app; right; left; reflexivity). rewrite T in It.
    apply in_map_iff in It as (j' & Et & I'). rewrite Er in Et. pose proof (completed_all _ _ _ _ _ Et Ic) as ->. rewrite app_nil_r in Et.
    rewrite <- Et in Ic. apply log_completed in Ic as [F N]. rewrite (U j j' I I' F) in *. destruct (convert s out j') as [pb|er|] eqn:R; [eauto| |congruence].
    exfalso. apply Fa. apply (il_in _ _ _ IL). exists part. split; [exact Ip|]. rewrite <- Et. apply log_fatal. eauto.
  Qed.

  (** C65.  With one process, two runs of a plan that leave the same log had the same results, but for messages replaced
      by the same text. *)
  Theorem C65_one_process_tells : forall convert' s out (jobs : list (bytes * (bytes * bytes * bytes))) l l' p p',
    acts 1 (start (map (fun j => log_of (fst j) (convert s out j)) jobs)) l = Some p -> over p = true -> broken p = false ->
    acts 1 (start (map (fun j => log_of (fst j) (convert' s out j)) jobs)) l' = Some p' -> over p' = true -> broken p' = false ->
    logged p = logged p' -> forall j, In j jobs ->
    convert s out j = convert' s out j \/ exists e e', convert s out j = Failed e /\ convert' s out j = Failed e' /\ parse_error e = parse_error e'.
  Proof.
    intros convert' s out jobs l l' p p' E O B E' O' B' L. rewrite (proj2 (C65_sequential _ _ _ E) O B), (proj2 (C65_sequential _ _ _ E') O' B') in L. clear - L.
    induction jobs as [|x jobs IH]; intros j I; [destruct I|]. cbn [map concat] in L.
    enough (K : (convert s out x = convert' s out x \/ exists e e', convert s out x = Failed e /\ convert' s out x = Failed e' /\ parse_error e = parse_error e') /\
      concat (map (fun j => log_of (fst j) (convert s out j)) jobs) = concat (map (fun j => log_of (fst j) (convert' s out j)) jobs)).
    { destruct I as [<-|I]; [apply K|apply (IH (proj2 K)); exact I]. }
    revert L. generalize (concat (map (fun j => log_of (fst j) (convert s out j)) jobs)) (concat (map (fun j => log_of (fst j) (convert' s out j)) jobs)). clear IH I. intros u v L.
    unfold log_of in L. destruct (convert s out x) as [[|q r]|e|], (convert' s out x) as [[|q' r']|e'|]; cbn in L; try discriminate L.
    - injection L as L. auto.
    - injection L as -> -> L. auto.
    - injection L as L1 L2. split; [right; exists e, e'; auto|exact L2].
    - injection L as L. auto.
  Qed.

  Lemma plan_settings l jobs s out : Forall known l -> main list_dir read_codes (words l) = Plan jobs s out -> followed l s.
  Proof.
    intros K M. destruct (settings_follow l K) as (s' & A & W).
    unfold main in M. rewrite (getopt_words l K _ (le_n _)), A in M. destruct (list_dir (inputdir s')); [|discriminate]. cbv zeta in M. destruct (_ && _); [discriminate|].
    enough (s = s') as -> by exact W. destruct (codesfile s') as [f|]; [destruct (read_codes f) as [rows|]; [|discriminate]; destruct (associate _ _); [|discriminate]|]; injection M as _ <- _; reflexivity.
  Qed.

  (** C65.  The number of processes is the one given last with -p, 1 if none is given; the command fails with status 1 if
      it is not positive. *)
  Theorem C65_processes : forall l jobs s out, Forall known l -> main list_dir read_codes (words l) = Plan jobs s out -> ~ In (Flag 116) l ->
    (forall a k, given_last 112 a l -> reads_as a k ->
       (0 < k -> exists tasks, command (words l) = (0, Some (Z.to_nat k, tasks)) /\ length tasks = length jobs) /\ (k <= 0 -> command (words l) = (1, None)))  /\
    (not_given 112 l -> exists tasks, command (words l) = (0, Some (1%nat, tasks)) /\ length tasks = length jobs).
  Proof.
    intros l jobs s out K M T. pose proof (plan_settings _ _ _ _ K M) as W. pose proof (f_test _ _ W) as Ft. destruct (f_proc _ _ W) as [P1 P2].
    unfold gemconvert. rewrite M. destruct (test s); [exfalso; apply T, Ft; reflexivity|]. split.
    - intros a k G R. rewrite (P1 a k G R). split; intros H; destruct (Z.leb_spec k 0); try lia; [|reflexivity].
      eexists. split; [reflexivity|]. apply map_length.
    - intros N. rewrite (P2 N). eexists. split; [reflexivity|]. apply map_length.
  Qed.

  (** C65.  A test converts nothing. *)
  Theorem C65_test : forall l, Forall known l -> In (Flag 116) l -> snd (command (words l)) = None.
  Proof.
    intros l K T. destruct (command (words l)) as [st [[n tasks]|]] eqn:E; [|reflexivity]. exfalso.
    apply C65_tasks in E as (jobs & s & out & M & F & _). pose proof (plan_settings _ _ _ _ K M) as W.
    apply (f_test _ _ W) in T. congruence.
  Qed.
End Convert.

(** C65.  The status is 2 exactly if the command line is not understood; 1 exactly if a number is missing where one is
    needed, or no process is asked for; 0 otherwise: whatever the conversions do. *)
Theorem C65_status : forall list_dir read_codes convert argv,
  let st := fst (gemconvert list_dir read_codes convert argv) in
  (st = 2 <-> getopt gemconvert_options (length argv) argv = None) /\
  (st = 1 <-> main list_dir read_codes argv = Crash \/ exists jobs s out, main list_dir read_codes argv = Plan jobs s out /\ test s = false /\ processes s <= 0) /\
  (st = 0 \/ st = 1 \/ st = 2) /\
  forall convert', st = fst (gemconvert list_dir read_codes convert' argv).
Proof.
  intros ld rc cv argv st. subst st. unfold gemconvert.
  assert (U : main ld rc argv = Usage <-> getopt gemconvert_options (length argv) argv = None).
  { unfold main. destruct (getopt _ _ _) as [opts|]; [|tauto]. split; [|discriminate]. destruct (apply_options defaults opts) as [s|]; [|discriminate].
    destruct (ld (inputdir s)); [|discriminate]. cbv zeta. destruct (_ && _); [discriminate|]. destruct (codesfile s) as [f|]; [|discriminate].
    destruct (rc f) as [rows|]; [|discriminate]. destruct (associate _ _); discriminate. }
  rewrite <- U. destruct (main ld rc argv) as [ | | | | | |jobs s out];
    try (cbn [fst]; repeat split; try tauto; try discriminate; intros [H|(j & s & o & H & _)]; discriminate).
  destruct (test s) eqn:T; [|destruct (Z.leb_spec (processes s) 0)]; cbn [fst].
  - repeat split; try tauto; try discriminate. intros [H|(j & s' & o & H & T' & _)]; [discriminate|]. injection H as _ <- _. congruence.
  - repeat split; try tauto; try discriminate. intros _. right. exists jobs, s, out. auto.
  - repeat split; try tauto; try discriminate. intros [H'|(j & s' & o & H' & T' & P)]; [discriminate|]. injection H' as _ <- _. lia.
Qed.

(** C65.  Two conversions, of which the second fails, by two processes. *)
Definition ex65_dir (d : bytes) : option (list bytes) := if eqb_bytes d (b "raw") then Some [b "FILE0000.059"; b "FILE0001.060"] else None.
Definition ex65_convert (s : settings) (out : bytes) (j : bytes * (bytes * bytes * bytes)) : result :=
  if eqb_bytes (fst j) (b "059") then Converted [] else Failed (b "int too large: NULLType").
Notation ex65_command := (gemconvert ex65_dir (fun _ => None) ex65_convert).
Example C65_case :
  ex65_command [b "-p"; b "2"] = (0, Some (2%nat, [[Beginning (b "059"); Completed (b "059")]; [Beginning (b "060"); Error malformed; Fatal (b "060"); Completed (b "060")]])) /\
  option_map (fun p => (logged p, over p, broken p))
    (acts 2 (start [[Beginning (b "059"); Completed (b "059")]; [Beginning (b "060"); Error malformed; Fatal (b "060"); Completed (b "060")]])
      [Begin; Begin; Log 1; Log 0; Log 1; Log 0; End_task 0; Log 0; Log 0; End_task 0]) =
  Some ([Beginning (b "060"); Beginning (b "059"); Error malformed; Completed (b "059"); Fatal (b "060"); Completed (b "060")], true, false).
Proof. split; vm_compute; reflexivity. Qed.

(** C65.  The status does not tell that a conversion failed: it is the same for all conversions. *)
Theorem C65_status_refuted : ~ forall list_dir read_codes convert argv n tasks,
  gemconvert list_dir read_codes convert argv = (0, Some (n, tasks)) -> forall sn, ~ In [Beginning sn; Error malformed; Fatal sn; Completed sn] tasks.
Proof. intros H. apply (H ex65_dir (fun _ => None) ex65_convert [b "-p"; b "2"] _ _ (proj1 C65_case) (b "060")). right. left. reflexivity. Qed.

(** C65.  A worker that dies takes the rest of the plan with it: the status stays 0 and the last serial number is not
    even begun. *)
Theorem C65_death_refuted : ~ forall list_dir read_codes convert argv n tasks l p,
  gemconvert list_dir read_codes convert argv = (0, Some (n, tasks)) -> acts n (start tasks) l = Some p -> over p = true ->
  forall jobs s out, main list_dir read_codes argv = Plan jobs s out -> forall sn, In sn (map fst jobs) -> In (Beginning sn) (logged p).
Proof.
  intros H. specialize (H ex65_dir (fun _ => None) ex65_convert [] 1%nat _ [Begin; Log 0; Die] _ eq_refl eq_refl eq_refl _ _ _ eq_refl (b "060")).
  assert (K : In (b "060") [b "059"; b "060"]) by (right; left; reflexivity). apply H in K. vm_compute in K. intuition discriminate.
Qed.

(** C65.  With two processes the log does not tell whose error a message is. *)
Definition ex65_two : list (bytes * (bytes * bytes * bytes)) := [(b "059", ([], [], [])); (b "060", ([], [], []))].
Definition ex65_either (w : bool) (s : settings) (o : bytes) (j : bytes * (bytes * bytes * bytes)) : result :=
  if Bool.eqb w (eqb_bytes (fst j) (b "059")) then Failed (b "one") else Failed (b "two").
Definition ex65_schedule (w : bool) : list action :=
  [Begin; Begin; Log 0; Log 1; Log (if w then 0 else 1); Log (if w then 1 else 0); Log 0; Log 1; Log 0; Log 1; End_task 0; End_task 0].
Theorem C65_whose_error_refuted : ~ forall (convert convert' : settings -> bytes -> bytes * (bytes * bytes * bytes) -> result) s out (jobs : list (bytes * (bytes * bytes * bytes))) l l' p p',
  acts 2 (start (map (fun j => log_of (fst j) (convert s out j)) jobs)) l = Some p -> over p = true -> broken p = false ->
  acts 2 (start (map (fun j => log_of (fst j) (convert' s out j)) jobs)) l' = Some p' -> over p' = true -> broken p' = false ->
  logged p = logged p' -> forall j, In j jobs ->
  convert s out j = convert' s out j \/ exists e e', convert s out j = Failed e /\ convert' s out j = Failed e' /\ parse_error e = parse_error e'.
Proof.
  intros H. set (log := [Beginning (b "059"); Beginning (b "060"); Error (b "one"); Error (b "two"); Fatal (b "059"); Fatal (b "060"); Completed (b "059"); Completed (b "060")]).
  assert (E : forall w, acts 2 (start (map (fun j => log_of (fst j) (ex65_either w defaults [] j)) ex65_two)) (ex65_schedule w) = Some (mkpool [] [] log false)) by (intros []; vm_compute; reflexivity).
  specialize (H (ex65_either true) (ex65_either false) defaults [] ex65_two _ _ _ _ (E true) eq_refl eq_refl (E false) eq_refl eq_refl eq_refl (b "059", ([], [], [])) (or_introl eq_refl)).
  clear E log. destruct H as [H|(e & e' & E & E' & P)].
  - vm_compute in H. discriminate.
  - vm_compute in E. injection E as <-. vm_compute in E'. injection E' as <-. vm_compute in P. discriminate.
Qed.

(** * The texts of errors *)

(** C65.  A message is replaced exactly if one of two texts occurs in it, but not at its beginning. *)
Theorem C65_error_text : forall e,
  (occurs_later (b "Unable to allocate") e -> parse_error e = too_large) /\
  (~ occurs_later (b "Unable to allocate") e -> occurs_later (b "NULLType") e -> parse_error e = malformed) /\
  (~ occurs_later (b "Unable to allocate") e -> ~ occurs_later (b "NULLType") e -> parse_error e = e).
Proof.
  intros e. rewrite <- !found_iff. unfold parse_error.
  destruct (found_at_positive (b "Unable to allocate") e), (found_at_positive (b "NULLType") e); (split; [|split]); intros; congruence.
Qed.
Example C65_case_text : parse_error (b "MemoryError: Unable to allocate 8 GiB") = too_large /\ parse_error (b "no data") = b "no data".
Proof. split; vm_compute; reflexivity. Qed.

(** C65.  The message of numpy, which begins with the text looked for, is never replaced by the explanation. *)
Theorem C65_allocation_refuted : forall rest, parse_error (b "Unable to allocate" ++ rest) <> too_large.
Proof.
  intros rest. destruct (C65_error_text (b "Unable to allocate" ++ rest)) as (_ & H2 & H3).
  assert (N : ~ occurs_later (b "Unable to allocate") (b "Unable to allocate" ++ rest)) by (intros [_ K]; apply K; exists rest; reflexivity).
  destruct (found_at_positive (b "NULLType") (b "Unable to allocate" ++ rest)) eqn:F.
  - apply found_iff in F. rewrite (H2 N F). discriminate.
  - assert (F' : ~ occurs_later (b "NULLType") (b "Unable to allocate" ++ rest)) by (rewrite <- found_iff; congruence). rewrite (H3 N F'). discriminate.
Qed.

(** * gem_cat and the huddle test *)

Lemma cat_getopt l : Forall gem_cat_known l -> forall fuel, (length (words l) <= fuel)%nat -> getopt gem_cat_options fuel (words l) = Some (map pair_of l).
Proof.
  induction 1 as [|g l K _ IH]; intros fuel Hf; [destruct fuel; reflexivity|]. destruct g as [c|c a]; [destruct K|].
  change (words (Value c a :: l)) with ([45; c] :: a :: words l) in *. cbn [length] in Hf. destruct fuel as [|fuel]; [lia|]. specialize (IH fuel ltac:(lia)). vm_compute in K.
  repeat (destruct K as [<-|K]; [match goal with |- getopt _ _ ([45; ?c] :: _) = _ =>
    cbn [getopt]; change (do_shorts gem_cat_options [c] (a :: words l)) with (Some ([([45; c], a)], words l)) end; cbv iota beta; rewrite IH; reflexivity|]). destruct K.
Qed.
Lemma huddle_getopt l : Forall huddle_known l -> forall fuel, (length (words l) <= fuel)%nat -> getopt huddle_options fuel (words l) = Some (map pair_of l).
Proof.
  induction 1 as [|g l K _ IH]; intros fuel Hf; [destruct fuel; reflexivity|]. destruct g as [c|c a].
  - change (words (Flag c :: l)) with ([45; c] :: words l) in *. cbn [length] in Hf. destruct fuel as [|fuel]; [lia|]. specialize (IH fuel ltac:(lia)). vm_compute in K.
    repeat (destruct K as [<-|K]; [match goal with |- getopt _ _ ([45; ?c] :: _) = _ =>
      cbn [getopt]; change (do_shorts huddle_options [c] (words l)) with (Some ([([45; c], @nil Z)], words l)) end; cbv iota beta; rewrite IH; reflexivity|]). destruct K.
  - change (words (Value c a :: l)) with ([45; c] :: a :: words l) in *. cbn [length] in Hf. destruct fuel as [|fuel]; [lia|]. specialize (IH fuel ltac:(lia)). vm_compute in K.
    repeat (destruct K as [<-|K]; [match goal with |- getopt _ _ ([45; ?c] :: _) = _ =>
      cbn [getopt]; change (do_shorts huddle_options [c] (a :: words l)) with (Some ([([45; c], a)], words l)) end; cbv iota beta; rewrite IH; reflexivity|]). destruct K.
Qed.
Lemma cat_app s l l' : cat_options s (l ++ l') = match cat_options s l with Some s' => cat_options s' l' | None => None end.
Proof. revert s. induction l as [|x l IH]; intros s; [reflexivity|]. cbn [app cat_options]. destruct (cat_option s x); [apply IH|reflexivity]. Qed.
Lemma huddle_app s l l' : huddle_choices s (l ++ l') = match huddle_choices s l with Some s' => huddle_choices s' l' | None => None end.
Proof. revert s. induction l as [|x l IH]; intros s; [reflexivity|]. cbn [app huddle_choices]. destruct (huddle_option s x); [apply IH|reflexivity]. Qed.
Lemma follows_none {A} c (f : bytes -> A) d : follows c f d [] d.
Proof. split; [intros a (l1 & l2 & E & _); destruct l1; discriminate|reflexivity]. Qed.

Lemma cat_follows l : Forall gem_cat_known l -> exists s, cat_options (mkcat (b "raw") (b "raw_merged") []) (map pair_of l) = Some s /\
  follows 105 (fun a => a) (b "raw") l (cat_in s) /\ follows 111 (fun a => a) (b "raw_merged") l (cat_out s) /\ follows 101 (fun a => a) [] l (cat_ext s).
Proof.
  induction l as [|x l IH] using rev_ind; intros K.
  - eexists. split; [reflexivity|]. repeat split; apply follows_none.
  - apply Forall_app in K as [K Kx]. apply Forall_inv in Kx. destruct (IH K) as (s & E & F1 & F2 & F3). rewrite map_app, cat_app, E. cbn [map cat_options].
    destruct x as [y|y a]; [destruct Kx|]. vm_compute in Kx. destruct Kx as [<-|[<-|[<-|[]]]].
    + exists (mkcat a (cat_out s) (cat_ext s)). split; [reflexivity|]. cbn [cat_in cat_out cat_ext]. split; [apply (follows_here 105 (fun a => a))|]. split; apply follows_other; assumption || discriminate.
    + exists (mkcat (cat_in s) a (cat_ext s)). split; [reflexivity|]. cbn [cat_in cat_out cat_ext]. split; [apply follows_other; assumption || discriminate|]. split; [apply (follows_here 111 (fun a => a))|]. apply follows_other; assumption || discriminate.
    + exists (mkcat (cat_in s) (cat_out s) a). split; [reflexivity|]. cbn [cat_in cat_out cat_ext]. split; [apply follows_other; assumption || discriminate|]. split; [apply follows_other; assumption || discriminate|]. apply (follows_here 101 (fun a => a)).
Qed.
Lemma huddle_follows l : Forall huddle_known l -> exists s, huddle_choices (mkhc (b ".") [] []) (map pair_of l) = Some s /\
  follows 105 (fun a => a) (b ".") l (hc_in s) /\ follows 115 (split_on 44) [] l (hc_sns s) /\ follows 120 (split_on 44) [] l (hc_exclude s).
Proof.
  induction l as [|x l IH] using rev_ind; intros K.
  - eexists. split; [reflexivity|]. repeat split; apply follows_none.
  - apply Forall_app in K as [K Kx]. apply Forall_inv in Kx. destruct (IH K) as (s & E & F1 & F2 & F3). rewrite map_app, huddle_app, E. cbn [map huddle_choices].
    assert (O : forall x, (forall a, x <> Value 105 a) -> (forall a, x <> Value 115 a) -> (forall a, x <> Value 120 a) ->
      follows 105 (fun a => a) (b ".") (l ++ [x]) (hc_in s) /\ follows 115 (split_on 44) [] (l ++ [x]) (hc_sns s) /\ follows 120 (split_on 44) [] (l ++ [x]) (hc_exclude s)).
    { intros z Z1 Z2 Z3. split; [|split]; apply follows_other; assumption. }
    destruct x as [y|y a]; vm_compute in Kx.
    + destruct Kx as [<-|[<-|[]]]; (exists s; split; [reflexivity|apply O; discriminate]).
    + destruct Kx as [<-|[<-|[<-|Kx]]].
      * exists (mkhc a (hc_sns s) (hc_exclude s)). split; [reflexivity|]. cbn [hc_in hc_sns hc_exclude]. split; [apply (follows_here 105 (fun a => a))|]. split; apply follows_other; assumption || discriminate.
      * exists (mkhc (hc_in s) (split_on 44 a) (hc_exclude s)). split; [reflexivity|]. cbn [hc_in hc_sns hc_exclude]. split; [apply follows_other; assumption || discriminate|]. split; [apply follows_here|]. apply follows_other; assumption || discriminate.
      * exists (mkhc (hc_in s) (hc_sns s) (split_on 44 a)). split; [reflexivity|]. cbn [hc_in hc_sns hc_exclude]. split; [apply follows_other; assumption || discriminate|]. split; [apply follows_other; assumption || discriminate|]. apply follows_here.
      * repeat (destruct Kx as [<-|Kx]; [exists s; split; [reflexivity|apply O; discriminate]|]). destruct Kx.
Qed.

(** C65.  gem_cat joins the files of the folder given last with -i into the folder given last with -o, those with the
    extension given last with -e, and does so exactly if the folder can be listed and is not empty. *)
Theorem C65_gem_cat : forall list_dir succeeds l, Forall gem_cat_known l ->
  exists input output ext,
    (forall a, given_last 105 a l -> input = a) /\ (not_given 105 l -> input = b "raw") /\
    (forall a, given_last 111 a l -> output = a) /\ (not_given 111 l -> output = b "raw_merged") /\
    (forall a, given_last 101 a l -> ext = a) /\ (not_given 101 l -> ext = []) /\
    (forall call, snd (gem_cat_main list_dir succeeds (words l)) = Some call <->
       call = (input, output, ext, false) /\ exists names, list_dir input = Some names /\ names <> []).
Proof.
  intros ld su l K. destruct (cat_follows l K) as (s & E & [I1 I2] & [O1 O2] & [E1 E2]). exists (cat_in s), (cat_out s), (cat_ext s).
  repeat (split; [assumption|]). intros call. unfold gem_cat_main. rewrite (cat_getopt l K _ (le_n _)), E.
  destruct (ld (cat_in s)) as [[|x names]|].
  - split; [discriminate|]. intros (_ & n & H & N). congruence.
  - assert (snd (if su (cat_in s, cat_out s, cat_ext s, false) then (0, Some (cat_in s, cat_out s, cat_ext s, false)) else (0, Some (cat_in s, cat_out s, cat_ext s, false))) = Some (cat_in s, cat_out s, cat_ext s, false)) as -> by (destruct (su _); reflexivity).
    split; [intros H; injection H as <-; split; [reflexivity|]; eexists; split; [reflexivity|discriminate]|]. intros [-> _]. reflexivity.
  - split; [discriminate|]. intros (_ & n & H & N). discriminate.
Qed.

(** C65.  The status of gem_cat is 2 for a command line that is not understood and 0 otherwise, also if it failed, and no
    command line gives the option to join all files. *)
Theorem C65_gem_cat_status : forall list_dir succeeds argv,
  fst (gem_cat_main list_dir succeeds argv) = match getopt gem_cat_options (length argv) argv with None => 2 | Some _ => 0 end /\
  forall call, snd (gem_cat_main list_dir succeeds argv) = Some call -> snd call = false.
Proof.
  intros ld su argv. unfold gem_cat_main. destruct (getopt _ _ _) as [opts|]; [|split; [reflexivity|discriminate]].
  destruct (cat_options _ opts) as [s|]; [|split; [reflexivity|discriminate]]. destruct (ld (cat_in s)) as [[|x names]|]; try (split; [reflexivity|discriminate]).
  cbv zeta. destruct (su _); (split; [reflexivity|intros call H; injection H as <-; reflexivity]).
Qed.
Example C65_case_gem_cat : gem_cat_main (fun _ => Some [b "FILE0000.059"]) (fun _ => false) [b "-e"; b "059"; b "-i"; b "data"] = (0, Some (b "data", b "raw_merged", b "059", false)).
Proof. reflexivity. Qed.

(** C65.  The huddle test examines the folder given last with -i, and the serial numbers given last with -s, without
    those given last with -x. *)
Theorem C65_huddle : forall succeeds l, Forall huddle_known l ->
  exists s, huddle_main succeeds (words l) = (if succeeds s then 0 else 1, Some s) /\
    (forall a, given_last 105 a l -> hc_in s = a) /\ (not_given 105 l -> hc_in s = b ".") /\
    (forall x, x <> [] -> Forall (fun i => ~ In 44 i) x -> given_last 115 (commas x) l -> hc_sns s = x) /\ (not_given 115 l -> hc_sns s = []) /\
    (forall x, x <> [] -> Forall (fun i => ~ In 44 i) x -> given_last 120 (commas x) l -> hc_exclude s = x) /\ (not_given 120 l -> hc_exclude s = []).
Proof.
  intros su l K. destruct (huddle_follows l K) as (s & E & [I1 I2] & [S1 S2] & [X1 X2]). exists s. unfold huddle_main. rewrite (huddle_getopt l K _ (le_n _)), E.
  split; [reflexivity|]. repeat (split; [assumption|]). split; [|split; [assumption|]; split; [|assumption]].
  - intros x N F G. rewrite (S1 _ G). apply split_commas; assumption.
  - intros x N F G. rewrite (X1 _ G). apply split_commas; assumption.
Qed.
Example C65_case_huddle : huddle_main (fun _ => true) [b "-s"; b "059,060"; b "-x"; b "061"] = (0, Some (mkhc (b ".") [b "059"; b "060"] [b "061"])).
Proof. reflexivity. Qed.

(** C65.  The long option --serialnumber is accepted, by the huddle test, and has no effect. *)
Theorem C65_long_option_refuted : forall succeeds a, huddle_main succeeds [b "--serialnumber"; a] = huddle_main succeeds [].
Proof. reflexivity. Qed.

Print Assumptions C65_every_moment.
Print Assumptions C65_log.
Print Assumptions C65_sequential.
Print Assumptions C65_ends.
Print Assumptions C65_tasks.
Print Assumptions C65_log_tells.
Print Assumptions C65_completed_means_converted.
Print Assumptions C65_one_process_tells.
Print Assumptions C65_processes.
Print Assumptions C65_test.
Print Assumptions C65_status.
Print Assumptions C65_status_refuted.
Print Assumptions C65_death_refuted.
Print Assumptions C65_whose_error_refuted.
Print Assumptions C65_error_text.
Print Assumptions C65_allocation_refuted.
Print Assumptions C65_gem_cat.
Print Assumptions C65_gem_cat_status.
Print Assumptions C65_huddle.
Print Assumptions C65_long_option_refuted.
