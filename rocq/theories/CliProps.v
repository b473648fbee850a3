(** Properties of the command gemconvert (C42). *)
From Coq Require Import String.
From Coq Require Import ZArith List Bool Lia.
From Verif Require Import Lib Base CalendarSpec Names NamesSpec NamesProofs Stations Select SelectSpec SelectProofs GpsSpec GpsProofs Workers WorkersSpec WorkersProofs WorkersProps
  Cli CliSpec CliProofs.
Import ListNotations.
Open Scope Z_scope.

(** The options of a command line, each in its own word, are understood; what is given last counts. *)
Theorem C42_options : forall list_dir read_codes l jobs s out,
  Forall known l -> main list_dir read_codes (words l) = Plan jobs s out ->
  (forall a, given_last 105 a l -> inputdir s = a) /\ (not_given 105 l -> inputdir s = b "raw") /\
  (forall x, x <> [] -> Forall (fun i => ~ In 44 i) x -> given_last 115 (commas x) l -> sns s = x) /\ (not_given 115 l -> sns s = []) /\
  (forall x, x <> [] -> Forall (fun i => ~ In 44 i) x -> given_last 120 (commas x) l -> exclude s = x) /\ (not_given 120 l -> exclude s = []) /\
  (forall a, given_last 99 a l -> codesfile s = Some a) /\ (not_given 99 l -> codesfile s = None) /\
  (forall a, given_last 111 a l -> out = a) /\ (not_given 111 l -> out = lower (format s)) /\
  (forall a, given_last 102 a l -> format s = a) /\ (not_given 102 l -> format s = b "MSEED") /\
  (forall a, given_last 108 a l -> length_hours s = a) /\ (not_given 108 l -> length_hours s = b "24") /\
  (forall a n, given_last 112 a l -> reads_as a n -> processes s = n) /\ (not_given 112 l -> processes s = 1) /\
  (test s = true <-> In (Flag 116) l).
Proof.
  intros ld rc l jobs s out K M. unfold main in M. rewrite (getopt_words l K _ (le_n _)) in M.
  destruct (settings_follow l K) as (s' & E & F). rewrite E in M.
  assert (X : s = s' /\ out = match outputdir s' with Some o => o | None => lower (format s') end).
  { destruct (ld (inputdir s')); [|discriminate]. cbv zeta in M. destruct (_ && _); [discriminate|]. destruct (codesfile s').
    - destruct (rc b); [|discriminate]. destruct (associate _ _); [|discriminate]. injection M as _ <- <-. auto.
    - injection M as _ <- <-. auto. }
  destruct X as [-> ->]. destruct F as [F1 F2 F3 F4 F5 F6 F7 F8 F9].
  destruct F1, F2 as [F2 F2'], F3 as [F3 F3'], F4, F5 as [F5 F5'], F6, F7, F9.
  do 2 (split; [assumption|]). split; [intros x N C G; rewrite (F2 _ G); apply split_commas; assumption|]. split; [assumption|].
  split; [intros x N C G; rewrite (F3 _ G); apply split_commas; assumption|]. split; [assumption|]. do 2 (split; [assumption|]).
  split; [intros a G; rewrite (F5 a G); reflexivity|]. split; [intros G; rewrite (F5' G); reflexivity|]. repeat (split; [assumption|]). exact F8.
Qed.

(** Such a command line leads to a plan if the folder can be read, there is something in it or an option is given,
    and a codes file, if given, can be read and is about numbers, as are the serial numbers then. *)
Theorem C42_planned : forall list_dir read_codes l names,
  Forall known l ->
  (forall a, given_last 105 a l -> list_dir a = Some names) -> (not_given 105 l -> list_dir (b "raw") = Some names) ->
  (names <> [] \/ l <> []) ->
  (not_given 99 l \/ exists f rows, given_last 99 f l /\ read_codes f = Some rows /\ (forall r, In r rows -> exists n, reads_as (r_sn r) n) /\
     (forall name sn, not_given 115 l -> In name names -> after_nine name sn -> exists n, reads_as sn n) /\
     (forall sn x, x <> [] -> Forall (fun i => ~ In 44 i) x -> given_last 115 (commas x) l -> In sn x -> exists n, reads_as sn n) /\
     (not_given 115 l \/ exists x, x <> [] /\ Forall (fun i => ~ In 44 i) x /\ given_last 115 (commas x) l)) ->
  exists jobs s out, main list_dir read_codes (words l) = Plan jobs s out.
Proof.
  intros ld rc l names K D1 D2 N C. unfold main. rewrite (getopt_words l K _ (le_n _)).
  destruct (settings_follow l K) as (s & E & F). rewrite E.
  assert (Dec : forall c, (exists a, given_last c a l) \/ not_given c l).
  { intros c. clear. induction l as [|x l IH] using rev_ind; [right; intros a []|]. destruct x as [y|y a].
    - destruct IH as [(a & l1 & l2 & -> & H)|H].
      + left. exists a, l1, (l2 ++ [Flag y]). split; [rewrite <- app_assoc; reflexivity|]. intros a' I. apply in_app_iff in I as [I|[I|[]]]; [exact (H a' I)|discriminate].
      + right. intros a I. apply in_app_iff in I as [I|[I|[]]]; [exact (H a I)|discriminate].
    - destruct (Z.eq_dec y c) as [->|Ny]; [left; exists a, l, []; split; [reflexivity|intros a' []]|]. destruct IH as [(a1 & l1 & l2 & -> & H)|H].
      + left. exists a1, l1, (l2 ++ [Value y a]). split; [rewrite <- app_assoc; reflexivity|]. intros a' I. apply in_app_iff in I as [I|[I|[]]]; [exact (H a' I)|congruence].
      + right. intros a1 I. apply in_app_iff in I as [I|[I|[]]]; [exact (H a1 I)|congruence]. }
  assert (Ed : ld (inputdir s) = Some names).
  { destruct (f_input l s F) as [H1 H2]. destruct (Dec 105) as [(a & G)|G]; [rewrite (H1 a G); exact (D1 a G)|rewrite (H2 G); exact (D2 G)]. }
  rewrite Ed. cbv zeta. set (L := candidates s names).
  assert (X : (match L with [] => true | _ :: _ => false end) && (match map pair_of l with [] => true | _ :: _ => false end) = false).
  { destruct l as [|g l]; [|destruct L; reflexivity]. rewrite andb_true_r. destruct N as [N|N]; [|congruence].
    assert (sns s = []) as Es by (apply (f_sns [] s F); intros a []). subst L. unfold candidates. rewrite Es. destruct names as [|x names]; [congruence|].
    destruct (unique_sorted_spec (map find_SN (x :: names))) as [_ U]. destruct (unique_sorted _) eqn:Eu; [|reflexivity].
    exfalso. apply (U (find_SN x)). left. reflexivity. }
  rewrite X. destruct C as [C|(f & rows & G & Er & R1 & R2 & R3 & R4)].
  - rewrite (proj2 (f_codes l s F) C). eauto.
  - rewrite (proj1 (f_codes l s F) f G), Er. destruct (associate_total rows (filter (fun sn => negb (existsb (eqb_bytes sn) (exclude s))) L) R1) as (m & ->); [|eauto].
    intros sn I. apply filter_In in I as [I _]. subst L. unfold candidates in I. destruct R4 as [R4|(x & Nx & Fx & Gx)].
    + rewrite (proj2 (f_sns l s F) R4) in I. rewrite (proj2 (unique_sorted_spec _)) in I. apply in_map_iff in I as (name & En & I). apply find_SN_iff in En. exact (R2 name sn R4 I En).
    + rewrite (proj1 (f_sns l s F) _ Gx), (split_commas x Nx Fx) in I.
      assert (I' : In sn (unique_sorted x)) by (destruct x; [congruence|exact I]). rewrite (proj2 (unique_sorted_spec _)) in I'. exact (R3 sn x Nx Fx Gx I').
Qed.

(** The plan has the wanted serial numbers, each once and in order: those asked for, or those of the file names; not
    the excluded ones; and with a codes file only those in it, with the codes of the first row for the number. *)
Theorem C42_plan : forall list_dir read_codes argv jobs s out,
  main list_dir read_codes argv = Plan jobs s out ->
  in_order (map fst jobs) /\
  exists names, list_dir (inputdir s) = Some names /\
  forall sn codes, In (sn, codes) jobs <->
    ((sns s = [] /\ exists name, In name names /\ after_nine name sn) \/ In sn (sns s)) /\
    ~ In sn (exclude s) /\
    ((codesfile s = None /\ codes = ([], [], [])) \/
     exists f rows n r, codesfile s = Some f /\ read_codes f = Some rows /\ reads_as sn n /\ first_row rows n r /\ codes = (r_network r, r_station r, r_location r)).
Proof.
  intros ld rc argv jobs s out M. unfold main in M. destruct (getopt _ _ _) as [opts|]; [|discriminate]. destruct (apply_options defaults opts) as [s'|]; [|discriminate].
  destruct (ld (inputdir s')) as [names|] eqn:Ed; [|discriminate]. cbv zeta in M. destruct (_ && _); [discriminate|].
  set (L := candidates s' names) in M.
  set (L' := filter (fun sn => negb (existsb (eqb_bytes sn) (exclude s'))) L) in M.
  assert (O : in_order L') by (apply in_order_filter; subst L; unfold candidates; destruct (sns s'); apply unique_sorted_spec).
  assert (I : forall sn, In sn L' <-> ((sns s' = [] /\ exists name, In name names /\ after_nine name sn) \/ In sn (sns s')) /\ ~ In sn (exclude s')).
  { intros sn. unfold L'. rewrite filter_In, negb_true_iff.
    assert (X : existsb (eqb_bytes sn) (exclude s') = false <-> ~ In sn (exclude s')).
    { rewrite <- not_true_iff_false, existsb_exists. split; [intros H J; apply H; exists sn; split; [exact J|apply eqb_bytes_iff; reflexivity]|].
      intros H (y & J & E). apply eqb_bytes_iff in E. subst. contradiction. }
    rewrite X. assert (Y : In sn L <-> (sns s' = [] /\ exists name, In name names /\ after_nine name sn) \/ In sn (sns s')); [|tauto].
    unfold L, candidates. destruct (sns s') as [|y l].
    - rewrite (proj2 (unique_sorted_spec _)), in_map_iff. split.
      + intros (name & E & J). left. split; [reflexivity|]. exists name. split; [exact J|apply find_SN_iff, E].
      + intros [[_ (name & J & E)]|[]]. exists name. split; [apply find_SN_iff, E|exact J].
    - rewrite (proj2 (unique_sorted_spec _)). split; [auto|]. intros [[E _]|J]; [discriminate|exact J]. }
  destruct (codesfile s') as [f|] eqn:Ec.
  - destruct (rc f) as [rows|] eqn:Er; [|discriminate]. destruct (associate rows L') as [m|] eqn:Ea; [|discriminate]. injection M as <- <- _.
    destruct (associate_some rows L' m Ea) as [A Om]. split; [apply Om, O|]. exists names. split; [exact Ed|]. intros sn codes. rewrite A, I. split.
    + intros [[W X] (n & r & R & F & ->)]. split; [exact W|]. split; [exact X|]. right. exists f, rows, n, r. auto.
    + intros (W & X & [[E _]|(f' & rows' & n & r & E & E' & R & F & ->)]); [congruence|]. split; [auto|]. exists n, r. split; [exact R|]. split; [|reflexivity].
      assert (rows' = rows) as -> by congruence. exact F.
  - injection M as <- <- _. split; [rewrite map_map; cbn [fst]; rewrite map_id; exact O|]. exists names. split; [exact Ed|]. intros sn codes. rewrite in_map_iff. split.
    + intros (x & E & J). injection E as <- <-. apply I in J as [W X]. auto.
    + intros (W & X & [[_ ->]|(f' & rows' & n & r & E & _)]); [|congruence]. exists sn. split; [reflexivity|]. apply I. auto.
Qed.

(** * The plan and the workers *)

Lemma value_inj s : forall s', length s = length s' -> Forall (fun c => 48 <= c <= 57) s -> Forall (fun c => 48 <= c <= 57) s' -> value_of s = value_of s' -> s = s'.
Proof.
  induction s as [|c s IH]; intros [|c' s'] L F F' E; try discriminate; [reflexivity|]. injection L as L. apply Forall_cons_iff in F as [Fc Fs]. apply Forall_cons_iff in F' as [Fc' Fs'].
  pose proof (value_bound s Fs) as B1. pose proof (value_bound s' Fs') as B2. cbn [value_of] in E. rewrite L in E, B1. assert (c = c') as -> by nia. f_equal. apply IH; try assumption. lia.
Qed.
Lemma digits_read s n : s <> [] -> Forall (fun c => 48 <= c <= 57) s -> reads_as s n -> n = value_of s.
Proof.
  intros Ns F R. assert (D : digits s).
  { destruct s as [|c s]; [congruence|]. clear R Ns. revert c F. induction s as [|d s IH]; intros c F; apply Forall_cons_iff in F as [Fc F]; [apply last_digit; exact Fc|apply next_digit; [exact Fc|apply IH, F]]. }
  assert (R' : reads_as s (value_of (filter is_digit s))).
  { exists [], [], s, []. rewrite app_nil_r. split; [reflexivity|]. split; [constructor|]. split; [constructor|]. split; [exact D|]. left. auto. }
  apply int_of_iff in R, R'. rewrite R in R'. injection R' as ->. f_equal. clear -F. induction F as [|c s H _ IH]; [reflexivity|]. cbn [filter].
  assert (is_digit c = true) as -> by (unfold is_digit; apply andb_true_intro; split; apply Z.leb_le; lia). f_equal. exact IH.
Qed.

(** What the conversions of a plan write: [results] says what the raw files of a serial number give (nothing for a
    serial number that [convert] refuses). *)
Definition jobs_of {D} (results : bytes -> option (list D * option (list D) * list (output D))) (plan : list (bytes * (bytes * bytes * bytes))) : list (job D) :=
  flat_map (fun e => match results (fst e) with Some (m, g, l) => [mkjob (fst e) (channel_id (fst e) (snd e)) m g l] | None => [] end) plan.

Lemma jobs_of_in {D} results plan (j : job D) : In j (jobs_of results plan) -> exists codes m g l, In (j_sn j, codes) plan /\ results (j_sn j) = Some (m, g, l) /\ j_id j = channel_id (j_sn j) codes /\ j_later j = l.
Proof.
  unfold jobs_of. rewrite in_flat_map. intros ([sn codes] & I & H). cbn [fst snd] in H. destruct (results sn) as [[[m g] l]|] eqn:E; [|destruct H].
  destruct H as [<-|[]]. exists codes, m, g, l. auto.
Qed.
Lemma jobs_of_sns {D} (results : bytes -> option (list D * option (list D) * list (output D))) plan :
  map j_sn (jobs_of results plan) = filter (fun sn => match results sn with Some _ => true | None => false end) (map fst plan).
Proof.
  unfold jobs_of. induction plan as [|[sn codes] plan IH]; [reflexivity|]. cbn [flat_map map fst filter snd]. rewrite map_app, IH. destruct (results sn) as [[[m g] l]|]; reflexivity.
Qed.
Lemma in_order_nodup l : in_order l -> NoDup l.
Proof.
  induction 1 as [|x l H _ IH]; constructor; [|exact IH]. intros I. rewrite Forall_forall in H. apply H in I. clear -I.
  induction x as [|c x IH]; inversion I; subst; [lia|auto].
Qed.
Lemma nodup_map_in {A B} (f : A -> B) l : (forall x y, In x l -> In y l -> f x = f y -> x = y) -> NoDup l -> NoDup (map f l).
Proof.
  intros H. induction 1 as [|x l N _ IH]; constructor; [|apply IH; intros; apply H; try right; assumption].
  intros I. apply in_map_iff in I as (y & E & I). apply N. rewrite (H x y); [exact I|left; reflexivity|right; exact I|congruence].
Qed.

(** The channel codes in a codes file: all different, no slash, a station in each row. *)
Definition row_id (r : row) : bytes := r_network r ++ b "." ++ r_station r ++ b "." ++ r_location r ++ b ".HDF".
Definition codes_apart (rows : list row) : Prop :=
  NoDup (map row_id rows) /\ forall r, In r rows -> r_station r <> [] /\ ~ In 47 (row_id r).

(** So the conversions of a plan do not meet: what C42 says about workers holds for them. *)
Theorem C42_plan_fits : forall D list_dir read_codes argv plan s out (results : bytes -> option (list D * option (list D) * list (output D))),
  main list_dir read_codes argv = Plan plan s out ->
  (codesfile s = None \/ exists f rows, codesfile s = Some f /\ read_codes f = Some rows /\ codes_apart rows) ->
  (forall sn r, results sn = Some r -> length sn = 3%nat /\ Forall (fun c => 48 <= c <= 57) sn) ->
  (forall sn m g l t us d, results sn = Some (m, g, l) -> In (Wave t us d) l -> exists_in_calendar t) ->
  ~ In 46 (format s) /\ ~ In 47 (format s) ->
  (forall j n, In j (jobs_of results plan) -> 0 <= n -> out <> gps_log j n /\ out <> meta_log j n) ->
  fit out (format s) (jobs_of results plan).
Proof.
  intros D ld rc argv plan s out results M C Hr Ht Hf Ho. destruct (C42_plan ld rc argv plan s out M) as (O & names & _ & P).
  assert (Ns : NoDup (map j_sn (jobs_of results plan))) by (rewrite jobs_of_sns; apply NoDup_filter, in_order_nodup, O).
  assert (Dg : forall j, In j (jobs_of results plan) -> length (j_sn j) = 3%nat /\ Forall (fun c => 48 <= c <= 57) (j_sn j)).
  { intros j I. apply jobs_of_in in I as (codes & m & g & l & _ & E & _). exact (Hr _ _ E). }
  assert (Ne : forall j, In j (jobs_of results plan) -> j_sn j <> []) by (intros j I; destruct (Dg j I) as [L _]; destruct (j_sn j); [discriminate|congruence]).
  assert (S47 : forall j, In j (jobs_of results plan) -> ~ In 47 (j_sn j)).
  { intros j I X. destruct (Dg j I) as [_ F]. rewrite Forall_forall in F. apply F in X. lia. }
  assert (Same : forall i j, In i (jobs_of results plan) -> In j (jobs_of results plan) -> j_id i = j_id j -> j_sn i = j_sn j).
  { intros i j Ii Ij E. pose proof (Dg i Ii) as [Li Fi]. pose proof (Dg j Ij) as [Lj Fj]. pose proof (Ne i Ii) as Ni. pose proof (Ne j Ij) as Nj.
    apply jobs_of_in in Ii as (ci & _ & _ & _ & Pi & _ & Ei & _). apply jobs_of_in in Ij as (cj & _ & _ & _ & Pj & _ & Ej & _).
    apply P in Pi as (_ & _ & Ci). apply P in Pj as (_ & _ & Cj). destruct C as [C|(f & rows & C & Rc & Ap & St)].
    - destruct Ci as [[_ ->]|(f & rows & n & r & X & _)]; [|congruence]. destruct Cj as [[_ ->]|(f & rows & n & r & X & _)]; [|congruence].
      rewrite Ei, Ej in E. unfold channel_id in E. cbn [app] in E. apply app_inv_head in E. apply app_inv_tail in E. exact E.
    - destruct Ci as [[X _]|(f1 & rows1 & n & r & X & Y & Ri & Fr & ->)]; [congruence|]. destruct Cj as [[X' _]|(f2 & rows2 & n' & r' & X' & Y' & Rj & Fr' & ->)]; [congruence|].
      assert (rows1 = rows) as -> by congruence. assert (rows2 = rows) as -> by congruence. destruct Fr as (b1 & a1 & E1 & R1 & _). destruct Fr' as (b2 & a2 & E2 & R2 & _).
      assert (I1 : In r rows) by (rewrite E1; apply in_elt). assert (I2 : In r' rows) by (rewrite E2; apply in_elt).
      assert (Er : forall x q, In q rows -> channel_id x (r_network q, r_station q, r_location q) = row_id q).
      { intros x q Iq. unfold channel_id, row_id. destruct (St q Iq) as [Sq _]. destruct (r_station q); [congruence|reflexivity]. }
      rewrite Ei, Ej, !Er in E by assumption. assert (r = r') as <- by (apply (nodup_map row_id rows); assumption).
      apply int_of_iff in R1, R2. assert (n' = n) as -> by congruence. rewrite (digits_read _ _ Ni Fi Ri) in Rj. apply (digits_read _ _ Nj Fj) in Rj.
      apply value_inj; try assumption. congruence. }
  constructor.
  - exact Ns.
  - apply nodup_map_in; [|apply (NoDup_map_inv j_sn), Ns]. intros x y Ix Iy E. apply (nodup_map j_sn (jobs_of results plan)); try assumption. apply Same; assumption.
  - intros j I. apply Dg, I.
  - intros j I. split; [apply S47, I|]. pose proof (S47 j I) as Sj. apply jobs_of_in in I as (cj & _ & _ & _ & Pj & _ & Ej & _). rewrite Ej. apply P in Pj as (_ & _ & Cj).
    destruct C as [C|(f & rows & C & Rc & Ap & St)].
    + destruct Cj as [[_ ->]|(f & rows & n & r & X & _)]; [|congruence]. unfold channel_id. rewrite !in_app_iff. intros [X|[X|[X|[X|[X|X]]]]]; try (vm_compute in X; lia). contradiction.
    + destruct Cj as [[X' _]|(f2 & rows2 & n' & r' & X' & Y' & Rj & (b2 & a2 & E2 & _) & ->)]; [congruence|]. assert (rows2 = rows) as -> by congruence.
      assert (I2 : In r' rows) by (rewrite E2; apply in_elt). destruct (St r' I2) as [Sq Sl]. unfold row_id in Sl. unfold channel_id. destruct (r_station r'); [congruence|exact Sl].
  - intros j t us d I W. apply jobs_of_in in I as (cj & m & g & l & _ & E & _ & El). rewrite El in W. exact (Ht _ _ _ _ _ _ _ E W).
  - exact Hf.
  - exact Ho.
Qed.

(** * Cases *)

Definition case_dir (d : bytes) : option (list bytes) :=
  if eqb_bytes d (b "raw") then Some [b "FILE0000.077"; b "FILE0000.014"; b "FILE0001.014"; b "FILE0000.103"] else None.
Definition case_codes (f : bytes) : option (list row) := Some [mkrow (b "14") (b "XX") (b "A") []; mkrow (b "103") (b "XX") (b "B") []; mkrow (b "014") (b "YY") (b "C") []].
Example C42_plan_case :
  main case_dir case_codes (words [Value 120 (b "103"); Value 112 (b "4")])
    = Plan [(b "014", ([], [], [])); (b "077", ([], [], []))] (mksettings (b "raw") [] [b "103"] None false (b "MSEED") (b "24") 4 None) (b "mseed") /\
  main case_dir case_codes (words [Value 115 (b "103,014,103"); Value 99 (b "codes.txt"); Value 102 (b "SAC"); Flag 116])
    = Plan [(b "014", (b "XX", b "A", [])); (b "103", (b "XX", b "B", []))] (mksettings (b "raw") [b "103"; b "014"; b "103"] [] None true (b "SAC") (b "24") 1 (Some (b "codes.txt"))) (b "sac") /\
  Forall known [Value 115 (b "103,014,103"); Value 99 (b "codes.txt"); Value 102 (b "SAC"); Flag 116] /\
  codes_apart [mkrow (b "14") (b "XX") (b "A") []; mkrow (b "103") (b "XX") (b "B") []].
Proof.
  split; [vm_compute; reflexivity|]. split; [vm_compute; reflexivity|]. split; [repeat (apply Forall_cons; [vm_compute; tauto|]); apply Forall_nil|].
  split; [constructor; [intros [H|[]]; vm_compute in H; discriminate H|constructor; [intros []|constructor]]|].
  intros r [<-|[<-|[]]]; (split; [discriminate|]); vm_compute; lia.
Qed.

(** The long option that getopt accepts is ignored: all serial numbers are converted (the loop looks for
    "--serialnumbers", which getopt does not know). *)
Theorem C42_long_option_refuted : forall list_dir read_codes a names,
  list_dir (b "raw") = Some names -> exists jobs s out,
  main list_dir read_codes [b "--serialnumber"; a] = Plan jobs s out /\ forall name sn, In name names -> after_nine name sn -> In sn (map fst jobs).
Proof.
  intros ld rc a names E.
  assert (X : exists jobs out, main ld rc [b "--serialnumber"; a] = Plan jobs defaults out).
  { unfold main. change (getopt gemconvert_options (length [b "--serialnumber"; a]) [b "--serialnumber"; a]) with (Some [(b "--serialnumber", a)]).
    cbv iota. assert (apply_options defaults [(b "--serialnumber", a)] = Some defaults) as -> by reflexivity. cbn [inputdir defaults]. rewrite E. cbv zeta.
    rewrite andb_false_r. cbn [codesfile defaults]. eauto. }
  destruct X as (jobs & out & X). exists jobs, defaults, out. split; [exact X|]. destruct (C42_plan _ _ _ _ _ _ X) as (_ & names' & E' & P).
  cbn [inputdir defaults] in E'. assert (names' = names) as -> by congruence. intros name sn I A. apply (in_map fst jobs (sn, ([], [], []))). apply P. split; [left; split; [reflexivity|eauto]|].
  split; [intros []|]. left. split; reflexivity.
Qed.
(** And the documented long options are errors. *)
Theorem C42_documented_option_refuted : forall list_dir read_codes a,
  main list_dir read_codes [b "--serialnumbers"; a] = Usage /\ main list_dir read_codes [b "--help"] = Usage /\ main list_dir read_codes [b "--outputdir"; a] = Usage.
Proof. intros. split; [reflexivity|]. split; reflexivity. Qed.

(** With a codes file, one more file in the raw folder ends the command before anything is converted. *)
Theorem C42_stray_file_refuted : exists list_dir read_codes,
  (exists jobs s out, main list_dir read_codes (words [Value 105 (b "good"); Value 99 (b "codes")]) = Plan jobs s out /\ jobs <> []) /\
  (exists names, list_dir (b "good") = Some names /\ list_dir (b "bad") = Some (names ++ [b "README.txt"])) /\
  main list_dir read_codes (words [Value 105 (b "bad"); Value 99 (b "codes")]) = Crash.
Proof.
  exists (fun d => Some (b "FILE0000.014" :: if eqb_bytes d (b "bad") then [b "README.txt"] else [])), case_codes. split; [|split].
  - eexists _, _, _. split; [vm_compute; reflexivity|discriminate].
  - exists [b "FILE0000.014"]. split; reflexivity.
  - vm_compute. reflexivity.
Qed.

(** Raw files named .TXT (of early firmware) are not found by the command unless their serial number is asked for:
    the serial number of the plan is then TXT, which no conversion accepts. *)
Theorem C42_txt_refuted : exists list_dir read_codes s out,
  list_dir (b "raw") = Some [b "FILE0000.TXT"; b "FILE0001.TXT"] /\
  main list_dir read_codes [] = Plan [(b "TXT", ([], [], []))] s out /\ accepted (b "TXT") = false.
Proof. exists (fun _ => Some [b "FILE0000.TXT"; b "FILE0001.TXT"]), case_codes. eexists _, _. split; [reflexivity|]. split; vm_compute; reflexivity. Qed.

Print Assumptions C42_options.
Print Assumptions C42_planned.
Print Assumptions C42_plan.
Print Assumptions C42_plan_fits.
Print Assumptions C42_long_option_refuted.
Print Assumptions C42_documented_option_refuted.
Print Assumptions C42_stray_file_refuted.
Print Assumptions C42_txt_refuted.
