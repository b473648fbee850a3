(** C44: the GPS summary. *)
From Coq Require Import String.
From Coq Require Import ZArith QArith List Bool Lia Permutation.
From Verif Require Import Lib Base Scan Names NamesSpec NamesProofs NamesProps UnwrapSpec Select SelectProofs
  Outliers OutliersSpec OutliersProofs Stations StationsSpec StationsProofs StationsProps
  Inventory InventorySpec InventoryProofs Gps GpsSpec GpsProofs.
Import ListNotations.
Open Scope Z_scope.

Local Arguments b : simpl never.

(** C44.  The summary has one line for each serial number that has a log among the given folders and
    files and is wanted, in ascending order.  Its fixes are those of one log per folder, the last in name
    order; of these the outliers are left out, and then those outside the time limits; serial numbers
    without a remaining fix have no line. *)
Theorem C44_summary : forall is_list items t1 t2 incl excl l, visible items ->
  summarize_gps is_list items t1 t2 incl excl = Some l ->
  exists sns, in_order sns /\
    (forall sn, In sn sns <->
       (forall c, incl = Some c -> chosen sn c) /\ (forall c, excl = Some c -> ~ chosen sn c) /\
       ((exists es e, In (Folder es) items /\ In e es /\ log_of sn (fst e)) \/
        (is_list = true /\ exists path c n, In (Plain path c) items /\ file_name path n /\ plain_sn n sn))) /\
    exists lo hi, (forall t, t1 = Some t -> lo = t) /\ (t1 = None -> lo = 0) /\
      (forall t, t2 = Some t -> hi = t) /\ (t2 = None -> hi = 253402214400 * 10 ^ 9) /\
      summary_of items lo hi sns l.
Proof.
  intros is_list items t1 t2 incl excl l V H. destruct (sn_list_spec is_list items incl excl) as [O M].
  exists (sn_list is_list items incl excl). split; [exact O|]. split; [exact M|].
  unfold summarize_gps in H. eexists. eexists. split; [|split; [|split; [|split; [|apply summarize_all_spec; [exact V|exact H]]]]].
  - intros t ->. reflexivity.
  - intros ->. reflexivity.
  - intros t ->. reflexivity.
  - intros ->. reflexivity.
Qed.

(** It does not fail if all logs can be read. *)
Theorem C44_total : forall is_list items t1 t2 incl excl, Forall readable items ->
  exists l, summarize_gps is_list items t1 t2 incl excl = Some l.
Proof. intros. apply summarize_all_total. assumption. Qed.

(** Among the logs the converter writes, that log is the newest one (up to a thousand), also in a folder
    with instruments whose longer serial number begins with this one. *)
Theorem C44_newest_log : forall sn es k s e,
  In e es -> fst e = sn ++ b "gps" ++ b "_" ++ s ++ b ".txt" -> decimal 3 k s -> 0 <= k < 1000 -> NoDup (map fst es) ->
  (forall e', In e' es -> ~ begins (b ".") (fst e')) ->
  (forall e', In e' es -> begins sn (fst e') ->
     (exists m s', decimal 3 m s' /\ 0 <= m <= k /\ fst e' = sn ++ b "gps" ++ b "_" ++ s' ++ b ".txt") \/
     (exists c r, 48 <= c <= 57 /\ fst e' = sn ++ [c] ++ r)) ->
  read_gps sn [Folder es] = snd e.
Proof.
  intros sn es k s e E N D K ND V H.
  assert (B : begins sn (fst e)) by (rewrite N; eexists; reflexivity).
  destruct (read_item_folder sn es V) as [(f & (L1 & L2 & L3) & RE)|(C & _)]; [|exfalso; apply (C e E B)]. unfold bytes in *.
  assert (X : f = e).
  { destruct (L3 e E B) as [Q|Q]; unfold bytes in *.
    - clear - Q L1 E ND. induction es as [|g es IH]; [destruct E|]. cbn in ND. inversion ND as [|? ? X ND']; subst.
      destruct L1 as [L1|L1], E as [E|E]; [congruence| | |apply IH; assumption]; exfalso; apply X; subst g.
      + apply (in_map fst) in E. unfold bytes in *. congruence.
      + apply (in_map fst) in L1. unfold bytes in *. congruence.
    - exfalso. destruct (H f L1 L2) as [(m & s' & D' & M & F)|(c & r & C & F)]; unfold bytes in *.
      + rewrite N, F in Q. assert (Y : m = k \/ m < k) by lia. destruct Y as [->|Y].
        * rewrite (decimal_pad 3 k s ltac:(lia) ltac:(lia) D), (decimal_pad 3 k s' ltac:(lia) ltac:(lia) D') in Q.
          apply (before_irrefl _ Q).
        * pose proof (C23_name_order (sn ++ b "gps") m k s' s ltac:(lia) ltac:(lia) D' D) as Z.
          rewrite <- !app_assoc in Z. apply (before_asym _ _ Z Q).
      + rewrite N, F in Q. clear - Q C.
        induction sn as [|x sn IH].
        * change (b "gps") with [103; 112; 115] in Q. cbn in Q. inversion Q; subst; lia.
        * cbn [app] in Q. inversion Q; subst; [lia|]. apply IH. assumption. }
  subst f. cbn [read_gps]. rewrite RE. destruct (snd e) as [x|]; [rewrite app_nil_r|]; reflexivity.
Qed.

(** With serial numbers of equal length, the comma-separated lists of the command line select what they
    name. *)
Theorem C44_command_line : forall k items t1 t2 incl excl, (0 < k)%nat ->
  (forall l x, incl = Some l \/ excl = Some l -> In x l -> length x = k) ->
  (forall es e sn, In (Folder es) items -> In e es -> log_of sn (fst e) -> length sn = k /\ ~ In 44 sn) ->
  (forall path c n sn, In (Plain path c) items -> file_name path n -> plain_sn n sn -> length sn = k /\ ~ In 44 sn) ->
  summarize_gps_terminal items t1 t2 (option_map joined incl) (option_map joined excl) =
  summarize_gps true items t1 t2 (option_map Listed incl) (option_map Listed excl).
Proof.
  intros k items t1 t2 incl excl K L F P. unfold summarize_gps_terminal, summarize_gps.
  assert (Sn : forall n, In n (flat_map (file_names true) items) -> length (name_sn n) = k /\ ~ In 44 (name_sn n)).
  { intros n N. apply in_flat_map in N. destruct N as ([es|path c] & I1 & I2); cbn [file_names] in I2.
    - apply filter_In in I2. destruct I2 as [I2 I3]. apply in_map_iff in I2. destruct I2 as (e & <- & I2).
      apply (F es e); [exact I1|exact I2|]. apply gps_name_log. auto.
    - destruct I2 as [<-|[]]. apply (P path c (last (split_on 47 path) [])); [exact I1|apply file_name_last|]. apply name_sn_plain. reflexivity. }
  f_equal. apply sn_list_ext. intros n N. destruct (Sn n N) as [S1 S2].
  assert (X : forall l, incl = Some l \/ excl = Some l -> in_choice (name_sn n) (InText (joined l)) = in_choice (name_sn n) (Listed l)).
  { intros l O. cbn [in_choice]. apply eq_iff_eq_true. rewrite existsb_bytes. apply (joined_part k); try assumption.
    apply Forall_forall. intros x X. apply (L l x O X). }
  unfold wanted. f_equal.
  - destruct incl as [l|]; [|reflexivity]. apply X. left. reflexivity.
  - destruct excl as [l|]; [|reflexivity]. cbn [option_map]. rewrite X; [reflexivity|]. right. reflexivity.
Qed.

(** A station table given as a file adds the codes and the elevation of the first row with the serial
    number, and blanks and -9999 if there is none. *)
Theorem C44_codes : forall text_cell h body t s,
  good_header h -> Forall (fun r => length r = length h) body -> Forall (fun c => text_cell c = true) h ->
  get_station_info text_cell (File (h :: body)) = Some t ->
  (codes_in h (s_sn s) body None -> annotate t s = Some (Txt [], Txt [], Txt [], Number (-9999))) /\
  (forall n st l, codes_in h (s_sn s) body (Some (n, st, l)) -> exists e, annotate t s = Some (Txt n, Txt st, Txt l, e) /\
     (forall v, elevation_in h (s_sn s) body v -> e = Txt v) /\
     (~ Exists (fun c => same_name c (b "elevation")) h -> e = Number (-9999))).
Proof.
  intros text_cell h body t s G W T E. destruct (C33_file_lookup text_cell h body G W T) as (t' & E' & _ & L1 & L2).
  rewrite E in E'. injection E' as <-. destruct (good_header_facts h G) as (ND & S5 & _).
  assert (CT : complete (fix_station_info_keys (columns h 0 body)) = Some t).
  { cbn [get_station_info] in E.
    destruct (negb (forallb text_cell h) || negb (forallb (fun r : list bytes => (length r <=? length h)%nat) body)); [discriminate|].
    assert (A3 : forallb (fun i => member (lower i) (required ++ [b "elevation"])) h = true).
    { apply forallb_forall. intros c H. unfold member. apply existsb_exists. exists (lower c).
      split; [apply S5; apply in_map; exact H|apply eqb_bytes_iff; reflexivity]. }
    rewrite A3 in E. exact E. }
  split.
  - intros C. unfold annotate. rewrite (L2 _ C). reflexivity.
  - intros n st l C. unfold annotate. rewrite (L1 _ _ _ _ C).
    destruct (codes_index h body t (s_sn s) n st l G W CT C) as (c & w & row & isn & D1 & I1 & R & P1 & B1 & EC).
    rewrite D1, I1. assert (TE := table_elevation h body t G W CT). unfold get.
    destruct (pos (b "elevation") h) as [ie|] eqn:P5; rewrite TE.
    + rewrite (map_nth_error (at_pos ie) _ _ R). eexists. split; [reflexivity|].
      assert (B5 : In (b "elevation") (map lower h)).
      { clear - P5. revert ie P5. induction h as [|x h IH]; intros i P; [discriminate|]. cbn in P |- *.
        destruct (eqb_bytes (lower x) (b "elevation")) eqn:Q; [apply eqb_bytes_iff in Q; left; exact Q|].
        destruct (pos (b "elevation") h) as [q|]; [|discriminate]. right. apply (IH q eq_refl). }
      destruct (pos_in _ _ B5) as (j & PJ & BJ). rewrite P5 in PJ. injection PJ as <-. split.
      * intros v V. subst c. assert (X := elevation_index h isn ie body (s_sn s) w v ND P1 B1 P5 BJ W I1 V).
        rewrite (map_nth_error (at_pos ie) _ _ R) in X. congruence.
      * intros NE. exfalso. apply NE. apply Exists_exists. apply in_map_iff in B5. destruct B5 as (x & B5 & X).
        exists x. split; [exact X|]. apply same_name_iff; [apply five_lower; cbn; tauto|exact B5].
    + assert (B : (w < length body)%nat) by (apply nth_error_Some; congruence).
      assert (NR : nth_error (repeat (Number (-9999)) (length body)) w = Some (Number (-9999))).
      { clear - B. revert w B. induction (length body) as [|m IH]; intros w B; [lia|]. destruct w as [|w]; [reflexivity|]. cbn. apply IH. lia. }
      rewrite NR. eexists. split; [reflexivity|]. split; [|reflexivity].
      intros v V. exfalso.
      assert (X : Exists (fun c => same_name c (b "elevation")) h).
      { clear - V. induction V as [row rows e U1 U5|row rows sn' e U1 NE V IH]; [|exact IH].
        clear U1. induction U5 as [n h c r SN|n h c' r c U IH]; [apply Exists_cons_hd; exact SN|apply Exists_cons_tl; exact IH]. }
      apply Exists_exists in X. destruct X as (x & X & Y).
      apply (same_name_iff _ _ (five_lower (b "elevation") ltac:(cbn; tauto))) in Y.
      destruct (pos_in (b "elevation") h) as (j & PJ & _); [rewrite <- Y; apply in_map; exact X|]. congruence.
Qed.

(** Not true: that it is always a GPS log that is read.  Anything in the folder that begins with the
    serial number counts. *)
Theorem C44_other_file_refuted : forall g m,
  read_gps (b "077") [Folder [(b "077gps_000.txt", g); (b "077metadata_000.txt", m)]] = m.
Proof. intros g m. vm_compute. destruct m as [m|]; [|reflexivity]. f_equal. induction m as [|x m IH]; [reflexivity|]. f_equal. exact IH. Qed.

(** Not true: that it is the newest one after a thousand. *)
Theorem C44_thousand_refuted : forall g g',
  read_gps (b "077") [Folder [(b "077gps_999.txt", Some g); (b "077gps_1000.txt", Some g')]] = Some g.
Proof. intros g g'. vm_compute. f_equal. induction g as [|x g IH]; [reflexivity|]. f_equal. exact IH. Qed.

(** Not true: that outliers are judged among the fixes within the time limits.  Here 30 fixes before
    the limit make the only one after it an outlier, and the line is missing. *)
Definition early_fixes : list fix_ := repeat (mkfix 0 0 0) 30 ++ [mkfix 10 10 20].
Theorem C44_limits_first_refuted :
  summarize_gps false [Folder [(b "077gps_000.txt", Some early_fixes)]] (Some 10) None None None = Some [] /\
  summarize_gps false [Folder [(b "077gps_000.txt", Some [mkfix 10 10 20])]] (Some 10) None None None <> Some [].
Proof. split; [vm_compute; reflexivity|vm_compute; discriminate]. Qed.

(** Not true: that the command line includes and excludes exactly the serial numbers it names.  With
    1077 named, 077 is included and excluded too. *)
Theorem C44_command_line_refuted :
  let items := [Folder [(b "077gps_000.txt", Some [mkfix 1 2 3])]] in
  summarize_gps_terminal items None None (Some (b "1077")) None <> Some [] /\
  summarize_gps_terminal items None None None (Some (b "1077,088")) = Some [] /\
  summarize_gps true items None None (Some (Listed [b "1077"])) None = Some [] /\
  summarize_gps true items None None None (Some (Listed [b "1077"; b "088"])) <> Some [].
Proof. vm_compute. repeat split; discriminate. Qed.

(** A case: two folders, two instruments, an older log, an excluded instrument, time limits. *)
Definition demo_items : list item :=
  [Folder [(b "077gps_001.txt", Some [mkfix (1#1) (2#1) 100; mkfix (3#1) (2#1) 300; mkfix (9#1) (9#1) 5]);
           (b "077gps_000.txt", Some [mkfix (50#1) (50#1) 200]); (b "088gps_000.txt", Some [mkfix (7#1) (8#1) 150]);
           (b "notes.txt", None)];
   Folder [(b "077gps_000.txt", Some [mkfix (2#1) (5#1) 200]); (b "099gps_000.txt", Some [mkfix (7#1) (8#1) 150])]].
Example C44_case :
  visible demo_items /\
  summarize_gps false demo_items (Some 10) (Some 1000) None (Some (Listed [b "099"])) =
    Some [mksum (b "077") (6#3) (9#3) (1458#6561) (4374#6561) 100 300 3; mksum (b "088") (7#1) (8#1) 0 0 150 150 1] /\
  summarize_gps_terminal demo_items (Some 10) None (Some (joined [b "088"; b "099"])) None =
  summarize_gps true demo_items (Some 10) None (Some (Listed [b "088"; b "099"])) None.
Proof.
  split; [|split].
  - intros es e [E|[E|[]]]; injection E as <-; intros [<-|H]; try (intros (r & X); discriminate X);
      repeat (destruct H as [<-|H]; [intros (r & X); discriminate X|]); destruct H.
  - vm_compute. reflexivity.
  - vm_compute. reflexivity.
Qed.

Print Assumptions C44_summary.
Print Assumptions C44_total.
Print Assumptions C44_newest_log.
Print Assumptions C44_command_line.
Print Assumptions C44_codes.
