(** C35: the station inventory. *)
From Coq Require Import String.
From Coq Require Import ZArith QArith List Bool Lia Permutation.
From Verif Require Import Lib Base Scan Convert110 Names NamesProofs Stations StationsSpec StationsProofs StationsProps Inventory InventorySpec InventoryProofs.
Import ListNotations.
Open Scope Z_scope.

Local Arguments lower : simpl never.
Local Arguments b : simpl never.

(** C35.  An inventory is made iff every network of the station table has at least one location whose
    coordinates are known. *)
Theorem C35_made_iff : forall R (response : R) c rows, good_tables c rows ->
  ((forall r, In r rows -> exists s l, located c rows (r_net r) s l) -> exists inv, make_inventory response c rows = Some inv) /\
  ((exists r, In r rows /\ forall s l, ~ located c rows (r_net r) s l) -> make_inventory response c rows = None).
Proof.
  intros R response c rows G. unfold make_inventory.
  assert (E1 : negb (has_sn c) && negb (has_codes c) = false).
  { destruct G as (_ & [-> | ->] & _); [apply andb_false_r|reflexivity]. }
  assert (E2 : negb (has_position c) = false) by (destruct G as (-> & _); reflexivity). rewrite E1, E2.
  destruct (make_networks_spec response c rows G (unique eqb_bytes (map r_net rows))) as [A B]. split.
  - intros H. destruct A as (inv & I' & _); [|exists inv; exact I'].
    apply Forall_forall. intros n N. apply (proj1 (unique_in _ _)) in N. apply in_map_iff in N.
    destruct N as (r & <- & N). apply H. exact N.
  - intros (r & RI & H). apply B. intros F. rewrite Forall_forall in F.
    destruct (F (r_net r)) as (s & l & L); [apply (proj2 (unique_in _ _)); apply in_map; exact RI|]. apply (H s l L).
Qed.

(** Its channels are exactly the located combinations of codes of the station table, each once, with
    the serial number of the first row with those codes, the position and elevation of the coordinate
    line, its times widened by an hour (or all time), and the response that was given. *)
Theorem C35_channels : forall R (response : R) c rows inv, good_tables c rows -> make_inventory response c rows = Some inv ->
  NoDup (map code (entries inv)) /\
  (forall n s l, located c rows n s l <-> exists ch, In (n, s, ch) (entries inv) /\ ch_loc ch = l) /\
  (forall n s ch, In (n, s, ch) (entries inv) -> exists r x, coordinate_line c rows n s (ch_loc ch) r x /\
     ch_sn ch = r_sn r /\ ch_lat ch = c_lat x /\ ch_lon ch = c_lon x /\ ch_elev ch = c_elev x /\ ch_response ch = response /\
     (has_times c = true -> ch_start ch = c_start x - hour_ns /\ ch_end ch = c_end x + hour_ns) /\
     (has_times c = false -> ch_start ch = 0 /\ ch_end ch = end_of_time)).
Proof.
  intros R response c rows inv G M. unfold make_inventory in M.
  destruct (negb (has_sn c) && negb (has_codes c)); [discriminate|]. destruct (negb (has_position c)); [discriminate|].
  destruct (make_networks_spec response c rows G (unique eqb_bytes (map r_net rows))) as [A B].
  assert (F : Forall (network_located c rows) (unique eqb_bytes (map r_net rows)) \/ ~ Forall (network_located c rows) (unique eqb_bytes (map r_net rows))).
  { destruct (make_networks response c rows (unique eqb_bytes (map r_net rows))) as [i|] eqn:E; [|discriminate].
    clear - E G. (* every network made has a station *)
    left. revert i E. induction (unique eqb_bytes (map r_net rows)) as [|n nets IH]; intros i E; [constructor|].
    cbn [make_networks] in E.
    destruct (make_stations_spec response c rows G n (unique eqb_bytes (map r_sta (filter (in_net n) rows)))) as (sts & X & T & _).
    rewrite X in E. destruct sts as [|st sts]; [discriminate|].
    destruct (minZ (map (@st_start R) (st :: sts))); [|discriminate]. destruct (maxZ (map (@st_end R) (st :: sts))); [|discriminate].
    destruct (make_networks response c rows nets) as [j|]; [|discriminate]. constructor; [|apply (IH j); reflexivity].
    assert (Y : In (st_name st) (map (@st_name R) (st :: sts))) by (left; reflexivity).
    apply (those_with_in _ _ _ T) in Y. destruct Y as (_ & l & L). exists (st_name st), l. exact L. }
  destruct F as [F|F]; [|rewrite (B F) in M; discriminate].
  destruct (A F) as (inv' & E & N & O). rewrite E in M. injection M as <-. clear A B.
  assert (U : forall l : list bytes, forall m, first_occurrences [] l m -> NoDup m /\ forall x, In x m <-> In x l).
  { intros l m FO. destruct (fo_in (list_eq_dec Z.eq_dec) [] l m FO) as (H1 & H2 & H3). split; [exact H3|].
    intros x. split; [intros H; apply (H1 x H)|intros H; apply (H2 x H); intros []]. }
  split; [|split].
  - apply entries_nodup.
    + rewrite N. apply (U _ _ (unique_fo (map r_net rows))).
    + apply Forall_forall. intros nw NW. rewrite Forall_forall in O. destruct (O nw NW) as ((stas & FO & T) & FS & _).
      split; [apply (those_with_nodup _ _ _ T); apply (U _ _ FO)|].
      apply Forall_forall. intros st ST. rewrite Forall_forall in FS. destruct (FS st ST) as ((locs & FL & TL) & _).
      apply (those_with_nodup _ _ _ TL). apply (U _ _ FL).
  - intros n s l. split.
    + intros L. destruct (located_row _ _ _ _ _ L) as (r & RI & R1 & R2 & R3).
      assert (NI : In n (map (@net_name R) inv')).
      { rewrite N. apply (proj2 (unique_in _ _)). rewrite <- R1. apply in_map. exact RI. }
      apply in_map_iff in NI. destruct NI as (nw & NE & NI). rewrite Forall_forall in O.
      destruct (O nw NI) as ((stas & FO & T) & FS & _). rewrite NE in *.
      assert (SI : In s (map (@st_name R) (net_stations nw))).
      { apply (those_with_conv _ _ _ T); [|exists l; exact L]. apply (U _ _ FO). apply in_map_iff. exists r.
        split; [exact R2|]. apply filter_In. split; [exact RI|]. apply eqb_bytes_iff. exact R1. }
      apply in_map_iff in SI. destruct SI as (st & SE & SI). rewrite Forall_forall in FS.
      destruct (FS st SI) as ((locs & FL & TL) & _). rewrite SE in *.
      assert (LI : In l (map (@ch_loc R) (st_channels st))).
      { apply (those_with_conv _ _ _ TL); [|exact L]. apply (U _ _ FL). apply in_map_iff. exists r.
        split; [exact R3|]. apply filter_In. split; [exact RI|]. unfold in_sta, in_net.
        rewrite R1, R2, andb_true_iff, !eqb_bytes_iff. auto. }
      apply in_map_iff in LI. destruct LI as (ch & CE & CI). exists ch. split; [|exact CE].
      apply entries_in. exists nw, st. auto.
    + intros (ch & EI & <-). apply entries_in in EI. destruct EI as (nw & st & NI & SI & CI & <- & <-).
      rewrite Forall_forall in O. destruct (O nw NI) as (_ & FS & _). rewrite Forall_forall in FS.
      destruct (FS st SI) as (_ & FC & _). rewrite Forall_forall in FC. destruct (FC ch CI) as (r & x & CL & _).
      exists r, x. exact CL.
  - intros n s ch EI. apply entries_in in EI. destruct EI as (nw & st & NI & SI & CI & <- & <-).
    rewrite Forall_forall in O. destruct (O nw NI) as (_ & FS & _). rewrite Forall_forall in FS.
    destruct (FS st SI) as (_ & FC & _). rewrite Forall_forall in FC. destruct (FC ch CI) as (r & x & CL & E').
    exists r, x. split; [exact CL|]. clear CL. rewrite E'. unfold make_channel. cbn.
    repeat (split; [reflexivity|]). split; intros ->; auto.
Qed.

(** The networks are the distinct network codes in the order of the table; the stations of a network
    are its distinct located stations in that order, the channels of a station its distinct located
    locations; a station stands at the mean of its channels; stations and networks last from the
    earliest start to the latest end of what they contain; nothing in the inventory is empty. *)
Theorem C35_structure : forall R (response : R) c rows inv, good_tables c rows -> make_inventory response c rows = Some inv ->
  first_occurrences [] (map r_net rows) (map (@net_name R) inv) /\
  Forall (fun nw => net_stations nw <> [] /\
    (exists all, first_occurrences [] (map r_sta (filter (fun r => eqb_bytes (r_net r) (net_name nw)) rows)) all /\
       those_with (fun s => exists l, located c rows (net_name nw) s l) all (map (@st_name R) (net_stations nw))) /\
    earliest (map (@st_start R) (net_stations nw)) (net_start nw) /\ latest (map (@st_end R) (net_stations nw)) (net_end nw) /\
    Forall (fun st => st_channels st <> [] /\
      (exists all, first_occurrences [] (map r_loc (filter (fun r => eqb_bytes (r_net r) (net_name nw) && eqb_bytes (r_sta r) (st_name st)) rows)) all /\
         those_with (located c rows (net_name nw) (st_name st)) all (map (@ch_loc R) (st_channels st))) /\
      average (map (@ch_lat R) (st_channels st)) (st_lat st) /\ average (map (@ch_lon R) (st_channels st)) (st_lon st) /\
      average (map (@ch_elev R) (st_channels st)) (st_elev st) /\
      earliest (map (@ch_start R) (st_channels st)) (st_start st) /\ latest (map (@ch_end R) (st_channels st)) (st_end st))
      (net_stations nw)) inv.
Proof.
  intros R response c rows inv G M.
  destruct (C35_made_iff R response c rows G) as [_ MN]. unfold make_inventory in M, MN.
  destruct (negb (has_sn c) && negb (has_codes c)); [discriminate|]. destruct (negb (has_position c)); [discriminate|].
  assert (P : exists inv', make_networks response c rows (unique eqb_bytes (map r_net rows)) = Some inv' /\
     map (@net_name R) inv' = unique eqb_bytes (map r_net rows) /\ Forall (network_ok response c rows) inv').
  { clear MN. revert M. generalize (unique eqb_bytes (map r_net rows)). intros nets. revert inv.
    induction nets as [|n nets IH]; intros inv M; [exists []; auto|].
    cbn [make_networks] in M |- *.
    destruct (make_stations_spec response c rows G n (unique eqb_bytes (map r_sta (filter (in_net n) rows)))) as (sts & X & T & FS).
    rewrite X in M |- *. 
    destruct (minZ (map (@st_start R) sts)) as [a|] eqn:MA; [|discriminate]. destruct (maxZ (map (@st_end R) sts)) as [e|] eqn:ME; [|discriminate].
    destruct (make_networks response c rows nets) as [j|]; [|discriminate].
    destruct (IH j eq_refl) as (inv' & E & N & O). injection E as <-. eexists. split; [reflexivity|].
    split; [cbn; rewrite N; reflexivity|]. constructor; [|exact O]. unfold network_ok. cbn [net_name net_stations net_start net_end].
    split; [eexists; split; [apply unique_fo|exact T]|]. split; [exact FS|].
    split; [intros ->; discriminate|]. split; [apply min_earliest; exact MA|apply max_latest; exact ME]. }
  destruct P as (inv' & E & N & O). rewrite E in M. injection M as <-. split; [rewrite N; apply unique_fo|].
  apply Forall_forall. intros nw NW. rewrite Forall_forall in O. destruct (O nw NW) as (T & FS & NE & E1 & E2).
  split; [exact NE|]. split; [exact T|]. split; [exact E1|]. split; [exact E2|].
  apply Forall_forall. intros st ST. rewrite Forall_forall in FS. destruct (FS st ST) as (TL & _ & NC & A1 & A2 & A3 & A4 & A5).
  split; [exact NC|]. split; [exact TL|]. auto.
Qed.

(** From a station file: the rows are those of the file. *)
Theorem C35_from_file : forall R (response : R) text_cell h body c,
  good_header h -> Forall (fun r => length r = length h) body -> Forall (fun x => text_cell x = true) h ->
  exists rows, make_gem_inventory text_cell (File (h :: body)) c response = make_inventory response c rows /\
    Forall2 (fun line r => cell_under (b "sn") h line (r_sn r) /\ cell_under (b "network") h line (r_net r) /\
                           cell_under (b "station") h line (r_sta r) /\ cell_under (b "location") h line (r_loc r)) body rows.
Proof.
  intros R response text_cell h body c G W T. destruct (rows_of_file h body G W) as (t & rows & E & RO & F).
  exists rows. split; [|exact F]. unfold make_gem_inventory.
  destruct (good_header_facts h G) as (_ & S5 & _).
  cbn [get_station_info].
  assert (A1 : forallb text_cell h = true) by (apply forallb_forall; apply Forall_forall; exact T).
  assert (A2 : forallb (fun r : list bytes => (length r <=? length h)%nat) body = true).
  { apply forallb_forall. intros r H. rewrite Forall_forall in W. apply Nat.leb_le. rewrite (W r H). lia. }
  assert (A3 : forallb (fun i => member (lower i) (required ++ [b "elevation"])) h = true).
  { apply forallb_forall. intros x H. unfold member. apply existsb_exists. exists (lower x).
    split; [|apply eqb_bytes_iff; reflexivity]. apply S5. apply in_map. exact H. }
  rewrite A1, A2, A3. cbn [negb orb]. rewrite E, RO. reflexivity.
Qed.

(** A case: two networks, one station with two located locations and one unlocated. *)
Definition demo_rows :=
  [mks (b "077") (b "NM") (b "S1") (b "00"); mks (b "088") (b "NM") (b "S1") (b "01"); mks (b "099") (b "NM") (b "S1") (b "02");
   mks (b "100") (b "NM") (b "S2") (b ""); mks (b "014") (b "XX") (b "S1") (b "00")].
Definition demo_line (sn : bytes) (lat : Z) (t : Z) : cline := mkc sn [] [] [] (inject_Z lat) 0 0 (t * hour_ns) ((t + 1) * hour_ns).
Definition demo_coords := mkcoords true false true true [demo_line (b "77") 10 5; demo_line (b "088") 20 3; demo_line (b "014") 7 9].
Example C35_case :
  good_tables demo_coords demo_rows /\
  option_map (map (fun nw => (net_name nw, map (fun st => (st_name st, map (fun ch => (ch_loc ch, ch_sn ch)) (st_channels st), st_start st, st_end st)) (net_stations nw))))
    (make_inventory tt demo_coords demo_rows) =
  Some [(b "NM", [(b "S1", [(b "00", b "077"); (b "01", b "088")], 2 * hour_ns, 7 * hour_ns)]);
        (b "XX", [(b "S1", [(b "00", b "014")], 8 * hour_ns, 11 * hour_ns)])].
Proof.
  split; [|vm_compute; reflexivity]. split; [reflexivity|]. split; [right; reflexivity|]. intros _. split.
  - apply Forall_forall. intros x H. cbn in H. repeat (destruct H as [<-|H]; [vm_compute; discriminate|]). destruct H.
  - apply Forall_forall. intros x H. cbn in H. repeat (destruct H as [<-|H]; [vm_compute; discriminate|]). destruct H.
Qed.

(** Not true: that a network none of whose positions is known is left out.  One such network and there
    is no inventory at all, though others are complete. *)
Theorem C35_unlocated_network_refuted : exists c rows, good_tables c rows /\
  located c rows (b "NM") (b "S1") (b "00") /\ make_inventory tt c rows = None.
Proof.
  exists demo_coords, (demo_rows ++ [mks (b "003") (b "YY") (b "S9") (b "00")]).
  split; [|split; [|vm_compute; reflexivity]].
  - split; [reflexivity|]. split; [right; reflexivity|]. intros _. split.
    + apply Forall_forall. intros x H. cbn in H. repeat (destruct H as [<-|H]; [vm_compute; discriminate|]). destruct H.
    + apply Forall_forall. intros x H. cbn in H. repeat (destruct H as [<-|H]; [vm_compute; discriminate|]). destruct H.
  - exists (mks (b "077") (b "NM") (b "S1") (b "00")), (demo_line (b "77") 10 5).
    split; [apply fw_here; vm_compute; auto|apply fw_here; exists 77; vm_compute; auto].
Qed.

(** Not true: that every instrument with a position has its channel.  If two instruments served at the
    same location one after the other, only the first row counts. *)
Theorem C35_replaced_instrument_refuted : exists c rows inv, good_tables c rows /\ make_inventory tt c rows = Some inv /\
  In (mks (b "088") (b "NM") (b "S1") (b "00")) rows /\ In (b "088") (map c_sn (lines c)) /\
  ~ In (b "088") (map (fun e => ch_sn (snd e)) (entries inv)).
Proof.
  exists demo_coords, [mks (b "077") (b "NM") (b "S1") (b "00"); mks (b "088") (b "NM") (b "S1") (b "00")].
  eexists. split; [|split; [vm_compute; reflexivity|]].
  - split; [reflexivity|]. split; [right; reflexivity|]. intros _. split.
    + apply Forall_forall. intros x H. cbn in H. repeat (destruct H as [<-|H]; [vm_compute; discriminate|]). destruct H.
    + apply Forall_forall. intros x H. cbn in H. repeat (destruct H as [<-|H]; [vm_compute; discriminate|]). destruct H.
  - split; [right; left; reflexivity|]. split; [right; left; reflexivity|]. vm_compute. intuition congruence.
Qed.

Print Assumptions C35_made_iff.
Print Assumptions C35_channels.
Print Assumptions C35_structure.
Print Assumptions C35_from_file.
Print Assumptions C35_unlocated_network_refuted.
Print Assumptions C35_replaced_instrument_refuted.
