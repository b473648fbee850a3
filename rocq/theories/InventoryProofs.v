From Coq Require Import String.
From Coq Require Import ZArith QArith List Bool Lia.
From Verif Require Import Lib Base Scan Convert110 Names NamesProofs Stations StationsSpec StationsProofs Inventory InventorySpec.
Import ListNotations.
Open Scope Z_scope.

(** * General *)

Lemma first_with_in {A} (P : A -> Prop) l x : first_with P l x -> In x l /\ P x.
Proof. intros F. induction F as [x l H|y l x N F IH]; [split; [left; reflexivity|exact H]|]. destruct IH. split; [right|]; assumption. Qed.
Lemma first_with_fun {A} (P : A -> Prop) l x y : first_with P l x -> first_with P l y -> x = y.
Proof. intros F. induction F as [x l H|z l x N F IH]; intros G; inversion G; subst; try contradiction; auto. Qed.

Lemma find_first {A} (p : A -> bool) (P : A -> Prop) l : (forall x, p x = true <-> P x) ->
  forall x, find p l = Some x <-> first_with P l x.
Proof.
  intros E. induction l as [|y l IH]; intros x; cbn.
  - split; [discriminate|intros F; inversion F].
  - destruct (p y) eqn:Y.
    + apply E in Y. split; [intros H; injection H as <-; apply fw_here; exact Y|].
      intros F. inversion F; subst; [reflexivity|contradiction].
    + assert (N : ~ P y) by (intros C; apply E in C; congruence). rewrite IH.
      split; [apply fw_next; exact N|]. intros F. inversion F; subst; [contradiction|assumption].
Qed.
Lemma find_none {A} (p : A -> bool) (P : A -> Prop) l : (forall x, p x = true <-> P x) ->
  (find p l = None <-> forall x, ~ first_with P l x).
Proof.
  intros E. destruct (find p l) as [x|] eqn:F.
  - apply (find_first p P l E) in F. split; [discriminate|]. intros H. exfalso. apply (H x F).
  - split; [|reflexivity]. intros _ x C. apply (find_first p P l E) in C. congruence.
Qed.

Lemma min_earliest l m : minZ l = Some m -> earliest l m.
Proof.
  destruct l as [|x l]; [discriminate|]. cbn. intros H. injection H as <-.
  assert (G : forall l x, (fold_left Z.min l x = x \/ In (fold_left Z.min l x) l) /\ fold_left Z.min l x <= x /\
    Forall (fun t => fold_left Z.min l x <= t) l).
  { clear. induction l as [|y l IH]; intros x; cbn; [split; [left; reflexivity|split; [lia|constructor]]|].
    destruct (IH (Z.min x y)) as (A & B & C). split; [|split].
    - destruct A as [A|A]; [|auto]. destruct (Z.min_spec x y) as [[_ E]|[_ E]]; rewrite E in *; [left; exact A|right; left; symmetry; exact A].
    - lia.
    - constructor; [lia|exact C]. }
  destruct (G l x) as (A & B & C). split; [destruct A as [->|A]; [left; reflexivity|right; exact A]|].
  constructor; assumption.
Qed.
Lemma max_latest l m : maxZ l = Some m -> latest l m.
Proof.
  destruct l as [|x l]; [discriminate|]. cbn. intros H. injection H as <-.
  assert (G : forall l x, (fold_left Z.max l x = x \/ In (fold_left Z.max l x) l) /\ x <= fold_left Z.max l x /\
    Forall (fun t => t <= fold_left Z.max l x) l).
  { clear. induction l as [|y l IH]; intros x; cbn; [split; [left; reflexivity|split; [lia|constructor]]|].
    destruct (IH (Z.max x y)) as (A & B & C). split; [|split].
    - destruct A as [A|A]; [|auto]. destruct (Z.max_spec x y) as [[_ E]|[_ E]]; rewrite E in *; [right; left; symmetry; exact A|left; exact A].
    - lia.
    - constructor; [lia|exact C]. }
  destruct (G l x) as (A & B & C). split; [destruct A as [->|A]; [left; reflexivity|right; exact A]|].
  constructor; assumption.
Qed.
Lemma mean_average l : l <> [] -> average l (meanQ l).
Proof.
  intros N. unfold average, meanQ. field.
  destruct l as [|x l]; [congruence|]. unfold inject_Z, Qeq. cbn [Qnum Qden length]. lia.
Qed.

(** * Channels, stations, networks *)

Section Inventory.
  Context {R : Type}.
  Variable response : R.
  Variable c : coords.
  Variable rows : list srow.

  Local Notation matches := (matches c).
  Local Notation coordinate_line := (coordinate_line c rows).
  Local Notation located := (located c rows).
  Local Notation good_tables := (good_tables c rows).

  Lemma in_loc_iff n s l r : in_loc n s l r = true <-> with_codes n s l r.
  Proof using Type.
    unfold in_loc, in_sta, in_net, with_codes. rewrite !andb_true_iff, !eqb_bytes_iff. tauto.
  Qed.

  Lemma int_sns_find k : Forall (fun x => py_int (c_sn x) <> None) (lines c) ->
    exists a, int_sns c = Some a /\
      option_map snd (find (fun p => fst p =? k) a) =
      find (fun x => match py_int (c_sn x) with Some m => m =? k | None => false end) (lines c).
  Proof using Type.
    unfold int_sns. intros F. induction F as [|x l H F IH]; [exists []; auto|].
    destruct IH as (a & X & E). cbn [fold_right find]. rewrite X.
    destruct (py_int (c_sn x)) as [m|] eqn:P; [|congruence].
    exists ((m, x) :: a). split; [reflexivity|]. cbn [find fst].
    destruct (m =? k); [reflexivity|exact E].
  Qed.

  Hypothesis G : good_tables.

  Lemma line_of_spec n s l r : In r rows -> exists o, line_of c n s l (r_sn r) = Some o /\
    (forall x, o = Some x <-> first_with (matches (r_sn r) n s l) (lines c) x).
  Proof using G.
    intros I'. destruct G as (_ & D & K). unfold line_of, matches.
    destruct (has_codes c) eqn:HC.
    - rewrite andb_false_r. eexists. split; [reflexivity|]. intros x.
      apply (find_first (fun x => eqb_bytes (c_net x) n && eqb_bytes (c_sta x) s && eqb_bytes (c_loc x) l)
        (fun x => c_net x = n /\ c_sta x = s /\ c_loc x = l)).
      intros y. rewrite !andb_true_iff, !eqb_bytes_iff. tauto.
    - destruct D as [D|D]; [discriminate|]. rewrite D. cbn [negb andb].
      destruct (K eq_refl) as [K1 K2]. rewrite Forall_forall in K2. specialize (K2 r I').
      destruct (py_int (r_sn r)) as [k|] eqn:P; [|congruence].
      destruct (int_sns_find k K1) as (a & -> & E). eexists. split; [reflexivity|]. rewrite E. intros x.
      apply (find_first (fun x => match py_int (c_sn x) with Some m => m =? k | None => false end)
        (fun x => exists k0, py_int (c_sn x) = Some k0 /\ Some k = Some k0)).
      intros y. destruct (py_int (c_sn y)) as [m|] eqn:Q.
      + rewrite Z.eqb_eq. split; [intros ->; exists k; auto|intros (k0 & A & B); congruence].
      + split; [discriminate|]. intros (k0 & A & _). discriminate.
  Qed.

  Definition channel_ok n s (ch : channel R) : Prop :=
    exists r x, coordinate_line n s (ch_loc ch) r x /\ ch = make_channel response c (ch_loc ch) (r_sn r) x.

  Lemma make_channels_spec n s locs :
    (forall l, In l locs -> exists r, In r rows /\ with_codes n s l r) ->
    exists chs, make_channels response c rows n s locs = Some chs /\
      those_with (located n s) locs (map (@ch_loc R) chs) /\ Forall (channel_ok n s) chs.
  Proof using G.
    induction locs as [|l locs IH]; intros H.
    - exists []. split; [reflexivity|]. split; constructor.
    - destruct (IH (fun l' L => H l' (or_intror L))) as (chs & E & T & F).
      cbn [make_channels].
      destruct (find (in_loc n s l) rows) as [r|] eqn:FR.
      + apply (find_first _ _ rows (in_loc_iff n s l)) in FR.
        destruct (first_with_in _ _ _ FR) as [RI RC].
        destruct (line_of_spec n s l r RI) as (o & -> & O). rewrite E.
        destruct o as [x|].
        * assert (X := proj1 (O x) eq_refl). eexists. split; [reflexivity|]. split.
          -- cbn. apply tw_yes; [exists r, x; split; assumption|exact T].
          -- constructor; [|exact F]. exists r, x. split; [split; assumption|reflexivity].
        * exists chs. split; [reflexivity|]. split; [|exact F]. apply tw_no; [|exact T].
          intros (r' & x & A & B). assert (r' = r) by (eapply first_with_fun; eassumption). subst r'.
          apply O in B. discriminate.
      + exfalso. destruct (H l (or_introl eq_refl)) as (r & RI & RC).
        apply in_loc_iff in RC.
        assert (X := List.find_none _ _ FR r RI). congruence.
  Qed.

  (** A station that is entered. *)
  Definition station_located n s : Prop := exists l, located n s l.
  Definition station_ok n (st : station R) : Prop :=
    (exists locs, first_occurrences [] (map r_loc (filter (in_sta n (st_name st)) rows)) locs /\
       those_with (located n (st_name st)) locs (map (@ch_loc R) (st_channels st))) /\
    Forall (channel_ok n (st_name st)) (st_channels st) /\ st_channels st <> [] /\
    average (map (@ch_lat R) (st_channels st)) (st_lat st) /\
    average (map (@ch_lon R) (st_channels st)) (st_lon st) /\
    average (map (@ch_elev R) (st_channels st)) (st_elev st) /\
    earliest (map (@ch_start R) (st_channels st)) (st_start st) /\
    latest (map (@ch_end R) (st_channels st)) (st_end st).

  Lemma unique_fo (l : list bytes) : first_occurrences [] l (unique eqb_bytes l).
  Proof using Type. apply unique_spec. exact eqb_bytes_iff. Qed.
  Lemma unique_in (l : list bytes) x : In x (unique eqb_bytes l) <-> In x l.
  Proof using Type.
    destruct (fo_in (list_eq_dec Z.eq_dec) [] l _ (unique_fo l)) as (A & B & _).
    split; [intros H; apply (A x H)|intros H; apply (B x H); intros []].
  Qed.

  Lemma located_row n s l : located n s l -> exists r, In r rows /\ with_codes n s l r.
  Proof using Type. intros (r & x & A & _). exists r. apply (first_with_in _ _ _ A). Qed.

  Lemma those_with_in {A} (P : A -> Prop) l m : those_with P l m -> forall x, In x m -> In x l /\ P x.
  Proof using Type.
    intros T. induction T as [|y l m H T IH|y l m H T IH]; intros x X; [destruct X| |].
    - destruct X as [->|X]; [split; [left; reflexivity|exact H]|]. destruct (IH x X). split; [right|]; assumption.
    - destruct (IH x X). split; [right|]; assumption.
  Qed.
  Lemma those_with_conv {A} (P : A -> Prop) l m : those_with P l m -> forall x, In x l -> P x -> In x m.
  Proof using Type.
    intros T. induction T as [|y l m H T IH|y l m H T IH]; intros x X Y; [destruct X| |].
    - destruct X as [->|X]; [left; reflexivity|right; apply IH; assumption].
    - destruct X as [->|X]; [contradiction|apply IH; assumption].
  Qed.

  Lemma locs_rows n s l : In l (unique eqb_bytes (map r_loc (filter (in_sta n s) rows))) ->
    exists r, In r rows /\ with_codes n s l r.
  Proof using Type.
    intros H. apply (proj1 (unique_in _ _)) in H. apply in_map_iff in H. destruct H as (r & <- & H).
    apply filter_In in H. destruct H as [H1 H2]. exists r. split; [exact H1|].
    unfold in_sta, in_net in H2. rewrite andb_true_iff, !eqb_bytes_iff in H2. unfold with_codes. tauto.
  Qed.

  Lemma make_stations_spec n stas :
    exists sts, make_stations response c rows n stas = Some sts /\
      those_with (station_located n) stas (map (@st_name R) sts) /\ Forall (station_ok n) sts.
  Proof using G.
    induction stas as [|s stas IH].
    - exists []. split; [reflexivity|]. split; constructor.
    - destruct IH as (sts & E & T & F). cbn [make_stations].
      set (locs := unique eqb_bytes (map r_loc (filter (in_sta n s) rows))).
      destruct (make_channels_spec n s locs (fun l => locs_rows n s l)) as (chs & -> & TC & FC).
      destruct chs as [|ch chs].
      + exists sts. split; [exact E|]. split; [|exact F]. apply tw_no; [|exact T].
        intros (l & L). destruct (located_row _ _ _ L) as (r & RI & A1 & A2 & A3).
        assert (X : In l locs).
        { unfold locs. apply (proj2 (unique_in _ _)). apply in_map_iff. exists r. split; [exact A3|].
          apply filter_In. split; [exact RI|]. unfold in_sta, in_net. rewrite A1, A2.
          rewrite andb_true_iff, !eqb_bytes_iff. auto. }
        apply (those_with_conv _ _ _ TC l X L).
      + destruct (minZ (map (@ch_start R) (ch :: chs))) as [a|] eqn:MA; [|discriminate].
        destruct (maxZ (map (@ch_end R) (ch :: chs))) as [e|] eqn:ME; [|discriminate].
        rewrite E. eexists. split; [reflexivity|]. split.
        * cbn [map st_name]. apply tw_yes; [|exact T]. exists (ch_loc ch).
          inversion FC as [|? ? (r & x & CL & _) _]; subst. exists r, x. exact CL.
        * constructor; [|exact F]. unfold station_ok. cbn [st_name st_channels st_lat st_lon st_elev st_start st_end].
          split; [exists locs; split; [apply unique_fo|exact TC]|].
          split; [exact FC|]. split; [discriminate|].
          split; [apply mean_average; discriminate|]. split; [apply mean_average; discriminate|].
          split; [apply mean_average; discriminate|].
          split; [apply min_earliest; exact MA|apply max_latest; exact ME].
  Qed.

  Definition network_ok (nw : network R) : Prop :=
    (exists stas, first_occurrences [] (map r_sta (filter (in_net (net_name nw)) rows)) stas /\
       those_with (station_located (net_name nw)) stas (map (@st_name R) (net_stations nw))) /\
    Forall (station_ok (net_name nw)) (net_stations nw) /\ net_stations nw <> [] /\
    earliest (map (@st_start R) (net_stations nw)) (net_start nw) /\
    latest (map (@st_end R) (net_stations nw)) (net_end nw).
  Definition network_located n : Prop := exists s l, located n s l.

  Lemma make_networks_spec nets :
    (Forall network_located nets -> exists inv, make_networks response c rows nets = Some inv /\
       map (@net_name R) inv = nets /\ Forall network_ok inv) /\
    (~ Forall network_located nets -> make_networks response c rows nets = None).
  Proof using G.
    induction nets as [|n nets IH].
    - split; [intros _; exists []; auto|]. intros H. exfalso. apply H. constructor.
    - cbn [make_networks]. set (stas := unique eqb_bytes (map r_sta (filter (in_net n) rows))).
      destruct (make_stations_spec n stas) as (sts & -> & T & F).
      assert (ST : forall s l, located n s l -> In s stas).
      { intros s l L. destruct (located_row _ _ _ L) as (r & RI & A1 & A2 & A3). unfold stas.
        apply (proj2 (unique_in _ _)). apply in_map_iff. exists r. split; [exact A2|]. apply filter_In. split; [exact RI|].
        apply eqb_bytes_iff. exact A1. }
      destruct sts as [|st sts].
      + split; [|reflexivity]. intros H. exfalso. inversion H as [|? ? (s & l & L) _]; subst.
        apply (those_with_conv _ _ _ T s (ST s l L)). exists l. exact L.
      + destruct (minZ (map (@st_start R) (st :: sts))) as [a|] eqn:MA; [|discriminate].
        destruct (maxZ (map (@st_end R) (st :: sts))) as [e|] eqn:ME; [|discriminate].
        destruct IH as [IH1 IH2]. split.
        * intros H. inversion H as [|? ? H1 H2]; subst. destruct (IH1 H2) as (inv & -> & N & O).
          eexists. split; [reflexivity|]. split; [cbn; rewrite N; reflexivity|].
          constructor; [|exact O]. unfold network_ok. cbn [net_name net_stations net_start net_end].
          split; [exists stas; split; [apply unique_fo|exact T]|]. split; [exact F|]. split; [discriminate|].
          split; [apply min_earliest; exact MA|apply max_latest; exact ME].
        * intros H. rewrite IH2; [reflexivity|]. intros H2. apply H. constructor; [|exact H2].
          assert (X : In (st_name st) (map (@st_name R) (st :: sts))) by (left; reflexivity).
          apply (those_with_in _ _ _ T) in X. destruct X as (_ & l & L). exists (st_name st), l. exact L.
  Qed.
End Inventory.

(** * The rows of a station file *)

Lemma rows_of_file h body : good_header h -> Forall (fun r => length r = length h) body ->
  exists t rows, complete (fix_station_info_keys (columns h 0 body)) = Some t /\ rows_of t = Some rows /\
    Forall2 (fun line r => cell_under (b "sn") h line (r_sn r) /\ cell_under (b "network") h line (r_net r) /\
                           cell_under (b "station") h line (r_sta r) /\ cell_under (b "location") h line (r_loc r)) body rows.
Proof.
  intros G F. destruct (good_header_facts h G) as (ND & _).
  destruct (table_columns h body G F) as (t & isn & inet & ista & iloc & E & (P1 & P2 & P3 & P4) & (B1 & B2 & B3 & B4) & D1 & D2 & D3 & D4).
  exists t. unfold rows_of. rewrite D1, D2, D3, D4.
  assert (M : In (b "sn") five /\ In (b "network") five /\ In (b "station") five /\ In (b "location") five) by (cbn; tauto).
  destruct M as (M1 & M2 & M3 & M4).
  assert (Z : exists rows, zip_rows (map (at_pos isn) body) (map (at_pos inet) body) (map (at_pos ista) body) (map (at_pos iloc) body) = Some rows /\
    Forall2 (fun line r => cell_under (b "sn") h line (r_sn r) /\ cell_under (b "network") h line (r_net r) /\
                           cell_under (b "station") h line (r_sta r) /\ cell_under (b "location") h line (r_loc r)) body rows).
  { clear E D1 D2 D3 D4. induction F as [|row body W F IH]; [exists []; split; [reflexivity|constructor]|].
    destruct IH as (rows & ZE & ZF).
    destruct (at_cell h ND _ _ row M1 P1 B1 W) as (c1 & _ & A1 & U1 & _).
    destruct (at_cell h ND _ _ row M2 P2 B2 W) as (c2 & _ & A2 & U2 & _).
    destruct (at_cell h ND _ _ row M3 P3 B3 W) as (c3 & _ & A3 & U3 & _).
    destruct (at_cell h ND _ _ row M4 P4 B4 W) as (c4 & _ & A4 & U4 & _).
    exists (mks c1 c2 c3 c4 :: rows). split.
    - cbn [map zip_rows]. rewrite A1, A2, A3, A4, ZE. reflexivity.
    - constructor; [auto|exact ZF]. }
  destruct Z as (rows & Z1 & Z2). exists rows. auto.
Qed.

(** * The channels of the inventory, one after the other *)

Lemma entries_in {R} (inv : list (network R)) n s ch : In (n, s, ch) (entries inv) <->
  exists nw st, In nw inv /\ In st (net_stations nw) /\ In ch (st_channels st) /\ net_name nw = n /\ st_name st = s.
Proof.
  unfold entries. rewrite in_flat_map. split.
  - intros (nw & A & B). apply in_flat_map in B. destruct B as (st & B & C). apply in_map_iff in C.
    destruct C as (ch' & E & C). injection E as <- <- <-. exists nw, st. auto.
  - intros (nw & st & A & B & C & <- & <-). exists nw. split; [exact A|]. apply in_flat_map. exists st. split; [exact B|].
    apply in_map_iff. exists ch. auto.
Qed.

Lemma those_with_nodup {A} (P : A -> Prop) l m : those_with P l m -> NoDup l -> NoDup m.
Proof.
  intros T. induction T as [|y l m H T IH|y l m H T IH]; intros N; [constructor| |]; inversion N; subst.
  - constructor; [|auto]. intros C. apply (those_with_in _ _ _ T) in C. destruct C. contradiction.
  - auto.
Qed.

Lemma nodup_map_app {A B} (f : A -> B) l m : NoDup (map f l) -> NoDup (map f m) ->
  (forall x y, In x l -> In y m -> f x <> f y) -> NoDup (map f (l ++ m)).
Proof.
  intros A1 A2 D. rewrite map_app. induction l as [|x l IH]; [exact A2|]. cbn in A1 |- *. inversion A1; subst.
  constructor.
  - rewrite in_app_iff. intros [C|C]; [contradiction|]. apply in_map_iff in C. destruct C as (y & E & Y).
    apply (D x y); [left; reflexivity|exact Y|symmetry; exact E].
  - apply IH; [assumption|]. intros a c' I1 I2. apply D; [right|]; assumption.
Qed.

Lemma entries_nodup {R} (inv : list (network R)) :
  NoDup (map (@net_name R) inv) ->
  Forall (fun nw => NoDup (map (@st_name R) (net_stations nw)) /\
                    Forall (fun st => NoDup (map (@ch_loc R) (st_channels st))) (net_stations nw)) inv ->
  NoDup (map code (entries inv)).
Proof.
  induction inv as [|nw inv IH]; intros N F; [constructor|].
  cbn in N. inversion N as [|? ? N1 N2]; subst. inversion F as [|? ? [F1 F2] F3]; subst.
  unfold entries. cbn [flat_map]. fold (entries inv). apply nodup_map_app.
  - clear - F1 F2. generalize (net_name nw). intros n. induction (net_stations nw) as [|st sts IH]; [constructor|].
    cbn in F1. inversion F1 as [|? ? A1 A2]; subst. inversion F2 as [|? ? B1 B2]; subst.
    cbn [flat_map]. apply nodup_map_app.
    + rewrite map_map. unfold code. cbn. clear - B1. induction (st_channels st) as [|ch chs IH]; [constructor|].
      cbn in B1 |- *. inversion B1; subst. constructor; [|auto]. intros C. apply in_map_iff in C.
      destruct C as (ch' & E & C). injection E as E. apply H1. rewrite <- E. apply in_map. exact C.
    + apply IH; assumption.
    + intros x y X Y E. apply in_map_iff in X. destruct X as (ch & <- & X).
      apply in_flat_map in Y. destruct Y as (st' & Y1 & Y2). apply in_map_iff in Y2. destruct Y2 as (ch' & <- & Y2).
      unfold code in E. cbn in E. injection E as E1 E2. apply A1. rewrite E1. apply in_map. exact Y1.
  - apply IH; assumption.
  - intros x y X Y E. apply in_flat_map in X. destruct X as (st & X1 & X2). apply in_map_iff in X2.
    destruct X2 as (ch & <- & X2). destruct y as [[n s] ch']. apply entries_in in Y.
    destruct Y as (nw' & st' & Y1 & Y2 & Y3 & <- & <-). unfold code in E. cbn in E. injection E as E1 E2 E3.
    apply N1. rewrite E1. apply in_map. exact Y1.
Qed.
