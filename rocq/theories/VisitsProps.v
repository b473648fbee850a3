(** C44, C73: a logger that was carried to its place: fixes elsewhere do not move its line in the summary. *)
From Coq Require Import String.
From Coq Require Import ZArith QArith Qabs Qround List Bool Lia Lqa.
From Verif Require Import Base Lib NamesSpec UnwrapSpec UnwrapProofs Scan Parser ParserSpec Process ProcessSpec ReadSeveral Drift DriftSpec
  Segments SegmentsSpec Interp InterpSpec Convert ConvertSpec Select Breaks Block BlockSpec RecordingSpec Header Outliers OutliersSpec OutliersProofs VisitsSpec OutliersVisits
  StationsSpec Inventory InventorySpec InventoryProps RecordingProofs RecordingTotal RecordingProps RecordingWhole Card CardSpec CardProofs PausesSpec LogsSpec LogsProps
  Gps GpsSpec GpsProofs GpsProps Site SiteSpec SiteProofs SiteProps.
Import ListNotations.
Open Scope Z_scope.

(** The fixes of a log at a site: at least 35 of 36; the others are 0.0021 degrees or more off in latitude or in longitude. *)
Definition stood_at (site : VisitsSpec.site) (all homes : list Gps.fix_) : Prop :=
  small site /\ those_with (fun f => at_site site (f_lat f, f_lon f)) all homes /\ (35 * length all <= 36 * length homes)%nat /\
  Forall (fun f => at_site site (f_lat f, f_lon f) \/ ~ about_site site (f_lat f, f_lon f)) all.

Lemma those_kept site all homes : those_with (fun f => at_site site (f_lat f, f_lon f)) all homes -> kept (at_site site) (map position all) (map position homes).
Proof. induction 1; cbn [map]; [constructor|apply kept_yes|apply kept_no]; assumption. Qed.
Lemma those_filter site all homes : those_with (fun f => at_site site (f_lat f, f_lon f)) all homes -> homes = filter (fun f => home site (position f)) all.
Proof.
  induction 1 as [|f l m H T IH|f l m H T IH]; [reflexivity| |]; cbn [filter].
  - rewrite (proj2 (home_iff site (position f)) H), IH. reflexivity.
  - destruct (home site (position f)) eqn:E; [apply home_iff in E; contradiction|exact IH].
Qed.
Lemma those_in {A} (P : A -> Prop) l m : those_with P l m -> Forall P m.
Proof. induction 1; [constructor|constructor; assumption|assumption]. Qed.
Lemma those_unique {A} (P : A -> Prop) l m m' : those_with P l m -> those_with P l m' -> m = m'.
Proof. intros H. revert m'. induction H; intros m' H'; inversion H'; subst; try contradiction; [reflexivity|f_equal; auto|auto]. Qed.

Lemma rows_left site all homes : stood_at site all homes -> remove_rows (length all) all = homes.
Proof.
  intros (S & T & L & F). destruct (remove_rows_filter (length all) all) as (h & A & C).
  pose proof (those_filter _ _ _ T) as Eh. apply those_kept in T.
  assert (R : remove_outliers 5 (map position all) = map position homes).
  { apply (C34_visits_removed site); [exact S|exact T|rewrite !map_length; exact L|]. apply Forall_map. exact F. }
  unfold remove_outliers in R. rewrite map_length, C in R. rewrite A, Eh.
  assert (Im : forall f, In f all -> (h (position f) = true <-> home site (position f) = true)).
  { intros f I. split; intros H.
    - assert (J : In (position f) (map position homes)) by (rewrite <- R; apply filter_In; split; [apply in_map, I|exact H]).
      apply in_map_iff in J. destruct J as (g & Eg & J). rewrite Eh in J. apply filter_In in J. rewrite <- Eg. apply J.
    - assert (J : In (position f) (map position homes)) by (apply in_map; rewrite Eh; apply filter_In; split; assumption).
      rewrite <- R in J. apply filter_In in J. apply J. }
  apply filter_ext_in. intros f I. specialize (Im f I). destruct (h (position f)), (home site (position f)); try reflexivity; destruct Im as [X Y]; [symmetry; apply X|apply Y]; reflexivity.
Qed.

(** C44.  If the fixes read for a serial number are at a site (stood_at), then its line in the summary is that of the fixes at
    the site within the time limits, at a position of the site; there is such a line exactly if there are such fixes and a log
    of the logger is among those asked for. *)
Theorem C44_visits : forall is_list items t1 t2 incl excl l sn all site homes lo hi w, visible items ->
  summarize_gps is_list items t1 t2 incl excl = Some l -> read_gps sn items = Some all -> stood_at site all homes ->
  (forall t, t1 = Some t -> lo = t) -> (t1 = None -> lo = 0) -> (forall t, t2 = Some t -> hi = t) -> (t2 = None -> hi = 253402214400 * 10 ^ 9) ->
  those_with (fun f => lo <= Gps.f_t f <= hi) homes w ->
  (forall s, In s l -> s_sn s = sn -> w <> [] /\ line_for sn w s /\ at_site site (s_lat s, s_lon s)) /\
  ((exists s, In s l /\ s_sn s = sn) <-> w <> [] /\
     (forall c, incl = Some c -> chosen sn c) /\ (forall c, excl = Some c -> ~ chosen sn c) /\
     ((exists es e, In (Folder es) items /\ In e es /\ log_of sn (fst e)) \/
      (is_list = true /\ exists path c n, In (Plain path c) items /\ file_name path n /\ plain_sn n sn))).
Proof.
  intros is_list items t1 t2 incl excl l sn all site homes lo hi w V E R St L1 L2 H1 H2 W.
  destruct (sn_list_spec is_list items incl excl) as [_ Sl]. unfold summarize_gps in E. cbv zeta in E.
  assert (El : match t1 with Some t => t | None => 0 end = lo) by (destruct t1; symmetry; auto).
  assert (Eu : match t2 with Some t => t | None => 253402214400 * 1000000000 end = hi).
  { destruct t2; symmetry; [auto|]. rewrite H2 by reflexivity. reflexivity. }
  rewrite El, Eu in E. pose proof (summarize_all_in _ _ _ _ _ E) as M.
  pose proof (rows_left site all homes St) as Rl. destruct St as (Sm & T & _ & _). pose proof (those_in _ _ _ T) as Hs.
  assert (Ew : filter (fun f => (lo <=? Gps.f_t f) && (Gps.f_t f <=? hi)) homes = w).
  { apply (those_unique (fun f => lo <= Gps.f_t f <= hi) homes); [|exact W]. apply filter_those. intros f _. rewrite andb_true_iff, !Z.leb_le. tauto. }
  assert (Bw : Forall (fun f => at_site site (f_lat f, f_lon f)) w).
  { rewrite Forall_forall in *. intros f I. apply Hs. rewrite <- Ew in I. apply filter_In in I. apply I. }
  assert (O : match summarize_one items lo hi sn with Some (Some s) => w <> [] /\ line_for sn w s /\ at_site site (s_lat s, s_lon s) | Some None => w = [] | None => False end).
  { pose proof (fun o => summarize_one_spec items lo hi sn o V) as Sp. unfold summarize_one in *. rewrite R in *. cbv zeta in *. rewrite Rl, Ew in *.
    destruct w as [|f0 w0] eqn:Dw; [reflexivity|]. rewrite <- Dw in *. clear Sp.
    destruct (minZ_earliest (map Gps.f_t w)) as (a & Ea & A); [subst w; discriminate|]. destruct (maxZ_latest (map Gps.f_t w)) as (z & Ez & Z'); [subst w; discriminate|].
    rewrite Ea, Ez. assert (N : w <> []) by (subst w; discriminate). split; [exact N|].
    assert (N1 : map f_lat w <> []) by (subst w; discriminate). assert (N2 : map f_lon w <> []) by (subst w; discriminate). split.
    - unfold line_for. cbn [s_sn s_lat s_lon s_lat_se2 s_lon_se2 s_start s_end s_count].
      split; [reflexivity|]. split; [apply mean_is; exact N1|]. split; [apply mean_is; exact N2|].
      split; [apply se2_spec; exact N1|]. split; [apply se2_spec; exact N2|]. split; [exact A|]. split; [exact Z'|reflexivity].
    - unfold at_site. cbn [s_lat s_lon fst snd]. split; apply mean_within; try assumption; apply Forall_map; eapply Forall_impl; [|exact Bw| |exact Bw]; intros f [Q1 Q2]; assumption. }
  split.
  - intros s I Es. apply M in I as [_ I]. rewrite Es in I. rewrite I in O. exact O.
  - split.
    + intros (s & I & Es). apply M in I as [I J]. rewrite Es in I, J. rewrite J in O. split; [apply O|]. apply Sl. exact I.
    + intros (N & In'). apply Sl in In'.
      destruct (summarize_one items lo hi sn) as [[s|]|] eqn:Eo; [|contradiction|contradiction]. exists s.
      destruct O as (_ & (Es & _) & _). split; [|exact Es]. apply M. rewrite Es. split; assumption.
Qed.

(** A case: the walk of C34_visits_case as a log: the quarter of the globe and the hundredth of a degree do not count. *)
Definition walk_log : list Gps.fix_ := map (fun p => Gps.mkfix (fst p) (snd p) 5) walk.
Example C44_visits_case : exists homes l s,
  visible [Folder [(b "077gps_000.txt", Some walk_log)]] /\
  summarize_gps false [Folder [(b "077gps_000.txt", Some walk_log)]] None None None None = Some l /\
  read_gps (b "077") [Folder [(b "077gps_000.txt", Some walk_log)]] = Some walk_log /\ stood_at meadow walk_log homes /\ length homes = 70%nat /\
  In s l /\ s_sn s = b "077" /\ s_count s = 70%nat /\ at_site meadow (s_lat s, s_lon s).
Proof.
  destruct C34_visits_case as (S & K & L & F & _). set (homes := filter (fun f => home meadow (position f)) walk_log). set (items := [Folder [(b "077gps_000.txt", Some walk_log)]]).
  assert (St : stood_at meadow walk_log homes).
  { split; [exact S|]. split; [|split].
    - apply filter_those. intros f _. apply home_iff.
    - vm_compute. lia.
    - unfold walk_log. apply Forall_map. eapply Forall_impl; [|exact F]. intros [x y] H. exact H. }
  assert (V : visible items) by (intros es e [Q|[]] I (r & X); injection Q as <-; destruct I as [<-|[]]; discriminate X).
  assert (R : read_gps (b "077") items = Some walk_log) by (vm_compute; reflexivity).
  destruct (C44_total false items None None None None ltac:(repeat constructor; discriminate)) as (l & E).
  assert (W : those_with (fun f => 0 <= Gps.f_t f <= 253402214400 * 10 ^ 9) homes homes).
  { assert (G : Forall (fun f => Gps.f_t f = 5) homes).
    { apply Forall_forall. intros f I. apply filter_In in I as [I _]. apply in_map_iff in I. destruct I as (p & <- & _). reflexivity. }
    clear - G. induction G as [|f m H G IH]; [constructor|]. apply tw_yes; [rewrite H; lia|exact IH]. }
  destruct (C44_visits false items None None None None l (b "077") walk_log meadow homes 0 (253402214400 * 10 ^ 9) homes V E R St
    ltac:(discriminate) ltac:(reflexivity) ltac:(discriminate) ltac:(reflexivity) W) as [A B].
  assert (Lh : length homes = 70%nat) by (vm_compute; reflexivity).
  destruct (proj2 B) as (s & Is & Es).
  { split; [intros Q; rewrite Q in Lh; discriminate|]. split; [discriminate|]. split; [discriminate|]. left. exists [(b "077gps_000.txt", Some walk_log)], (b "077gps_000.txt", Some walk_log).
    split; [left; reflexivity|]. split; [left; reflexivity|]. apply (log_name_log (b "077") 0).
    - exists 0, 7, 7. split; [reflexivity|]. split; [repeat constructor; lia|lia].
    - exists (b "000"). split; [|split; [lia|reflexivity]]. split; [apply Forall_forall; intros x Hx; vm_compute in Hx; lia|]. split; [reflexivity|]. split; [vm_compute; lia|]. split; [discriminate|reflexivity]. }
  destruct (A s Is Es) as (_ & Ln & At). destruct Ln as (_ & _ & _ & _ & _ & _ & _ & Ct).
  exists homes, l, s. split; [exact V|]. split; [exact E|]. split; [exact R|]. split; [exact St|]. split; [exact Lh|]. split; [exact Is|]. split; [exact Es|]. split; [congruence|exact At].
Qed.
Print Assumptions C44_visits.

(** * The card *)
Definition same_place (p : place) (f : Gps.fix_) : Prop :=
  (f_lat f == fst (snd p))%Q /\ (f_lon f == snd (snd p))%Q /\ Gps.f_t f = fst p * 1000000000.
Lemma same_at site p f : same_place p f -> (at_site site (f_lat f, f_lon f) <-> at_site site (snd p)) /\ (about_site site (f_lat f, f_lon f) <-> about_site site (snd p)).
Proof. intros (A & B & _). unfold at_site, about_site. cbn [fst snd]. rewrite A, B. tauto. Qed.
Lemma rows_same : forall ps rows, Forall2 place_row ps rows -> exists fixes, read_rows rows = Some fixes /\ Forall2 same_place ps fixes.
Proof.
  induction 1 as [|p row ps rows P F (fixes & E & G)]; [exists []; split; [reflexivity|constructor]|].
  destruct P as (Pt & (la & Ela & Hla) & (lo & Elo & Hlo) & _). exists (Gps.mkfix la lo (p_t row * 1000000000) :: fixes).
  cbn [read_rows]. unfold read_row. rewrite Ela, Elo, E. split; [reflexivity|]. constructor; [|exact G]. unfold same_place. cbn [f_lat f_lon Gps.f_t]. rewrite Pt. auto.
Qed.
Lemma those_same site : forall ps fixes, Forall2 same_place ps fixes -> forall homes, those_with (fun p : place => at_site site (snd p)) ps homes ->
  exists kept, those_with (fun f => at_site site (f_lat f, f_lon f)) fixes kept /\ Forall2 same_place homes kept.
Proof.
  induction 1 as [|p f ps fixes P F IH]; intros homes T; inversion T as [|? ? m H T'|? ? m H T']; subst.
  - exists []. split; constructor.
  - destruct (IH _ T') as (k & A & B). exists (f :: k). split; [apply tw_yes; [apply (same_at site p f P), H|exact A]|constructor; assumption].
  - destruct (IH _ T') as (k & A & B). exists k. split; [apply tw_no; [intros X; apply H, (same_at site p f P), X|exact A]|exact B].
Qed.

Section Card.
  Variable sc : scanner.
  Variable buf0 : bytes.
  Variable ear : bool.
  Variable fit3 : list point -> option cubic.
  Variable fit1 : list point -> option Drift.linear.
  Variable spline : list (Q * option Q) -> option (Q -> Q).
  Variable now : Q.
  Variable oddS : list bytes -> option (option bytes).
  Variable oddV : list bytes -> option bytes.
  Variable oddC : list bytes -> option config.
  Variables reader9 reader8 : bytes -> bool -> res (list drow).
  Notation convert_card := (convert_card sc buf0 ear fit3 fit1 spline now oddS oddV oddC reader9 reader8).

  (** C73.  The same as C73_from_card_to_map for a logger that was also recording elsewhere: at least 35 of 36 fixes of its GPS
      log are at one site, the others are 0.0021 degrees or more off in latitude or in longitude.  The line in the summary and
      the channels of an inventory are those of the fixes at the site. *)
  Theorem C73_visits sn recs taken notes c nums blockdays f t1 t2 s1 e1 :
    (libraries sc fit3 fit1 spline -> serial_number sn -> card_of sn recs c ->
    (forall r, In r taken <-> In r recs /\ asked_for nums r) -> chain Z.lt (map r_number taken) -> taken <> [] -> in_turn now taken ->
    Forall2 (fun r n => noted_text (r_events r) (r_bytes r) (fst n) (snd n)) taken notes ->
    0 < blockdays -> (0 < f)%Z ->
    (forall t x, In (t, x) (record taken) -> 1 # 200 <= t /\ t * 100 + day * blockdays + inject_Z f + 200 <= t2) ->
    InterpSpec.begins (map fst (record taken)) s1 -> finishes (map fst (record taken)) e1 -> can_start s1 e1 t1 ->
    Forall (fun p : place => (0 <= fst p <= 253402214400)%Z) (flat_map fst notes) ->
    exists parts T n h, in_blocks (12 * blockdays) taken parts /\ starts_at s1 t1 T /\
      (forall fuel, (n <= fuel)%nat -> convert_card c sn nums blockdays (inject_Z f) t1 t2 fuel = inr (h, Returns [])) /\
      exists first later kept, notes = first ++ later /\ length first = length (hd [] parts) /\
        ProcessSpec.selected (fun p q => q = p /\ T * (1 # 100) - 1 < inject_Z (fst p)) (flat_map fst first) kept /\
        exists fixes, read_rows (concat (gpss h)) = Some fixes /\
          forall site homes es, small site -> those_with (fun p : place => at_site site (snd p)) (kept ++ flat_map fst later) homes ->
            (35 * length (kept ++ flat_map fst later) <= 36 * length homes)%nat ->
            Forall (fun p : place => at_site site (snd p) \/ ~ about_site site (snd p)) (kept ++ flat_map fst later) -> homes <> [] ->
            log_folder sn fixes es -> exists l, summarize_gps false [Folder es] None None None None = Some l /\
              on_the_map sn homes (lat0 site) (lat1 site) (lon0 site) (lon1 site) l)%Q.
  Proof.
    intros Li Hsn Hc Ht Ct Nt Hu Hn Hb Hf Hw Bs1 Fe1 Cs Bx.
    destruct (C69_logs sc buf0 ear fit3 fit1 spline now oddS oddV oddC reader9 reader8 sn recs taken notes c nums blockdays f t1 t2 s1 e1 Li Hsn Hc Ht Ct Nt Hu Hn Hb Hf Hw Bs1 Fe1 Cs)
      as (parts & T & n & h & Pa & St & Run & (first & later & kept & En & Lf & _ & Se & Gp) & _).
    exists parts, T, n, h. split; [exact Pa|]. split; [exact St|]. split; [exact Run|]. exists first, later, kept. split; [exact En|]. split; [exact Lf|]. split; [exact Se|].
    destruct (rows_same _ _ Gp) as (fixes & Rd & Sm). exists fixes. split; [exact Rd|].
    assert (Tm : Forall (fun p : place => (0 <= fst p <= 253402214400)%Z) (kept ++ flat_map fst later)).
    { rewrite En, flat_map_app in Bx. apply Forall_app in Bx as [B1 B2]. apply Forall_app. split; [|exact B2].
      clear - Se B1. induction Se as [|p q l m [-> X] Se IH|p l m X Se IH]; [constructor| |]; inversion B1; subst; [constructor; auto|auto]. }
    intros site homes es Si Th L F Ne Fo.
    destruct (those_same site _ _ Sm homes Th) as (left & Tl & Sl).
    pose proof (Forall2_length_eq _ _ _ Sm) as L1. pose proof (Forall2_length_eq _ _ _ Sl) as L2.
    assert (St' : stood_at site fixes left).
    { split; [exact Si|]. split; [exact Tl|]. split; [rewrite <- L1, <- L2; exact L|]. clear - Sm F.
      induction Sm as [|p g ps gs P Sm IH]; [constructor|]. inversion F as [|? ? F1 F2]; subst. constructor; [|exact (IH F2)].
      destruct (same_at site p g P) as [A B]. tauto. }
    apply (left_on_the_map sn fixes left homes es _ _ _ _ Hsn Fo (rows_left site fixes left St') Ne).
    - symmetry. exact L2.
    - clear - Sl. induction Sl as [|p g ps gs P Sl IH]; [reflexivity|]. cbn [map]. rewrite IH. f_equal. apply P.
    - assert (Tk : Forall (fun p : place => (0 <= fst p <= 253402214400)%Z) homes).
      { clear - Th Tm. induction Th; inversion Tm; subst; [constructor|constructor; auto|auto]. }
      clear - Sl Tk. induction Sl as [|p g ps gs P Sl IH]; [constructor|]. inversion Tk as [|? ? H T']; subst. constructor; [|exact (IH T')].
      destruct P as (_ & _ & ->). lia.
    - eapply Forall_impl; [|exact (those_in _ _ _ Tl)]. intros g [A B]. split; assumption.
  Qed.
End Card.
Print Assumptions C73_visits.
