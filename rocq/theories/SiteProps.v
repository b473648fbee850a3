(** Property C73: from the card to the map. *)
From Coq Require Import String.
From Coq Require Import ZArith QArith Qabs Qround List Bool Lia Lqa.
From Verif Require Import Base Lib NamesSpec UnwrapSpec UnwrapProofs Scan Parser ParserSpec Process ProcessSpec ReadSeveral Drift DriftSpec
  Segments SegmentsSpec Interp InterpSpec Convert ConvertSpec Select Breaks Block BlockSpec RecordingSpec Header
  StationsSpec Inventory InventorySpec InventoryProps RecordingProofs RecordingTotal RecordingProps RecordingWhole Card CardSpec CardProofs PausesSpec LogsSpec LogsProps Gps Site SiteSpec SiteProofs.
Import ListNotations.
Open Scope Z_scope.

(** The log that is read back, if the coordinates of the places are between bounds. *)
Lemma rows_read la0 la1 lo0 lo1 : forall ps rows, Forall2 place_row ps rows ->
  Forall (fun p : place => between la0 la1 (fst (snd p)) /\ between lo0 lo1 (snd (snd p)) /\ 0 <= fst p <= 253402214400) ps ->
  exists fixes, read_rows rows = Some fixes /\ length fixes = length ps /\
    map Gps.f_t fixes = map (fun p => fst p * 1000000000) ps /\
    Forall (fun f => 0 <= Gps.f_t f <= 253402214400 * 1000000000) fixes /\
    Forall (fun f => between la0 la1 (f_lat f) /\ between lo0 lo1 (f_lon f)) fixes.
Proof.
  induction 1 as [|p row ps rows P F IH]; intros B.
  - exists []. repeat split; constructor.
  - inversion B as [|? ? (B1 & B2 & B3) B']; subst. destruct (IH B') as (fixes & E & L & T & A & C). destruct P as (Pt & (la & Ela & Hla) & (lo & Elo & Hlo) & _).
    exists (Gps.mkfix la lo (p_t row * 1000000000) :: fixes). cbn [read_rows]. unfold read_row. rewrite Ela, Elo, E. split; [reflexivity|]. cbn [length map Gps.f_t]. rewrite L, T, Pt. split; [reflexivity|]. split; [reflexivity|].
    split; constructor; [cbn [Gps.f_t]; lia|exact A| |exact C]. cbn [f_lat f_lon]. unfold between in *. rewrite Hla, Hlo. split; assumption.
Qed.

Lemma earliest_scaled k l m : 0 < k -> earliest (map (fun x => x * k) l) m -> exists a, earliest l a /\ m = a * k.
Proof.
  intros K [I F]. apply in_map_iff in I as (a & <- & I). exists a. split; [|reflexivity]. split; [exact I|]. rewrite Forall_forall in *. intros t Ht.
  specialize (F (t * k) ltac:(apply in_map_iff; eauto)). cbn beta in F. nia.
Qed.
Lemma latest_scaled k l m : 0 < k -> latest (map (fun x => x * k) l) m -> exists a, latest l a /\ m = a * k.
Proof.
  intros K [I F]. apply in_map_iff in I as (a & <- & I). exists a. split; [|reflexivity]. split; [exact I|]. rewrite Forall_forall in *. intros t Ht.
  specialize (F (t * k) ltac:(apply in_map_iff; eauto)). cbn beta in F. nia.
Qed.

(** A log of which these rows are left when outliers are removed. *)
Lemma left_on_the_map sn fixes homes seen es la0 la1 lo0 lo1 : serial_number sn -> log_folder sn fixes es -> Gps.remove_rows (length fixes) fixes = homes ->
  seen <> [] -> length homes = length seen -> map Gps.f_t homes = map (fun p : place => fst p * 1000000000) seen ->
  Forall (fun f => 0 <= Gps.f_t f <= 253402214400 * 1000000000) homes ->
  Forall (fun f => between la0 la1 (f_lat f) /\ between lo0 lo1 (f_lon f)) homes ->
  exists l, summarize_gps false [Folder es] None None None None = Some l /\ on_the_map sn seen la0 la1 lo0 lo1 l.
Proof.
  intros Hsn Hf Hr Ne L T Tm Bx.
  assert (Nf : homes <> []) by (intros ->; destruct seen; [contradiction|discriminate]).
  destruct (folder_left sn es fixes homes la0 la1 lo0 lo1 Hsn Hf Hr Nf Tm Bx) as (l & s & Es & Is & Sn & U & Se & Ct & Bla & Blo & Ea & La).
  exists l. split; [exact Es|].
  assert (T' : map Gps.f_t homes = map (fun t => t * 1000000000) (map fst seen)) by (rewrite T, map_map; reflexivity). rewrite T' in Ea, La.
  destruct (earliest_scaled 1000000000 (map fst seen) (s_start s) ltac:(lia) Ea) as (a & Ha & Sa).
  destruct (latest_scaled 1000000000 (map fst seen) (s_end s) ltac:(lia) La) as (z & Hz & Sz).
  exists s, a, z. split; [exact Is|]. split; [exact Sn|]. split; [exact U|]. split; [exact Ha|]. split; [exact Hz|]. split; [congruence|]. split; [exact Bla|]. split; [exact Blo|].
  split; [exact Sa|]. split; [exact Sz|].
  split; [intros R response st_rows Rs; exact (folder_made response l st_rows sn s Hsn Is Sn U Se Rs)|]. intros R response st_rows inv Ri Mk net st loc r Fw Er.
  destruct (folder_inventory response l st_rows inv sn s Hsn Is Sn U Se Ri Mk net st loc r Fw Er) as (ch & I & C1 & C2 & C3 & C4 & C5 & C6).
  exists ch. rewrite C3, C4, C5, C6, Sa, Sz. change hour_ns with (3600 * 1000000000). repeat split; try assumption; try apply Bla; try apply Blo; lia.
Qed.
Lemma seen_on_the_map sn seen rows la0 la1 lo0 lo1 : serial_number sn -> narrow la0 la1 -> narrow lo0 lo1 -> seen <> [] ->
  Forall (fun p : place => between la0 la1 (fst (snd p)) /\ between lo0 lo1 (snd (snd p)) /\ 0 <= fst p <= 253402214400) seen ->
  Forall2 place_row seen rows -> exists fixes, read_rows rows = Some fixes /\
  forall es, log_folder sn fixes es -> exists l, summarize_gps false [Folder es] None None None None = Some l /\ on_the_map sn seen la0 la1 lo0 lo1 l.
Proof.
  intros Hsn N1 N2 Ne B F. destruct (rows_read la0 la1 lo0 lo1 seen rows F B) as (fixes & E & L & T & Tm & Bx). exists fixes. split; [exact E|]. intros es Hf.
  exact (left_on_the_map sn fixes fixes seen es la0 la1 lo0 lo1 Hsn Hf (rows_kept la0 la1 lo0 lo1 _ _ N1 N2 Bx) Ne L T Tm Bx).
Qed.

Section Card.
  Variable sc : scanner.
  Variable buf0 : bytes.
  Variable ear : bool.
  Variable fit3 : list point -> option cubic.
  Variable fit1 : list point -> option Drift.linear.
  Variable spline : list (Q * option Q) -> option (Q -> Q).
  Variable now : Q.
  Variable oddS : list bytes -> option (option bytes).
  Variable oddV : list bytes -> option bytes.
  Variable oddC : list bytes -> option config.
  Variables reader9 reader8 : bytes -> bool -> res (list drow).
  Notation convert_card := (convert_card sc buf0 ear fit3 fit1 spline now oddS oddV oddC reader9 reader8).

  (** C73.  A card is converted whose logger stood in one place: all its fixes are within 0.00005 degrees of each other.  Its GPS log is
      put into a folder of logs where it is the newest of its logger.  Then the summary of the folder has one line for the
      logger, with the number of rows of the log, a position where the fixes are, and the times of the first and the last; and
      in an inventory that is made from the summary, every channel for which the table of stations names the logger is at
      that position, from an hour before the first to an hour after the last fix. *)
  Theorem C73_from_card_to_map sn recs taken notes c nums blockdays f t1 t2 s1 e1 la0 la1 lo0 lo1 :
    (libraries sc fit3 fit1 spline -> serial_number sn -> card_of sn recs c ->
    (forall r, In r taken <-> In r recs /\ asked_for nums r) -> chain Z.lt (map r_number taken) -> taken <> [] -> in_turn now taken ->
    Forall2 (fun r n => noted_text (r_events r) (r_bytes r) (fst n) (snd n)) taken notes ->
    0 < blockdays -> (0 < f)%Z ->
    (forall t x, In (t, x) (record taken) -> 1 # 200 <= t /\ t * 100 + day * blockdays + inject_Z f + 200 <= t2) ->
    InterpSpec.begins (map fst (record taken)) s1 -> finishes (map fst (record taken)) e1 -> can_start s1 e1 t1 ->
    narrow la0 la1 -> narrow lo0 lo1 ->
    Forall (fun p : place => between la0 la1 (fst (snd p)) /\ between lo0 lo1 (snd (snd p)) /\ (0 <= fst p <= 253402214400)%Z) (flat_map fst notes) ->
    exists parts T n h, in_blocks (12 * blockdays) taken parts /\ starts_at s1 t1 T /\
      (forall fuel, (n <= fuel)%nat -> convert_card c sn nums blockdays (inject_Z f) t1 t2 fuel = inr (h, Returns [])) /\
      exists first later kept, notes = first ++ later /\ length first = length (hd [] parts) /\
        ProcessSpec.selected (fun p q => q = p /\ T * (1 # 100) - 1 < inject_Z (fst p)) (flat_map fst first) kept /\
        (kept ++ flat_map fst later <> [] -> exists fixes, read_rows (concat (gpss h)) = Some fixes /\
           forall es, log_folder sn fixes es -> exists l, summarize_gps false [Folder es] None None None None = Some l /\
             on_the_map sn (kept ++ flat_map fst later) la0 la1 lo0 lo1 l))%Q.
  Proof.
    intros Li Hsn Hc Ht Ct Nt Hu Hn Hb Hf Hw Bs1 Fe1 Cs N1 N2 Bx.
    destruct (C69_logs sc buf0 ear fit3 fit1 spline now oddS oddV oddC reader9 reader8 sn recs taken notes c nums blockdays f t1 t2 s1 e1 Li Hsn Hc Ht Ct Nt Hu Hn Hb Hf Hw Bs1 Fe1 Cs)
      as (parts & T & n & h & Pa & St & Run & (first & later & kept & En & Lf & _ & Se & Gp) & _).
    exists parts, T, n, h. split; [exact Pa|]. split; [exact St|]. split; [exact Run|]. exists first, later, kept. split; [exact En|]. split; [exact Lf|]. split; [exact Se|].
    intros Ne. apply (seen_on_the_map sn _ _ la0 la1 lo0 lo1 Hsn N1 N2 Ne); [|exact Gp].
    rewrite En, flat_map_app in Bx. apply Forall_app in Bx as [B1 B2]. apply Forall_app. split; [|exact B2].
    clear - Se B1. induction Se as [|p q l m [-> X] Se IH|p l m X Se IH]; [constructor| |]; inversion B1; subst; [constructor; auto|auto].
  Qed.
End Card.
Print Assumptions C73_from_card_to_map.
