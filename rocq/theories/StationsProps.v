(** C33, C37: station tables, renaming, duplicate removal. *)
From Coq Require Import String.
From Coq Require Import ZArith QArith List Bool Lia Permutation.
From Verif Require Import Lib Base Scan CalendarSpec Names NamesSpec NamesProofs NamesProps Stations StationsSpec StationsProofs.
Import ListNotations.
Open Scope Z_scope.

Local Arguments lower : simpl never.
Local Arguments b : simpl never.

(** C33.  A file with a heading for each of the four columns (and perhaps elevation), in any order and
    capitalisation, is accepted, whatever pandas would make of the data, and gives to every serial
    number the codes standing in the first row with that serial number, and none if there is no such row. *)
Theorem C33_file_lookup : forall text_cell h body,
  good_header h -> Forall (fun r => length r = length h) body -> Forall (fun c => text_cell c = true) h ->
  exists t, get_station_info text_cell (File (h :: body)) = Some t /\
    (forall sn, exists r, codes_in h sn body r) /\
    (forall sn n s l, codes_in h sn body (Some (n, s, l)) -> codes_of t sn = Codes (Txt n) (Txt s) (Txt l)) /\
    (forall sn, codes_in h sn body None -> codes_of t sn = Skip).
Proof.
  intros text_cell h body G W T. destruct (good_header_facts h G) as (_ & S5 & _ & _).
  destruct (table_lookup h body G W) as (t & E & L & R). exists t. split; [|split; [exact R|split]].
  - cbn [get_station_info].
    assert (A1 : forallb text_cell h = true) by (apply forallb_forall; apply Forall_forall; exact T).
    assert (A2 : forallb (fun r : list bytes => (length r <=? length h)%nat) body = true).
    { apply forallb_forall. intros r H. rewrite Forall_forall in W. apply Nat.leb_le. rewrite (W r H). lia. }
    assert (A3 : forallb (fun i => member (lower i) (required ++ [b "elevation"])) h = true).
    { apply forallb_forall. intros c H. unfold member. apply existsb_exists. exists (lower c).
      split; [|apply eqb_bytes_iff; reflexivity]. apply S5. apply in_map. exact H. }
    rewrite A1, A2, A3. exact E.
  - intros sn n s l C. apply (L sn (Some (n, s, l)) C).
  - intros sn C. apply (L sn None C).
Qed.

(** The same for a file without headings, in the order serial number, network, station, location
    (, elevation), provided pandas takes no cell of the first row for anything but text. *)
Theorem C33_no_heading : forall text_cell first rest,
  (length first = 4 \/ length first = 5)%nat -> Forall (fun r => length r = length first) rest ->
  Forall (fun c => text_cell c = true) first -> ~ Forall heading first ->
  let h := if (length first =? 4)%nat then four else five in
  exists t, get_station_info text_cell (File (first :: rest)) = Some t /\
    (forall sn, exists r, codes_in h sn (first :: rest) r) /\
    (forall sn n s l, codes_in h sn (first :: rest) (Some (n, s, l)) -> codes_of t sn = Codes (Txt n) (Txt s) (Txt l)) /\
    (forall sn, codes_in h sn (first :: rest) None -> codes_of t sn = Skip).
Proof.
  intros text_cell first rest L W T NH h.
  assert (SN : forall k, lowercase k -> same_name k k).
  { intros k _. unfold same_name. induction k; constructor; [apply sl_same|assumption]. }
  assert (SN' : forall l : list bytes, Forall2 same_name l l).
  { intros l. induction l as [|k l IH]; constructor; [|exact IH]. clear. unfold same_name. induction k; constructor; [apply sl_same|assumption]. }
  assert (G : good_header h).
  { unfold h. destruct (length first =? 4)%nat; [exists four|exists five]; split; try apply SN'; [left|right]; apply Permutation_refl. }
  assert (Lh : length h = length first).
  { unfold h. destruct L as [-> | ->]; reflexivity. }
  assert (W' : Forall (fun r => length r = length h) (first :: rest)).
  { constructor; [symmetry; exact Lh|]. rewrite Lh. exact W. }
  destruct (table_lookup h (first :: rest) G W') as (t & E & Lk & R). exists t. split; [|split; [exact R|split]].
  - cbn [get_station_info].
    assert (A1 : forallb text_cell first = true) by (apply forallb_forall; apply Forall_forall; exact T).
    assert (A2 : forallb (fun r : list bytes => (length r <=? length first)%nat) rest = true).
    { apply forallb_forall. intros r H. rewrite Forall_forall in W. apply Nat.leb_le. rewrite (W r H). lia. }
    assert (A3 : forallb (fun i => member (lower i) (required ++ [b "elevation"])) first = false).
    { destruct (forallb (fun i => member (lower i) (required ++ [b "elevation"])) first) eqn:X; [|reflexivity].
      exfalso. apply NH. apply Forall_forall. intros c H. rewrite forallb_forall in X. specialize (X c H).
      apply existsb_exists in X. destruct X as (k & K & Q). apply eqb_bytes_iff in Q. exists k. split; [exact K|].
      apply same_name_iff; [apply five_lower; exact K|exact Q]. }
    rewrite A1, A2, A3. destruct L as [L|L]; rewrite L; cbn [negb orb Nat.eqb]; unfold h in E; rewrite L in E; exact E.
  - intros sn n s l C. apply (Lk sn (Some (n, s, l)) C).
  - intros sn C. apply (Lk sn None C).
Qed.

(** Anything else that is neither is refused: another kind of object, an empty file, a first row that is
    no heading and has neither four nor five cells, a data frame lacking a column. *)
Theorem C33_refused : forall text_cell,
  get_station_info text_cell Other = None /\
  get_station_info text_cell (File []) = None /\
  (forall first rest, length first <> 4%nat -> length first <> 5%nat -> ~ Forall heading first ->
     get_station_info text_cell (File (first :: rest)) = None) /\
  (forall t k, In k four -> (forall c, ~ In (k, c) t) -> get_station_info text_cell (Frame t) = None).
Proof.
  intros text_cell. split; [reflexivity|]. split; [reflexivity|]. split.
  - intros first rest L4 L5 NH. cbn [get_station_info].
    destruct (negb (forallb text_cell first) || negb (forallb (fun r => (length r <=? length first)%nat) rest)); [reflexivity|].
    destruct (forallb (fun i => member (lower i) (required ++ [b "elevation"])) first) eqn:X.
    + exfalso. apply NH. apply Forall_forall. intros c H. rewrite forallb_forall in X. specialize (X c H).
      apply existsb_exists in X. destruct X as (k & K & Q). apply eqb_bytes_iff in Q. exists k. split; [exact K|].
      apply same_name_iff; [apply five_lower; exact K|exact Q].
    + apply Nat.eqb_neq in L4. apply Nat.eqb_neq in L5. rewrite L4, L5. reflexivity.
  - intros t k K N. cbn [get_station_info].
    replace (forallb (fun k => match column t k with Some _ => true | None => false end) required) with false; [reflexivity|].
    symmetry. apply Bool.not_true_is_false. intros F. rewrite forallb_forall in F. specialize (F k K).
    assert (C : column t k = None).
    { clear - N. induction t as [|[n c] t IH]; [reflexivity|]. cbn. destruct (eqb_bytes n k) eqn:E.
      - apply eqb_bytes_iff in E. subst. exfalso. apply (N c). left. reflexivity.
      - apply IH. intros c' H. apply (N c'). right. exact H. }
    rewrite C in F. discriminate.
Qed.

(** Renaming.  [files]: paths with the traces read.  What is written, in order: nothing for a file
    whose serial number has no row; otherwise the same traces, all with the codes of the row, under the
    name the pattern gives for the earliest start time. *)
Inductive renames (fields : Z -> datetime * Z) (h : list bytes) (body : list (list bytes)) (fmt : bytes) (p : list piece)
  : list (bytes * list trace) -> list (bytes * list trace) -> Prop :=
| ren_nil : renames fields h body fmt p [] []
| ren_skip path sn st r w : file_sn path = Some sn -> codes_in h sn body None ->
    renames fields h body fmt p r w -> renames fields h body fmt p ((path, st) :: r) w
| ren_file path sn st st' n s l t1 outs r w :
    file_sn path = Some sn -> codes_in h sn body (Some (n, s, l)) ->
    Forall2 (fun tr tr' => tstart tr' = tstart tr /\ tdata tr' = tdata tr /\ tnet tr' = n /\ tsta tr' = s /\ tloc tr' = l) st st' ->
    earliest (map tstart st) t1 ->
    Forall2 (filled (fst (fields t1)) (snd (fields t1)) n s l fmt) p outs ->
    renames fields h body fmt p r w ->
    renames fields h body fmt p ((path, st) :: r) ((concat outs, st') :: w).

Theorem C33_rename : forall text_cell fields h body fmt p files w,
  good_header h -> Forall (fun r => length r = length h) body -> Forall (fun c => text_cell c = true) h ->
  (forall t, exists_in_calendar (fst (fields t)) /\ 1 <= snd (fields t)) ->
  Forall good p -> files <> [] ->
  renames fields h body fmt p files w ->
  rename_files fields text_cell (File (h :: body)) fmt (pattern p) (map (fun f => (fst f, Some (snd f))) files)
  = Some (w, true).
Proof.
  intros text_cell fields h body fmt p files w G W T FL GP NE R.
  destruct (C33_file_lookup text_cell h body G W T) as (t & E & _ & L1 & L2).
  unfold rename_files. rewrite E.
  assert (K : forall q, fix_file_name_digits q = fix_file_name_digits (pattern p) ->
    rename_loop fields t fmt q (map (fun f => (fst f, Some (snd f))) files) = (w, true)).
  { clear NE. induction R as [|path sn st r w S1 C R IH|path sn st st' n s l t1 outs r w S1 C F M FO R IH]; intros q Q.
    - reflexivity.
    - cbn [map fst snd rename_loop]. rewrite S1, (L2 sn C). apply IH. exact Q.
    - cbn [map fst snd rename_loop]. rewrite S1, (L1 sn n s l C).
      destruct st as [|tr0 st]; [destruct M as [[] _]|].
      destruct (fold_min (tr0 :: st) (tstart tr0)) as (_ & B & D).
      set (m := fold_left (fun m tr => Z.min m (tstart tr)) (tr0 :: st) (tstart tr0)) in *.
      assert (Em : m = t1).
      { destruct M as [Min Mle]. apply in_map_iff in Min. destruct Min as (tr & X1 & X2).
        assert (m <= t1) by (rewrite <- X1; apply B; exact X2).
        rewrite Forall_forall in Mle.
        assert (t1 <= m).
        { destruct D as [->|(tr' & Y1 & ->)]; apply Mle; apply in_map; [left; reflexivity|exact Y1]. }
        lia. }
      clearbody m. subst m. cbn zeta.
      assert (N : renamed (pattern p) (fst (fields t1)) (snd (fields t1)) n s l fmt = Some (concat outs)).
      { apply C36_fields_filled; [exact GP|apply FL|apply FL|exact FO]. }
      unfold renamed in N. rewrite Q, N.
      rewrite (IH (fix_file_name_digits (pattern p))) by apply fix_idem. f_equal. f_equal. f_equal.
      clear - F. induction F as [|a a' l1 l2 H F IH]; [reflexivity|]. cbn [map]. rewrite IH. f_equal.
      destruct H as (H1 & H2 & H3 & H4 & H5). destruct a' as [x1 x2 x3 x4 x5]. unfold relabel. cbn in *. subst. reflexivity. }
  specialize (K (pattern p) eq_refl). destruct files as [|f0 files]; [congruence|]. cbn [map] in K |- *. rewrite K. reflexivity.
Qed.

(** The serial number is read off a file named as the conversion names it. *)
Theorem C33_serial_number_of_file : forall dir t us net sta loc chan fmt,
  ~ In 47 net -> ~ In 47 sta -> ~ In 47 loc -> ~ In 47 chan -> ~ In 47 fmt -> ~ In 46 net -> ~ In 46 sta ->
  file_sn (dir ++ [47] ++ converted_name t us (net ++ b "." ++ sta ++ b "." ++ loc ++ b "." ++ chan) fmt) = Some sta.
Proof.
  intros dir t us net sta loc chan fmt N1 N2 N3 N4 N5 D1 D2. unfold converted_name.
  assert (PD : forall w n c, In c (pad w n) -> 48 <= c <= 57).
  { intros w n c H. unfold pad in H. apply in_app_or in H. destruct H as [H|H].
    - apply repeat_spec in H. subst. lia.
    - apply in_map_iff in H. destruct H as (d & <- & H). clear - H.
      unfold digits in H. revert H. generalize (S (Z.to_nat (Z.log2 n))). intros f.
      assert (G : forall f n acc, Forall (fun d => 0 <= d <= 9) acc -> Forall (fun d => 0 <= d <= 9) (digits_aux f n acc)).
      { clear. induction f as [|f IH]; intros n acc A; cbn; [exact A|].
        assert (B : Forall (fun d => 0 <= d <= 9) (n mod 10 :: acc)).
        { constructor; [|exact A]. pose proof (Z.mod_pos_bound n 10). lia. }
        destruct (n / 10 =? 0); [exact B|]. apply IH. exact B. }
      intros H. assert (F := G f n [] (Forall_nil _)). rewrite Forall_forall in F. specialize (F d H). lia. }
  set (tm := pad 4 (year t) ++ b "-" ++ pad 2 (month t) ++ b "-" ++ pad 2 (day t) ++ b "T" ++ pad 2 (hour t) ++ b "_" ++
     pad 2 (minute t) ++ b "_" ++ pad 2 (second t)).
  assert (TM : forall c, In c tm -> c <> 46 /\ c <> 47).
  { intros c H. unfold tm in H. rewrite !in_app_iff in H.
    repeat (destruct H as [H|H]; [first [apply PD in H; lia|vm_compute in H; destruct H as [<-|[]]; lia]|]). apply PD in H. lia. }
  replace (dir ++ [47] ++ pad 4 (year t) ++ b "-" ++ pad 2 (month t) ++ b "-" ++ pad 2 (day t) ++ b "T" ++ pad 2 (hour t) ++ b "_" ++
     pad 2 (minute t) ++ b "_" ++ pad 2 (second t) ++ b "." ++ (net ++ b "." ++ sta ++ b "." ++ loc ++ b "." ++ chan) ++ b "." ++ lower fmt)
    with (dir ++ [47] ++ tm ++ [46] ++ net ++ [46] ++ sta ++ [46] ++ (loc ++ b "." ++ chan ++ b "." ++ lower fmt)).
  2:{ unfold tm. change (b ".") with [46]. rewrite <- !app_assoc. reflexivity. }
  apply file_sn_third; try assumption; try (intros H; apply TM in H; lia).
  rewrite !in_app_iff. change (b ".") with [46]. cbn [In].
  assert (LF : ~ In 47 (lower fmt)).
  { rewrite lower_map. intros H. apply in_map_iff in H. destruct H as (c & E & H).
    unfold lc in E. destruct ((65 <=? c) && (c <=? 90)) eqn:X; [apply andb_true_iff in X; lia|]. subst. contradiction. }
  intuition lia.
Qed.

(** Not true: that a file without headings is accepted.  If the first serial number is a number to
    pandas, as serial numbers are, the file is refused. *)
Theorem C33_number_without_heading_refuted : forall text_cell rest net sta loc,
  text_cell (b "077") = false ->
  get_station_info text_cell (File ([b "077"; net; sta; loc] :: rest)) = None.
Proof. intros text_cell rest net sta loc H. cbn [get_station_info forallb]. rewrite H. reflexivity. Qed.

(** Not true: that the columns are required.  Headings that leave out the serial number are accepted
    and renaming then silently skips every file. *)
Theorem C33_missing_column_refuted : forall fields text_cell files fmt p,
  text_cell (b "network") = true -> text_cell (b "location") = true -> files <> [] ->
  (forall f, In f files -> exists st sn, snd f = Some st /\ file_sn (fst f) = Some sn) ->
  rename_files fields text_cell (File [[b "network"; b "location"]; [b "NM"; b "00"]]) fmt p files = Some ([], true).
Proof.
  intros fields text_cell files fmt p T1 T2 NE A. unfold rename_files.
  assert (E : exists t, get_station_info text_cell (File [[b "network"; b "location"]; [b "NM"; b "00"]]) = Some t /\
    column t (b "SN") = None).
  { cbn [get_station_info forallb]. rewrite T1, T2. eexists. split; [vm_compute; reflexivity|]. vm_compute. reflexivity. }
  destruct E as (t & -> & C). destruct files as [|f0 files]; [congruence|]. f_equal. clear NE.
  induction (f0 :: files) as [|[path st] l IH]; [reflexivity|]. cbn [rename_loop].
  destruct (A (path, st) (or_introl eq_refl)) as (st' & sn & X & Y). cbn [fst snd] in X, Y. subst st. rewrite Y.
  unfold codes_of. rewrite C. apply IH. intros f F. apply A. right. exact F.
Qed.

(** Not true: that a data frame with the standard column names (the one this very function returns for
    a file) is accepted; it must have a column "sn", but is searched for "SN". *)
Theorem C33_data_frame_refuted : forall text_cell c1 c2 c3 c4,
  get_station_info text_cell (Frame [(b "SN", c1); (b "network", c2); (b "station", c3); (b "location", c4)]) = None /\
  exists t, get_station_info text_cell (Frame [(b "sn", c1); (b "network", c2); (b "station", c3); (b "location", c4)]) = Some t /\
    forall sn, codes_of t sn = Skip.
Proof.
  intros text_cell c1 c2 c3 c4. split; [reflexivity|]. eexists. split; [reflexivity|]. intros sn. reflexivity.
Qed.

(** A case: the table of the demonstration, extended by a column and a repeated serial number. *)
Definition demo_header := [b "SN"; b "Network"; b "STATION"; b "Location"; b "elevation"].
Definition demo_body :=
  [[b "077"; b "NM"; b "LADR1"; b ""; b "1410"]; [b "088"; b "NM"; b "LADR2"; b "00"; b ""];
   [b "077"; b "XX"; b "OTHER"; b "01"; b "0"]].
Definition demo_files : list (bytes * list trace) :=
  [(b "mseed/2020-05-10T05_00_00..077..HDF.mseed", [mktr [] (b "077") [] 20 [1; 2; 3]; mktr [] (b "077") [] 10 [4; 5]]);
   (b "mseed/2020-05-10T05_00_00..099..HDF.mseed", [mktr [] (b "099") [] 10 [7]])].
Definition demo_fields (t : Z) : datetime * Z := (mkdt 2020 5 10 5 0 t, 131).
Example C33_case :
  good_header demo_header /\ Forall (fun r => length r = length demo_header) demo_body /\
  codes_in demo_header (b "077") demo_body (Some (b "NM", b "LADR1", b "")) /\
  codes_in demo_header (b "099") demo_body None /\
  rename_files demo_fields (fun _ => true) (File (demo_header :: demo_body)) (b "mseed") (b "{jd}.{hour}_{sec}.{sta}.{fmt}")
    (map (fun f => (fst f, Some (snd f))) demo_files) =
  Some ([(b "131.05_10.LADR1.mseed", [mktr (b "NM") (b "LADR1") [] 20 [1; 2; 3]; mktr (b "NM") (b "LADR1") [] 10 [4; 5]])], true).
Proof.
  assert (SN : forall n k, lowercase k -> lower n = k -> same_name n k) by (intros n k L E; apply same_name_iff; assumption).
  assert (UN : forall k n h c r, In k five -> lower n = k -> cell_under k (n :: h) (c :: r) c).
  { intros k n h c r K E. apply under_here. apply SN; [apply five_lower; exact K|exact E]. }
  split; [|split; [|split; [|split]]].
  - exists five. split; [right; apply Permutation_refl|].
    unfold demo_header, five, four. cbn [app].
    repeat (apply Forall2_cons; [apply SN; [apply five_lower; cbn; tauto|vm_compute; reflexivity]|]). apply Forall2_nil.
  - apply Forall_forall. intros r H. cbn in H. repeat (destruct H as [<-|H]; [reflexivity|]). destruct H.
  - apply codes_here; unfold demo_header;
      repeat ((apply UN; [cbn; tauto|vm_compute; reflexivity]) || apply under_next).
  - unfold demo_header, demo_body.
    apply codes_next with (b "077"); [apply UN; [cbn; tauto|reflexivity]|vm_compute; congruence|].
    apply codes_next with (b "088"); [apply UN; [cbn; tauto|reflexivity]|vm_compute; congruence|].
    apply codes_next with (b "077"); [apply UN; [cbn; tauto|reflexivity]|vm_compute; congruence|].
    apply codes_none.
  - vm_compute. reflexivity.
Qed.

(** C37.  The duplicate-removing helper gives each distinct element once, where it first occurs. *)
Theorem C37_unique : forall (A : Type) (eqb : A -> A -> bool), (forall x y, eqb x y = true <-> x = y) ->
  forall l, first_occurrences [] l (unique eqb l) /\ NoDup (unique eqb l) /\ (forall x, In x (unique eqb l) <-> In x l).
Proof.
  intros A eqb E l. assert (F := unique_spec eqb E l).
  assert (dec : forall x y : A, {x = y} + {x <> y}).
  { intros x y. destruct (eqb x y) eqn:X; [left; apply E; exact X|right; intros C; apply E in C; congruence]. }
  destruct (fo_in dec [] l _ F) as (H1 & H2 & H3). split; [exact F|]. split; [exact H3|].
  intros x. split; [intros H; apply (H1 x H)|intros H; apply (H2 x H); intros []].
Qed.
Example C37_case : unique eqb_bytes [b "b"; b "a"; b "b"; b ""; b "a"] = [b "b"; b "a"; b ""].
Proof. vm_compute. reflexivity. Qed.

Print Assumptions C33_file_lookup.
Print Assumptions C33_no_heading.
Print Assumptions C33_refused.
Print Assumptions C33_rename.
Print Assumptions C33_serial_number_of_file.
Print Assumptions C33_number_without_heading_refuted.
Print Assumptions C33_missing_column_refuted.
Print Assumptions C33_data_frame_refuted.
Print Assumptions C37_unique.
