(** A case for C73: the card of [LogsCase], whose logger stood at 43.5, 116. *)
From Coq Require Import String.
From Coq Require Import ZArith QArith Qabs Qround List Bool Lia Lqa.
From Verif Require Import Base Lib NamesSpec UnwrapSpec UnwrapProofs Scan Parser ParserSpec ParserProps Process ProcessSpec ReadSeveral Drift DriftSpec
  Segments SegmentsSpec Interp InterpSpec InterpProofs InterpProps Stream Convert ConvertSpec Select Breaks Block BlockSpec RecordingSpec Header
  StationsSpec Inventory InventorySpec InventoryProps RecordingProofs RecordingTotal RecordingProps RecordingWhole RecordingCase Polyfit PolyfitProps BlockProps Card CardSpec CardProofs CardCase
  PausesSpec PausesProofs PausesBlock PausesProps PausesCase LogsSpec LogsProps LogsCase Gps Site SiteSpec SiteProofs SiteProps.
Import ListNotations.
Open Scope Z_scope.

Definition st_rows : list srow := [mks (b "059") (b "XP") (b "PARK") (b "01")].
Lemma st_inside : Forall (fun p : place => between (87 # 2) (87 # 2) (fst (snd p)) /\ between 116 116 (snd (snd p)) /\ 0 <= fst p <= 253402214400) (flat_map fst [lc_notes 0; lc_notes 1]).
Proof.
  assert (G : forall ps, forallb (fun p : place => Qeq_bool (fst (snd p)) (87 # 2) && Qeq_bool (snd (snd p)) 116 && (0 <=? fst p) && (fst p <=? 253402214400)) ps = true ->
    Forall (fun p : place => between (87 # 2) (87 # 2) (fst (snd p)) /\ between 116 116 (snd (snd p)) /\ 0 <= fst p <= 253402214400) ps).
  { intros ps E. apply Forall_forall. intros p Hp. rewrite forallb_forall in E. specialize (E p Hp). rewrite !andb_true_iff in E. destruct E as (((A & B) & C) & D).
    apply Qeq_bool_iff in A, B. unfold between. rewrite A, B. repeat split; try apply Qle_refl; lia. }
  apply G. vm_compute. reflexivity.
Qed.
Lemma st_serial : serial_number (b "059").
Proof. destruct C68_case_hypotheses as (_ & H & _). exact H. Qed.
Lemma st_folder fixes : log_folder (b "059") fixes [(b "059gps_000.txt", Some fixes)].
Proof.
  assert (L : log_name (b "059") 0 (b "059gps_000.txt")).
  { exists (b "000"). split; [|split; [lia|reflexivity]]. split; [apply Forall_forall; intros x Hx; vm_compute in Hx; lia|]. split; [reflexivity|]. split; [vm_compute; lia|]. split; [discriminate|reflexivity]. }
  split; [repeat constructor; intros []|]. split; [repeat constructor; discriminate|]. split.
  - intros e [<-|[]]. exists (b "059"), 0. split; [exact st_serial|exact L].
  - exists (b "059gps_000.txt"), 0. split; [exact L|]. split; [left; reflexivity|]. intros e m [<-|[]] (s & (Ds & Vs & _) & K & E).
    cbn [fst] in E. assert (s = b "000") as ->; [|rewrite <- Vs; vm_compute; discriminate].
    change (b "059gps_000.txt") with (b "059gps_" ++ b "000" ++ b ".txt") in E. change (b "059" ++ b "gps" ++ b "_" ++ s ++ b ".txt") with (b "059gps_" ++ s ++ b ".txt") in E.
    apply app_inv_head in E. apply app_inv_tail in E. congruence.
Qed.

Example C73_case : exists n h fixes l inv ch, (forall fuel, (n <= fuel)%nat -> lc_convert fuel = inr (h, Returns [])) /\
  read_rows (concat (gpss h)) = Some fixes /\ summarize_gps false [Folder [(b "059gps_000.txt", Some fixes)]] None None None None = Some l /\
  make_inventory tt (coords_of l) st_rows = Some inv /\ In (b "XP", b "PARK", ch) (InventorySpec.entries inv) /\
  (ch_lat ch == 87 # 2 /\ ch_lon ch == 116)%Q /\ ch_start ch = (1609459205 - 3600) * 1000000000 /\ ch_end ch = (1609459310 + 3600) * 1000000000.
Proof.
  destruct C68_case_hypotheses as (H1 & H2 & H3 & H4 & H5 & H6 & H7). destruct pc_begin as (s1 & Hb & _). destruct (lc_end s1) as (e1 & He & Cs).
  destruct (C73_from_card_to_map dec_scanner [] true polyfit3 polyfit1 linear 1700000000 (fun _ => None) (fun _ => None) (fun _ => None) (fun _ _ => inr CorruptRaw) (fun _ _ => inr CorruptRaw)
    (b "059") pc_recs pc_recs [lc_notes 0; lc_notes 1] pc_card None 1 360000 (Some 160945920550%Q) ex_t2 s1 e1 (87 # 2) (87 # 2) 116 116
    H1 H2 H3 H4 H5 H6 H7 lc_all_noted ltac:(reflexivity) ltac:(lia) pc_late Hb He Cs ltac:(split; vm_compute; [discriminate|reflexivity]) ltac:(split; vm_compute; [discriminate|reflexivity]) st_inside)
    as (parts & T & n & h & Pa & St & Run & first & later & kept & En & Lf & Se & M).
  apply lc_parts in Pa. exists n, h. cbn [starts_at] in St. subst T. rewrite Pa in Lf. destruct first as [|n1 [|n2 [|]]]; try discriminate. injection En as <- <- <-.
  apply selected_times in Se.
  assert (Ks : map fst (kept ++ flat_map fst (@nil (list place * list health))) = [1609459205; 1609459206; 1609459207; 1609459208; 1609459209; 1609459210;
    1609459300; 1609459301; 1609459302; 1609459303; 1609459304; 1609459305; 1609459306; 1609459307; 1609459308; 1609459309; 1609459310]) by (rewrite Se; vm_compute; reflexivity).
  clear Se. destruct M as (fixes & Rd & M); [intros X; rewrite X in Ks; discriminate|]. destruct (M _ (st_folder fixes)) as (l & Es & s & a & z & Is & Sn & U & Ea & La & _ & _ & _ & _ & _ & Md & Inv).
  rewrite Ks in Ea, La. clear M Ks.
  assert (Ri : Forall (fun r => Convert110.py_int (r_sn r) <> None) st_rows) by (constructor; [vm_compute; discriminate|constructor]).
  assert (Fw : first_with (with_codes (b "XP") (b "PARK") (b "01")) st_rows (mks (b "059") (b "XP") (b "PARK") (b "01"))) by (apply fw_here; repeat split).
  assert (Mk : exists inv, make_inventory tt (coords_of l) st_rows = Some inv).
  { apply Md. constructor; [reflexivity|constructor]. }
  destruct Mk as (inv & Mk). destruct (Inv unit tt st_rows inv Ri Mk _ _ _ _ Fw eq_refl) as (ch & I & _ & _ & B1 & B2 & S1 & S2).
  exists fixes, l, inv, ch. split; [exact Run|]. split; [exact Rd|]. split; [exact Es|]. split; [exact Mk|]. split; [exact I|].
  destruct B1, B2. split; [split; apply Qle_antisym; assumption|].
  destruct Ea as [Ea1 Ea2], La as [La1 La2]. rewrite Forall_forall in Ea2, La2. specialize (Ea2 1609459205 ltac:(left; reflexivity)). specialize (La2 1609459310 ltac:(cbn [In]; tauto)). cbn [In] in Ea1, La1.
  assert (a = 1609459205) as -> by (clear - Ea1 Ea2; lia). assert (z = 1609459310) as -> by (clear - La1 La2; lia). split; assumption.
Qed.
