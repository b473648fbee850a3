(** A case for C73_visits: the card of [LogsCase] (its logger stood at 43.5, 116); for fixes elsewhere see C44_visits_case. *)
From Coq Require Import String.
From Coq Require Import ZArith QArith Qabs Qround List Bool Lia Lqa.
From Verif Require Import Base Lib NamesSpec UnwrapSpec UnwrapProofs Scan Parser ParserSpec ParserProps Process ProcessSpec ReadSeveral Drift DriftSpec
  Segments SegmentsSpec Interp InterpSpec InterpProofs InterpProps Stream Convert ConvertSpec Select Breaks Block BlockSpec RecordingSpec Header
  StationsSpec Inventory InventorySpec InventoryProps RecordingProofs RecordingTotal RecordingProps RecordingWhole RecordingCase Polyfit PolyfitProps BlockProps Card CardSpec CardProofs CardCase
  PausesSpec PausesProofs PausesBlock PausesProps PausesCase LogsSpec LogsProps LogsCase Gps Site SiteSpec SiteProofs SiteProps SiteCase VisitsSpec VisitsProps.
Import ListNotations.
Open Scope Z_scope.

Definition park : VisitsSpec.site := mksite (87 # 2) (87 # 2) 116 116.
Lemma park_all ps : Forall (fun p : place => between (87 # 2) (87 # 2) (fst (snd p)) /\ between 116 116 (snd (snd p)) /\ 0 <= fst p <= 253402214400) ps ->
  those_with (fun p : place => at_site park (snd p)) ps ps.
Proof. induction 1 as [|p l (A & B & _) F IH]; [constructor|]. apply tw_yes; [|exact IH]. split; assumption. Qed.

Example C73_visits_case : exists n h fixes l s, (forall fuel, (n <= fuel)%nat -> lc_convert fuel = inr (h, Returns [])) /\
  read_rows (concat (gpss h)) = Some fixes /\ summarize_gps false [Folder [(b "059gps_000.txt", Some fixes)]] None None None None = Some l /\
  In s l /\ s_sn s = b "059" /\ s_count s = 17%nat /\ (s_lat s == 87 # 2 /\ s_lon s == 116)%Q.
Proof.
  destruct C68_case_hypotheses as (H1 & H2 & H3 & H4 & H5 & H6 & H7). destruct pc_begin as (s1 & Hb & _). destruct (lc_end s1) as (e1 & He & Cs).
  pose proof st_inside as Ins.
  destruct (C73_visits dec_scanner [] true polyfit3 polyfit1 linear 1700000000 (fun _ => None) (fun _ => None) (fun _ => None) (fun _ _ => inr CorruptRaw) (fun _ _ => inr CorruptRaw)
    (b "059") pc_recs pc_recs [lc_notes 0; lc_notes 1] pc_card None 1 360000 (Some 160945920550%Q) ex_t2 s1 e1
    H1 H2 H3 H4 H5 H6 H7 lc_all_noted ltac:(reflexivity) ltac:(lia) pc_late Hb He Cs ltac:(eapply Forall_impl; [|exact Ins]; cbn beta; tauto))
    as (parts & T & n & h & Pa & St & Run & first & later & kept & En & Lf & Se & fixes & Rd & M).
  assert (In' : Forall (fun p : place => between (87 # 2) (87 # 2) (fst (snd p)) /\ between 116 116 (snd (snd p)) /\ 0 <= fst p <= 253402214400) (kept ++ flat_map fst later)).
  { rewrite En, flat_map_app in Ins. apply Forall_app in Ins as [B1 B2]. apply Forall_app. split; [|exact B2].
    clear - Se B1. induction Se as [|p q l m [-> X] Se IH|p l m X Se IH]; [constructor| |]; inversion B1; subst; [constructor; auto|auto]. }
  apply lc_parts in Pa. exists n, h. cbn [starts_at] in St. subst T. rewrite Pa in Lf. destruct first as [|n1 [|n2 [|]]]; try discriminate. injection En as <- <- <-.
  apply selected_times in Se.
  assert (Ks : length (kept ++ flat_map fst (@nil (list place * list health))) = 17%nat) by (rewrite <- (map_length fst), Se; vm_compute; reflexivity).
  clear Se. set (ps := kept ++ flat_map fst (@nil (list place * list health))) in *.
  destruct (M park ps [(b "059gps_000.txt", Some fixes)]) as (l & Es & s & a & z & Is & Sn & _ & _ & _ & Ct & Bla & Blo & _).
  - unfold small, park. cbn [lat0 lat1 lon0 lon1]. repeat split; vm_compute; congruence.
  - apply park_all. exact In'.
  - apply Nat.mul_le_mono_r. lia.
  - eapply Forall_impl; [|exact In']. intros p (A & B & _). left. split; assumption.
  - intros X. rewrite X in Ks. discriminate.
  - apply st_folder.
  - exists fixes, l, s. split; [exact Run|]. split; [exact Rd|]. split; [exact Es|]. split; [exact Is|]. split; [exact Sn|]. split; [exact (eq_trans Ct Ks)|].
    destruct Bla, Blo. split; apply Qle_antisym; assumption.
Qed.
