(** Cases for C69 and C70: the card of [PausesCase], converted from 5.5 s after its beginning. *)
From Coq Require Import String.
From Coq Require Import ZArith QArith Qabs Qround List Bool Lia Lqa.
From Verif Require Import Base Lib UnwrapSpec UnwrapProofs Scan Parser ParserSpec ParserProps Process ProcessSpec ReadSeveral Drift DriftSpec
  Segments SegmentsSpec Interp InterpSpec InterpProofs InterpProps Stream Convert ConvertSpec ConvertProps Select SelectSpec SelectProofs Cli CliSpec CliProofs
  Header HeaderSpec HeaderProofs Breaks Block BlockSpec BlockProps RecordingSpec RecordingProofs RecordingTotal RecordingProps RecordingWhole RecordingCase Polyfit PolyfitProps Card CardSpec CardProofs CardProps CardCase
  PausesSpec PausesProofs PausesBlock PausesWhole PausesProps PausesCase LogsSpec LogsProofs LogsBlock LogsProps StreamSpec.
Import ListNotations.
Open Scope Q_scope.

Fixpoint notes_of (evs : list RecordingSpec.event) (rs : list ParserSpec.record) : option (list place * list health) :=
  match rs, evs with
  | [], [] => Some ([], [])
  | Other _ :: rs, _ => notes_of evs rs
  | Full_D _ _ _ :: rs, Sample _ _ :: evs | Compact2 _ _ _ :: rs, Sample _ _ :: evs | Compact1 _ _ :: rs, Sample _ _ :: evs | Full_G (_ :: _) _ :: rs, No_fix _ :: evs => notes_of evs rs
  | Full_G [_; _; _; _; _; _; _; _; la; lo] _ :: rs, Fix _ t :: evs =>
      match notes_of evs rs with Some (ps, hs) => Some ((t, (field_value la, field_value lo)) :: ps, hs) | None => None end
  | Full_M (_ :: fs) _ :: rs, Health c :: evs => match notes_of evs rs with Some (ps, hs) => Some (ps, (c, map field_value fs) :: hs) | None => None end
  | _, _ => None
  end.
Lemma notes_of_ok rs : forall evs ps hs, notes_of evs rs = Some (ps, hs) -> noted evs rs ps hs.
Proof.
  induction rs as [|r rs IH]; intros evs ps hs E.
  - destruct evs; [|discriminate]. injection E as <- <-. constructor.
  - destruct r as [ms a t|[|f0 [|lag [|y [|mo [|d [|hr [|mi [|s [|la [|lo [|]]]]]]]]]]] t|[|f fs] t|dev diff t|diff t|l]; cbn [notes_of] in E;
      try (apply n_other; apply IH; exact E);
      destruct evs as [|[c u|c u|c|c] evs]; try discriminate; try (constructor; apply IH; exact E);
      (destruct (notes_of evs rs) as [[ps' hs']|] eqn:En; [|discriminate]); injection E as <- <-; constructor; apply IH; exact En.
Qed.

Definition lc_places (h : Z) : list place := map (fun j => (1609459200 + 100 * h + j, (field_value (FDec (dlit 43 (Some [5%Z]))), field_value (FDec (dlit 116 None)))))%Z (rc_range 0 11).
Definition lc_values : list Q := match rc_M 0 with Full_M (_ :: fs) _ => map field_value fs | _ => [] end.
Definition lc_healths : list health := [(0, lc_values); (4905, lc_values)].
Definition lc_notes (h : Z) : list place * list health := (lc_places h, lc_healths).
Lemma lc_noted h : h = 0%Z \/ h = 1%Z -> noted_text (pc_events h) (pc_bytes h) (lc_places h) lc_healths.
Proof.
  intros Hh. destruct (pc_lines h Hh) as (A & B & C & D & _). exists (map Other cc_lines ++ pc_records h), (Other []). split; [reflexivity|].
  split; [exact A|]. split; [exact B|]. split; [exact C|]. split; [exact D|]. clear - Hh. rewrite <- app_assoc. cbn [map cc_lines app]. repeat apply n_other.
  apply notes_of_ok. destruct Hh as [->| ->]; vm_compute; reflexivity.
Qed.
Lemma lc_all_noted : Forall2 (fun r n => noted_text (r_events r) (r_bytes r) (fst n) (snd n)) pc_recs [lc_notes 0; lc_notes 1].
Proof. constructor; [exact (lc_noted 0 (or_introl eq_refl))|]. constructor; [exact (lc_noted 1 (or_intror eq_refl))|constructor]. Qed.
Lemma lc_end s : exists e, finishes (map fst (record pc_recs)) e /\ can_start s e (Some 160945920550).
Proof. destruct pc_finish as (e & Fe & Ee). exists e. split; [exact Fe|]. split; [discriminate|]. rewrite Ee. discriminate. Qed.
Lemma lc_parts parts : in_blocks (12 * 1) pc_recs parts -> length (hd [] parts) = 2%nat.
Proof.
  intros [Ep Hn]. assert (E0 : r_number (pc_recording 0) = 0%Z) by reflexivity. assert (E1 : r_number (pc_recording 1) = 1%Z) by reflexivity.
  unfold pc_recs in *. revert Ep Hn. revert E0 E1. generalize (pc_recording 0), (pc_recording 1). intros r0 r1 E0 E1 Ep Hn.
  assert (G : forall i part r, nth_error parts i = Some part -> In r part -> i = 0%nat).
  { intros i part r Ei Hr. assert (Ir : In r [r0; r1]) by (rewrite <- Ep; apply in_concat; exists part; split; [eapply nth_error_In; exact Ei|exact Hr]).
    pose proof (proj1 (Hn i part r r0 Ei Hr eq_refl)) as A. destruct i as [|i]; [reflexivity|exfalso].
    assert (I1 : 1 <= inject_Z (Z.of_nat (Datatypes.S i))) by (change 1 with (inject_Z 1); rewrite <- Zle_Qle; lia).
    assert (B : inject_Z (r_number r - r_number r0) <= 1) by (change 1 with (inject_Z 1); rewrite <- Zle_Qle; destruct Ir as [<-|[<-|[]]]; lia). lra. }
  destruct parts as [|p ps]; [discriminate|]. cbn [hd]. cbn [concat] in Ep.
  assert (concat ps = []) as X.
  { destruct (concat ps) as [|r l] eqn:Ec; [reflexivity|]. exfalso. assert (Ir : In r (concat ps)) by (rewrite Ec; left; reflexivity). apply in_concat in Ir as (q & Hq & Hr).
    destruct (In_nth_error _ _ Hq) as (i & Hi). specialize (G (Datatypes.S i) q r Hi Hr). discriminate. }
  rewrite X, app_nil_r in Ep. rewrite Ep. reflexivity.
Qed.

Lemma selected_times (a : Q) ps kept : ProcessSpec.selected (fun (p q : place) => q = p /\ a < inject_Z (fst p)) ps kept -> kept = filter (fun p => Qltb a (inject_Z (fst p))) ps.
Proof.
  intros Se. induction Se as [|p q l m [-> X] Se IH|p l m X Se IH]; [reflexivity| |]; cbn [filter].
  - assert (Qltb a (inject_Z (fst p)) = true) as -> by (apply Qltb_lt; exact X). rewrite IH. reflexivity.
  - destruct (Qltb a (inject_Z (fst p))) eqn:E; [|exact IH]. exfalso. apply Qltb_lt in E. exact (X p (conj eq_refl E)).
Qed.
Lemma row_times ps rows : Forall2 place_row ps rows -> map p_t rows = map fst ps.
Proof. induction 1 as [|p row l m [X _] F IH]; [reflexivity|]. cbn [map]. rewrite X, IH. reflexivity. Qed.
Lemma lc_sample_ends : begins (samples (pc_events 1)) 0 /\ finishes (samples (pc_events 1)) 10760.
Proof.
  split; [vm_compute; reflexivity|]. exists (removelast (samples (pc_events 1))). vm_compute. reflexivity.
Qed.

Notation lc_convert fuel := (convert_card dec_scanner [] true polyfit3 polyfit1 linear 1700000000 (fun _ => None) (fun _ => None) (fun _ => None)
  (fun _ _ => inr CorruptRaw) (fun _ _ => inr CorruptRaw) pc_card (b "059") None 1 (inject_Z 360000) (Some 160945920550) ex_t2 fuel).

(** The GPS log has the fixes from 5 s on; and the reading in the middle of the second recording has its true time. *)
Example C69_case : exists n h, (forall fuel, (n <= fuel)%nat -> lc_convert fuel = inr (h, Returns [])) /\
  map p_t (concat (gpss h)) = [1609459205; 1609459206; 1609459207; 1609459208; 1609459209; 1609459210;
    1609459300; 1609459301; 1609459302; 1609459303; 1609459304; 1609459305; 1609459306; 1609459307; 1609459308; 1609459309; 1609459310]%Z /\
  length (metas h) = 4%nat /\ exists row t, nth_error (metas h) 3 = Some row /\ fst row = Some t /\ t == 1609459300 + (489607 # 100) * (1024 # 1000000).
Proof.
  destruct C68_case_hypotheses as (H1 & H2 & H3 & H4 & H5 & H6 & H7). destruct pc_begin as (s1 & Hb & _). destruct (lc_end s1) as (e1 & He & Cs).
  destruct (C69_logs dec_scanner [] true polyfit3 polyfit1 linear 1700000000 (fun _ => None) (fun _ => None) (fun _ => None) (fun _ _ => inr CorruptRaw) (fun _ _ => inr CorruptRaw)
    (b "059") pc_recs pc_recs [lc_notes 0; lc_notes 1] pc_card None 1 360000 (Some 160945920550) ex_t2 s1 e1 H1 H2 H3 H4 H5 H6 H7 lc_all_noted ltac:(reflexivity) ltac:(lia) pc_late Hb He Cs)
    as (parts & T & n & h & Pa & St & Run & (first & later & kept & En & Lf & _ & Se & Gp) & Me).
  exists n, h. split; [exact Run|]. apply lc_parts in Pa. clear - Pa St Lf En Se Gp Me. cbn [starts_at] in St. subst T. rewrite Pa in Lf.
  destruct first as [|n1 [|n2 [|]]]; try discriminate. injection En as <- <- <-. cbn [flat_map] in Gp. rewrite app_nil_r in Gp. split.
  - rewrite (row_times _ _ Gp). apply selected_times in Se. rewrite Se. vm_compute. reflexivity.
  - unfold pc_recs in Me. cbn [combine flat_map fst snd lc_notes lc_healths map app] in Me.
    inversion Me as [|? m1 ? ? _ Me1]; subst. inversion Me1 as [|? m2 ? ? _ Me2]; subst. inversion Me2 as [|? m3 ? ? _ Me3]; subst. inversion Me3 as [|? m4 ? ? M4 Me4]; subst. inversion Me4; subst.
    split; [reflexivity|]. unfold health_row in M4. destruct M4 as [_ M4]. destruct lc_sample_ends as [B F].
    destruct (M4 0 10760 B F) as (t & Et & Ec); [split; discriminate|]. exists m4, t. split; [reflexivity|]. split; [exact Et|]. rewrite Ec. vm_compute. reflexivity.
Qed.

(** Values from the given time to the end of the first recording, and none before. *)
Example C70_case : exists n h, (forall fuel, (n <= fuel)%nat -> lc_convert fuel = inr (h, Returns [])) /\
  (forall k v, (k < 160945920550)%Z -> ~ sample (written h) k v) /\
  (forall k, (160945920550 <= k <= 160945921099)%Z -> exists x, sample (written h) k x).
Proof.
  destruct C68_case_hypotheses as (H1 & H2 & H3 & H4 & H5 & H6 & H7). destruct pc_begin as (s1 & Hb & _). destruct (lc_end s1) as (e1 & He & Cs).
  destruct (C70_archive_from_a_time dec_scanner [] true polyfit3 polyfit1 linear 1700000000 (fun _ => None) (fun _ => None) (fun _ => None) (fun _ _ => inr CorruptRaw) (fun _ _ => inr CorruptRaw)
    (b "059") pc_recs pc_recs pc_card None 1 360000 (Some 160945920550) ex_t2 s1 e1 H1 H2 H3 H4 H5 H6 H7 ltac:(reflexivity) ltac:(lia) pc_late Hb He Cs)
    as (parts & T & n & h & Pa & St & Run & _ & _ & Lo & Cov & _).
  exists n, h. split; [exact Run|]. apply pc_one_block in Pa. destruct pc_piece_1 as (W0 & s0 & e0 & B0 & F0 & S0 & E0).
  pose proof (fun k => Cov pc_recs _ _ _ s0 e0 k Pa pc_first W0 B0 F0) as C0. clear - C0 St Lo S0 E0. cbn [starts_at] in St. subst T. split.
  - intros k v Hk Sk. apply Lo in Sk. change 160945920550 with (inject_Z 160945920550) in Sk. rewrite <- Zle_Qle in Sk. lia.
  - intros k Hk. apply (fun A B => proj1 (C0 k A B)).
    + apply (pc_both s0 e0 k _ _ _ _ Hk S0 E0); apply Qle_bool_iff; vm_compute; reflexivity.
    + change 160945920550 with (inject_Z 160945920550). rewrite <- Zle_Qle. exact (proj1 Hk).
Qed.

Print Assumptions C69_logs.
Print Assumptions C70_archive_from_a_time.
