(** A case for C68: the card of the logger 059 with two recordings, a file of the logger 060 and notes; the logger was switched off
    for a minute and a half between the recordings, and its counter began anew; twenty samples are missing in the second. *)
From Coq Require Import String.
From Coq Require Import ZArith QArith Qabs Qround List Bool Lia Lqa.
From Verif Require Import Base Lib UnwrapSpec UnwrapProofs Scan Parser ParserSpec ParserProps Process ReadSeveral Drift DriftSpec
  Segments SegmentsSpec Interp InterpSpec InterpProofs InterpProps Stream Convert ConvertSpec ConvertProps Select SelectSpec SelectProofs Cli CliSpec CliProofs
  Header HeaderSpec HeaderProofs Block BlockSpec BlockProps RecordingSpec RecordingProofs RecordingTotal RecordingProps RecordingWhole RecordingCase Polyfit PolyfitProps Card CardSpec CardProofs CardProps CardCase
  PausesSpec PausesProofs PausesBlock PausesWhole PausesProps StreamSpec.
Import ListNotations.
Open Scope Q_scope.

(** 11 s with a sample every 20 counts of 1.024 ms and a GPS fix every second, from 2021-01-01 00:00:00 and from 00:01:40, and two state-of-health
    readings. *)
Definition pc_sample (n : Z) : RecordingSpec.event := Sample (inject_Z (20 * n)) (n mod 7 - 3).
Definition pc_fix (h j : Z) : RecordingSpec.event := Fix ((9765625 * j + 89300) # 10000) (1609459200 + 100 * h + j).
Definition pc_rest (h j : Z) : list Z :=
  if ((h =? 1) && (j =? 7))%Z then rc_range (49 * j + 1) 9 ++ rc_range (49 * j + 30) 19 else rc_range (49 * j + 1) 48.
Definition pc_events (h : Z) : list RecordingSpec.event :=
  Health 0 :: flat_map (fun j => pc_sample (49 * j) :: pc_fix h j :: (if (j =? 5)%Z then [Health 4905] else []) ++ map pc_sample (pc_rest h j)) (rc_range 0 11).
Definition pc_frac (z : Z) : list Z := [z / 1000 mod 10; z / 100 mod 10; z / 10 mod 10; z mod 10]%Z.
Definition pc_G (h j : Z) : ParserSpec.record :=
  Full_G [FDec (dlit ((9765625 * j + 89300) / 10000 mod 8192) (Some (pc_frac (9765625 * j + 89300)))); FDec (dlit 0 None); FInt (lit 2021); FInt (lit 1); FInt (lit 1); FInt (lit 0); FInt (lit h);
          FDec (dlit (40 * h + j) None); FDec (dlit 43 (Some [5%Z])); FDec (dlit 116 None)] [].
Definition pc_letters (n : Z) : ParserSpec.record := Compact2 10 (n mod 7 - 3) [].
Definition pc_D (n : Z) : ParserSpec.record := Full_D (dlit (20 * n mod 8192) None) (lit (n mod 7 - 3)) [].
Definition pc_M : ParserSpec.record := match rc_M 0 with Full_M (_ :: fs) x => Full_M (FDec (dlit 4905 None) :: fs) x | r => r end.
Definition pc_records (h : Z) : list ParserSpec.record :=
  rc_M 0 :: flat_map (fun j => (if (j =? 0)%Z then pc_D (49 * j) else pc_letters (49 * j)) :: pc_G h j :: (if (j =? 5)%Z then [pc_M] else []) ++ map (fun n => if ((h =? 1) && (n =? 373))%Z then pc_D n else pc_letters n) (pc_rest h j)) (rc_range 0 11).
Definition pc_clock (h : Z) : cubic := mkcubic (inject_Z (1609459200 + 100 * h) - (893 # 100) * (1024 # 1000000)) (1024 # 1000000) 0 0.
Definition pc_bytes (h : Z) : bytes := file (map record_text (map Other cc_lines ++ pc_records h)) [].
Definition pc_recording (h : Z) : recording := mkrecording h (pc_clock h) (pc_events h) (pc_bytes h).
Definition pc_recs : list recording := [pc_recording 0; pc_recording 1].
Definition pc_card : card :=
  [(b "FILE0001.059", pc_bytes 1); (b "FILE0000.060", b "D1,2"); (b "NOTES", b "Slot 4"); (b "FILE0000.059", pc_bytes 0)].

Definition sound_lineb (r : ParserSpec.record) : bool :=
  match r with
  | Full_G [_; _; y; _; _; _; _; _; la; lo] _ => Qle_bool 2015 (field_value y) && negb (Qeq_bool (field_value la) 0) && negb (Qeq_bool (field_value lo) 0)
  | Full_G _ _ => false
  | _ => true
  end.
Lemma sound_lineb_ok r : sound_lineb r = true -> sound_line r.
Proof.
  destruct r as [ms a t|[|f0 [|lag [|y [|mo [|d [|hr [|mi [|s [|la [|lo [|]]]]]]]]]]] t|fs t|dev diff t|diff t|l]; cbn [sound_lineb sound_line]; try discriminate; try (intros; exact I).
  intros H t' _. apply andb_true_iff in H as [H H3]. apply andb_true_iff in H as [H1 H2]. apply negb_true_iff in H2, H3. apply Qeq_bool_neq in H2, H3. apply Qle_bool_iff in H1.
  exists lag, y, mo, d, hr, mi, s, la, lo. auto.
Qed.

Lemma pc_exact h : h = 0%Z \/ h = 1%Z -> exact_fixes (pc_clock h) (fixes_of (pc_events h)).
Proof.
  intros Hh. assert (A : forallb (fun p => Qeq_bool (inject_Z (snd p)) (cubic_at (pc_clock h) (fst p))) (fixes_of (pc_events h)) = true) by (destruct Hh as [->| ->]; vm_compute; reflexivity).
  rewrite forallb_forall in A. intros c t Hi. apply A in Hi. apply Qeq_bool_iff in Hi. exact Hi.
Qed.
Lemma pc_true h : h = 0%Z \/ h = 1%Z -> true_clock (pc_clock h) (pc_events h).
Proof.
  intros Hh. constructor.
  - apply (chainb_chain (fun x y => Qltb (-4096) (y - x) && Qltb (y - x) 4096)).
    + intros x y H. apply andb_true_iff in H as [H1 H2]. apply Qltb_lt in H1, H2. split; assumption.
    + destruct Hh as [->| ->]; vm_compute; reflexivity.
  - exists [Health 0], 0, (-3)%Z, (tl (tl (pc_events h))).
    split; [destruct Hh as [->| ->]; vm_compute; reflexivity|]. split; [reflexivity|]. split; [apply Qle_refl|exact I].
  - eexists. left. reflexivity.
  - apply (chainb_chain Qltb); [intros x y; apply Qltb_lt|]. destruct Hh as [->| ->]; vm_compute; reflexivity.
  - left. exact (pc_exact h Hh).
Qed.
Lemma pc_steady h : h = 0%Z \/ h = 1%Z -> steady_within 1000 (pc_clock h) (pc_events h).
Proof.
  intros Hh. constructor.
  - repeat split; vm_compute; reflexivity || discriminate.
  - destruct Hh as [->| ->]; apply Nat.leb_le; vm_compute; reflexivity.
  - apply (chainb_chain (fun x y => Qltb 0 (y - x) && Qle_bool (y - x) 1000)).
    + intros x y H. apply andb_true_iff in H as [H1 H2]. apply Qltb_lt in H1. apply Qle_bool_iff in H2. split; assumption.
    + destruct Hh as [->| ->]; vm_compute; reflexivity.
  - intros a z c t mid c' t' Ba Fz E. apply begins_hd in Ba. apply finishes_last in Fz. subst a z.
    assert (T : snd (hd (0, 0%Z) (fixes_of (pc_events h))) = t) by (rewrite E; reflexivity).
    assert (T' : snd (last (fixes_of (pc_events h)) (0, 0%Z)) = t').
    { rewrite E. change ((c, t) :: mid ++ [(c', t')]) with (((c, t) :: mid) ++ [(c', t')]). rewrite last_last. reflexivity. }
    clear E. subst t t'. apply Qltb_lt. destruct Hh as [->| ->]; vm_compute; reflexivity.
  - exact (no_others _ _ (pc_exact h Hh)).
Qed.

Lemma pc_split h ls ls' : cc_lines = ls ++ ls' -> pc_bytes h = lines_text (map (fun l => (l, [10%Z])) ls) ++ file (map record_text (map Other ls' ++ pc_records h)) [].
Proof.
  intros E. unfold pc_bytes, file. rewrite !app_nil_r, E. rewrite !map_app, map_map. cbn [record_text]. rewrite <- app_assoc. rewrite map_map. cbn [record_text]. 
  generalize (map (fun x => x) ls' ++ map record_text (pc_records h)) as r. intros r. clear E. induction ls as [|l ls IH]; [reflexivity|].
  cbn [map app]. unfold lines_text in *. cbn [map concat fst snd]. rewrite <- app_assoc, <- IH. cbn [unlines]. rewrite ?app_assoc. reflexivity.
Qed.
Lemma pc_lines h : h = 0%Z \/ h = 1%Z -> let rs := (map Other cc_lines ++ pc_records h) ++ [Other []] in
  Forall record_ok rs /\ Forall (fun r => ok_line (record_text r)) rs /\ writes None (pc_events h) rs /\ (Z.of_nat (length (pc_events h)) <= 65520000)%Z /\ Forall sound_line rs.
Proof.
  intros Hh rs. subst rs.
  assert (A : forallb (fun r => record_okb r && line_okb (record_text r) && sound_lineb r) (pc_records h) = true) by (destruct Hh as [->| ->]; vm_compute; reflexivity).
  rewrite forallb_forall in A.
  split; [|split; [|split; [|split]]].
  - rewrite <- app_assoc. apply Forall_app. split; [cbn [map cc_lines]; repeat constructor|]. apply Forall_app. split; [|repeat constructor]. apply Forall_forall. intros r Hr. apply A in Hr. apply andb_true_iff in Hr as [Hr _]. apply andb_true_iff in Hr as [Hr _]. apply record_okb_ok. exact Hr.
  - rewrite <- app_assoc. apply Forall_app. split; [cbn [map cc_lines]; repeat (apply Forall_cons; [apply line_okb_ok; reflexivity|]); constructor|].
    apply Forall_app. split; [|constructor; [|constructor]]. { apply Forall_forall. intros r Hr. apply A in Hr. apply andb_true_iff in Hr as [Hr _]. apply andb_true_iff in Hr as [_ Hr]. apply line_okb_ok. exact Hr. }
    apply line_okb_ok. reflexivity.
  - assert (W : writes None (pc_events h) (pc_records h ++ [Other []])) by (apply writesb_ok; destruct Hh as [->| ->]; vm_compute; reflexivity).
    rewrite <- app_assoc. cbn [map cc_lines app]. repeat apply w_other. exact W.
  - destruct Hh as [->| ->]; apply Z.leb_le; vm_compute; reflexivity.
  - rewrite <- app_assoc. apply Forall_app. split; [cbn [map cc_lines]; repeat constructor|]. apply Forall_app. split; [|repeat constructor].
    apply Forall_forall. intros r Hr. apply A in Hr. apply andb_true_iff in Hr as [_ Hr]. apply sound_lineb_ok. exact Hr.
Qed.
Lemma pc_sound h : h = 0%Z \/ h = 1%Z -> sound_text (pc_events h) (pc_bytes h).
Proof. intros Hh. exists (map Other cc_lines ++ pc_records h), (Other []). split; [reflexivity|]. exact (pc_lines h Hh). Qed.
Lemma pc_written h : h = 0%Z \/ h = 1%Z -> raw_text (pc_events h) (pc_bytes h).
Proof. intros Hh. apply sound_raw. exact (pc_sound h Hh). Qed.
Lemma pc_headed h : headed (b "059") (pc_bytes h).
Proof.
  exists (b "0.91"), [10%Z], (b "#DmsSamp,ADC", [10%Z]), (b "#G,msPPS,msLag,yr,mo,day,hr,min,sec,lat,lon", [10%Z]), [(b "#M,ms,batt(V),temp(C)", [10%Z])], (b "S,059", [10%Z]).
  exists (file (map record_text (map Other [b "C,1,15,20,1,0,0"] ++ pc_records h)) []).
  split; [exact (pc_split h (firstn 5 cc_lines) [b "C,1,15,20,1,0,0"] eq_refl)|]. split; [|split; [right; right; left; reflexivity|split]].
  - pose proof cc_ok as H. change (map (fun l => (l, [10%Z])) cc_lines) with (map (fun l => (l, [10%Z])) (firstn 5 cc_lines) ++ [(b "C,1,15,20,1,0,0", [10%Z])]) in H.
    apply Forall_app in H. exact (proj1 H).
  - constructor; [right; eexists; reflexivity|constructor].
  - exists []. split; [reflexivity|]. split; [cbn; intuition discriminate|]. split; [cbn; intuition discriminate|left; reflexivity].
Qed.
Lemma pc_gained h : gained (pc_bytes h).
Proof.
  left. exists (b "#GemCSV0.91", [10%Z]), (map (fun l => (l, [10%Z])) (firstn 4 (skipn 1 cc_lines))), (b "C,1,15,20,1,0,0", [10%Z]), (mkconf 1 15 20 1 0 0), (file (map record_text (map Other [] ++ pc_records h)) []).
  split; [exact (pc_split h cc_lines [] eq_refl)|]. split; [exact cc_ok|]. split; [cbn; lia|]. split; [|split; [|right; reflexivity]].
  - apply Forall_forall. intros p Hp. rewrite mentions_C_iff. cbn in Hp. repeat (destruct Hp as [<-|Hp]; [vm_compute; intuition discriminate|]). destruct Hp.
  - exists (b "1"), (b "15"), (b "20"), (b "1"), (b "0"), (b "0"). split; [reflexivity|]. split; [|repeat split; apply int_of_iff; vm_compute; reflexivity].
    intros s Hs. cbn in Hs. repeat (destruct Hs as [<-|Hs]; [cbn; intuition discriminate|]). destruct Hs.
Qed.
Lemma pc_names : map fst pc_card = [b "FILE0001.059"; b "FILE0000.060"; b "NOTES"; b "FILE0000.059"].
Proof. reflexivity. Qed.
Lemma pc_on_card : card_of (b "059") pc_recs pc_card.
Proof.
  split; [|split; [|split; [|split]]].
  - rewrite pc_names. repeat constructor; cbn; intuition discriminate.
  - cbn [pc_recs map r_number pc_recording chain]. lia.
  - apply Forall_cons; [|apply Forall_cons; [|apply Forall_nil]].
    + split; [exact (pc_headed 0)|]. split; [exact (pc_gained 0)|]. split; [exact (pc_written 0 (or_introl eq_refl))|exact (pc_true 0 (or_introl eq_refl))].
    + split; [exact (pc_headed 1)|]. split; [exact (pc_gained 1)|]. split; [exact (pc_written 1 (or_intror eq_refl))|exact (pc_true 1 (or_intror eq_refl))].
  - intros r [<-|[<-|[]]].
    + exists (b "FILE0000.059"). split; [split; [cbn; lia|split; reflexivity]|right; right; right; left; reflexivity].
    + exists (b "FILE0001.059"). split; [split; [cbn; lia|split; reflexivity]|left; reflexivity].
  - intros name bs n x Hi Nm Hx.
    assert (Q : forall k y z, named (b "FILE" ++ pad 4 k ++ b "." ++ y) n z -> named (b "FILE" ++ pad 4 k ++ b "." ++ y) k y -> n = k /\ z = y).
    { intros k y z A B. apply raw_name_spec in A, B. rewrite A in B. injection B as -> ->. auto. }
    destruct Hi as [Hi|[Hi|[Hi|[Hi|[]]]]]; injection Hi as <- <-.
    + destruct (Q 1%Z (b "059") x Nm) as [-> ->]; [split; [lia|split; reflexivity]|]. split; [reflexivity|]. exists (pc_recording 1). split; [right; left; reflexivity|auto].
    + exfalso. destruct (Q 0%Z (b "060") x Nm) as [-> ->]; [split; [lia|split; reflexivity]|]. destruct Hx as [Hx|Hx]; vm_compute in Hx; discriminate.
    + exfalso. apply raw_name_spec in Nm. vm_compute in Nm. discriminate.
    + destruct (Q 0%Z (b "059") x Nm) as [-> ->]; [split; [lia|split; reflexivity]|]. split; [reflexivity|]. exists (pc_recording 0). split; [left; reflexivity|auto].
Qed.

Lemma followsb_ok l : chainb (fun x y => Qltb 0 (y - x) && Qle_bool (y - x) (25 # 1000)) l = true -> chain follows l.
Proof.
  apply chainb_chain. intros x y H. apply andb_true_iff in H as [H1 H2]. apply Qltb_lt in H1. apply Qle_bool_iff in H2. split; assumption.
Qed.
Definition stretchb (l : list Q) : bool :=
  match l with [] => false | _ => chainb (fun x y => Qltb 0 (y - x) && Qle_bool (y - x) (25 # 1000)) l && Qle_bool (1 # 10) (last l 0 - hd 0 l) end.
Lemma stretchb_ok l : stretchb l = true -> stretch l.
Proof.
  destruct l as [|x l]; [discriminate|]. unfold stretchb. intros H. apply andb_true_iff in H as [H1 H2]. split; [discriminate|]. split; [apply followsb_ok; exact H1|].
  intros s e Bs Fe. apply begins_hd in Bs. apply finishes_last in Fe. rewrite Bs, Fe in H2. apply Qle_bool_iff. exact H2.
Qed.
Notation pc_times h := (map fst (wave (pc_recording h))).
Lemma cut_stretches l n : stretch (firstn n l) -> stretch (skipn n l) -> in_stretches l.
Proof. intros A B. exists [firstn n l; skipn n l]. cbn [concat]. rewrite app_nil_r, firstn_skipn. split; [reflexivity|]. constructor; [exact A|]. constructor; [exact B|constructor]. Qed.
Lemma pc_stretches h : h = 0%Z \/ h = 1%Z -> in_stretches (pc_times h).
Proof.
  intros Hh. apply (cut_stretches _ 353); apply stretchb_ok; destruct Hh as [->| ->]; vm_compute; reflexivity.
Qed.
Lemma pc_alone h : h = 0%Z \/ h = 1%Z -> usable_alone 1700000000 (pc_recording h).
Proof.
  intros Hh. constructor.
  - exact (pc_steady h Hh).
  - exact (pc_stretches h Hh).
  - cbn [pc_recording r_clock pc_clock c1]. split; lra.
  - exact (pc_sound h Hh).
  - assert (A : forallb (fun p => Qle_bool (inject_Z (snd p)) 1700000000) (fixes_of (pc_events h)) = true) by (destruct Hh as [->| ->]; vm_compute; reflexivity).
    rewrite forallb_forall in A. intros c t Hi. apply A in Hi. apply Qle_bool_iff in Hi. exact Hi.
  - apply (chainb_chain (fun f g => (snd g - snd f <=? 86400)%Z)); [intros x y; apply Z.leb_le|]. destruct Hh as [->| ->]; vm_compute; reflexivity.
  - intros c t Hi. apply (pc_exact h Hh). rewrite <- (firstn_skipn 2). apply in_or_app. left. exact Hi.
Qed.
Lemma pc_apart : apart (pc_events 0) (pc_events 1).
Proof.
  intros c c' Fc Bc. apply finishes_last in Fc. apply begins_hd in Bc.
  assert (E1 : c = 10760) by (rewrite <- Fc; vm_compute; reflexivity). assert (E2 : c' = 0) by (rewrite <- Bc; vm_compute; reflexivity). subst c c'. clear.
  intros (k & K). assert (Y : inject_Z 10760 == inject_Z (0 + 8192 * k)) by (rewrite inject_Z_plus, inject_Z_mult; exact K).
  unfold Qeq in Y. cbn [Qnum Qden inject_Z] in Y. lia.
Qed.
Lemma pc_in_turn : in_turn 1700000000 pc_recs.
Proof.
  split; [|split; [|split]].
  - constructor; [exact (pc_alone 0 (or_introl eq_refl))|]. constructor; [exact (pc_alone 1 (or_intror eq_refl))|constructor].
  - split; [exact pc_apart|exact I].
  - apply (chainb_chain Z.ltb); [intros x y; apply Z.ltb_lt|vm_compute; reflexivity].
  - apply (chainb_chain Qltb); [intros x y; apply Qltb_lt|vm_compute; reflexivity].
Qed.
(** There is a pause in it: it is not a case of C66. *)
Lemma pc_pause : ~ unbroken pc_recs.
Proof.
  intros (_ & _ & _ & D).
  assert (A : forall l, chain (fun t t' => 0 < t' - t /\ t' - t <= 25 # 1000) l -> chainb (fun x y => Qle_bool (y - x) (25 # 1000)) l = true).
  { clear. induction l as [|x l IH]; intros C; [reflexivity|]. destruct l as [|y l]; [reflexivity|]. destruct C as [[_ C1] C2].
    change (Qle_bool (y - x) (25 # 1000) && chainb (fun x y => Qle_bool (y - x) (25 # 1000)) (y :: l) = true). apply andb_true_iff. split; [apply Qle_bool_iff; exact C1|exact (IH C2)]. }
  apply A in D. vm_compute in D. discriminate D.
Qed.
(** Nor is it, if only the second recording is looked at: there is a gap in it. *)
Lemma pc_gap_in_file : ~ chain follows (map fst (wave (pc_recording 1))).
Proof.
  intros D. assert (A : forall l, chain follows l -> chainb (fun x y => Qle_bool (y - x) (25 # 1000)) l = true).
  { clear. induction l as [|x l IH]; intros C; [reflexivity|]. destruct l as [|y l]; [reflexivity|]. destruct C as [[_ C1] C2].
    change (Qle_bool (y - x) (25 # 1000) && chainb (fun x y => Qle_bool (y - x) (25 # 1000)) (y :: l) = true). apply andb_true_iff. split; [apply Qle_bool_iff; exact C1|exact (IH C2)]. }
  apply A in D. vm_compute in D. discriminate D.
Qed.
Lemma pc_start h : h = 0%Z \/ h = 1%Z -> begins (pc_times h) (hd 0 (pc_times h)) /\ hd 0 (pc_times h) == inject_Z (1609459200 + 100 * h).
Proof.
  intros Hh. split; [apply hd_begins; intros X; destruct Hh as [->| ->]; vm_compute in X; discriminate X|]. apply Qeq_bool_iff. destruct Hh as [->| ->]; vm_compute; reflexivity.
Qed.
Lemma pc_end h : h = 0%Z \/ h = 1%Z -> finishes (pc_times h) (last (pc_times h) 0) /\ last (pc_times h) 0 == inject_Z (1609459200 + 100 * h) + (1101824 # 100000).
Proof.
  intros Hh. split; [apply last_finishes; intros X; destruct Hh as [->| ->]; vm_compute in X; discriminate X|]. apply Qeq_bool_iff. destruct Hh as [->| ->]; vm_compute; reflexivity.
Qed.
Lemma pc_late t x : In (t, x) (record pc_recs) -> 1 # 200 <= t /\ t * 100 + day * 1 + inject_Z 360000 + 200 <= ex_t2.
Proof.
  assert (A : forallb (fun t => Qle_bool (1 # 200) t && Qle_bool (t * 100 + day * 1 + inject_Z 360000 + 200) ex_t2) (map fst (record pc_recs)) = true) by (vm_compute; reflexivity).
  intros Hi. apply (in_map fst) in Hi. rewrite forallb_forall in A. apply A in Hi. cbn [fst] in Hi. apply andb_true_iff in Hi as [H1 H2]. apply Qle_bool_iff in H1, H2. split; assumption.
Qed.
Lemma pc_gap t x : In (t, x) (record pc_recs) -> t <= 1609459211 + (1824 # 100000) \/ 1609459300 <= t.
Proof.
  assert (A : forallb (fun t => Qle_bool t (1609459211 + (1824 # 100000)) || Qle_bool 1609459300 t) (map fst (record pc_recs)) = true) by (vm_compute; reflexivity).
  intros Hi. apply (in_map fst) in Hi. rewrite forallb_forall in A. apply A in Hi. cbn [fst] in Hi. apply orb_true_iff in Hi as [H|H]; apply Qle_bool_iff in H; auto.
Qed.
Lemma pc_250 : exists t, t == 1609459305 + (12 # 100) /\ In (t, (-3)%Z) (record pc_recs).
Proof.
  assert (Et : option_map (fun p => (Qred (fst p), snd p)) (nth_error (record pc_recs) (539 + 250)) = Some (Qred (1609459305 + (12 # 100)), (-3)%Z)) by (vm_compute; reflexivity).
  destruct (nth_error (record pc_recs) (539 + 250)) as [[t y]|] eqn:En; [|discriminate]. cbn [option_map fst snd] in Et. injection Et as Et ->. apply nth_error_In in En.
  exists t. split; [rewrite <- (Qred_correct t), Et; reflexivity|exact En].
Qed.
Definition pc_missing_a : Q := 1609459300 + (720896 # 100000).
Definition pc_missing_z : Q := 1609459300 + (763904 # 100000).
Lemma pc_missing t x : In (t, x) (record pc_recs) -> t <= pc_missing_a \/ pc_missing_z <= t.
Proof.
  assert (A : forallb (fun t => Qle_bool t pc_missing_a || Qle_bool pc_missing_z t) (map fst (record pc_recs)) = true) by (vm_compute; reflexivity).
  intros Hi. apply (in_map fst) in Hi. rewrite forallb_forall in A. apply A in Hi. cbn [fst] in Hi. apply orb_true_iff in Hi as [H|H]; apply Qle_bool_iff in H; auto.
Qed.
Definition plainb (t : Q) : bool := negb (Qnum (t * 200) mod (2 * Zpos (Qden (t * 200))) =? Zpos (Qden (t * 200)))%Z.
Lemma plainb_ok t m : plainb t = true -> ~ t * 100 == inject_Z m + (1 # 2).
Proof.
  intros H X. assert (Y : t * 200 == inject_Z (2 * m + 1)) by (rewrite inject_Z_plus, inject_Z_mult; change (inject_Z 2) with 2; change (inject_Z 1) with 1; lra).
  unfold plainb in H. destruct (t * 200) as [n d]. unfold Qeq in Y. cbn [Qnum Qden inject_Z] in *. apply negb_true_iff, Z.eqb_neq in H. apply H.
  rewrite Z.mul_1_r in Y. rewrite Y. replace ((2 * m + 1) * Zpos d)%Z with (Zpos d + m * (2 * Zpos d))%Z by ring. rewrite Z_mod_plus_full. apply Z.mod_small. lia.
Qed.
Lemma pc_plain : begins_plainly pc_recs.
Proof.
  assert (A : forallb plainb (map fst (record pc_recs)) = true) by (vm_compute; reflexivity). rewrite forallb_forall in A.
  intros t (p & q & E & _) m. apply plainb_ok. apply A. rewrite E. apply in_elt.
Qed.
Lemma pc_one_block parts : in_blocks (12 * 1) pc_recs parts -> In pc_recs parts.
Proof.
  intros [E B]. destruct parts as [|p ps]; [discriminate|]. left.
  assert (X : concat ps = []).
  { destruct (concat ps) as [|r l] eqn:Ec; [reflexivity|exfalso]. assert (Hr : In r (concat ps)) by (rewrite Ec; left; reflexivity).
    apply in_concat in Hr as (q & Hq & Hr). destruct (In_nth_error _ _ Hq) as (i & Hi). destruct (B (Datatypes.S i) q r (pc_recording 0) Hi Hr eq_refl) as [B1 _].
    assert (Hc : In r pc_recs) by (rewrite <- E; cbn [concat]; apply in_or_app; right; apply in_concat; eauto).
    assert (N : (r_number r - r_number (pc_recording 0) <= 1)%Z) by (destruct Hc as [<-|[<-|[]]]; cbn [r_number pc_recording]; lia).
    rewrite Zle_Qle in N. change (inject_Z 1) with 1 in N.
    assert (I1 : 1 <= inject_Z (Z.of_nat (Datatypes.S i))) by (change 1 with (inject_Z 1); rewrite <- Zle_Qle; lia). lra. }
  cbn [concat] in E. rewrite X, app_nil_r in E. exact E.
Qed.
Lemma pc_begins : begins (map fst (record pc_recs)) (hd 0 (pc_times 0)).
Proof.
  change (record pc_recs) with (wave (pc_recording 0) ++ record [pc_recording 1]). rewrite map_app. destruct (pc_start 0 (or_introl eq_refl)) as [Bs _]. unfold begins in *.
  destruct (pc_times 0); [discriminate Bs|exact Bs].
Qed.

Lemma grid_between a z k : (a <= k <= z)%Z -> inject_Z a <= inject_Z k /\ inject_Z k <= inject_Z z.
Proof. intros H. rewrite <- !Zle_Qle. lia. Qed.
(** Its pieces without a pause: the first recording, and the second up to and from the missing samples. *)
Lemma two_waves r r' : record [r; r'] = [] ++ wave r ++ wave r'.
Proof. unfold record. cbn [flat_map]. rewrite app_nil_r. reflexivity. Qed.
Lemma cut_second (l u w : list (Q * Z)) n : l = [] ++ u ++ w -> l = u ++ firstn n w ++ skipn n w.
Proof. rewrite firstn_skipn. auto. Qed.
Lemma cut_third (l u w : list (Q * Z)) n : l = [] ++ u ++ w -> l = (u ++ firstn n w) ++ skipn n w ++ [].
Proof. rewrite app_nil_r, <- app_assoc, firstn_skipn. auto. Qed.
Lemma pc_first : record pc_recs = [] ++ wave (pc_recording 0) ++ wave (pc_recording 1).
Proof. exact (two_waves (pc_recording 0) (pc_recording 1)). Qed.
Lemma pc_second : record pc_recs = wave (pc_recording 0) ++ firstn 353 (wave (pc_recording 1)) ++ skipn 353 (wave (pc_recording 1)).
Proof. exact (cut_second _ _ _ 353 pc_first). Qed.
Lemma pc_third : record pc_recs = (wave (pc_recording 0) ++ firstn 353 (wave (pc_recording 1))) ++ skipn 353 (wave (pc_recording 1)) ++ [].
Proof. exact (cut_third _ _ _ 353 pc_first). Qed.
Lemma pc_piece (w : list (Q * Z)) t u : stretchb (map fst w) && Qeq_bool (hd 0 (map fst w)) t && Qeq_bool (last (map fst w) 0) u = true ->
  chain follows (map fst w) /\ exists s e, begins (map fst w) s /\ finishes (map fst w) e /\ s == t /\ e == u.
Proof.
  intros H. apply andb_true_iff in H as [H H3]. apply andb_true_iff in H as [H1 H2]. apply stretchb_ok in H1 as (N & C & _). split; [exact C|].
  exists (hd 0 (map fst w)), (last (map fst w) 0). split; [apply hd_begins; exact N|]. split; [apply last_finishes; exact N|]. split; apply Qeq_bool_iff; assumption.
Qed.
Lemma pc_piece_1 : chain follows (pc_times 0) /\ exists s e, begins (pc_times 0) s /\ finishes (pc_times 0) e /\ s == 1609459200 /\ e == 1609459211 + (1824 # 100000).
Proof. apply pc_piece. vm_compute. reflexivity. Qed.
Notation pc_part_2 := (firstn 353 (wave (pc_recording 1))).
Notation pc_part_3 := (skipn 353 (wave (pc_recording 1))).
Lemma pc_piece_2 : chain follows (map fst pc_part_2) /\ exists s e, begins (map fst pc_part_2) s /\ finishes (map fst pc_part_2) e /\ s == 1609459300 /\ e == pc_missing_a.
Proof. apply pc_piece. vm_compute. reflexivity. Qed.
Lemma pc_piece_3 : chain follows (map fst pc_part_3) /\ exists s e, begins (map fst pc_part_3) s /\ finishes (map fst pc_part_3) e /\ s == pc_missing_z /\ e == 1609459311 + (1824 # 100000).
Proof. apply pc_piece. vm_compute. reflexivity. Qed.

(** The hypotheses of [C68_archive_with_pauses] hold of it. *)
Example C68_case_hypotheses :
  libraries dec_scanner polyfit3 polyfit1 linear /\ serial_number (b "059") /\ card_of (b "059") pc_recs pc_card /\
  (forall r, In r pc_recs <-> In r pc_recs /\ asked_for None r) /\ chain Z.lt (map r_number pc_recs) /\ pc_recs <> [] /\ in_turn 1700000000 pc_recs.
Proof.
  destruct C66_case_hypotheses as (L & S9 & _).
  split; [exact L|]. split; [exact S9|]. split; [exact pc_on_card|]. split; [intros r; cbn; tauto|]. split; [cbn [pc_recs map r_number pc_recording chain]; lia|]. split; [discriminate|exact pc_in_turn].
Qed.
(** What comes out: values at every hundredth of a second of both recordings, none in the pause, and a recorded sample of the second. *)
Lemma pc_begin : exists s, begins (map fst (record pc_recs)) s /\ s == 1609459200.
Proof. exists (hd 0 (pc_times 0)). split; [exact pc_begins|exact (proj2 (pc_start 0 (or_introl eq_refl)))]. Qed.
Lemma pc_finish : exists e, finishes (map fst (record pc_recs)) e /\ e == 1609459311 + (1824 # 100000).
Proof.
  destruct (pc_end 1 (or_intror eq_refl)) as [(p & Fe) Ee]. eexists. split.
  - change (record pc_recs) with (wave (pc_recording 0) ++ wave (pc_recording 1) ++ []). rewrite app_nil_r, map_app. rewrite Fe. eexists. rewrite app_assoc. reflexivity.
  - rewrite Ee. reflexivity.
Qed.
Lemma pc_both s e k a z (t u : Q) : (a <= k <= z)%Z -> s == t -> e == u -> t + (1 # 200) <= inject_Z a * (1 # 100) -> inject_Z z * (1 # 100) <= u - (25 # 1000) ->
  s + (1 # 200) <= inject_Z k * (1 # 100) <= e - (25 # 1000).
Proof. intros Hk Es Ee A B. destruct (grid_between _ _ _ Hk) as [X1 X2]. split; lra. Qed.
Lemma pc_after s k a : (a <= k)%Z -> s == 1609459200 -> (160945920101 <= a)%Z -> s + (1005 # 1000) <= inject_Z k * (1 # 100).
Proof. intros Hk Es A. assert (X : inject_Z 160945920101 <= inject_Z k) by (rewrite <- Zle_Qle; lia). change (inject_Z 160945920101) with (160945920101 # 1) in X. lra. Qed.
Lemma pc_inside k : (160945921102 <= k <= 160945929999)%Z -> 1609459211 + (1824 # 100000) - (1 # 200) < inject_Z k * (1 # 100) /\ inject_Z k * (1 # 100) < 1609459300 - (1 # 200).
Proof.
  intros Hk. destruct (grid_between _ _ _ Hk) as [X1 X2]. change (inject_Z 160945921102) with (160945921102 # 1) in X1. change (inject_Z 160945929999) with (160945929999 # 1) in X2. split; lra.
Qed.
Lemma pc_inside_2 k : (160945930721 <= k <= 160945930763)%Z -> pc_missing_a - (1 # 200) < inject_Z k * (1 # 100) /\ inject_Z k * (1 # 100) < pc_missing_z - (1 # 200).
Proof.
  intros Hk. destruct (grid_between _ _ _ Hk) as [X1 X2]. change (inject_Z 160945930721) with (160945930721 # 1) in X1. change (inject_Z 160945930763) with (160945930763 # 1) in X2.
  unfold pc_missing_a, pc_missing_z. split; lra.
Qed.
Example C68_case : exists n h,
  (forall fuel, (n <= fuel)%nat -> convert_card dec_scanner [] true polyfit3 polyfit1 linear 1700000000 (fun _ => None) (fun _ => None) (fun _ => None)
     (fun _ _ => inr CorruptRaw) (fun _ _ => inr CorruptRaw) pc_card (b "059") None 1 (inject_Z 360000) None ex_t2 fuel = inr (h, Returns [])) /\
  (forall k, (160945920101 <= k <= 160945921099)%Z -> exists x, sample (written h) k x) /\
  (forall k v, (160945921102 <= k <= 160945929999)%Z -> ~ sample (written h) k v) /\
  (forall k, (160945930001 <= k <= 160945930718)%Z -> exists x, sample (written h) k x) /\
  (forall k v, (160945930721 <= k <= 160945930763)%Z -> ~ sample (written h) k v) /\
  (forall k, (160945930765 <= k <= 160945931099)%Z -> exists x, sample (written h) k x) /\ sample (written h) 160945930512 (-3).
Proof.
  destruct C68_case_hypotheses as (H1 & H2 & H3 & H4 & H5 & H6 & H7). destruct pc_begin as (s1 & Hb & Es1). destruct pc_finish as (e1 & He & Ee1).
  assert (Le : 104 # 100 <= e1 - s1) by (rewrite Ee1, Es1; discriminate).
  destruct (C68_archive_with_pauses dec_scanner [] true polyfit3 polyfit1 linear 1700000000 (fun _ => None) (fun _ => None) (fun _ => None) (fun _ _ => inr CorruptRaw) (fun _ _ => inr CorruptRaw)
    (b "059") pc_recs pc_recs pc_card None 1 360000 ex_t2 s1 e1 H1 H2 H3 H4 H5 H6 H7 ltac:(reflexivity) ltac:(lia) pc_late Hb He Le) as (parts & n & h & Pa & Run & _ & _ & Cov & Gap & _).
  exists n, h. split; [exact Run|]. apply pc_one_block in Pa.
  destruct pc_piece_1 as (W0 & s0 & e0 & B0 & F0 & S0 & E0). destruct pc_piece_2 as (W1 & s2 & e2 & B2 & F2 & S2 & E2). destruct pc_piece_3 as (W3 & s3 & e3 & B3 & F3 & S3 & E3).
  pose proof (fun k => Cov pc_recs _ _ _ s0 e0 k Pa pc_first W0 B0 F0) as C0.
  pose proof (fun k => Cov pc_recs _ _ _ s2 e2 k Pa pc_second W1 B2 F2) as C1.
  pose proof (fun k => Cov pc_recs _ _ _ s3 e3 k Pa pc_third W3 B3 F3) as C3.
  clear Cov B0 F0 B2 F2 B3 F3 W0 W1 W3 Run Hb He Le H1 H2 H3 H4 H5 H6 H7.
  assert (R0 : forall k, (160945920101 <= k <= 160945921099)%Z -> s0 + (1 # 200) <= inject_Z k * (1 # 100) <= e0 - (25 # 1000)).
  { intros k Hk. apply (pc_both s0 e0 k _ _ _ _ Hk S0 E0); apply Qle_bool_iff; vm_compute; reflexivity. }
  assert (R1 : forall k, (160945930001 <= k <= 160945930718)%Z -> s2 + (1 # 200) <= inject_Z k * (1 # 100) <= e2 - (25 # 1000)).
  { intros k Hk. apply (pc_both s2 e2 k _ _ _ _ Hk S2 E2); apply Qle_bool_iff; vm_compute; reflexivity. }
  assert (R3 : forall k, (160945930765 <= k <= 160945931099)%Z -> s3 + (1 # 200) <= inject_Z k * (1 # 100) <= e3 - (25 # 1000)).
  { intros k Hk. apply (pc_both s3 e3 k _ _ _ _ Hk S3 E3); apply Qle_bool_iff; vm_compute; reflexivity. }
  split; [|split; [|split; [|split; [|split]]]].
  - intros k Hk. exact (proj1 (C0 k (R0 k Hk) (pc_after s1 k _ (proj1 Hk) Es1 ltac:(discriminate)))).
  - intros k v Hk. destruct (pc_inside k Hk) as [X1 X2]. exact (Gap (1609459211 + (1824 # 100000)) 1609459300 k v pc_gap ltac:(reflexivity) X1 X2).
  - intros k Hk. exact (proj1 (C1 k (R1 k Hk) (pc_after s1 k _ (proj1 Hk) Es1 ltac:(discriminate)))).
  - intros k v Hk. destruct (pc_inside_2 k Hk) as [X1 X2]. exact (Gap pc_missing_a pc_missing_z k v pc_missing ltac:(reflexivity) X1 X2).
  - intros k Hk. exact (proj1 (C3 k (R3 k Hk) (pc_after s1 k _ (proj1 Hk) Es1 ltac:(discriminate)))).
  - assert (Hk : (160945930001 <= 160945930512 <= 160945930718)%Z) by (split; discriminate).
    destruct (C1 160945930512%Z (R1 _ Hk) (pc_after s1 _ _ (proj1 Hk) Es1 ltac:(discriminate))) as [_ U].
    destruct pc_250 as (t & Et & It). apply (U t (-3)%Z pc_plain It). rewrite Et. reflexivity.
Qed.

Print Assumptions C68_archive_with_pauses.
