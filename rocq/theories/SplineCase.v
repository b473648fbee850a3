(** A case for [C82_archive]: the card of the logger 059 with two recordings of a steady pressure, in the
    first of which the first of 33 GPS fixes is wrong by ten seconds, a file of the logger 060 and notes. *)
From Coq Require Import String.
From Coq Require Import ZArith QArith Qabs Qround List Bool Lia Lqa.
From Verif Require Import Base Lib UnwrapSpec UnwrapProofs Scan ScanProofs Parser ParserSpec ParserProps Process ReadSeveral Drift DriftSpec
  Segments SegmentsSpec Interp InterpSpec InterpProofs InterpProps Stream StreamSpec Convert ConvertSpec ConvertProps Select SelectSpec SelectProofs Cli CliSpec CliProofs
  Header HeaderSpec HeaderProofs Block BlockSpec BlockProps RecordingSpec RecordingProofs RecordingTotal RecordingProps RecordingWhole RecordingCase Card CardSpec CardProofs CardProps CardCase
  Polyfit PolyfitSpec PolyfitProps Spline SplineCard.
Import ListNotations.
Open Scope Q_scope.

(** As in RecordingCase.v, but the counts do not change after the first sample of a file, which is 17; the first file has 33
    fixes (the second 11), and the first one is ten seconds too early. *)
Definition st_change (n : Z) : Z := if (n mod 1650 =? 0)%Z then 17 else 0.
Definition st_sample (n : Z) : RecordingSpec.event := Sample (inject_Z (20 * n)) (st_change n).
Definition st_said (j : Z) : Z := if (j =? 0)%Z then -10 else j.
Definition st_fix (j : Z) : RecordingSpec.event := Fix (inject_Z (1000 * j) + (893 # 100)) (1609459200 + st_said j).
Definition st_seconds (h : Z) : list Z := rc_range (33 * h) (if (h =? 0)%Z then 33 else 11).
Definition st_events (h : Z) : list RecordingSpec.event :=
  Health (inject_Z (33000 * h)) ::
  flat_map (fun j => st_sample (50 * j) :: st_fix j :: map st_sample (rc_range (50 * j + 1) 49)) (st_seconds h).

Definition st_G (j : Z) : ParserSpec.record :=
  Full_G ([FDec (dlit ((1000 * j + 8) mod 8192) (Some [9; 3]%Z)); FDec (dlit 0 None)] ++
    (if (j =? 0)%Z then [FInt (lit 2020); FInt (lit 12); FInt (lit 31); FInt (lit 23); FInt (lit 59); FDec (dlit 50 None)]
     else [FInt (lit 2021); FInt (lit 1); FInt (lit 1); FInt (lit 0); FInt (lit 0); FDec (dlit j None)]) ++ [FDec (dlit 43 (Some [5%Z])); FDec (dlit 116 None)]) [].
Definition st_M (h : Z) : ParserSpec.record :=
  Full_M [FDec (dlit (33000 * h mod 8192) None); FDec (dlit 3 (Some [3%Z])); FDec (dlit 20 (Some [5%Z])); FDec (dlit 0 None); FDec (dlit 0 None);
          FInt (lit 1); FInt (lit 2); FInt (lit 3); FInt (lit 4); FInt (lit 5); FInt (lit 6); FInt (lit 7)] [].
Definition st_letters (n : Z) : ParserSpec.record := Compact2 10 (st_change n) [].
Definition st_D (n : Z) : ParserSpec.record := Full_D (dlit (20 * n mod 8192) None) (lit (st_change n)) [].
Definition st_records (h : Z) : list ParserSpec.record :=
  st_M h ::
  flat_map (fun j => (if (j =? 33 * h)%Z then st_D (50 * j) else st_letters (50 * j)) :: st_G j :: map st_letters (rc_range (50 * j + 1) 49)) (st_seconds h).

Definition exactb (fs : list (Q * Z)) : bool := forallb (fun p => Qeq_bool (inject_Z (snd p)) (cubic_at rc_clock (fst p))) fs.
Lemma exactb_ok fs : exactb fs = true -> exact_fixes rc_clock fs.
Proof. unfold exactb. rewrite forallb_forall. intros A c t Hi. apply A in Hi. apply Qeq_bool_iff in Hi. exact Hi. Qed.
Lemma st_fixes h : fixes_of (st_events h) = map (fun j => (inject_Z (1000 * j) + (893 # 100), (1609459200 + st_said j)%Z)) (st_seconds h).
Proof.
  unfold st_events. cbn [fixes_of]. induction (st_seconds h) as [|j l IH]; [reflexivity|]. cbn [flat_map app fixes_of map st_sample st_fix]. f_equal. rewrite <- IH.
  generalize (flat_map (fun j => st_sample (50 * j) :: st_fix j :: map st_sample (rc_range (50 * j + 1) 49)) l). intros r. induction (rc_range (50 * j + 1) 49) as [|n m IHm]; [reflexivity|exact IHm].
Qed.
Lemma st_exact : exact_fixes rc_clock (fixes_of (st_events 1)).
Proof. apply exactb_ok. rewrite st_fixes. vm_compute. reflexivity. Qed.
(** The fixes after the false one. *)
Definition st_after : list (Q * Z) := skipn 1 (fixes_of (st_events 0)).
Lemma st_split : fixes_of (st_events 0) = (inject_Z 0 + (893 # 100), 1609459190%Z) :: st_after.
Proof. unfold st_after. rewrite st_fixes. vm_compute. reflexivity. Qed.
Lemma some_eq {A} (x y : A) : Some x = Some y -> x = y.
Proof. intros H. injection H as H. exact H. Qed.
Lemma st_false : one_false rc_clock (fixes_of (st_events 0)).
Proof.
  exists [], (inject_Z 0 + (893 # 100)), 1609459190%Z, st_after. split; [exact st_split|].
  split; [apply exactb_ok; unfold st_after; rewrite st_fixes; vm_compute; reflexivity|]. split; [intros X; vm_compute in X; discriminate X|].
  split; [reflexivity|]. split; [reflexivity|]. split; [rewrite st_fixes, map_length; apply Nat.leb_le; vm_compute; reflexivity|].
  apply (C81_evenly _ (inject_Z 0 + (893 # 100), inject_Z 1609459190)).
  - unfold points_of. rewrite map_length, st_fixes, map_length. apply Nat.leb_le. vm_compute. reflexivity.
  - exists (893 # 100), 1000. split; [reflexivity|]. intros i q E. unfold points_of in E. rewrite st_fixes, map_map in E. unfold st_seconds, rc_range in E. cbn [Z.eqb] in E. rewrite map_map in E.
    rewrite nth_error_map in E. destruct (nth_error (seq 0 33) i) as [m|] eqn:N; [|discriminate]. cbn [option_map] in E. apply some_eq in E. subst q. cbn [fst].
    pose proof (nth_error_Some (seq 0 33) i) as B. rewrite N, seq_length in B. assert (Hi : (i < 33)%nat) by (apply B; discriminate).
    rewrite (nth_error_nth' _ 0%nat) in N by (rewrite seq_length; exact Hi). rewrite seq_nth in N by exact Hi. injection N as <-. cbn [Nat.add]. change (33 * 0)%Z with 0%Z. rewrite Z.add_0_l, inject_Z_mult. ring.
  - unfold points_of. rewrite st_split. left. reflexivity.
Qed.
Lemma st_true h : h = 0%Z \/ h = 1%Z -> true_clock rc_clock (st_events h).
Proof.
  intros Hh. constructor.
  - apply (chainb_chain (fun x y => Qltb (-4096) (y - x) && Qltb (y - x) 4096)).
    + intros x y H. apply andb_true_iff in H as [H1 H2]. apply Qltb_lt in H1, H2. split; assumption.
    + destruct Hh as [->| ->]; vm_compute; reflexivity.
  - exists [Health (inject_Z (33000 * h))], (inject_Z (33000 * h)), 17%Z, (tl (tl (st_events h))).
    split; [destruct Hh as [->| ->]; vm_compute; reflexivity|]. split; [reflexivity|]. split; [apply Qle_refl|exact I].
  - eexists. left. reflexivity.
  - apply (chainb_chain Qltb); [intros x y; apply Qltb_lt|]. destruct Hh as [->| ->]; vm_compute; reflexivity.
  - destruct Hh as [->| ->]; [right; exact st_false|left; exact st_exact].
Qed.

Lemma st_steady h : h = 0%Z \/ h = 1%Z -> steady rc_clock (st_events h).
Proof.
  intros Hh. constructor.
  - repeat split; vm_compute; reflexivity || discriminate.
  - destruct Hh as [->| ->]; apply Nat.leb_le; vm_compute; reflexivity.
  - apply (chainb_chain (fun x y => Qltb 0 (y - x) && Qle_bool (y - x) 25)).
    + intros x y H. apply andb_true_iff in H as [H1 H2]. apply Qltb_lt in H1. apply Qle_bool_iff in H2. split; assumption.
    + destruct Hh as [->| ->]; vm_compute; reflexivity.
  - intros a z c t mid c' t' Ba Fz E. apply begins_hd in Ba. apply finishes_last in Fz. subst a z.
    assert (T : snd (hd (0, 0%Z) (fixes_of (st_events h))) = t) by (rewrite E; reflexivity).
    assert (T' : snd (last (fixes_of (st_events h)) (0, 0%Z)) = t').
    { rewrite E. change ((c, t) :: mid ++ [(c', t')]) with (((c, t) :: mid) ++ [(c', t')]). rewrite last_last. reflexivity. }
    clear E. subst t t'. apply Qltb_lt. destruct Hh as [->| ->]; vm_compute; reflexivity.
  - destruct Hh as [->| ->]; [|exact (no_others _ _ st_exact)]. intros before c t after E W.
    assert (Eb : before = [] /\ after = st_after).
    { rewrite st_split in E. assert (X : exact_fixes rc_clock st_after) by (apply exactb_ok; unfold st_after; rewrite st_fixes; vm_compute; reflexivity).
      clear - E W X. destruct before as [|f' l']; [split; [reflexivity|]; symmetry; exact (f_equal (@tl _) E)|]. exfalso. apply (f_equal (@tl _)) in E. cbn [tl app] in E. apply W, X. rewrite E. apply in_elt. }
    destruct Eb as [-> ->]. intros a z c1 t1 mid c1' t1' Ba Fz Eh. apply begins_hd in Ba. apply finishes_last in Fz. subst a z.
    assert (T : snd (hd (0, 0%Z) ([] ++ st_after)) = t1) by (rewrite Eh; reflexivity).
    assert (T' : snd (last ([] ++ st_after) (0, 0%Z)) = t1').
    { rewrite Eh. change ((c1, t1) :: mid ++ [(c1', t1')]) with (((c1, t1) :: mid) ++ [(c1', t1')]). rewrite last_last. reflexivity. }
    clear Eh E W. subst t1 t1'. apply Qltb_lt. unfold st_after. vm_compute. reflexivity.
Qed.

Lemma st_continues : continues (st_events 0) (st_events 1).
Proof.
  intros l a s Fl Ba Bs. apply finishes_last in Fl. apply begins_hd in Ba. apply begins_hd in Bs. subst l a s.
  repeat split; first [apply Qltb_lt; vm_compute; reflexivity|apply Qle_bool_iff; vm_compute; reflexivity].
Qed.

Definition sd_bytes (h : Z) : bytes := file (map record_text (map Other cc_lines ++ st_records h)) [].
Definition sd_recording (h : Z) : recording := mkrecording h rc_clock (st_events h) (sd_bytes h).
Definition sd_recs : list recording := [sd_recording 0; sd_recording 1].
Definition sd_card : card :=
  [(b "FILE0001.059", sd_bytes 1); (b "FILE0000.060", b "D1,2"); (b "NOTES", b "Slot 4"); (b "FILE0000.059", sd_bytes 0)].

Lemma sd_split h ls ls' : cc_lines = ls ++ ls' -> sd_bytes h = lines_text (map (fun l => (l, [10%Z])) ls) ++ file (map record_text (map Other ls' ++ st_records h)) [].
Proof.
  intros E. unfold sd_bytes, file. rewrite !app_nil_r, E. rewrite !map_app, map_map. cbn [record_text]. rewrite <- app_assoc. rewrite map_map. cbn [record_text]. 
  generalize (map (fun x => x) ls' ++ map record_text (st_records h)) as r. intros r. clear E. induction ls as [|l ls IH]; [reflexivity|].
  cbn [map app]. unfold lines_text in *. cbn [map concat fst snd]. rewrite <- app_assoc, <- IH. cbn [unlines]. rewrite ?app_assoc. reflexivity.
Qed.
Lemma sd_written h : h = 0%Z \/ h = 1%Z -> raw_text (st_events h) (sd_bytes h).
Proof.
  intros Hh. exists (map Other cc_lines ++ st_records h), (Other []). split; [reflexivity|].
  assert (A : forallb (fun r => record_okb r && line_okb (record_text r)) (st_records h) = true) by (destruct Hh as [->| ->]; vm_compute; reflexivity).
  rewrite forallb_forall in A.
  split; [|split; [|split]].
  - rewrite <- app_assoc. apply Forall_app. split; [cbn [map cc_lines]; repeat constructor|]. apply Forall_app. split; [|repeat constructor]. apply Forall_forall. intros r Hr. apply A in Hr. apply andb_true_iff in Hr as [Hr _]. apply record_okb_ok. exact Hr.
  - rewrite <- app_assoc. apply Forall_app. split; [cbn [map cc_lines]; repeat (apply Forall_cons; [apply line_okb_ok; reflexivity|]); constructor|].
    apply Forall_app. split; [|constructor; [|constructor]]. { apply Forall_forall. intros r Hr. apply A in Hr. apply andb_true_iff in Hr as [_ Hr]. apply line_okb_ok. exact Hr. }
    apply line_okb_ok. reflexivity.
  - assert (W : writes None (st_events h) (st_records h ++ [Other []])) by (apply writesb_ok; destruct Hh as [->| ->]; vm_compute; reflexivity).
    rewrite <- app_assoc. cbn [map cc_lines app]. repeat apply w_other. exact W.
  - destruct Hh as [->| ->]; apply Z.leb_le; vm_compute; reflexivity.
Qed.
Lemma sd_headed h : headed (b "059") (sd_bytes h).
Proof.
  exists (b "0.91"), [10%Z], (b "#DmsSamp,ADC", [10%Z]), (b "#G,msPPS,msLag,yr,mo,day,hr,min,sec,lat,lon", [10%Z]), [(b "#M,ms,batt(V),temp(C)", [10%Z])], (b "S,059", [10%Z]).
  exists (file (map record_text (map Other [b "C,1,15,20,1,0,0"] ++ st_records h)) []).
  split; [exact (sd_split h (firstn 5 cc_lines) [b "C,1,15,20,1,0,0"] eq_refl)|]. split; [|split; [right; right; left; reflexivity|split]].
  - pose proof cc_ok as H. change (map (fun l => (l, [10%Z])) cc_lines) with (map (fun l => (l, [10%Z])) (firstn 5 cc_lines) ++ [(b "C,1,15,20,1,0,0", [10%Z])]) in H.
    apply Forall_app in H. exact (proj1 H).
  - constructor; [right; eexists; reflexivity|constructor].
  - exists []. split; [reflexivity|]. split; [cbn; intuition discriminate|]. split; [cbn; intuition discriminate|left; reflexivity].
Qed.
Lemma sd_gained h : gained (sd_bytes h).
Proof.
  left. exists (b "#GemCSV0.91", [10%Z]), (map (fun l => (l, [10%Z])) (firstn 4 (skipn 1 cc_lines))), (b "C,1,15,20,1,0,0", [10%Z]), (mkconf 1 15 20 1 0 0), (file (map record_text (map Other [] ++ st_records h)) []).
  split; [exact (sd_split h cc_lines [] eq_refl)|]. split; [exact cc_ok|]. split; [cbn; lia|]. split; [|split; [|right; reflexivity]].
  - apply Forall_forall. intros p Hp. rewrite mentions_C_iff. cbn in Hp. repeat (destruct Hp as [<-|Hp]; [vm_compute; intuition discriminate|]). destruct Hp.
  - exists (b "1"), (b "15"), (b "20"), (b "1"), (b "0"), (b "0"). split; [reflexivity|]. split; [|repeat split; apply int_of_iff; vm_compute; reflexivity].
    intros s Hs. cbn in Hs. repeat (destruct Hs as [<-|Hs]; [cbn; intuition discriminate|]). destruct Hs.
Qed.
Lemma sd_names : map fst sd_card = [b "FILE0001.059"; b "FILE0000.060"; b "NOTES"; b "FILE0000.059"].
Proof. reflexivity. Qed.
Lemma sd_on_card : card_of (b "059") sd_recs sd_card.
Proof.
  split; [|split; [|split; [|split]]].
  - rewrite sd_names. repeat constructor; cbn; intuition discriminate.
  - cbn [sd_recs map r_number sd_recording chain]. lia.
  - apply Forall_cons; [|apply Forall_cons; [|apply Forall_nil]].
    + split; [exact (sd_headed 0)|]. split; [exact (sd_gained 0)|]. split; [exact (sd_written 0 (or_introl eq_refl))|exact (st_true 0 (or_introl eq_refl))].
    + split; [exact (sd_headed 1)|]. split; [exact (sd_gained 1)|]. split; [exact (sd_written 1 (or_intror eq_refl))|exact (st_true 1 (or_intror eq_refl))].
  - intros r [<-|[<-|[]]].
    + exists (b "FILE0000.059"). split; [split; [cbn; lia|split; reflexivity]|right; right; right; left; reflexivity].
    + exists (b "FILE0001.059"). split; [split; [cbn; lia|split; reflexivity]|left; reflexivity].
  - intros name bs n x Hi Nm Hx.
    assert (Q : forall k y z, named (b "FILE" ++ pad 4 k ++ b "." ++ y) n z -> named (b "FILE" ++ pad 4 k ++ b "." ++ y) k y -> n = k /\ z = y).
    { intros k y z A B. apply raw_name_spec in A, B. rewrite A in B. injection B as -> ->. auto. }
    destruct Hi as [Hi|[Hi|[Hi|[Hi|[]]]]]; injection Hi as <- <-.
    + destruct (Q 1%Z (b "059") x Nm) as [-> ->]; [split; [lia|split; reflexivity]|]. split; [reflexivity|]. exists (sd_recording 1). split; [right; left; reflexivity|auto].
    + exfalso. destruct (Q 0%Z (b "060") x Nm) as [-> ->]; [split; [lia|split; reflexivity]|]. destruct Hx as [Hx|Hx]; vm_compute in Hx; discriminate.
    + exfalso. apply raw_name_spec in Nm. vm_compute in Nm. discriminate.
    + destruct (Q 0%Z (b "059") x Nm) as [-> ->]; [split; [lia|split; reflexivity]|]. split; [reflexivity|]. exists (sd_recording 0). split; [left; reflexivity|auto].
Qed.
Lemma sd_unbroken : unbroken sd_recs.
Proof.
  split; [|split; [|split]].
  - constructor; [|constructor; [|constructor]]; (split; [|intros s e Bs Fe; apply begins_hd in Bs; apply finishes_last in Fe; subst s e; apply Qle_bool_iff; vm_compute; reflexivity]).
    + exact (st_steady 0 (or_introl eq_refl)).
    + exact (st_steady 1 (or_intror eq_refl)).
  - split; [exact st_continues|exact I].
  - apply (chainb_chain Z.ltb); [intros x y; apply Z.ltb_lt|vm_compute; reflexivity].
  - apply (chainb_chain (fun x y => Qltb 0 (y - x) && Qle_bool (y - x) (25 # 1000))).
    + intros x y H. apply andb_true_iff in H as [H1 H2]. apply Qltb_lt in H1. apply Qle_bool_iff in H2. split; assumption.
    + vm_compute. reflexivity.
Qed.

(** The hypotheses of [C82_archive] hold of it, with files of an hour and blocks of two hours (one file), all samples are 17, and one
    fix is false. *)
Example C82_archive_case :
  reads_decimal dec_scanner /\ serial_number (b "059") /\ card_of (b "059") sd_recs sd_card /\
  (forall r, In r sd_recs <-> In r sd_recs /\ asked_for None r) /\ chain Z.lt (map r_number sd_recs) /\ sd_recs <> [] /\ unbroken sd_recs /\
  0 < 1 # 12 /\ (0 < 360000)%Z /\
  (forall t x, In (t, x) (record sd_recs) -> 1 # 200 <= t /\ t * 100 + day * (1 # 12) + inject_Z 360000 + 200 <= ex_t2) /\
  (exists s1, begins (map fst (record sd_recs)) s1) /\ (forall t x, In (t, x) (record sd_recs) -> x = 17%Z) /\ (length (record sd_recs) = 2200)%nat /\
  one_false rc_clock (fixes_of (st_events 0)).
Proof.
  destruct C66_case_hypotheses as ((Sc & _) & Hsn & _ & _ & _ & _ & _ & H1 & H2 & _).
  split; [exact Sc|]. split; [exact Hsn|]. split; [exact sd_on_card|].
  split; [intros r; cbn; tauto|]. split; [cbn [sd_recs map r_number sd_recording chain]; lia|]. split; [discriminate|]. split; [exact sd_unbroken|]. split; [exact H1|]. split; [exact H2|].
  assert (A : forallb (fun w => Qle_bool (1 # 200) (fst w) && Qle_bool (fst w * 100 + day * (1 # 12) + inject_Z 360000 + 200) ex_t2 && (snd w =? 17)%Z) (record sd_recs) = true) by (vm_compute; reflexivity).
  rewrite forallb_forall in A. split.
  - intros t x Hi. apply A in Hi. cbn [fst snd] in Hi. apply andb_true_iff in Hi as [Hi _]. apply andb_true_iff in Hi as [X Y]. split; apply Qle_bool_iff; assumption.
  - split; [exists (hd 0 (map fst (record sd_recs))); apply hd_begins; intros X; vm_compute in X; discriminate X|].
    split; [|split; [vm_compute; reflexivity|exact st_false]]. intros t x Hi. apply A in Hi. apply andb_true_iff in Hi as [_ Hi]. apply Z.eqb_eq in Hi. exact Hi.
Qed.
