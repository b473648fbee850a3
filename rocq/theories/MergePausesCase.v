(** A case for C67_pauses: five recordings, of which the first and the third have no GPS data; the logger was switched off before the last. *)
From Coq Require Import String.
From Coq Require Import ZArith QArith Qabs Qround List Bool Lia Lqa.
From Verif Require Import Base Lib UnwrapSpec UnwrapProofs Scan Parser ParserSpec ParserProps Process ReadSeveral Drift DriftSpec
  Segments SegmentsSpec Interp InterpSpec InterpProofs InterpProps Stream StreamSpec Convert ConvertSpec ConvertProps GemCat GemCatSpec Select SelectSpec SelectProofs Cli CliSpec CliProofs
  Header HeaderSpec HeaderProofs Block BlockSpec BlockProps RecordingSpec RecordingProofs RecordingTotal RecordingProps RecordingWhole RecordingCase Polyfit PolyfitProps Card CardSpec CardProofs CardProps CardCase
  PausesSpec PausesProps PausesCase Merge MergeSpec MergeProofs MergeProps MergeCase MergePausesSpec MergePauses.
Import ListNotations.
Open Scope Q_scope.

(** [n] times 49 samples from the [a]-th on, 20 counts of 1.024 ms apart and, if [g], with a fix every second.  The clock is that of the first ([h] = 0) or
    the second ([h] = 1) time that the logger was switched on. *)
Definition mp_events (h : Z) (g : bool) (a : Z) (n : nat) : list RecordingSpec.event :=
  flat_map (fun j => pc_sample (49 * j) :: (if (j =? a)%Z then [Health (inject_Z (980 * j))] else []) ++
                     (if g then [pc_fix h j] else []) ++ map pc_sample (rc_range (49 * j + 1) 48)) (rc_range a n).
Definition mp_M (a : Z) : ParserSpec.record := match mc_M 0 with Full_M (_ :: fs) x => Full_M (FDec (dlit (980 * a mod 8192) None) :: fs) x | r => r end.
Definition mp_body (h : Z) (g : bool) (a : Z) (n : nat) : list ParserSpec.record :=
  tl (flat_map (fun j => pc_letters (49 * j) :: (if (j =? a)%Z then [mp_M j] else []) ++
                     (if g then [pc_G h j] else []) ++ map pc_letters (rc_range (49 * j + 1) 48)) (rc_range a n)).
Definition mp_raw (h : Z) (g : bool) (a : Z) (n : nat) : raw :=
  GemCatSpec.mkraw (map Other mc_lines) (dlit (20 * (49 * a) mod 8192) None) (lit ((49 * a) mod 7 - 3)) (mp_body h g a n) [10%Z].
Definition mp_recording (i h : Z) (g : bool) (a : Z) (n : nat) : recording := mkrecording i (pc_clock h) (mp_events h g a n) (content (mp_raw h g a n)).

Definition mp_0 : recording := mp_recording 3 0 false 0 2.
Definition mp_1 : recording := mp_recording 4 0 true 0 11.
Definition mp_2 : recording := mp_recording 5 0 false 11 4.
Definition mp_3 : recording := mp_recording 7 0 true 15 2.
Definition mp_4 : recording := mp_recording 8 1 true 0 11.
Definition mp_recs : list recording := [mp_0; mp_1; mp_2; mp_3; mp_4].
Definition mp_groups : list (list recording) := [[mp_1; mp_2; mp_3]; [mp_4]].
Definition mp_card : card :=
  [(b "FILE0004.059", r_bytes mp_1); (b "FILE0000.060", b "D1,2"); (b "FILE0008.059", r_bytes mp_4); (b "FILE0003.059", r_bytes mp_0);
   (b "FILE0005.059", r_bytes mp_2); (b "FILE0007.059", r_bytes mp_3)].

Lemma mp_split h g a n ls ls' : mc_lines = ls ++ ls' -> content (mp_raw h g a n) = lines_text (map (fun l => (l, [10%Z])) ls) ++ text [10%Z] (map Other ls' ++ skipn 6 (lines_of (mp_raw h g a n))).
Proof.
  intros E. unfold content. cbn [mp_raw eol]. assert (X : lines_of (mp_raw h g a n) = map Other ls ++ map Other ls' ++ skipn 6 (lines_of (mp_raw h g a n))).
  { rewrite app_assoc, <- map_app, <- E. reflexivity. }
  rewrite X at 1. unfold text, lines_text. rewrite map_app, concat_app. f_equal. rewrite !map_map. reflexivity.
Qed.
Lemma mp_headed h g a n : headed (b "059") (content (mp_raw h g a n)).
Proof.
  exists (b "0.9"), [10%Z], (b "#DmsSamp,ADC", [10%Z]), (b "#G,msPPS,msLag,yr,mo,day,hr,min,sec,lat,lon", [10%Z]), [(b "#M,ms,batt(V),temp(C)", [10%Z])], (b "S,059", [10%Z]).
  eexists. split; [exact (mp_split h g a n (firstn 5 mc_lines) [b "C,1,15,20,1,0,0"] eq_refl)|]. split; [|split; [right; left; reflexivity|split]].
  - pose proof mc_ok as H. change (map (fun l => (l, [10%Z])) mc_lines) with (map (fun l => (l, [10%Z])) (firstn 5 mc_lines) ++ [(b "C,1,15,20,1,0,0", [10%Z])]) in H.
    apply Forall_app in H. exact (proj1 H).
  - constructor; [right; eexists; reflexivity|constructor].
  - exists []. split; [reflexivity|]. split; [cbn; intuition discriminate|]. split; [cbn; intuition discriminate|left; reflexivity].
Qed.
Lemma mp_gained h g a n : gained (content (mp_raw h g a n)).
Proof.
  left. exists (b "#GemCSV0.9", [10%Z]), (map (fun l => (l, [10%Z])) (firstn 4 (skipn 1 mc_lines))), (b "C,1,15,20,1,0,0", [10%Z]), (mkconf 1 15 20 1 0 0). eexists.
  split; [exact (mp_split h g a n mc_lines [] eq_refl)|]. split; [exact mc_ok|]. split; [cbn; lia|]. split; [|split; [|right; reflexivity]].
  - apply Forall_forall. intros p Hp. rewrite mentions_C_iff. cbn in Hp. repeat (destruct Hp as [<-|Hp]; [vm_compute; intuition discriminate|]). destruct Hp.
  - exists (b "1"), (b "15"), (b "20"), (b "1"), (b "0"), (b "0"). split; [reflexivity|]. split; [|repeat split; apply int_of_iff; vm_compute; reflexivity].
    intros s Hs. cbn in Hs. repeat (destruct Hs as [<-|Hs]; [cbn; intuition discriminate|]). destruct Hs.
Qed.

(** What is checked of each file by computation. *)
Definition mp_check (h : Z) (g : bool) (a : Z) (n : nat) : bool :=
  forallb loggedb (lines_of (mp_raw h g a n)) && existsb is_M (mp_body h g a n) &&
  forallb (fun z => (- 2 ^ 30 <=? z) && (z <? 2 ^ 30))%Z (readings 0 (lines_of (mp_raw h g a n))) &&
  writesb None (mp_events h g a n) (skipn 6 (lines_of (mp_raw h g a n)) ++ [Other []]) && forallb sound_lineb (lines_of (mp_raw h g a n)) && (line_count [mp_raw h g a n] <=? 65519999)%Z.
Lemma mp_sound_lines i h g a n : mp_check h g a n = true -> sound_lines (mp_recording i h g a n).
Proof.
  unfold mp_check. rewrite !andb_true_iff. intros (((((A & B) & C) & D) & S) & E). exists (mp_raw h g a n). split; [reflexivity|].
  split; [|split; [|split; [|split]]].
  - split; [left; reflexivity|]. split; [|split; [|split; [exact B|]]].
    + cbn [mp_raw hdr]. apply Forall_map. apply Forall_forall. intros l Hl.
      assert (X : forallb (fun l : bytes => match l with c :: _ => negb (c =? 32)%Z | [] => false end) mc_lines = true) by reflexivity.
      rewrite forallb_forall in X. apply X in Hl. exists l. split; [reflexivity|]. destruct l as [|c l]; [discriminate|]. exists c. split; [left; reflexivity|]. intros ->. discriminate.
    + apply Forall_forall. intros r Hr. rewrite forallb_forall in A. apply loggedb_ok. auto.
    + apply Forall_forall. intros z Hz. rewrite forallb_forall in C. apply C in Hz. apply andb_true_iff in Hz as [H1 H2]. apply Z.leb_le in H1. apply Z.ltb_lt in H2. split; assumption.
  - apply writesb_ok' in D. cbn [mp_recording r_events].
    change (lines_of (mp_raw h g a n)) with (map Other mc_lines ++ skipn 6 (lines_of (mp_raw h g a n))). cbn [map mc_lines app]. repeat apply w_other. exact D.
  - apply Z.leb_le. exact E.
  - intros (rest & X). cbn [mp_recording r_bytes] in X. rewrite (mp_split h g a n mc_lines [] eq_refl) in X. apply (f_equal (firstn 11)) in X.
    change (firstn 11 (lines_text (map (fun l => (l, [10%Z])) mc_lines) ++ text [10%Z] (map Other [] ++ skipn 6 (lines_of (mp_raw h g a n))))) with (b "#GemCSV0.9" ++ [10%Z]) in X. vm_compute in X. discriminate X.
  - apply Forall_forall. intros r Hr. rewrite forallb_forall in S. apply sound_lineb_ok. auto.
Qed.
Lemma sound_in_lines r : sound_lines r -> in_lines r.
Proof. intros (f & A & B & C & D & E & _). exists f. auto. Qed.
Lemma mp_sound : Forall sound_lines mp_recs.
Proof.
  apply Forall_cons; [exact (mp_sound_lines 3 0 false 0 2 ltac:(vm_compute; reflexivity))|]. apply Forall_cons; [exact (mp_sound_lines 4 0 true 0 11 ltac:(vm_compute; reflexivity))|].
  apply Forall_cons; [exact (mp_sound_lines 5 0 false 11 4 ltac:(vm_compute; reflexivity))|]. apply Forall_cons; [exact (mp_sound_lines 7 0 true 15 2 ltac:(vm_compute; reflexivity))|].
  apply Forall_cons; [exact (mp_sound_lines 8 1 true 0 11 ltac:(vm_compute; reflexivity))|]. apply Forall_nil.
Qed.
Lemma mp_names : map fst mp_card = map b ["FILE0004.059"; "FILE0000.060"; "FILE0008.059"; "FILE0003.059"; "FILE0005.059"; "FILE0007.059"]%string.
Proof. reflexivity. Qed.
Lemma mp_folder : raw_folder (b "059") (b "059") mp_recs mp_card.
Proof.
  split; [|split; [|split; [|split]]].
  - rewrite mp_names. repeat constructor; cbn; intuition discriminate.
  - cbn [mp_recs map r_number mp_recording mp_0 mp_1 mp_2 mp_3 mp_4 chain]. lia.
  - apply Forall_forall. intros r Hr. pose proof mp_sound as S. rewrite Forall_forall in S. pose proof (sound_in_lines r (S r Hr)) as L.
    destruct Hr as [<-|[<-|[<-|[<-|[<-|[]]]]]]; (split; [apply mp_headed|]; split; [apply mp_gained|exact L]).
  - intros r [<-|[<-|[<-|[<-|[<-|[]]]]]].
    + exists (b "FILE0003.059"). split; [split; [cbn; lia|split; reflexivity]|right; right; right; left; reflexivity].
    + exists (b "FILE0004.059"). split; [split; [cbn; lia|split; reflexivity]|left; reflexivity].
    + exists (b "FILE0005.059"). split; [split; [cbn; lia|split; reflexivity]|do 4 right; left; reflexivity].
    + exists (b "FILE0007.059"). split; [split; [cbn; lia|split; reflexivity]|do 5 right; left; reflexivity].
    + exists (b "FILE0008.059"). split; [split; [cbn; lia|split; reflexivity]|right; right; left; reflexivity].
  - intros name bs Hi M. apply cat_match_iff in M. destruct Hi as [Hi|[Hi|[Hi|[Hi|[Hi|[Hi|[]]]]]]]; injection Hi as <- <-.
    + exists mp_1. split; [right; left; reflexivity|]. split; [split; [cbn; lia|split; reflexivity]|reflexivity].
    + vm_compute in M. discriminate M.
    + exists mp_4. split; [do 4 right; left; reflexivity|]. split; [split; [cbn; lia|split; reflexivity]|reflexivity].
    + exists mp_0. split; [left; reflexivity|]. split; [split; [cbn; lia|split; reflexivity]|reflexivity].
    + exists mp_2. split; [right; right; left; reflexivity|]. split; [split; [cbn; lia|split; reflexivity]|reflexivity].
    + exists mp_3. split; [right; right; right; left; reflexivity|]. split; [split; [cbn; lia|split; reflexivity]|reflexivity].
Qed.
Lemma mp_heard : heard mp_0 = false /\ heard mp_1 = true /\ heard mp_2 = false /\ heard mp_3 = true /\ heard mp_4 = true.
Proof. repeat split; vm_compute; reflexivity. Qed.
Lemma mp_grouping : grouping heard mp_recs mp_groups.
Proof.
  pose proof mp_heard as (H0 & H1 & H2 & H3 & H4).
  exists [mp_0]. split; [reflexivity|]. split; [repeat constructor; exact H0|]. split; [|split; [|split]].
  - constructor; [exists mp_1, [mp_2; mp_3]; auto|]. constructor; [exists mp_4, []; auto|constructor].
  - constructor; [|constructor; [exact I|constructor]]. cbn [alternating]. rewrite H1, H2, H3. intuition discriminate.
  - exists [mp_1; mp_2], mp_3. auto.
  - exact I.
Qed.

(** Checks of the events of a group. *)
Definition exactb (h : Z) (evs : list RecordingSpec.event) : bool := forallb (fun p => Qeq_bool (inject_Z (snd p)) (cubic_at (pc_clock h) (fst p))) (fixes_of evs).
Lemma exactb_ok h evs : exactb h evs = true -> exact_fixes (pc_clock h) (fixes_of evs).
Proof. unfold exactb. intros E. rewrite forallb_forall in E. intros c t Hi. apply E in Hi. apply Qeq_bool_iff in Hi. exact Hi. Qed.
Definition clockb (h : Z) (evs : list RecordingSpec.event) : bool :=
  chainb (fun x y => Qltb (-4096) (y - x) && Qltb (y - x) 4096) (map reading evs) &&
  match evs with Sample _ _ :: _ => true | _ => false end &&
  existsb (fun e => match e with Health _ => true | _ => false end) evs &&
  chainb Qltb (map fst (fixes_of evs)) && exactb h evs.
Lemma clockb_ok h evs : clockb h evs = true -> true_clock (pc_clock h) evs.
Proof.
  unfold clockb. rewrite !andb_true_iff. intros ((((A & B) & C) & D) & E). constructor.
  - apply (chainb_chain (fun x y => Qltb (-4096) (y - x) && Qltb (y - x) 4096)); [|exact A].
    intros x y H. apply andb_true_iff in H as [H1 H2]. apply Qltb_lt in H1, H2. split; assumption.
  - destruct evs as [|[c d|c t|c|c] evs]; try discriminate. exists [], c, d, evs. split; [reflexivity|]. split; [reflexivity|exact I].
  - apply existsb_exists in C as (e & He & X). destruct e; try discriminate. eauto.
  - apply (chainb_chain Qltb); [intros x y; apply Qltb_lt|exact D].
  - left. apply exactb_ok. exact E.
Qed.
Definition timelyb (h : Z) (evs : list RecordingSpec.event) : bool :=
  (10 <=? length (fixes_of evs))%nat && chainb (fun x y => Qltb 0 (y - x) && Qle_bool (y - x) 1000) (samples evs) &&
  Qltb ((1024 # 1000000) * (last (samples evs) 0 - hd 0 (samples evs))) (2 * inject_Z (snd (last (fixes_of evs) (0, 0%Z)) - snd (hd (0, 0%Z) (fixes_of evs)))) &&
  exactb h evs && stretchb (map fst (waveform (pc_clock h) 0 evs)) && forallb (fun p => Qle_bool (inject_Z (snd p)) 1700000000) (fixes_of evs) &&
  chainb (fun f g => (snd g - snd f <=? 86400)%Z) (fixes_of evs).
Lemma timelyb_ok h r : r_clock r = pc_clock h -> timelyb h (r_events r) = true -> timely 1700000000 r.
Proof.
  unfold timelyb. rewrite !andb_true_iff. intros Ec ((((((A & B) & C) & D) & E) & F) & G). apply exactb_ok in D. constructor.
  - rewrite Ec. constructor.
    + repeat split; vm_compute; reflexivity || discriminate.
    + apply Nat.leb_le. exact A.
    + apply (chainb_chain (fun x y => Qltb 0 (y - x) && Qle_bool (y - x) 1000)); [|exact B].
      intros x y H. apply andb_true_iff in H as [H1 H2]. apply Qltb_lt in H1. apply Qle_bool_iff in H2. split; assumption.
    + intros a z c t mid c' t' Ba Fz E'. apply begins_hd in Ba. apply finishes_last in Fz. subst a z. apply Qltb_lt in C. rewrite E' in C.
      change ((c, t) :: mid ++ [(c', t')]) with (((c, t) :: mid) ++ [(c', t')]) in C. rewrite last_last in C. exact C.
    + exact (no_others _ _ D).
  - unfold wave. rewrite Ec. exists [map fst (waveform (pc_clock h) 0 (r_events r))]. cbn [concat]. rewrite app_nil_r. split; [reflexivity|]. constructor; [apply stretchb_ok; exact E|constructor].
  - rewrite Ec. cbn [pc_clock c1]. split; lra.
  - rewrite forallb_forall in F. intros c t Hi. apply F in Hi. apply Qle_bool_iff in Hi. exact Hi.
  - apply (chainb_chain (fun f g => (snd g - snd f <=? 86400)%Z)); [intros x y; apply Z.leb_le|exact G].
  - rewrite Ec. intros c t Hi. apply D. rewrite <- (firstn_skipn 2). apply in_or_app. left. exact Hi.
Qed.

Lemma mp_runs : Forall one_run mp_groups.
Proof.
  apply Forall_cons; [|apply Forall_cons; [|apply Forall_nil]]; (split; [repeat constructor|]; split; [|apply Z.leb_le; vm_compute; reflexivity]).
  - apply (clockb_ok 0). vm_compute. reflexivity.
  - apply (clockb_ok 1). vm_compute. reflexivity.
Qed.
Lemma mp_in_turn : groups_in_turn 1700000000 mp_groups.
Proof.
  split; [|split; [|split]].
  - apply Forall_cons; [|apply Forall_cons; [|apply Forall_nil]]; [apply (timelyb_ok 0)|apply (timelyb_ok 1)]; [reflexivity|vm_compute; reflexivity|reflexivity|vm_compute; reflexivity].
  - split; [|exact I]. intros c c' Fc Bc. apply finishes_last in Fc. apply begins_hd in Bc.
    assert (E1 : c = 16640) by (rewrite <- Fc; vm_compute; reflexivity). assert (E2 : c' = 0) by (rewrite <- Bc; vm_compute; reflexivity). subst c c'. clear.
    intros (k & K). assert (Y : inject_Z 16640 == inject_Z (0 + 8192 * k)) by (rewrite inject_Z_plus, inject_Z_mult; exact K).
    unfold Qeq in Y. cbn [Qnum Qden inject_Z] in Y. lia.
  - apply (chainb_chain Z.ltb); [intros x y; apply Z.ltb_lt|vm_compute; reflexivity].
  - apply (chainb_chain Qltb); [intros x y; apply Qltb_lt|vm_compute; reflexivity].
Qed.
Notation mp_record := (record (concat mp_groups)).
Lemma mp_late t x : In (t, x) mp_record -> 1 # 200 <= t /\ t * 100 + day * 1 + inject_Z 360000 + 200 <= ex_t2.
Proof.
  assert (A : forallb (fun t => Qle_bool (1 # 200) t && Qle_bool (t * 100 + day * 1 + inject_Z 360000 + 200) ex_t2) (map fst mp_record) = true) by (vm_compute; reflexivity).
  intros Hi. apply (in_map fst) in Hi. rewrite forallb_forall in A. apply A in Hi. cbn [fst] in Hi. apply andb_true_iff in Hi as [H1 H2]. apply Qle_bool_iff in H1, H2. split; assumption.
Qed.
Lemma mp_gap t x : In (t, x) mp_record -> t <= 1609459217 + (3936 # 100000) \/ 1609459300 <= t.
Proof.
  assert (A : forallb (fun t => Qle_bool t (1609459217 + (3936 # 100000)) || Qle_bool 1609459300 t) (map fst mp_record) = true) by (vm_compute; reflexivity).
  intros Hi. apply (in_map fst) in Hi. rewrite forallb_forall in A. apply A in Hi. cbn [fst] in Hi. apply orb_true_iff in Hi as [H|H]; apply Qle_bool_iff in H; auto.
Qed.
Lemma mp_600 : exists t, t == 1609459212 + (8 # 10) /\ In (t, (-6)%Z) mp_record.
Proof.
  assert (Et : option_map (fun p => (Qred (fst p), snd p)) (nth_error mp_record 625) = Some (Qred (1609459212 + (8 # 10)), (-6)%Z)) by (vm_compute; reflexivity).
  destruct (nth_error mp_record 625) as [[t y]|] eqn:En; [|discriminate]. cbn [option_map fst snd] in Et. injection Et as Et ->. apply nth_error_In in En.
  exists t. split; [rewrite <- (Qred_correct t), Et; reflexivity|exact En].
Qed.
Lemma mp_plain : begins_plainly (concat mp_groups).
Proof.
  assert (A : forallb plainb (map fst mp_record) = true) by (vm_compute; reflexivity). rewrite forallb_forall in A.
  intros t (p & q & E & _) m. apply plainb_ok. apply A. rewrite E. apply in_elt.
Qed.
(** Its pieces without a pause: the first group and the second. *)
Notation mp_part_1 := (record [mp_1; mp_2; mp_3]).
Notation mp_part_2 := (record [mp_4]).
Lemma mp_pieces : mp_record = mp_part_1 ++ mp_part_2.
Proof. unfold record. cbn [concat mp_groups app flat_map]. rewrite !app_nil_r, !app_assoc. reflexivity. Qed.
Lemma mp_piece_1 : chain follows (map fst mp_part_1) /\ exists s e, begins (map fst mp_part_1) s /\ finishes (map fst mp_part_1) e /\ s == 1609459200 /\ e == 1609459217 + (3936 # 100000).
Proof. apply pc_piece. vm_compute. reflexivity. Qed.
Lemma mp_piece_2 : chain follows (map fst mp_part_2) /\ exists s e, begins (map fst mp_part_2) s /\ finishes (map fst mp_part_2) e /\ s == 1609459300 /\ e == 1609459311 + (1824 # 100000).
Proof. apply pc_piece. vm_compute. reflexivity. Qed.
Lemma begins_left (u w : list (Q * Z)) s : begins (map fst u) s -> begins (map fst (u ++ w)) s.
Proof. rewrite map_app. unfold begins. destruct (map fst u); [discriminate|auto]. Qed.
Lemma finishes_right (u w : list (Q * Z)) e : finishes (map fst w) e -> finishes (map fst (u ++ w)) e.
Proof. rewrite map_app. intros (p & ->). exists (map fst u ++ p). rewrite app_assoc. reflexivity. Qed.

(** The hypotheses of [C67_pauses] hold of it, with blocks of a day; and those of [C67_archive] do not. *)
Example C67_pauses_case_hypotheses :
  libraries dec_scanner polyfit3 polyfit1 linear /\ serial_number (b "059") /\ (exists x, b "059" = b "059" ++ x) /\
  raw_folder (b "059") (b "059") mp_recs mp_card /\ Forall sound_lines mp_recs /\ grouping heard mp_recs mp_groups /\ mp_groups <> [] /\ Forall one_run mp_groups /\
  groups_in_turn 1700000000 mp_groups /\ ~ unbroken (map together mp_groups).
Proof.
  destruct C66_case_hypotheses as (H1 & H2 & _).
  split; [exact H1|]. split; [exact H2|]. split; [exists []; reflexivity|]. split; [exact mp_folder|]. split; [exact mp_sound|]. split; [exact mp_grouping|]. split; [discriminate|]. split; [exact mp_runs|].
  split; [exact mp_in_turn|]. intros (_ & _ & _ & D).
  assert (A : forall l, chain (fun t t' => 0 < t' - t /\ t' - t <= 25 # 1000) l -> chainb (fun x y => Qle_bool (y - x) (25 # 1000)) l = true).
  { clear. induction l as [|x l IH]; intros C; [reflexivity|]. destruct l as [|y l]; [reflexivity|]. destruct C as [[_ C1] C2].
    change (Qle_bool (y - x) (25 # 1000) && chainb (fun x y => Qle_bool (y - x) (25 # 1000)) (y :: l) = true). apply andb_true_iff. split; [apply Qle_bool_iff; exact C1|exact (IH C2)]. }
  apply A in D. vm_compute in D. discriminate D.
Qed.

(** What comes out: values at every hundredth of a second of both groups, none in the pause, and a sample of the recording without GPS data. *)
Lemma joined_record groups merged : Forall2 joins groups merged -> record merged = record (concat groups).
Proof.
  intros J. unfold record. induction J as [|g m groups merged (_ & W & _) J IH]; [reflexivity|]. cbn [concat flat_map]. rewrite flat_map_app, W, IH. reflexivity.
Qed.
Lemma mp_after s T k a : (a <= k)%Z -> starts_at s None T -> s == 1609459200 -> (160945920101 <= a)%Z -> T <= inject_Z k.
Proof.
  intros B (_ & _ & H) Es A. assert (X : inject_Z 160945920101 <= inject_Z k) by (rewrite <- Zle_Qle; lia). change (inject_Z 160945920101) with (160945920101 # 1) in X. lra.
Qed.
Lemma mp_inside k : (160945921704 <= k <= 160945929999)%Z -> 1609459217 + (3936 # 100000) - (1 # 200) < inject_Z k * (1 # 100) /\ inject_Z k * (1 # 100) < 1609459300 - (1 # 200).
Proof.
  intros Hk. destruct (grid_between _ _ _ Hk) as [X1 X2]. change (inject_Z 160945921704) with (160945921704 # 1) in X1. change (inject_Z 160945929999) with (160945929999 # 1) in X2. split; lra.
Qed.
Example C67_pauses_case : exists outs n h,
  merge_card dec_scanner [] true (fun _ => None) (fun _ => None) (fun _ _ => inr CorruptRaw) (fun _ _ => inr CorruptRaw) (b "059") false mp_card = (outs, true) /\
  (forall fuel, (n <= fuel)%nat -> convert_card dec_scanner [] true polyfit3 polyfit1 linear 1700000000 (fun _ => None) (fun _ => None) (fun _ => None)
     (fun _ _ => inr CorruptRaw) (fun _ _ => inr CorruptRaw) outs (b "059") None 1 (inject_Z 360000) None ex_t2 fuel = inr (h, Returns [])) /\
  (forall k, (160945920102 <= k <= 160945921701)%Z -> exists x, sample (written h) k x) /\
  (forall k v, (160945921704 <= k <= 160945929999)%Z -> ~ sample (written h) k v) /\
  (forall k, (160945930001 <= k <= 160945931099)%Z -> exists x, sample (written h) k x) /\ sample (written h) 160945921280 (-6).
Proof.
  destruct C67_pauses_case_hypotheses as (H1 & H2 & H3 & H4 & H5 & H6 & H7 & H8 & H9 & _).
  destruct mp_piece_1 as (W0 & s0 & e0 & B0 & F0 & S0 & E0). destruct mp_piece_2 as (W1 & s2 & e2 & B2 & F2 & S2 & E2).
  assert (Hb : begins (map fst mp_record) s0) by (rewrite mp_pieces; apply begins_left; exact B0).
  assert (He : finishes (map fst mp_record) e2) by (rewrite mp_pieces; apply finishes_right; exact F2).
  assert (Le : can_start s0 e2 None) by (cbn [can_start]; rewrite E2, S0; discriminate).
  destruct (C67_pauses dec_scanner [] true polyfit3 polyfit1 linear 1700000000 (fun _ => None) (fun _ => None) (fun _ => None) (fun _ _ => inr CorruptRaw) (fun _ _ => inr CorruptRaw)
    (fun _ _ => inr CorruptRaw) (fun _ _ => inr CorruptRaw) (b "059") (b "059") mp_recs mp_groups mp_card 1 360000 None ex_t2 s0 e2 H1 H2 H3 H4 H5 H6 H7 H8 H9 ltac:(reflexivity) ltac:(lia) mp_late Hb He Le)
    as (outs & merged & parts & T & n & h & Em & Nm & J & Pa & St & Run & _ & _ & _ & Cov & Gap & _).
  exists outs, n, h. split; [exact Em|]. split; [exact Run|]. change (map Z.of_nat (seq 0 (length mp_groups))) with [0; 1]%Z in Nm. apply (mc_one_block _ _ Nm) in Pa.
  pose proof (joined_record _ _ J) as Er.
  assert (Pl : begins_plainly merged) by (pose proof mp_plain as X; unfold begins_plainly in *; rewrite Er; exact X).
  pose proof (fun k => Cov merged [] mp_part_1 mp_part_2 s0 e0 k Pa (eq_trans Er mp_pieces) W0 B0 F0) as C0.
  assert (Er2 : record merged = mp_part_1 ++ mp_part_2 ++ []) by (rewrite app_nil_r; exact (eq_trans Er mp_pieces)).
  pose proof (fun k => Cov merged mp_part_1 mp_part_2 [] s2 e2 k Pa Er2 W1 B2 F2) as C1.
  clear Cov B0 F0 B2 F2 W0 W1 Run Hb He Le H1 H2 H3 H4 H5 H6 H7 H8 H9.
  assert (R0 : forall k, (160945920102 <= k <= 160945921701)%Z -> s0 + (1 # 200) <= inject_Z k * (1 # 100) <= e0 - (25 # 1000)).
  { intros k Hk. apply (pc_both s0 e0 k _ _ _ _ Hk S0 E0); apply Qle_bool_iff; vm_compute; reflexivity. }
  assert (R1 : forall k, (160945930001 <= k <= 160945931099)%Z -> s2 + (1 # 200) <= inject_Z k * (1 # 100) <= e2 - (25 # 1000)).
  { intros k Hk. apply (pc_both s2 e2 k _ _ _ _ Hk S2 E2); apply Qle_bool_iff; vm_compute; reflexivity. }
  split; [|split; [|split]].
  - intros k Hk. exact (proj1 (C0 k (R0 k Hk) (mp_after s0 T k _ (proj1 Hk) St S0 ltac:(discriminate)))).
  - intros k v Hk. destruct (mp_inside k Hk) as [X1 X2]. exact (Gap (1609459217 + (3936 # 100000)) 1609459300 k v mp_gap ltac:(reflexivity) X1 X2).
  - intros k Hk. exact (proj1 (C1 k (R1 k Hk) (mp_after s0 T k _ (proj1 Hk) St S0 ltac:(discriminate)))).
  - assert (Hk : (160945920102 <= 160945921280 <= 160945921701)%Z) by (split; discriminate).
    destruct (C0 160945921280%Z (R0 _ Hk) (mp_after s0 T _ _ (proj1 Hk) St S0 ltac:(discriminate))) as [_ U].
    destruct mp_600 as (t & Et & It). rewrite <- Er in It. apply (U t (-6)%Z Pl It). rewrite Et. reflexivity.
Qed.

Print Assumptions C67_pauses.
