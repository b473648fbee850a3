(** A case for C67: five recordings, of which the first and the third have no GPS data. *)
From Coq Require Import String.
From Coq Require Import ZArith QArith Qabs Qround List Bool Lia Lqa.
From Verif Require Import Base Lib UnwrapSpec UnwrapProofs Scan Parser ParserSpec ParserProps Process ReadSeveral Drift DriftSpec
  Segments SegmentsSpec Interp InterpSpec InterpProofs InterpProps Stream StreamSpec Convert ConvertSpec ConvertProps GemCat GemCatSpec Select SelectSpec SelectProofs Cli CliSpec CliProofs
  Header HeaderSpec HeaderProofs Block BlockSpec BlockProps RecordingSpec RecordingProofs RecordingTotal RecordingProps RecordingWhole RecordingCase Polyfit PolyfitProps Card CardSpec CardProofs CardProps CardCase
  Merge MergeSpec MergeProofs MergeProps.
Import ListNotations.
Open Scope Q_scope.

(** [n] seconds from second [a] on: a sample every 20 ms and, if [g], a fix every second. *)
Definition mc_events (g : bool) (a : Z) (n : nat) : list RecordingSpec.event :=
  flat_map (fun j => rc_sample (50 * j) :: (if (j =? a)%Z then [Health (inject_Z (1000 * j))] else []) ++
                     (if g then [rc_fix j] else []) ++ map rc_sample (rc_range (50 * j + 1) 49)) (rc_range a n).
Definition mc_M (a : Z) : ParserSpec.record :=
  Full_M [FDec (dlit (1000 * a mod 8192) None); FDec (dlit 3 (Some [3%Z])); FDec (dlit 20 (Some [5%Z])); FDec (dlit 0 None); FDec (dlit 0 None);
          FInt (lit 1); FInt (lit 2); FInt (lit 3); FInt (lit 4); FInt (lit 5); FInt (lit 6); FInt (lit 7)] [].
Definition mc_body (g : bool) (a : Z) (n : nat) : list ParserSpec.record :=
  tl (flat_map (fun j => rc_letters (50 * j) :: (if (j =? a)%Z then [mc_M j] else []) ++
                     (if g then [rc_G j] else []) ++ map rc_letters (rc_range (50 * j + 1) 49)) (rc_range a n)).
Definition mc_lines : list bytes :=
  [b "#GemCSV0.9"; b "#DmsSamp,ADC"; b "#G,msPPS,msLag,yr,mo,day,hr,min,sec,lat,lon"; b "#M,ms,batt(V),temp(C)"; b "S,059"; b "C,1,15,20,1,0,0"].
Definition mc_raw (g : bool) (a : Z) (n : nat) : raw :=
  GemCatSpec.mkraw (map Other mc_lines) (dlit (20 * (50 * a) mod 8192) None) (lit ((50 * a) mod 7 - 3)) (mc_body g a n) [10%Z].
Definition mc_recording (i : Z) (g : bool) (a : Z) (n : nat) : recording := mkrecording i rc_clock (mc_events g a n) (content (mc_raw g a n)).

Definition mc_0 : recording := mc_recording 3 false 1 2.
Definition mc_1 : recording := mc_recording 4 true 3 11.
Definition mc_2 : recording := mc_recording 5 false 14 4.
Definition mc_3 : recording := mc_recording 7 true 18 2.
Definition mc_4 : recording := mc_recording 8 true 20 11.
Definition mc_recs : list recording := [mc_0; mc_1; mc_2; mc_3; mc_4].
Definition mc_groups : list (list recording) := [[mc_1; mc_2; mc_3]; [mc_4]].
Definition mc_card : card :=
  [(b "FILE0004.059", r_bytes mc_1); (b "FILE0000.060", b "D1,2"); (b "FILE0008.059", r_bytes mc_4); (b "FILE0003.059", r_bytes mc_0);
   (b "FILE0005.059", r_bytes mc_2); (b "FILE0007.059", r_bytes mc_3)].

Definition loggedb (r : ParserSpec.record) : bool :=
  match r with Other l => match line_kind l with None => true | Some _ => false end | _ => record_okb r end && forallb (fun c => negb (c =? 10) && negb (c =? 13))%Z (record_text r) && (length (record_text r) <=? 200)%nat.
Lemma loggedb_ok r : loggedb r = true -> GemCatSpec.logged r.
Proof.
  unfold loggedb. rewrite !andb_true_iff. intros [[A B] C]. rewrite forallb_forall in B. apply Nat.leb_le in C.
  assert (A' : record_ok r) by (destruct r; try (apply record_okb_ok; exact A); cbn [record_ok]; destruct (line_kind l); [discriminate|reflexivity]).
  split; [exact A'|]. split; [|split; [|exact C]]; intros X; apply B in X; discriminate.
Qed.
Lemma writesb_ok' evs p rs : writesb p evs (rs ++ [Other []]) = true -> writes p evs rs.
Proof.
  revert p rs. induction evs as [|e evs IH]; intros p rs H.
  - destruct rs as [|r rs]; [constructor|]. destruct rs as [|? rs]; cbn [app writesb] in H; destruct r; discriminate.
  - destruct e as [c d|c t|c|c]; destruct rs as [|[ms a x|[|f fs] x|[|f fs] x|dev diff x|diff x|l] rs]; cbn [writesb app] in H; try discriminate H.
    + apply andb_true_iff in H as [H H3]. apply andb_true_iff in H as [H1 H2]. apply Z.eqb_eq in H1. subst d. constructor; [apply reducedb_ok; exact H2|auto].
    + apply andb_true_iff in H as [H H3]. destruct p as [p|]; [|discriminate]. apply andb_true_iff in H as [H1 H2]. apply Z.eqb_eq in H1. subst d. constructor; [apply Qeq_bool_iff; exact H2|auto].
    + apply andb_true_iff in H as [H H3]. apply andb_true_iff in H as [H1 H2]. constructor; [apply reducedb_ok; exact H1|apply says_fixb_ok; exact H2|auto].
    + apply andb_true_iff in H as [H H3]. constructor; [apply reducedb_ok; exact H|auto].
Qed.

Lemma mc_split g a n ls ls' : mc_lines = ls ++ ls' -> content (mc_raw g a n) = lines_text (map (fun l => (l, [10%Z])) ls) ++ text [10%Z] (map Other ls' ++ skipn 6 (lines_of (mc_raw g a n))).
Proof.
  intros E. unfold content. cbn [mc_raw eol]. assert (X : lines_of (mc_raw g a n) = map Other ls ++ map Other ls' ++ skipn 6 (lines_of (mc_raw g a n))).
  { rewrite app_assoc, <- map_app, <- E. reflexivity. }
  rewrite X at 1. unfold text, lines_text. rewrite map_app, concat_app. f_equal. rewrite !map_map. reflexivity.
Qed.
Lemma mc_ok : Forall line_ok (map (fun l => (l, [10%Z])) mc_lines).
Proof.
  cbn [map mc_lines]. repeat (apply Forall_cons; [split; [|split; [|split; [repeat constructor; lia|now left]]];
    intros K; simpl in K; repeat (destruct K as [K|K]; [discriminate|]); exact K|]). constructor.
Qed.
Lemma mc_headed g a n : headed (b "059") (content (mc_raw g a n)).
Proof.
  exists (b "0.9"), [10%Z], (b "#DmsSamp,ADC", [10%Z]), (b "#G,msPPS,msLag,yr,mo,day,hr,min,sec,lat,lon", [10%Z]), [(b "#M,ms,batt(V),temp(C)", [10%Z])], (b "S,059", [10%Z]).
  eexists. split; [exact (mc_split g a n (firstn 5 mc_lines) [b "C,1,15,20,1,0,0"] eq_refl)|]. split; [|split; [right; left; reflexivity|split]].
  - pose proof mc_ok as H. change (map (fun l => (l, [10%Z])) mc_lines) with (map (fun l => (l, [10%Z])) (firstn 5 mc_lines) ++ [(b "C,1,15,20,1,0,0", [10%Z])]) in H.
    apply Forall_app in H. exact (proj1 H).
  - constructor; [right; eexists; reflexivity|constructor].
  - exists []. split; [reflexivity|]. split; [cbn; intuition discriminate|]. split; [cbn; intuition discriminate|left; reflexivity].
Qed.
Lemma mc_gained g a n : gained (content (mc_raw g a n)).
Proof.
  left. exists (b "#GemCSV0.9", [10%Z]), (map (fun l => (l, [10%Z])) (firstn 4 (skipn 1 mc_lines))), (b "C,1,15,20,1,0,0", [10%Z]), (mkconf 1 15 20 1 0 0). eexists.
  split; [exact (mc_split g a n mc_lines [] eq_refl)|]. split; [exact mc_ok|]. split; [cbn; lia|]. split; [|split; [|right; reflexivity]].
  - apply Forall_forall. intros p Hp. rewrite mentions_C_iff. cbn in Hp. repeat (destruct Hp as [<-|Hp]; [vm_compute; intuition discriminate|]). destruct Hp.
  - exists (b "1"), (b "15"), (b "20"), (b "1"), (b "0"), (b "0"). split; [reflexivity|]. split; [|repeat split; apply int_of_iff; vm_compute; reflexivity].
    intros s Hs. cbn in Hs. repeat (destruct Hs as [<-|Hs]; [cbn; intuition discriminate|]). destruct Hs.
Qed.

(** What is checked of each file by computation. *)
Definition mc_check (g : bool) (a : Z) (n : nat) : bool :=
  forallb loggedb (lines_of (mc_raw g a n)) && existsb is_M (mc_body g a n) &&
  forallb (fun z => (- 2 ^ 30 <=? z) && (z <? 2 ^ 30))%Z (readings 0 (lines_of (mc_raw g a n))) &&
  writesb None (mc_events g a n) (skipn 6 (lines_of (mc_raw g a n)) ++ [Other []]) && (line_count [mc_raw g a n] <=? 65519999)%Z.
Lemma mc_in_lines i g a n : mc_check g a n = true -> in_lines (mc_recording i g a n).
Proof.
  unfold mc_check. rewrite !andb_true_iff. intros ((((A & B) & C) & D) & E). exists (mc_raw g a n). split; [reflexivity|].
  split; [|split; [|split]].
  - split; [left; reflexivity|]. split; [|split; [|split; [exact B|]]].
    + cbn [mc_raw hdr]. apply Forall_map. apply Forall_forall. intros l Hl.
      assert (X : forallb (fun l : bytes => match l with c :: _ => negb (c =? 32)%Z | [] => false end) mc_lines = true) by reflexivity.
      rewrite forallb_forall in X. apply X in Hl. exists l. split; [reflexivity|]. destruct l as [|c l]; [discriminate|]. exists c. split; [left; reflexivity|]. intros ->. discriminate.
    + apply Forall_forall. intros r Hr. rewrite forallb_forall in A. apply loggedb_ok. auto.
    + apply Forall_forall. intros z Hz. rewrite forallb_forall in C. apply C in Hz. apply andb_true_iff in Hz as [H1 H2]. apply Z.leb_le in H1. apply Z.ltb_lt in H2. split; assumption.
  - apply writesb_ok' in D. cbn [mc_recording r_events].
    change (lines_of (mc_raw g a n)) with (map Other mc_lines ++ skipn 6 (lines_of (mc_raw g a n))). cbn [map mc_lines app]. repeat apply w_other. exact D.
  - apply Z.leb_le. exact E.
  - intros (rest & X). cbn [mc_recording r_bytes] in X. rewrite (mc_split g a n mc_lines [] eq_refl) in X. apply (f_equal (firstn 11)) in X.
    change (firstn 11 (lines_text (map (fun l => (l, [10%Z])) mc_lines) ++ text [10%Z] (map Other [] ++ skipn 6 (lines_of (mc_raw g a n))))) with (b "#GemCSV0.9" ++ [10%Z]) in X. vm_compute in X. discriminate X.
Qed.
Lemma mc_file i g a n : mc_check g a n = true ->
  headed (b "059") (r_bytes (mc_recording i g a n)) /\ gained (r_bytes (mc_recording i g a n)) /\ in_lines (mc_recording i g a n).
Proof. intros H. split; [exact (mc_headed g a n)|]. split; [exact (mc_gained g a n)|exact (mc_in_lines i g a n H)]. Qed.

Lemma mc_names : map fst mc_card = map b ["FILE0004.059"; "FILE0000.060"; "FILE0008.059"; "FILE0003.059"; "FILE0005.059"; "FILE0007.059"]%string.
Proof. reflexivity. Qed.
Lemma mc_folder : raw_folder (b "059") (b "059") mc_recs mc_card.
Proof.
  split; [|split; [|split; [|split]]].
  - rewrite mc_names. repeat constructor; cbn; intuition discriminate.
  - cbn [mc_recs map r_number mc_recording mc_0 mc_1 mc_2 mc_3 mc_4 chain]. lia.
  - apply Forall_cons; [exact (mc_file 3 false 1 2 ltac:(vm_compute; reflexivity))|]. apply Forall_cons; [exact (mc_file 4 true 3 11 ltac:(vm_compute; reflexivity))|].
    apply Forall_cons; [exact (mc_file 5 false 14 4 ltac:(vm_compute; reflexivity))|]. apply Forall_cons; [exact (mc_file 7 true 18 2 ltac:(vm_compute; reflexivity))|].
    apply Forall_cons; [exact (mc_file 8 true 20 11 ltac:(vm_compute; reflexivity))|]. apply Forall_nil.
  - intros r [<-|[<-|[<-|[<-|[<-|[]]]]]].
    + exists (b "FILE0003.059"). split; [split; [cbn; lia|split; reflexivity]|right; right; right; left; reflexivity].
    + exists (b "FILE0004.059"). split; [split; [cbn; lia|split; reflexivity]|left; reflexivity].
    + exists (b "FILE0005.059"). split; [split; [cbn; lia|split; reflexivity]|do 4 right; left; reflexivity].
    + exists (b "FILE0007.059"). split; [split; [cbn; lia|split; reflexivity]|do 5 right; left; reflexivity].
    + exists (b "FILE0008.059"). split; [split; [cbn; lia|split; reflexivity]|right; right; left; reflexivity].
  - intros name bs Hi M. apply cat_match_iff in M. destruct Hi as [Hi|[Hi|[Hi|[Hi|[Hi|[Hi|[]]]]]]]; injection Hi as <- <-.
    + exists mc_1. split; [right; left; reflexivity|]. split; [split; [cbn; lia|split; reflexivity]|reflexivity].
    + vm_compute in M. discriminate M.
    + exists mc_4. split; [do 4 right; left; reflexivity|]. split; [split; [cbn; lia|split; reflexivity]|reflexivity].
    + exists mc_0. split; [left; reflexivity|]. split; [split; [cbn; lia|split; reflexivity]|reflexivity].
    + exists mc_2. split; [right; right; left; reflexivity|]. split; [split; [cbn; lia|split; reflexivity]|reflexivity].
    + exists mc_3. split; [right; right; right; left; reflexivity|]. split; [split; [cbn; lia|split; reflexivity]|reflexivity].
Qed.
Lemma mc_heard : heard mc_0 = false /\ heard mc_1 = true /\ heard mc_2 = false /\ heard mc_3 = true /\ heard mc_4 = true.
Proof. repeat split; vm_compute; reflexivity. Qed.
Lemma mc_grouping : grouping heard mc_recs mc_groups.
Proof.
  pose proof mc_heard as (H0 & H1 & H2 & H3 & H4).
  exists [mc_0]. split; [reflexivity|]. split; [repeat constructor; exact H0|]. split; [|split; [|split]].
  - constructor; [exists mc_1, [mc_2; mc_3]; auto|]. constructor; [exists mc_4, []; auto|constructor].
  - constructor; [|constructor; [exact I|constructor]]. cbn [alternating]. rewrite H1, H2, H3. intuition discriminate.
  - exists [mc_1; mc_2], mc_3. auto.
  - exact I.
Qed.

(** Checks of a run of events. *)
Definition true_clockb (evs : list RecordingSpec.event) : bool :=
  chainb (fun x y => Qltb (-4096) (y - x) && Qltb (y - x) 4096) (map reading evs) &&
  match evs with Sample _ _ :: _ => true | _ => false end &&
  existsb (fun e => match e with Health _ => true | _ => false end) evs &&
  chainb Qltb (map fst (fixes_of evs)) && forallb (fun p => Qeq_bool (inject_Z (snd p)) (cubic_at rc_clock (fst p))) (fixes_of evs).
Lemma true_clockb_ok evs : true_clockb evs = true -> true_clock rc_clock evs.
Proof.
  unfold true_clockb. rewrite !andb_true_iff. intros ((((A & B) & C) & D) & E). constructor.
  - apply (chainb_chain (fun x y => Qltb (-4096) (y - x) && Qltb (y - x) 4096)); [|exact A].
    intros x y H. apply andb_true_iff in H as [H1 H2]. apply Qltb_lt in H1, H2. split; assumption.
  - destruct evs as [|[c d|c t|c|c] evs]; try discriminate. exists [], c, d, evs. split; [reflexivity|]. split; [reflexivity|exact I].
  - apply existsb_exists in C as (e & He & X). destruct e; try discriminate. eauto.
  - apply (chainb_chain Qltb); [intros x y; apply Qltb_lt|exact D].
  - rewrite forallb_forall in E. left. intros c t Hi. apply E in Hi. apply Qeq_bool_iff in Hi. exact Hi.
Qed.
Definition steadyb (evs : list RecordingSpec.event) : bool :=
  (10 <=? length (fixes_of evs))%nat && chainb (fun x y => Qltb 0 (y - x) && Qle_bool (y - x) 25) (samples evs) &&
  Qltb ((1024 # 1000000) * (last (samples evs) 0 - hd 0 (samples evs))) (2 * inject_Z (snd (last (fixes_of evs) (0, 0%Z)) - snd (hd (0, 0%Z) (fixes_of evs)))) &&
  forallb (fun p => Qeq_bool (inject_Z (snd p)) (cubic_at rc_clock (fst p))) (fixes_of evs).
Lemma steadyb_ok evs : steadyb evs = true -> steady rc_clock evs.
Proof.
  unfold steadyb. rewrite !andb_true_iff. intros (((A & B) & C) & D). constructor.
  - repeat split; vm_compute; reflexivity || discriminate.
  - apply Nat.leb_le. exact A.
  - apply (chainb_chain (fun x y => Qltb 0 (y - x) && Qle_bool (y - x) 25)); [|exact B].
    intros x y H. apply andb_true_iff in H as [H1 H2]. apply Qltb_lt in H1. apply Qle_bool_iff in H2. split; assumption.
  - intros a z c t mid c' t' Ba Fz E. apply begins_hd in Ba. apply finishes_last in Fz. subst a z. apply Qltb_lt in C. rewrite E in C.
    change ((c, t) :: mid ++ [(c', t')]) with (((c, t) :: mid) ++ [(c', t')]) in C. rewrite last_last in C. exact C.
  - apply no_others. rewrite forallb_forall in D. intros c t Hi. apply D in Hi. apply Qeq_bool_iff in Hi. exact Hi.
Qed.

Lemma mc_runs : Forall one_run mc_groups.
Proof.
  apply Forall_cons; [|apply Forall_cons; [|apply Forall_nil]]; (split; [repeat constructor|]; split; [apply true_clockb_ok; vm_compute; reflexivity|apply Z.leb_le; vm_compute; reflexivity]).
Qed.
Lemma mc_unbroken : unbroken (map together mc_groups).
Proof.
  split; [|split; [|split]].
  - apply Forall_cons; [|apply Forall_cons; [|apply Forall_nil]]; (split; [apply steadyb_ok; vm_compute; reflexivity|]);
      intros s e Bs Fe; apply begins_hd in Bs; apply finishes_last in Fe; subst s e; apply Qle_bool_iff; vm_compute; reflexivity.
  - split; [|exact I]. intros l a s Fl Ba Bs. apply finishes_last in Fl. apply begins_hd in Ba. apply begins_hd in Bs. subst l a s.
    repeat split; first [apply Qltb_lt; vm_compute; reflexivity|apply Qle_bool_iff; vm_compute; reflexivity].
  - apply (chainb_chain Z.ltb); [intros x y; apply Z.ltb_lt|vm_compute; reflexivity].
  - apply (chainb_chain (fun x y => Qltb 0 (y - x) && Qle_bool (y - x) (25 # 1000))); [|vm_compute; reflexivity].
    intros x y H. apply andb_true_iff in H as [H1 H2]. apply Qltb_lt in H1. apply Qle_bool_iff in H2. split; assumption.
Qed.
Lemma mc_late t x : In (t, x) (record (concat mc_groups)) -> 1 # 200 <= t /\ t * 100 + day * 1 + inject_Z 360000 + 200 <= ex_t2.
Proof.
  assert (A : forallb (fun t => Qle_bool (1 # 200) t && Qle_bool (t * 100 + day * 1 + inject_Z 360000 + 200) ex_t2) (map fst (record (concat mc_groups))) = true) by (vm_compute; reflexivity).
  intros Hi. apply (in_map fst) in Hi. rewrite forallb_forall in A. apply A in Hi. cbn [fst] in Hi. apply andb_true_iff in Hi as [H1 H2]. apply Qle_bool_iff in H1, H2. split; assumption.
Qed.

(** The hypotheses of [C67_merged] and [C67_archive] hold of it, with blocks of a day. *)
Example C67_case_hypotheses :
  libraries dec_scanner polyfit3 polyfit1 linear /\ serial_number (b "059") /\ (exists x, b "059" = b "059" ++ x) /\
  raw_folder (b "059") (b "059") mc_recs mc_card /\ grouping heard mc_recs mc_groups /\ mc_groups <> [] /\ Forall one_run mc_groups /\
  unbroken (map together mc_groups) /\ 0 < 1 /\ (0 < 360000)%Z /\
  (forall t x, In (t, x) (record (concat mc_groups)) -> 1 # 200 <= t /\ t * 100 + day * 1 + inject_Z 360000 + 200 <= ex_t2) /\
  exists s1, begins (map fst (record (concat mc_groups))) s1.
Proof.
  destruct C66_case_hypotheses as (H1 & H2 & _).
  split; [exact H1|]. split; [exact H2|]. split; [exists []; reflexivity|]. split; [exact mc_folder|]. split; [exact mc_grouping|]. split; [discriminate|]. split; [exact mc_runs|].
  split; [exact mc_unbroken|]. split; [reflexivity|]. split; [lia|]. split; [exact mc_late|].
  eexists. apply hd_begins. intros X. vm_compute in X. discriminate X.
Qed.

(** What comes out: two merged files, and a conversion of them without problems, with a value at every hundredth of a second from 1.01 s after
    the beginning to the end; and the recorded ones at the even hundredths, here one of the recording without GPS data. *)
Lemma mc_one_block merged parts : map r_number merged = [0; 1]%Z -> in_blocks (12 * 1) merged parts -> In merged parts.
Proof.
  intros Nm [E B]. destruct parts as [|p ps]; [destruct merged; discriminate|]. left. destruct merged as [|m0 ms]; [discriminate|].
  assert (X : concat ps = []).
  { destruct (concat ps) as [|r l] eqn:Ec; [reflexivity|exfalso]. assert (Hr : In r (concat ps)) by (rewrite Ec; left; reflexivity).
    apply in_concat in Hr as (q & Hq & Hr). destruct (In_nth_error _ _ Hq) as (i & Hi). destruct (B (Datatypes.S i) q r m0 Hi Hr eq_refl) as [B1 _].
    assert (Hc : In r (m0 :: ms)) by (rewrite <- E; cbn [concat]; apply in_or_app; right; apply in_concat; eauto).
    assert (N : (r_number r - r_number m0 <= 1)%Z).
    { apply (in_map r_number) in Hc. rewrite Nm in Hc. cbn [map] in Nm. injection Nm as Nm _. rewrite Nm. destruct Hc as [<-|[<-|[]]]; lia. }
    rewrite Zle_Qle in N. change (inject_Z 1) with 1 in N.
    assert (I1 : 1 <= inject_Z (Z.of_nat (Datatypes.S i))) by (change 1 with (inject_Z 1); rewrite <- Zle_Qle; lia). lra. }
  cbn [concat] in E. rewrite X, app_nil_r in E. exact E.
Qed.
Notation mc_times := (map fst (record (concat mc_groups))).
Lemma mc_start : hd 0 mc_times == 1609459203.
Proof. apply Qeq_bool_iff. vm_compute. reflexivity. Qed.
Lemma mc_end : last mc_times 0 == 1609459230 + (980 # 1000).
Proof. apply Qeq_bool_iff. vm_compute. reflexivity. Qed.
Lemma mc_600 : exists t, t == 1609459215 /\ In (t, (-5)%Z) (record (concat mc_groups)).
Proof.
  assert (Et : option_map (fun p => (Qred (fst p), snd p)) (nth_error (record (concat mc_groups)) 600) = Some (1609459215, (-5)%Z)) by (vm_compute; reflexivity).
  destruct (nth_error (record (concat mc_groups)) 600) as [[t y]|] eqn:En; [|discriminate]. cbn [option_map fst snd] in Et. injection Et as Et ->. apply nth_error_In in En.
  exists t. split; [rewrite <- (Qred_correct t), Et; reflexivity|exact En].
Qed.
Example C67_case : exists outs n h,
  merge_card dec_scanner [] true (fun _ => None) (fun _ => None) (fun _ _ => inr CorruptRaw) (fun _ _ => inr CorruptRaw) (b "059") false mc_card = (outs, true) /\
  (forall fuel, (n <= fuel)%nat -> convert_card dec_scanner [] true polyfit3 polyfit1 linear 1700000000 (fun _ => None) (fun _ => None) (fun _ => None)
     (fun _ _ => inr CorruptRaw) (fun _ _ => inr CorruptRaw) outs (b "059") None 1 (inject_Z 360000) None ex_t2 fuel = inr (h, Returns [])) /\
  (forall k, (160945920401 <= k <= 160945923095)%Z -> exists x, sample (written h) k x) /\ sample (written h) 160945921500 (-5).
Proof.
  destruct C67_case_hypotheses as (H1 & H2 & H3 & H4 & H5 & H6 & H7 & H8 & _ & H9 & H10 & s1 & H11).
  destruct (C67_archive dec_scanner [] true polyfit3 polyfit1 linear 1700000000 (fun _ => None) (fun _ => None) (fun _ => None) (fun _ _ => inr CorruptRaw) (fun _ _ => inr CorruptRaw)
    (fun _ _ => inr CorruptRaw) (fun _ _ => inr CorruptRaw) (b "059") (b "059") mc_recs mc_groups mc_card 1 360000 ex_t2 s1 H1 H2 H3 H4 H5 H6 H7 H8 ltac:(reflexivity) H9 H10 H11)
    as (outs & merged & parts & n & h & Em & Nm & J & Pa & Run & _ & _ & Cov & _).
  exists outs, n, h. split; [exact Em|]. split; [exact Run|]. change (map Z.of_nat (seq 0 (length mc_groups))) with [0; 1]%Z in Nm. apply (mc_one_block _ _ Nm) in Pa.
  assert (Er : record merged = record (concat mc_groups)).
  { clear - J. unfold record. generalize dependent mc_groups. intros groups J. induction J as [|g m groups merged (_ & W & _) J IH]; [reflexivity|]. cbn [concat flat_map]. rewrite flat_map_app, W, IH. reflexivity. }
  specialize (Cov merged). rewrite Er in Cov.
  assert (Bs : begins mc_times (hd 0 mc_times)) by (apply hd_begins; intros X; vm_compute in X; discriminate X).
  assert (Fe : finishes mc_times (last mc_times 0)) by (apply last_finishes; intros X; vm_compute in X; discriminate X).
  assert (E1 : s1 = hd 0 mc_times) by (unfold begins in *; congruence).
  pose proof mc_start as S0. pose proof mc_end as E0. rewrite <- E1 in *. generalize dependent (last mc_times 0). intros e Fe E0.
  assert (R : forall k, (160945920401 <= k <= 160945923095)%Z -> s1 + (1 # 200) <= inject_Z k * (1 # 100) <= e - (25 # 1000) /\ s1 + (101 # 100) <= inject_Z k * (1 # 100)).
  { intros k Hk. rewrite S0, E0. assert (X1 : inject_Z 160945920401 <= inject_Z k) by (rewrite <- Zle_Qle; lia). assert (X2 : inject_Z k <= inject_Z 160945923095) by (rewrite <- Zle_Qle; lia).
    change (inject_Z 160945920401) with (160945920401 # 1) in X1. change (inject_Z 160945923095) with (160945923095 # 1) in X2. clear - X1 X2. generalize dependent (inject_Z k). intros q X1 X2. split; [split|]; lra. }
  split; [intros k Hk; destruct (R k Hk) as [R1 R2]; exact (proj1 (Cov s1 e k Pa Bs Fe R1 R2))|].
  destruct (R 160945921500%Z ltac:(lia)) as [R1 R2]. destruct (Cov s1 e 160945921500%Z Pa Bs Fe R1 R2) as [_ U].
  destruct mc_600 as (t & Et & It). apply (U t (-5)%Z); [|exact It|rewrite Et; reflexivity].
  intros m X. rewrite S0 in X. assert (Y : inject_Z (2 * 160945920300) == inject_Z (2 * m + 1)).
  { rewrite inject_Z_plus, !inject_Z_mult. change (inject_Z 160945920300) with (160945920300 # 1). change (inject_Z 2) with 2. change (inject_Z 1) with 1. lra. }
  unfold Qeq in Y. cbn [Qnum Qden inject_Z] in Y. lia.
Qed.
