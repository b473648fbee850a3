(** A case for C66: the card of the logger 059 with two recordings, a file of the logger 060 and notes. *)
From Coq Require Import String.
From Coq Require Import ZArith QArith Qabs Qround List Bool Lia Lqa.
From Verif Require Import Base Lib UnwrapSpec UnwrapProofs Scan Parser ParserSpec ParserProps Process ReadSeveral Drift DriftSpec
  Segments SegmentsSpec Interp InterpSpec InterpProofs InterpProps Stream StreamSpec Convert ConvertSpec ConvertProps Select SelectSpec SelectProofs Cli CliSpec CliProofs
  Header HeaderSpec HeaderProofs Block BlockSpec BlockProps RecordingSpec RecordingProofs RecordingTotal RecordingProps RecordingWhole RecordingCase Polyfit PolyfitProps Card CardSpec CardProofs CardProps.
Import ListNotations.
Open Scope Q_scope.

Definition cc_lines : list bytes :=
  [b "#GemCSV0.91"; b "#DmsSamp,ADC"; b "#G,msPPS,msLag,yr,mo,day,hr,min,sec,lat,lon"; b "#M,ms,batt(V),temp(C)"; b "S,059"; b "C,1,15,20,1,0,0"].
Definition cc_bytes (h : Z) : bytes := file (map record_text (map Other cc_lines ++ rc_records h)) [].
Definition cc_recording (h : Z) : recording := mkrecording h rc_clock (rc_events h) (cc_bytes h).
Definition cc_recs : list recording := [cc_recording 0; cc_recording 1].
Definition cc_card : card :=
  [(b "FILE0001.059", cc_bytes 1); (b "FILE0000.060", b "D1,2"); (b "NOTES", b "Slot 4"); (b "FILE0000.059", cc_bytes 0)].

Lemma cc_split h ls ls' : cc_lines = ls ++ ls' -> cc_bytes h = lines_text (map (fun l => (l, [10%Z])) ls) ++ file (map record_text (map Other ls' ++ rc_records h)) [].
Proof.
  intros E. unfold cc_bytes, file. rewrite !app_nil_r, E. rewrite !map_app, map_map. cbn [record_text]. rewrite <- app_assoc. rewrite map_map. cbn [record_text]. 
  generalize (map (fun x => x) ls' ++ map record_text (rc_records h)) as r. intros r. clear E. induction ls as [|l ls IH]; [reflexivity|].
  cbn [map app]. unfold lines_text in *. cbn [map concat fst snd]. rewrite <- app_assoc, <- IH. cbn [unlines]. rewrite ?app_assoc. reflexivity.
Qed.
Lemma cc_ok : Forall line_ok (map (fun l => (l, [10%Z])) cc_lines).
Proof.
  cbn [map cc_lines]. repeat (apply Forall_cons; [split; [|split; [|split; [repeat constructor; lia|now left]]];
    intros K; simpl in K; repeat (destruct K as [K|K]; [discriminate|]); exact K|]). constructor.
Qed.
Lemma cc_written h : h = 0%Z \/ h = 1%Z -> raw_text (rc_events h) (cc_bytes h).
Proof.
  intros Hh. destruct (rc_written h Hh) as (rs & last & _). exists (map Other cc_lines ++ rc_records h), (Other []). split; [reflexivity|].
  assert (A : forallb (fun r => record_okb r && line_okb (record_text r)) (rc_records h) = true) by (destruct Hh as [->| ->]; vm_compute; reflexivity).
  rewrite forallb_forall in A.
  split; [|split; [|split]].
  - rewrite <- app_assoc. apply Forall_app. split; [cbn [map cc_lines]; repeat constructor|]. apply Forall_app. split; [|repeat constructor]. apply Forall_forall. intros r Hr. apply A in Hr. apply andb_true_iff in Hr as [Hr _]. apply record_okb_ok. exact Hr.
  - rewrite <- app_assoc. apply Forall_app. split; [cbn [map cc_lines]; repeat (apply Forall_cons; [apply line_okb_ok; reflexivity|]); constructor|].
    apply Forall_app. split; [|constructor; [|constructor]]. { apply Forall_forall. intros r Hr. apply A in Hr. apply andb_true_iff in Hr as [_ Hr]. apply line_okb_ok. exact Hr. }
    apply line_okb_ok. reflexivity.
  - assert (W : writes None (rc_events h) (rc_records h ++ [Other []])) by (apply writesb_ok; destruct Hh as [->| ->]; vm_compute; reflexivity).
    rewrite <- app_assoc. cbn [map cc_lines app]. repeat apply w_other. exact W.
  - destruct Hh as [->| ->]; apply Z.leb_le; vm_compute; reflexivity.
Qed.
Lemma cc_headed h : headed (b "059") (cc_bytes h).
Proof.
  exists (b "0.91"), [10%Z], (b "#DmsSamp,ADC", [10%Z]), (b "#G,msPPS,msLag,yr,mo,day,hr,min,sec,lat,lon", [10%Z]), [(b "#M,ms,batt(V),temp(C)", [10%Z])], (b "S,059", [10%Z]).
  exists (file (map record_text (map Other [b "C,1,15,20,1,0,0"] ++ rc_records h)) []).
  split; [exact (cc_split h (firstn 5 cc_lines) [b "C,1,15,20,1,0,0"] eq_refl)|]. split; [|split; [right; right; left; reflexivity|split]].
  - pose proof cc_ok as H. change (map (fun l => (l, [10%Z])) cc_lines) with (map (fun l => (l, [10%Z])) (firstn 5 cc_lines) ++ [(b "C,1,15,20,1,0,0", [10%Z])]) in H.
    apply Forall_app in H. exact (proj1 H).
  - constructor; [right; eexists; reflexivity|constructor].
  - exists []. split; [reflexivity|]. split; [cbn; intuition discriminate|]. split; [cbn; intuition discriminate|left; reflexivity].
Qed.
Lemma cc_gained h : gained (cc_bytes h).
Proof.
  left. exists (b "#GemCSV0.91", [10%Z]), (map (fun l => (l, [10%Z])) (firstn 4 (skipn 1 cc_lines))), (b "C,1,15,20,1,0,0", [10%Z]), (mkconf 1 15 20 1 0 0), (file (map record_text (map Other [] ++ rc_records h)) []).
  split; [exact (cc_split h cc_lines [] eq_refl)|]. split; [exact cc_ok|]. split; [cbn; lia|]. split; [|split; [|right; reflexivity]].
  - apply Forall_forall. intros p Hp. rewrite mentions_C_iff. cbn in Hp. repeat (destruct Hp as [<-|Hp]; [vm_compute; intuition discriminate|]). destruct Hp.
  - exists (b "1"), (b "15"), (b "20"), (b "1"), (b "0"), (b "0"). split; [reflexivity|]. split; [|repeat split; apply int_of_iff; vm_compute; reflexivity].
    intros s Hs. cbn in Hs. repeat (destruct Hs as [<-|Hs]; [cbn; intuition discriminate|]). destruct Hs.
Qed.
Lemma cc_names : map fst cc_card = [b "FILE0001.059"; b "FILE0000.060"; b "NOTES"; b "FILE0000.059"].
Proof. reflexivity. Qed.
Lemma cc_on_card : card_of (b "059") cc_recs cc_card.
Proof.
  split; [|split; [|split; [|split]]].
  - rewrite cc_names. repeat constructor; cbn; intuition discriminate.
  - cbn [cc_recs map r_number cc_recording chain]. lia.
  - apply Forall_cons; [|apply Forall_cons; [|apply Forall_nil]].
    + split; [exact (cc_headed 0)|]. split; [exact (cc_gained 0)|]. split; [exact (cc_written 0 (or_introl eq_refl))|exact (rc_true 0 (or_introl eq_refl))].
    + split; [exact (cc_headed 1)|]. split; [exact (cc_gained 1)|]. split; [exact (cc_written 1 (or_intror eq_refl))|exact (rc_true 1 (or_intror eq_refl))].
  - intros r [<-|[<-|[]]].
    + exists (b "FILE0000.059"). split; [split; [cbn; lia|split; reflexivity]|right; right; right; left; reflexivity].
    + exists (b "FILE0001.059"). split; [split; [cbn; lia|split; reflexivity]|left; reflexivity].
  - intros name bs n x Hi Nm Hx.
    assert (Q : forall k y z, named (b "FILE" ++ pad 4 k ++ b "." ++ y) n z -> named (b "FILE" ++ pad 4 k ++ b "." ++ y) k y -> n = k /\ z = y).
    { intros k y z A B. apply raw_name_spec in A, B. rewrite A in B. injection B as -> ->. auto. }
    destruct Hi as [Hi|[Hi|[Hi|[Hi|[]]]]]; injection Hi as <- <-.
    + destruct (Q 1%Z (b "059") x Nm) as [-> ->]; [split; [lia|split; reflexivity]|]. split; [reflexivity|]. exists (cc_recording 1). split; [right; left; reflexivity|auto].
    + exfalso. destruct (Q 0%Z (b "060") x Nm) as [-> ->]; [split; [lia|split; reflexivity]|]. destruct Hx as [Hx|Hx]; vm_compute in Hx; discriminate.
    + exfalso. apply raw_name_spec in Nm. vm_compute in Nm. discriminate.
    + destruct (Q 0%Z (b "059") x Nm) as [-> ->]; [split; [lia|split; reflexivity]|]. split; [reflexivity|]. exists (cc_recording 0). split; [left; reflexivity|auto].
Qed.
Lemma cc_record : record cc_recs = record_of rc_evs rc_tau [rc_0; rc_1].
Proof. reflexivity. Qed.
Lemma cc_unbroken : unbroken cc_recs.
Proof.
  destruct rc_continuous as (A & B & C & D & E & _). split; [|split; [|split]].
  - constructor; [|constructor; [|constructor]]; (split; [|intros s e Bs Fe; apply begins_hd in Bs; apply finishes_last in Fe; subst s e; apply Qle_bool_iff; vm_compute; reflexivity]).
    + exact (rc_steady 0 (or_introl eq_refl)).
    + exact (rc_steady 1 (or_intror eq_refl)).
  - split; [exact rc_continues|exact I].
  - exact C.
  - rewrite cc_record. exact E.
Qed.

(** The hypotheses of [C66_archive] hold of it, with files of an hour and blocks of two hours (one file). *)
Example C66_case_hypotheses :
  libraries dec_scanner polyfit3 polyfit1 linear /\ serial_number (b "059") /\ card_of (b "059") cc_recs cc_card /\
  (forall r, In r cc_recs <-> In r cc_recs /\ asked_for None r) /\ chain Z.lt (map r_number cc_recs) /\ cc_recs <> [] /\ unbroken cc_recs /\
  0 < 1 # 12 /\ (0 < 360000)%Z /\
  (forall t x, In (t, x) (record cc_recs) -> 1 # 200 <= t /\ t * 100 + day * (1 # 12) + inject_Z 360000 + 200 <= ex_t2) /\
  exists s1, begins (map fst (record cc_recs)) s1.
Proof.
  destruct C62_case_conversion as (_ & _ & L & _ & _ & _ & W & _).
  split; [exact L|]. split; [exists 0%Z, 5%Z, 9%Z; split; [reflexivity|]; split; [repeat constructor; lia|lia]|]. split; [exact cc_on_card|].
  split; [intros r; cbn; tauto|]. split; [cbn [cc_recs map r_number cc_recording chain]; lia|]. split; [discriminate|]. split; [exact cc_unbroken|]. split; [reflexivity|]. split; [lia|].
  split.
  - intros t x Hi. apply (W t x). rewrite cc_record in Hi. unfold record_of in *. cbn [flat_map rc_block map] in *. rewrite !app_nil_r in *. exact Hi.
  - exists (hd 0 (map fst (record cc_recs))). apply hd_begins. intros X. vm_compute in X. discriminate X.
Qed.

(** What comes out of a conversion in blocks of a day: no problem is reported, there is a value at every hundredth of a second from 1.01 s
    after the beginning to the end, and the recorded ones at the even hundredths. *)
Lemma cc_one_block parts : in_blocks (12 * 1) cc_recs parts -> In cc_recs parts.
Proof.
  intros [E B]. destruct parts as [|p ps]; [discriminate|]. left.
  assert (X : concat ps = []).
  { destruct (concat ps) as [|r l] eqn:Ec; [reflexivity|exfalso]. assert (Hr : In r (concat ps)) by (rewrite Ec; left; reflexivity).
    apply in_concat in Hr as (q & Hq & Hr). destruct (In_nth_error _ _ Hq) as (i & Hi). destruct (B (Datatypes.S i) q r (cc_recording 0) Hi Hr eq_refl) as [B1 _].
    assert (Hc : In r cc_recs) by (rewrite <- E; cbn [concat]; apply in_or_app; right; apply in_concat; eauto).
    assert (N : (r_number r - r_number (cc_recording 0) <= 1)%Z) by (destruct Hc as [<-|[<-|[]]]; cbn [r_number cc_recording]; lia).
    rewrite Zle_Qle in N. change (inject_Z 1) with 1 in N.
    assert (I1 : 1 <= inject_Z (Z.of_nat (Datatypes.S i))) by (change 1 with (inject_Z 1); rewrite <- Zle_Qle; lia). lra. }
  cbn [concat] in E. rewrite X, app_nil_r in E. exact E.
Qed.
Notation cc_times := (map fst (record_of rc_evs rc_tau [rc_0; rc_1])).
Lemma cc_start : hd 0 cc_times == 1609459200.
Proof. apply Qeq_bool_iff. vm_compute. reflexivity. Qed.
Lemma cc_end : last cc_times 0 == 1609459221 + (980 # 1000).
Proof. apply Qeq_bool_iff. vm_compute. reflexivity. Qed.
Lemma cc_late t x : In (t, x) (record cc_recs) -> 1 # 200 <= t /\ t * 100 + day * 1 + inject_Z 360000 + 200 <= ex_t2.
Proof.
  assert (A : forallb (fun t => Qle_bool (1 # 200) t && Qle_bool (t * 100 + day * 1 + inject_Z 360000 + 200) ex_t2) cc_times = true) by (vm_compute; reflexivity).
  intros Hi. rewrite cc_record in Hi. apply (in_map fst) in Hi. rewrite forallb_forall in A. apply A in Hi. cbn [fst] in Hi. apply andb_true_iff in Hi as [H1 H2]. apply Qle_bool_iff in H1, H2. split; assumption.
Qed.
Lemma cc_1050 : exists t, t == 1609459221 /\ In (t, 3%Z) (record cc_recs).
Proof.
  rewrite cc_record.
  assert (Et : option_map (fun p => (Qred (fst p), snd p)) (nth_error (record_of rc_evs rc_tau [rc_0; rc_1]) 1050) = Some (1609459221, (3)%Z)) by (vm_compute; reflexivity).
  destruct (nth_error (record_of rc_evs rc_tau [rc_0; rc_1]) 1050) as [[t y]|] eqn:En; [|discriminate]. cbn [option_map fst snd] in Et. injection Et as Et ->. apply nth_error_In in En.
  exists t. split; [rewrite <- (Qred_correct t), Et; reflexivity|exact En].
Qed.
Example C66_case : exists n h,
  (forall fuel, (n <= fuel)%nat -> convert_card dec_scanner [] true polyfit3 polyfit1 linear 1700000000 (fun _ => None) (fun _ => None) (fun _ => None)
     (fun _ _ => inr CorruptRaw) (fun _ _ => inr CorruptRaw) cc_card (b "059") None 1 (inject_Z 360000) None ex_t2 fuel = inr (h, Returns [])) /\
  (forall k, (160945920101 <= k <= 160945922195)%Z -> exists x, sample (written h) k x) /\ sample (written h) 160945922100 3.
Proof.
  destruct C66_case_hypotheses as (H1 & H2 & H3 & H4 & H5 & H6 & H7 & _ & H9 & _ & s1 & H11).
  destruct (C66_archive dec_scanner [] true polyfit3 polyfit1 linear 1700000000 (fun _ => None) (fun _ => None) (fun _ => None) (fun _ _ => inr CorruptRaw) (fun _ _ => inr CorruptRaw)
    (b "059") cc_recs cc_recs cc_card None 1 360000 ex_t2 s1 H1 H2 H3 H4 H5 H6 H7 ltac:(reflexivity) H9 cc_late H11) as (parts & n & h & Pa & Run & _ & _ & Cov & _).
  exists n, h. split; [exact Run|]. apply cc_one_block in Pa.
  assert (Bs : begins (map fst (record cc_recs)) (hd 0 cc_times)) by (rewrite cc_record; apply hd_begins; intros X; vm_compute in X; discriminate X).
  assert (Fe : finishes (map fst (record cc_recs)) (last cc_times 0)) by (rewrite cc_record; apply last_finishes; intros X; vm_compute in X; discriminate X).
  assert (E1 : s1 = hd 0 cc_times) by (unfold begins in *; congruence).
  pose proof cc_start as S0. pose proof cc_end as E0. rewrite <- E1 in *. generalize dependent (last cc_times 0). intros e Fe E0.
  assert (R : forall k, (160945920101 <= k <= 160945922195)%Z -> s1 + (1 # 200) <= inject_Z k * (1 # 100) <= e - (25 # 1000) /\ s1 + (101 # 100) <= inject_Z k * (1 # 100)).
  { intros k Hk. rewrite S0, E0. assert (X1 : inject_Z 160945920101 <= inject_Z k) by (rewrite <- Zle_Qle; lia). assert (X2 : inject_Z k <= inject_Z 160945922195) by (rewrite <- Zle_Qle; lia).
    change (inject_Z 160945920101) with (160945920101 # 1) in X1. change (inject_Z 160945922195) with (160945922195 # 1) in X2. clear - X1 X2. generalize dependent (inject_Z k). intros q X1 X2. split; [split|]; lra. }
  split; [intros k Hk; destruct (R k Hk) as [R1 R2]; exact (proj1 (Cov cc_recs s1 e k Pa Bs Fe R1 R2))|].
  destruct (R 160945922100%Z ltac:(lia)) as [R1 R2]. destruct (Cov cc_recs s1 e 160945922100%Z Pa Bs Fe R1 R2) as [_ U].
  destruct cc_1050 as (t & Et & It). apply (U t 3%Z); [|exact It|rewrite Et; reflexivity].
  intros m X. rewrite S0 in X. assert (Y : inject_Z (2 * 160945920000) == inject_Z (2 * m + 1)).
  { rewrite inject_Z_plus, !inject_Z_mult. change (inject_Z 160945920000) with (160945920000 # 1). change (inject_Z 2) with 2. change (inject_Z 1) with 1. lra. }
  unfold Qeq in Y. cbn [Qnum Qden inject_Z] in Y. lia.
Qed.

(** Other files do not matter: the same card without them, in another order. *)
Example C66_case_other_files : serial_number (b "059") /\ NoDup (map fst cc_card) /\ NoDup (map fst [(b "FILE0000.059", cc_bytes 0); (b "FILE0001.059", cc_bytes 1)]) /\
  same_files (b "059") cc_card [(b "FILE0000.059", cc_bytes 0); (b "FILE0001.059", cc_bytes 1)].
Proof.
  destruct C66_case_hypotheses as (_ & H2 & H3 & _). split; [exact H2|]. split; [exact (proj1 H3)|].
  split; [change (NoDup [b "FILE0000.059"; b "FILE0001.059"]); repeat constructor; cbn; intuition discriminate|].
  intros name bs n x Nm Hx. split.
  - intros [Hi|[Hi|[Hi|[Hi|[]]]]].
    + right. left. exact Hi.
    + exfalso. injection Hi as <- <-. apply raw_name_spec in Nm. vm_compute in Nm. injection Nm as _ <-. destruct Hx as [Hx|Hx]; vm_compute in Hx; discriminate.
    + exfalso. injection Hi as <- <-. apply raw_name_spec in Nm. vm_compute in Nm. discriminate.
    + left. exact Hi.
  - intros [Hi|[Hi|[]]]; [right; right; right; left; exact Hi|left; exact Hi].
Qed.

Print Assumptions C66_archive.
Print Assumptions C66_other_files.
