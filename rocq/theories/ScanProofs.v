From Coq Require Import ZArith QArith List Bool Lia Lqa Qfield.
From Verif Require Import Base Scan Parser ParserSpec ParserProofs.
Import ListNotations.
Open Scope Z_scope.
Ltac Zify.zify_post_hook ::= Z.div_mod_to_equations.

(** * Digits *)

Lemma val_digits_app_aux ds : forall a, fold_left (fun a x => a * 10 + x) ds a = a * 10 ^ Z.of_nat (length ds) + val_digits ds.
Proof.
  unfold val_digits. induction ds as [|d ds IH]; intros a.
  - simpl. lia.
  - simpl fold_left. rewrite (IH (a * 10 + d)), (IH d). simpl length.
    rewrite Nat2Z.inj_succ, Z.pow_succ_r by lia. ring.
Qed.

Lemma val_digits_app d1 d2 : val_digits (d1 ++ d2) = val_digits d1 * 10 ^ Z.of_nat (length d2) + val_digits d2.
Proof. unfold val_digits at 1. rewrite fold_left_app. rewrite val_digits_app_aux. reflexivity. Qed.

Lemma val_digits_pos ds : val_digits ds = pos_value ds.
Proof.
  induction ds as [|d ds IH]; [reflexivity|].
  change (d :: ds) with ([d] ++ ds). rewrite val_digits_app, IH.
  unfold val_digits. simpl. ring.
Qed.

Lemma take_digits_text ds t : all_digits ds ->
  match t with c :: _ => is_digit c = false | [] => True end ->
  take_digits (digit_text ds ++ t) = (ds, t).
Proof.
  intros H Ht. induction H as [|d ds Hd H IH].
  - destruct t as [|c t]; [reflexivity|]. simpl. now rewrite Ht.
  - change (digit_text (d :: ds) ++ t) with ((48 + d) :: (digit_text ds ++ t)).
    cbn [take_digits].
    replace (is_digit (48 + d)) with true
      by (symmetry; unfold is_digit; apply andb_true_iff; split; apply Z.leb_le; lia).
    rewrite IH. now replace (48 + d - 48) with d by lia.
Qed.

Lemma stops_nondigit t : stops t -> match t with c :: _ => is_digit c = false | [] => True end.
Proof.
  intros [->|(c & r & -> & H)]; [exact I|].
  simpl in H. destruct H as [<-|[<-|[<-|[<-|[]]]]]; reflexivity.
Qed.

Lemma sign_scan neg ds rest : ds <> [] -> all_digits ds ->
  take_sign (skip_space (sign_text neg ++ digit_text ds ++ rest)) = (neg, digit_text ds ++ rest).
Proof.
  intros Hne H. destruct ds as [|d ds]; [congruence|]. inversion H; subst.
  destruct neg; [reflexivity|].
  assert (C : d = 0 \/ d = 1 \/ d = 2 \/ d = 3 \/ d = 4 \/ d = 5 \/ d = 6 \/ d = 7 \/ d = 8 \/ d = 9) by lia.
  destruct C as [C|[C|[C|[C|[C|[C|[C|[C|[C|C]]]]]]]]]; subst d; reflexivity.
Qed.

Lemma to_int_id z : - 2 ^ 31 <= z < 2 ^ 31 -> to_int (clamp_long z) = z.
Proof.
  intros H. unfold to_int, clamp_long.
  replace (Z.max (- 2 ^ 63) (Z.min z (2 ^ 63 - 1))) with z by lia.
  rewrite Z.mod_small; lia.
Qed.

Lemma dec_scan_d_ok i t : int_ok i -> stops t -> dec_scan_d (int_text i ++ t) = Some (int_value i, t).
Proof.
  intros (Hne & Hd & Hr) Ht. unfold dec_scan_d, int_text.
  rewrite <- app_assoc, sign_scan by assumption.
  rewrite take_digits_text by (try apply stops_nondigit; assumption).
  rewrite val_digits_pos. destruct (idig i) as [|d ds] eqn:E; [congruence|].
  unfold int_value in *. rewrite E in *.
  destruct (ineg i).
  - replace (- pos_value (d :: ds)) with (-1 * pos_value (d :: ds)) by ring. now rewrite to_int_id.
  - replace (pos_value (d :: ds)) with (1 * pos_value (d :: ds)) at 1 by ring. now rewrite to_int_id.
Qed.

Lemma pow10_Z k : Z.pos (pow10 k) = 10 ^ Z.of_nat k.
Proof.
  induction k as [|k IH]; [reflexivity|].
  rewrite Nat2Z.inj_succ, Z.pow_succ_r by lia. rewrite <- IH. simpl pow10. lia.
Qed.

Lemma dec_scan_lf_ok d t : dec_ok d -> stops t ->
  exists v, dec_scan_lf (dec_text d ++ t) = Some (v, t) /\ (v == dec_value d)%Q.
Proof.
  intros (Hne & Hi & Hf) Ht. unfold dec_scan_lf, dec_text.
  rewrite <- !app_assoc, sign_scan by assumption.
  set (k := length (frac_digits d)).
  assert (Hv : forall m, m = val_digits (dint d ++ frac_digits d) ->
     ((if dneg d then - m else m) # pow10 k == dec_value d)%Q).
  { intros m ->. unfold dec_value. fold k.
    rewrite val_digits_app, !val_digits_pos. fold k. rewrite <- pow10_Z.
    unfold Qeq, Qmult, Qplus, Qdiv, Qinv, inject_Z. simpl.
    destruct (dneg d); simpl Qnum; simpl Qden; rewrite ?Pos.mul_1_r, ?Z.mul_1_r;
    rewrite ?Pos2Z.inj_mul; rewrite ?Pos.mul_1_l; ring. }
  assert (Hcase : exists ip fp r', take_digits (digit_text (dint d) ++ (match dfrac d with Some f => 46 :: digit_text f | None => [] end) ++ t) = (ip, r') /\ ip = dint d /\
     (match r' with 46 :: r1 => let (f, r2) := take_digits r1 in (f, r2) | _ => ([], r') end) = (fp, t) /\ fp = frac_digits d).
  { unfold frac_digits in *. destruct (dfrac d) as [f|].
    - exists (dint d), f, (46 :: digit_text f ++ t). rewrite take_digits_text; [|assumption|reflexivity].
      split; [reflexivity|]. split; [reflexivity|]. split; [|reflexivity].
      rewrite take_digits_text by (try apply stops_nondigit; assumption). reflexivity.
    - exists (dint d), [], t. simpl app. rewrite take_digits_text by (try apply stops_nondigit; assumption).
      split; [reflexivity|]. split; [reflexivity|]. split; [|reflexivity].
      destruct Ht as [->|(c & r & -> & H)]; [reflexivity|].
      simpl in H. destruct H as [<-|[<-|[<-|[<-|[]]]]]; reflexivity. }
  destruct Hcase as (ip & fp & r' & E1 & -> & E2 & ->).
  rewrite E1, E2. fold k.
  destruct (dint d ++ frac_digits d) as [|z l] eqn:E.
  { apply app_eq_nil in E. destruct E; congruence. }
  rewrite <- E. eexists. split; [reflexivity|]. apply Hv. now rewrite E.
Qed.

Lemma dec_scanner_reads : reads_decimal dec_scanner.
Proof. split; [exact dec_scan_d_ok|exact dec_scan_lf_ok]. Qed.

(** * Formats *)

Lemma scan1_ok sc c f t : reads_decimal sc -> field_ok c f -> stops t ->
  exists v, scan1 sc c (field_text f ++ t) = Some (v, t) /\ (v == field_value f)%Q.
Proof.
  intros [Hd Hlf] Hf Ht. destruct c, f as [i|d]; simpl in *; try contradiction.
  - rewrite Hd by assumption. eexists. split; reflexivity.
  - destruct (Hlf d t) as (v & E & Hv); eauto.
Qed.

Lemma stops_comma t : stops (44 :: t).
Proof. right. exists 44, t. simpl. tauto. Qed.

Lemma join_cons f f' fs : join (f :: f' :: fs) = field_text f ++ 44 :: join (f' :: fs).
Proof. reflexivity. Qed.

Lemma scan_rest_ok sc fmt fs : forall t, reads_decimal sc -> Forall2 field_ok fmt fs -> fs <> [] -> stops t ->
  exists vs, scan_rest sc fmt (44 :: join fs ++ t) = vs /\ Forall2 Qeq vs (map field_value fs).
Proof.
  intros t Hsc H. induction H as [|c f fmt fs Hf H IH]; intros Hne Ht; [congruence|].
  destruct fs as [|f' fs].
  - inversion H; subst. simpl. destruct (scan1_ok sc c f t) as (v & E & Hv); auto.
    rewrite E. eexists. split; [reflexivity|]. simpl. repeat constructor. exact Hv.
  - rewrite join_cons, <- app_assoc. cbn [scan_rest].
    destruct (scan1_ok sc c f ((44 :: join (f' :: fs)) ++ t)) as (v & E & Hv); auto using stops_comma.
    { apply stops_comma. }
    rewrite E. destruct IH as (vs & E2 & Hvs); auto; [discriminate|].
    change ((44 :: join (f' :: fs)) ++ t) with (44 :: join (f' :: fs) ++ t). rewrite E2. eexists. split; [reflexivity|]. simpl. constructor; auto.
Qed.

Lemma sscanf_ok sc fmt fs t : reads_decimal sc -> Forall2 field_ok fmt fs -> stops t ->
  Forall2 Qeq (sscanf sc fmt (join fs ++ t)) (map field_value fs).
Proof.
  intros Hsc H Ht. inversion H as [|c f fmt' fs' Hf H']; subst; [constructor|].
  destruct fs' as [|f' fs'].
  - inversion H'; subst. simpl. destruct (scan1_ok sc c f t) as (v & E & Hv); auto.
    rewrite E. simpl. repeat constructor. exact Hv.
  - rewrite join_cons, <- app_assoc. cbn [sscanf].
    destruct (scan1_ok sc c f ((44 :: join (f' :: fs')) ++ t)) as (v & E & Hv); auto.
    { apply stops_comma. }
    rewrite E. destruct (scan_rest_ok sc fmt' (f' :: fs') t) as (vs & E2 & Hvs); auto; [discriminate|].
    change ((44 :: join (f' :: fs')) ++ t) with (44 :: join (f' :: fs') ++ t). rewrite E2. simpl. constructor; auto.
Qed.

(** * C strings *)

Lemma cstr_app x t : ~ In 0 x -> cstr (x ++ t) = x ++ cstr t.
Proof.
  intros H. induction x as [|c x IH]; [reflexivity|]. simpl.
  destruct (c =? 0) eqn:E; [apply Z.eqb_eq in E; exfalso; apply H; left; lia|].
  rewrite IH; [reflexivity|]. intros G; apply H; now right.
Qed.

Lemma stops_cstr t : stops t -> stops (cstr t).
Proof.
  intros [->|(c & r & -> & H)]; [left; reflexivity|].
  right. simpl in H. assert (E : c =? 0 = false) by (destruct H as [<-|[<-|[<-|[<-|[]]]]]; reflexivity).
  simpl. rewrite E. eauto.
Qed.

Lemma digit_text_range ds c : all_digits ds -> In c (digit_text ds) -> 48 <= c <= 57.
Proof.
  intros H Hc. unfold digit_text in Hc. apply in_map_iff in Hc as (d & <- & Hd).
  unfold all_digits in H. rewrite Forall_forall in H. specialize (H d Hd). lia.
Qed.

Lemma field_nonzero c f : field_ok c f -> forall x, In x (field_text f) -> 45 <= x <= 57.
Proof.
  intros H x Hx. destruct c, f as [i|d]; simpl in *; try contradiction.
  - destruct H as (_ & H & _). unfold int_text in Hx. apply in_app_or in Hx as [Hx|Hx].
    + destruct (ineg i); simpl in Hx; [destruct Hx as [<-|[]]; lia|tauto].
    + apply digit_text_range in Hx; auto. lia.
  - destruct H as (_ & H1 & H2). unfold dec_text, frac_digits in *.
    apply in_app_or in Hx as [Hx|Hx].
    + destruct (dneg d); simpl in Hx; [destruct Hx as [<-|[]]; lia|tauto].
    + apply in_app_or in Hx as [Hx|Hx].
      * apply digit_text_range in Hx; auto. lia.
      * destruct (dfrac d); [|destruct Hx]. destruct Hx as [<-|Hx]; [lia|].
        apply digit_text_range in Hx; auto. lia.
Qed.

Lemma join_range fmt fs : Forall2 field_ok fmt fs -> forall x, In x (join fs) -> 44 <= x <= 57.
Proof.
  induction 1 as [|c f fmt fs Hf H IH]; intros x Hx; [destruct Hx|].
  destruct fs as [|f' fs].
  - simpl in Hx. pose proof (field_nonzero c f Hf x Hx). lia.
  - rewrite join_cons in Hx. apply in_app_or in Hx as [Hx|[<-|Hx]].
    + pose proof (field_nonzero c f Hf x Hx). lia.
    + lia.
    + now apply IH.
Qed.

Lemma join_nozero fmt fs : Forall2 field_ok fmt fs -> ~ In 0 (join fs).
Proof. intros H Hx. pose proof (join_range fmt fs H 0 Hx). lia. Qed.

Lemma line_cstr fmt fs t r : Forall2 field_ok fmt fs -> stops t ->
  exists t', cstr ((join fs ++ t) ++ r) = join fs ++ t' /\ (r = [] \/ (exists q, r = 10 :: q) \/ (exists q, r = 0 :: q) -> stops t').
Proof.
  intros H Ht. rewrite <- app_assoc. rewrite cstr_app by (now apply (join_nozero fmt)).
  eexists. split; [reflexivity|].
  intros Hr. destruct Ht as [->|(c & q & -> & Hc)].
  - simpl. destruct Hr as [->|[(q & ->)|(q & ->)]]; simpl.
    + left; reflexivity.
    + right. exists 10, (cstr q). simpl. tauto.
    + left; reflexivity.
  - apply stops_cstr. right. exists c, (q ++ r). auto.
Qed.

(** * Complete lines *)

Lemma body_scan sc fmt fs t e q : reads_decimal sc -> Forall2 field_ok fmt fs -> stops t -> e = [] \/ e = [10] ->
  Forall2 Qeq (sscanf sc fmt (cstr (((join fs ++ t) ++ e) ++ 0 :: q))) (map field_value fs).
Proof.
  intros Hsc F Ht He.
  destruct (line_cstr fmt fs t (e ++ 0 :: q) F Ht) as (t' & E & Hs).
  rewrite <- app_assoc, E. apply sscanf_ok; auto.
  apply Hs. destruct He as [->| ->]; simpl; eauto.
Qed.

Lemma out_line_D sc s ms a t e :
  reads_decimal sc -> dec_ok ms -> int_ok a -> stops t -> e = [] \/ e = [10] ->
  exists v w, out sc s (line_D ms a t ++ e) = [mkrow KD v [w]] /\
     (v == dec_value ms)%Q /\ (w == inject_Z (int_value a))%Q.
Proof.
  intros Hsc Hms Ha Ht He.
  assert (F : Forall2 field_ok fmt_D [FDec ms; FInt a])
    by (constructor; [exact Hms|constructor; [exact Ha|constructor]]).
  unfold out, step. set (r := skipn (S _) (buf s)).
  change (line_D ms a t ++ e) with (68 :: (join [FDec ms; FInt a] ++ t) ++ e) in *.
  cbn [app nth skipn].
  change (is_lower 68) with false. change (68 =? 68) with true. cbn match.
  pose proof (body_scan sc fmt_D _ t e r Hsc F Ht He) as S.
  simpl map in S.
  destruct (sscanf sc fmt_D _) as [|v [|w q]]; inversion S as [|v' x' vs' xs' Hv S1]; subst; inversion S1 as [|w' y' ws' ys' Hw S2]; subst.
  eexists _, _. split; [reflexivity|]. split; assumption.
Qed.

Lemma assign_full n new old : length new = n -> length old = n -> assign new old = new.
Proof. intros H1 H2. unfold assign. rewrite skipn_all2 by lia. apply app_nil_r. Qed.

Lemma Forall2_length' {A B} (R : A -> B -> Prop) l1 l2 : Forall2 R l1 l2 -> length l1 = length l2.
Proof. induction 1; simpl; congruence. Qed.

Definition wf (s : pstate) : Prop := length (gvars s) = 10%nat /\ length (mvars s) = 12%nat.

Lemma scan_rest_length sc fmt : forall s, (length (scan_rest sc fmt s) <= length fmt)%nat.
Proof.
  induction fmt as [|c fmt IH]; intros s; simpl; [lia|].
  destruct s as [|x s]; simpl; [lia|].
  assert (A : forall q, match scan1 sc c q with
     | Some (v, r) => (length (v :: scan_rest sc fmt r) <= S (length fmt))%nat | None => True end).
  { intros q. destruct (scan1 sc c q) as [[v r]|]; [|exact I]. specialize (IH r). simpl. lia. }
  specialize (A s).
  repeat (match goal with |- context [match ?p with _ => _ end] => destruct p end; simpl in *; try lia).
Qed.

Lemma sscanf_length sc fmt s : (length (sscanf sc fmt s) <= length fmt)%nat.
Proof.
  destruct fmt as [|c fmt]; simpl; [lia|].
  destruct (scan1 sc c s) as [[v r]|]; simpl; [|lia].
  pose proof (scan_rest_length sc fmt r). lia.
Qed.

Lemma assign_length new old : (length new <= length old)%nat -> length (assign new old) = length old.
Proof. intros H. unfold assign. rewrite app_length, skipn_length. lia. Qed.

Lemma step_wf sc s c : wf s -> wf (next sc s c).
Proof.
  intros [H1 H2]. unfold next, step.
  destruct (is_lower _). { destruct (negb _); split; assumption. }
  destruct (_ =? 68). { destruct (sscanf sc fmt_D _) as [|v [|a q]]; split; assumption. }
  destruct (_ =? 71).
  { split; [|assumption]. cbn [fst gvars mvars]. rewrite assign_length; [assumption|].
    eapply Nat.le_trans; [apply sscanf_length|]. rewrite H1. apply le_n. }
  destruct (_ =? 77).
  { split; [assumption|]. cbn [fst gvars mvars]. rewrite assign_length; [assumption|].
    eapply Nat.le_trans; [apply sscanf_length|]. rewrite H2. apply le_n. }
  split; assumption.
Qed.

Lemma final_wf sc cs : forall s, wf s -> wf (final sc s cs).
Proof. induction cs as [|c cs IH]; intros s H; [exact H|]. simpl. apply IH, step_wf, H. Qed.

Lemma init_wf buf0 : wf (init buf0).
Proof. split; reflexivity. Qed.

Lemma out_line_G sc s fs t e : wf s ->
  reads_decimal sc -> Forall2 field_ok fmt_G fs -> stops t -> e = [] \/ e = [10] ->
  exists v vs, out sc s (line_G fs t ++ e) = [mkrow KG v vs] /\
     Forall2 Qeq (v :: vs) (map field_value fs).
Proof.
  intros [Hw _] Hsc F Ht He.
  unfold out, step. set (r := skipn (S _) (buf s)).
  change (line_G fs t ++ e) with (71 :: 44 :: (join fs ++ t) ++ e) in *.
  cbn [app nth skipn].
  change (is_lower 71) with false. change (71 =? 68) with false. change (71 =? 71) with true. change (71 =? 77) with false. cbn match.
  pose proof (body_scan sc fmt_G _ t e r Hsc F Ht He) as S.
  pose proof (Forall2_length' _ _ _ S) as L. rewrite map_length in L.
  rewrite <- (Forall2_length' _ _ _ F) in L. change (length fmt_G) with 10%nat in L.
  cbn [gvars mvars]. rewrite (assign_full 10) by assumption.
  destruct (sscanf sc fmt_G _) as [|v vs]; [discriminate|].
  eexists _, _. split; [reflexivity|]. exact S.
Qed.

Lemma out_line_M sc s fs t e : wf s ->
  reads_decimal sc -> Forall2 field_ok fmt_M fs -> stops t -> e = [] \/ e = [10] ->
  exists v vs, out sc s (line_M fs t ++ e) = [mkrow KM v vs] /\
     Forall2 Qeq (v :: vs) (map field_value fs).
Proof.
  intros [_ Hw] Hsc F Ht He.
  unfold out, step. set (r := skipn (S _) (buf s)).
  change (line_M fs t ++ e) with (77 :: 44 :: (join fs ++ t) ++ e) in *.
  cbn [app nth skipn].
  change (is_lower 77) with false. change (77 =? 68) with false. change (77 =? 71) with false. change (77 =? 77) with true. cbn match.
  pose proof (body_scan sc fmt_M _ t e r Hsc F Ht He) as S.
  pose proof (Forall2_length' _ _ _ S) as L. rewrite map_length in L.
  rewrite <- (Forall2_length' _ _ _ F) in L. change (length fmt_M) with 12%nat in L.
  cbn [gvars mvars]. rewrite (assign_full 12) by assumption.
  destruct (sscanf sc fmt_M _) as [|v vs]; [discriminate|].
  eexists _, _. split; [reflexivity|]. exact S.
Qed.

(** * Arbitrary files *)

Lemma take_line_full c r : ~ In 10 c -> take_line (length c) (c ++ r) = (c, r).
Proof.
  induction c as [|x c IH]; intros H; simpl; [reflexivity|].
  destruct (x =? 10) eqn:E; [apply Z.eqb_eq in E; exfalso; apply H; left; lia|].
  rewrite IH; [reflexivity|]. intros G; apply H; now right.
Qed.

Lemma chunks_pieces bs cs : fgets_pieces bs cs -> chunks bs = cs.
Proof.
  induction 1 as [|c bs cs Hn Hl _ IH|c bs cs Hn Hl _ IH|c Hne Hn Hl].
  - reflexivity.
  - rewrite chunks_cons by (destruct c; discriminate).
    simpl app. rewrite take_line_nl by (auto; lia). cbn [fst snd]. now rewrite IH.
  - assert (c <> []) by (destruct c; [discriminate Hl|discriminate]).
    rewrite chunks_cons by (destruct c; [congruence|discriminate]).
    rewrite <- Hl, take_line_full by assumption. cbn [fst snd]. now rewrite IH.
  - rewrite chunks_cons by assumption. rewrite take_line_end by (auto; lia). reflexivity.
Qed.

Lemma pieces_chunks bs : fgets_pieces bs (chunks bs).
Proof.
  remember (length bs) as n eqn:Hn. revert bs Hn.
  induction n as [n IH] using lt_wf_ind; intros bs Hn.
  destruct bs as [|x bs]; [constructor|].
  rewrite chunks_cons by discriminate.
  pose proof (take_line_app 255 (x :: bs)) as A.
  pose proof (take_line_nonempty 254 x bs) as B.
  assert (S : forall m l, let (c, r) := take_line m l in
     (exists c', c = c' ++ [10] /\ ~ In 10 c' /\ (length c' < m)%nat) \/
     (~ In 10 c /\ length c = m) \/ (~ In 10 c /\ (length c < m)%nat /\ r = [])).
  { clear. induction m as [|m IH]; intros [|y l]; simpl.
    - right; left. split; [tauto|reflexivity].
    - right; left. split; [tauto|reflexivity].
    - right; right. split; [tauto|]. split; [lia|reflexivity].
    - destruct (y =? 10) eqn:E.
      + left. apply Z.eqb_eq in E. subst. exists []. simpl. repeat split; [tauto|lia].
      + apply Z.eqb_neq in E. specialize (IH l). destruct (take_line m l) as [c r].
        destruct IH as [(c' & -> & H1 & H2)|[(H1 & H2)|(H1 & H2 & H3)]].
        * left. exists (y :: c'). simpl. repeat split; [intros [G|G]; [lia|tauto]|lia].
        * right; left. simpl. split; [intros [G|G]; [lia|tauto]|lia].
        * right; right. simpl. repeat split; [intros [G|G]; [lia|tauto]|lia|assumption]. }
  specialize (S 255%nat (x :: bs)).
  destruct (take_line 255 (x :: bs)) as [c r] eqn:E. cbn [fst snd] in *.
  assert (L : (length r < n)%nat).
  { apply (f_equal (@length Z)) in A. rewrite app_length in A. lia. }
  specialize (IH _ L r eq_refl). rewrite <- A.
  destruct S as [(c' & -> & H1 & H2)|[(H1 & H2)|(H1 & H2 & ->)]].
  - rewrite <- app_assoc. apply pieces_line; auto. lia.
  - apply pieces_full; auto.
  - rewrite app_nil_r. apply pieces_last; auto; [destruct c; [simpl in B; lia|discriminate]|lia].
Qed.

(** * Compact lines *)

Lemma Qmod_reduced x : reduced x (Qmod x roll).
Proof.
  destruct (Qmod_bounds x roll) as [H1 H2]; [reflexivity|].
  split; [exact H1|]. split; [exact H2|].
  exists (Qround.Qfloor (x / roll)). unfold Qmod. rewrite inject_Z_mult.
  unfold roll. change (inject_Z 8192) with (8192 # 1)%Q. ring.
Qed.

Lemma lower_letter d : letter d -> is_lower (109 + d) = true.
Proof. unfold letter, is_lower. intros H. apply andb_true_iff. split; apply Z.leb_le; lia. Qed.

Lemma not_lower c : ~ (97 <= c <= 122) -> is_lower c = false.
Proof. unfold is_lower. intros H. apply andb_false_iff. rewrite !Z.leb_gt. lia. Qed.

Lemma out_Compact2 sc s dev diff t e : letter dev -> letter diff ->
  exists m r, out sc s (record_text (Compact2 dev diff t) ++ e) = [r] /\
    reduced (prev s + 10 + inject_Z dev)%Q m /\ denotes r KD m [inject_Z diff].
Proof.
  intros H1 H2. unfold out, step. set (q := skipn (S _) (buf s)).
  cbn [record_text app nth]. rewrite !lower_letter by assumption. cbn [negb].
  exists (Qmod (prev s + 10 + inject_Z dev)%Q roll). eexists. split; [reflexivity|].
  split; [apply Qmod_reduced|].
  replace (109 + dev - 109) with dev by lia. replace (109 + diff - 109) with diff by lia.
  repeat split. constructor; [reflexivity|constructor].
Qed.

Lemma out_Compact1 sc s diff t e : letter diff ->
  match t with c :: _ => ~ (97 <= c <= 122) | [] => True end -> e = [] \/ e = [10] ->
  exists m r, out sc s (record_text (Compact1 diff t) ++ e) = [r] /\
    reduced (prev s + 10)%Q m /\ denotes r KD m [inject_Z diff].
Proof.
  intros H1 H2 He. unfold out, step. set (q := skipn (S _) (buf s)).
  cbn [record_text app nth]. rewrite lower_letter by assumption.
  assert (E : is_lower (nth 0 ((t ++ e) ++ 0 :: q) 0) = false).
  { destruct t as [|c t]; [|now apply not_lower]. destruct He as [->| ->]; reflexivity. }
  rewrite E. cbn [negb].
  exists (Qmod (prev s + 10)%Q roll). eexists. split; [reflexivity|].
  split; [apply Qmod_reduced|].
  replace (109 + diff - 109) with diff by lia.
  repeat split. constructor; [reflexivity|constructor].
Qed.

(** * Whole documented files *)

Lemma run_means sc : reads_decimal sc -> forall rs s e, wf s ->
  Forall record_ok rs -> Forall (fun r => record_text r <> [] \/ e = [10]) rs ->
  (e = [10] \/ (length rs <= 1)%nat) -> e = [] \/ e = [10] ->
  means (prev s) rs (run sc s (map (fun r => record_text r ++ e) rs)).
Proof.
  intros Hsc rs. induction rs as [|r rs IH]; intros s e Hwf Hok Hne Hlen He; [constructor|].
  inversion Hok as [|? ? Hr Hok']; subst. inversion Hne as [|? ? Hn Hne']; subst.
  simpl map. rewrite run_cons.
  assert (IH' := IH (next sc s (record_text r ++ e)) e (step_wf sc s _ Hwf) Hok' Hne'
     ltac:(destruct Hlen; [now left|right; simpl in *; lia]) He).
  rewrite step_prev in IH'.
  destruct r as [ms a t|fs t|fs t|dev diff t|diff t|l]; simpl in Hr.
  - destruct Hr as (H1 & H2 & H3).
    destruct (out_line_D sc s ms a t e Hsc H1 H2 H3 He) as (v & w & E & Hv & Hw).
    cbn [record_text] in *. rewrite E in *. cbn [app]. constructor; [|exact IH'].
    repeat split; [exact Hv|]. constructor; [exact Hw|constructor].
  - destruct Hr as (H1 & H2).
    destruct (out_line_G sc s fs t e Hwf Hsc H1 H2 He) as (v & vs & E & Hv).
    cbn [record_text] in *. rewrite E in *. cbn [app].
    destruct fs as [|f fs]; [inversion H1|].
    simpl map in Hv. inversion Hv; subst.
    constructor; [|exact IH']. repeat split; assumption.
  - destruct Hr as (H1 & H2).
    destruct (out_line_M sc s fs t e Hwf Hsc H1 H2 He) as (v & vs & E & Hv).
    cbn [record_text] in *. rewrite E in *. cbn [app].
    destruct fs as [|f fs]; [inversion H1|].
    simpl map in Hv. inversion Hv; subst.
    constructor; [|exact IH']. repeat split; assumption.
  - destruct Hr as (H1 & H2).
    destruct (out_Compact2 sc s dev diff t e H1 H2) as (m & row & E & Hm & Hd).
    rewrite E in *. cbn [app]. econstructor; [exact Hm|exact Hd|].
    simpl in IH'. unfold kind_D in IH'. destruct Hd as (Hk & _). rewrite Hk in IH'. exact IH'.
  - destruct Hr as (H1 & H2).
    destruct (out_Compact1 sc s diff t e H1 H2 He) as (m & row & E & Hm & Hd).
    rewrite E in *. cbn [app]. econstructor; [exact Hm|exact Hd|].
    simpl in IH'. unfold kind_D in IH'. destruct Hd as (Hk & _). rewrite Hk in IH'. exact IH'.
  - cbn [record_text] in *.
    assert (Hne2 : l ++ e <> []).
    { destruct Hn as [Hn| ->]; [destruct l; [congruence|discriminate]|destruct l; discriminate]. }
    assert (Hk : line_kind (l ++ e) = None).
    { destruct l as [|x l]; [destruct He as [->| ->]; reflexivity|exact Hr]. }
    destruct (step_inert sc s (l ++ e) Hne2 Hk) as [_ E]. rewrite E in *. simpl. constructor. exact IH'.
Qed.

Lemma means_app c r1 r2 rows1 rows2 :
  means c r1 rows1 -> means (last_clock_from c rows1) r2 rows2 -> means c (r1 ++ r2) (rows1 ++ rows2).
Proof.
  induction 1; intros H2; simpl in *; try assumption; try (econstructor; eauto; fail).
  all: match goal with H : denotes ?r ?k _ _ |- _ => pose proof H as (Hk & _); unfold kind_D in H2; rewrite Hk in H2 end;
    econstructor; eauto.
Qed.

Lemma file_means sc buf0 rs rlast : reads_decimal sc ->
  Forall record_ok rs -> Forall (fun r => ok_line (record_text r)) rs ->
  record_ok rlast -> ok_line (record_text rlast) ->
  means 0 (rs ++ [rlast]) (rows_of sc buf0 (file (map record_text rs) (record_text rlast))).
Proof.
  intros Hsc Hok Hfit Hl Hlfit.
  rewrite file_rows; [|apply Forall_map; exact Hfit|exact Hlfit].
  rewrite run_app. apply means_app.
  - rewrite map_map.
    apply (run_means sc Hsc rs (init buf0) [10]); auto using init_wf.
    apply Forall_forall. auto.
  - rewrite <- (final_prev sc _ (init buf0)).
    set (s := final _ _ _). assert (Hwf : wf s) by (apply final_wf, init_wf).
    destruct (record_text rlast) as [|x l] eqn:E.
    + destruct rlast; try discriminate. simpl. repeat constructor.
    + assert (Hc : last_chunk (x :: l) = map (fun r => record_text r ++ []) [rlast])
        by (simpl; now rewrite E, app_nil_r).
      rewrite Hc. apply run_means; auto. constructor; [left; rewrite E; discriminate|constructor].
Qed.

(** * One line inside an arbitrary file *)

Lemma rows_at sc buf0 l1 x l2 last : Forall ok_line l1 -> ok_line x -> Forall ok_line l2 -> ok_line last ->
  exists s r2, wf s /\ prev s = last_clock (rows_of sc buf0 (file l1 [])) /\
    rows_of sc buf0 (file (l1 ++ x :: l2) last) =
    rows_of sc buf0 (file l1 []) ++ out sc s (x ++ [10]) ++ r2.
Proof.
  intros H1 Hx H2 Hl.
  exists (state_after sc buf0 l1). eexists.
  split; [apply final_wf, init_wf|]. split; [now apply state_prev|].
  rewrite rows_split by (auto; now constructor). f_equal.
  simpl map.
  rewrite <- app_comm_cons, run_cons. reflexivity.
Qed.

Lemma record_at sc buf0 l1 rec l2 last : reads_decimal sc -> record_ok rec ->
  Forall ok_line l1 -> ok_line (record_text rec) -> Forall ok_line l2 -> ok_line last ->
  exists r1 r r2,
    rows_of sc buf0 (file (l1 ++ record_text rec :: l2) last) = r1 ++ r ++ r2 /\
    r1 = rows_of sc buf0 (file l1 []) /\ map rkind r1 = kinds l1 /\
    means (last_clock r1) [rec] r.
Proof.
  intros Hsc Hr H1 Hx H2 Hl.
  destruct (rows_at sc buf0 l1 (record_text rec) l2 last H1 Hx H2 Hl) as (s & r2 & Hwf & Hp & E).
  eexists _, _, r2. split; [exact E|]. split; [reflexivity|]. split.
  - unfold rows_of. rewrite rows_kinds_file by (auto using ok_nil). rewrite kinds_app. simpl. apply app_nil_r.
  - rewrite <- Hp.
    pose proof (run_means sc Hsc [rec] s [10] Hwf) as M.
    simpl map in M. rewrite run_cons in M. simpl run in M. rewrite app_nil_r in M.
    apply M; auto.
Qed.
