(** Property C04 for lines with blanks and plus signs before the numbers. *)
From Coq Require Import String.
From Coq Require Import ZArith QArith List Bool Lia.
From Verif Require Import Lib Base Scan Parser ParserSpec ParserProofs ScanProofs ParserProps BlankSpec.
Import ListNotations.
Open Scope Z_scope.

Lemma skip_blanks w s : Forall blank w -> skip_space (w ++ s) = skip_space s.
Proof.
  induction 1 as [|c w Hc _ IH]; [reflexivity|]. simpl.
  assert (E : is_space c = true) by (unfold blank in Hc; simpl in Hc; destruct Hc as [<-|[<-|[<-|[<-|[<-|[<-|[]]]]]]]; reflexivity).
  now rewrite E.
Qed.

Lemma plus_skip neg ds rest : neg = false -> ds <> [] -> all_digits ds ->
  take_sign (skip_space (43 :: sign_text neg ++ digit_text ds ++ rest)) =
  take_sign (skip_space (sign_text neg ++ digit_text ds ++ rest)).
Proof. intros -> Hne H. rewrite sign_scan by assumption. reflexivity. Qed.

Lemma padded_scan c p t : padded_ok c p -> stops t ->
  exists v, scan1 dec_scanner c (padded_text p ++ t) = Some (v, t) /\ (v == padded_value p)%Q.
Proof.
  intros (Hw & Hf & Hp) Ht.
  destruct (scan1_ok dec_scanner c (p_field p) t dec_scanner_reads Hf Ht) as (v & E & Hv).
  exists v. split; [|exact Hv]. rewrite <- E. clear E Hv.
  unfold padded_text. rewrite <- !app_assoc.
  destruct p as [w pl f]; cbn [p_blanks p_plus p_field] in *.
  assert (A : forall s, scan1 dec_scanner c (w ++ s) = scan1 dec_scanner c s).
  { intros s. destruct c; cbn [scan1 dec_scanner scan_d scan_lf]; unfold dec_scan_d, dec_scan_lf;
      rewrite skip_blanks by exact Hw; reflexivity. }
  rewrite A. destruct pl; [|reflexivity]. specialize (Hp eq_refl).
  destruct c, f as [i|d]; cbn [field_ok] in Hf; try contradiction; cbn [negative] in Hp;
    cbn [scan1 dec_scanner scan_d scan_lf field_text app]; unfold dec_scan_d, dec_scan_lf, int_text, dec_text;
    rewrite <- !app_assoc; rewrite plus_skip; try reflexivity; try assumption; apply Hf.
Qed.

Lemma padded_rest fmt ps : forall t, Forall2 padded_ok fmt ps -> ps <> [] -> stops t ->
  Forall2 Qeq (scan_rest dec_scanner fmt (44 :: padded_join ps ++ t)) (map padded_value ps).
Proof.
  intros t H. induction H as [|c p fmt ps Hp H IH]; intros Hne Ht; [congruence|].
  destruct ps as [|p' ps].
  - inversion H; subst. cbn [scan_rest padded_join map].
    destruct (padded_scan c p t) as (v & E & Hv); auto. rewrite E. repeat constructor. exact Hv.
  - change (padded_join (p :: p' :: ps)) with (padded_text p ++ 44 :: padded_join (p' :: ps)).
    rewrite <- app_assoc. cbn [scan_rest].
    destruct (padded_scan c p ((44 :: padded_join (p' :: ps)) ++ t)) as (v & E & Hv); [exact Hp|apply stops_comma|].
    rewrite E. cbn [map]. constructor; [exact Hv|]. apply IH; [discriminate|exact Ht].
Qed.

Lemma padded_sscanf fmt ps t : Forall2 padded_ok fmt ps -> stops t ->
  Forall2 Qeq (sscanf dec_scanner fmt (padded_join ps ++ t)) (map padded_value ps).
Proof.
  intros H Ht. inversion H as [|c p fmt' ps' Hp H']; subst; [constructor|].
  destruct ps' as [|p' ps].
  - inversion H'; subst. cbn [sscanf padded_join map].
    destruct (padded_scan c p t) as (v & E & Hv); auto. rewrite E. repeat constructor. exact Hv.
  - change (padded_join (p :: p' :: ps)) with (padded_text p ++ 44 :: padded_join (p' :: ps)).
    rewrite <- app_assoc. cbn [sscanf].
    destruct (padded_scan c p ((44 :: padded_join (p' :: ps)) ++ t)) as (v & E & Hv); [exact Hp|apply stops_comma|].
    rewrite E. cbn [map]. constructor; [exact Hv|]. apply padded_rest; [exact H'|discriminate|exact Ht].
Qed.

Lemma padded_nozero fmt ps : Forall2 padded_ok fmt ps -> ~ In 0 (padded_join ps).
Proof.
  assert (A : forall c p, padded_ok c p -> ~ In 0 (padded_text p)).
  { intros c p (Hw & Hf & _) X. unfold padded_text in X. apply in_app_or in X as [X|X].
    - rewrite Forall_forall in Hw. specialize (Hw 0 X). unfold blank in Hw. simpl in Hw. intuition discriminate.
    - apply in_app_or in X as [X|X].
      + destruct (p_plus p); simpl in X; intuition discriminate.
      + pose proof (field_nonzero c _ Hf 0 X). lia. }
  induction 1 as [|c p fmt ps Hp H IH]; intros X; [destruct X|].
  destruct ps as [|p' ps]; [exact (A c p Hp X)|].
  change (padded_join (p :: p' :: ps)) with (padded_text p ++ 44 :: padded_join (p' :: ps)) in X.
  apply in_app_or in X as [X|[X|X]]; [exact (A c p Hp X)|discriminate|exact (IH X)].
Qed.

Lemma padded_body fmt ps t q : Forall2 padded_ok fmt ps -> stops t ->
  Forall2 Qeq (sscanf dec_scanner fmt (cstr (((padded_join ps ++ t) ++ [10]) ++ 0 :: q))) (map padded_value ps).
Proof.
  intros F Ht. rewrite <- !app_assoc, cstr_app by (eapply padded_nozero; exact F).
  apply padded_sscanf; [exact F|]. apply stops_cstr.
  destruct Ht as [->|(c & r & -> & Hc)].
  - right. exists 10, (0 :: q). simpl. tauto.
  - right. exists c. eexists. split; [reflexivity|exact Hc].
Qed.

Lemma out_padded s k ps t : wf s -> Forall2 padded_ok (columns k) ps -> stops t ->
  exists v vs, out dec_scanner s ((marker k ++ padded_join ps ++ t) ++ [10]) = [mkrow k v vs] /\
    Forall2 Qeq (v :: vs) (map padded_value ps).
Proof.
  intros [Hg Hm] F Ht. unfold out, step. set (r := skipn (S _) (buf s)).
  pose proof (padded_body _ _ t r F Ht) as Sc.
  destruct k; cbn [marker columns] in *.
  - change (([68] ++ padded_join ps ++ t) ++ [10]) with (68 :: (padded_join ps ++ t) ++ [10]) in *.
    cbn [app nth skipn]. change (is_lower 68) with false. change (68 =? 68) with true. cbn match.
    change fmt_D with [Clf; Cd].
    inversion F as [|? p ? ps' _ F']; subst. inversion F' as [|? p' ? ps'' _ F'']; subst. inversion F''; subst.
    cbn [map] in *.
    destruct (sscanf dec_scanner [Clf; Cd] _) as [|v [|w q]]; inversion Sc as [|? ? ? ? Hv S1]; subst; inversion S1 as [|? ? ? ? Hw S2]; subst.
    inversion S2; subst. eexists _, _. split; [reflexivity|]. repeat constructor; assumption.
  - change (([71; 44] ++ padded_join ps ++ t) ++ [10]) with (71 :: 44 :: (padded_join ps ++ t) ++ [10]) in *.
    cbn [app nth skipn].
    change (is_lower 71) with false. change (71 =? 68) with false. change (71 =? 71) with true. cbn match.
    fold fmt_G in *. pose proof (Forall2_length' _ _ _ Sc) as L. rewrite map_length in L.
    rewrite <- (Forall2_length' _ _ _ F) in L. change (length fmt_G) with 10%nat in L.
    cbn [gvars mvars]. rewrite (assign_full 10) by assumption.
    destruct (sscanf dec_scanner fmt_G _) as [|v vs]; [discriminate|].
    eexists _, _. split; [reflexivity|]. exact Sc.
  - change (([77; 44] ++ padded_join ps ++ t) ++ [10]) with (77 :: 44 :: (padded_join ps ++ t) ++ [10]) in *.
    cbn [app nth skipn].
    change (is_lower 77) with false. change (77 =? 68) with false. change (77 =? 71) with false. change (77 =? 77) with true. cbn match.
    fold fmt_M in *. pose proof (Forall2_length' _ _ _ Sc) as L. rewrite map_length in L.
    rewrite <- (Forall2_length' _ _ _ F) in L. change (length fmt_M) with 12%nat in L.
    cbn [gvars mvars]. rewrite (assign_full 12) by assumption.
    destruct (sscanf dec_scanner fmt_M _) as [|v vs]; [discriminate|].
    eexists _, _. split; [reflexivity|]. exact Sc.
Qed.

(** C04, blanks.  With the C library's number scanning, a complete data line of any kind at any place of
    any file is read as what its numbers say, whatever blanks or plus sign stand before each of them. *)
Theorem C04_blanks_before_numbers :
  forall buf0 n l1 k p ps t l2 last rows,
  Forall2 padded_ok (columns k) (p :: ps) -> stops t ->
  let line := marker k ++ padded_join (p :: ps) ++ t in
  Forall ok_line l1 -> ok_line line -> Forall ok_line l2 -> ok_line last ->
  parse_gemfile dec_scanner buf0 n (file (l1 ++ line :: l2) last) = Some rows ->
  exists r1 r r2, rows = r1 ++ r :: r2 /\ map rkind r1 = kinds l1 /\
    denotes r k (padded_value p) (map padded_value ps).
Proof.
  intros buf0 n l1 k p ps t l2 last rows F Ht line H1 Hx H2 Hl P.
  apply parse_rows_of in P as [-> _].
  destruct (rows_at dec_scanner buf0 l1 line l2 last H1 Hx H2 Hl) as (s & r2 & Hwf & _ & E).
  destruct (out_padded s k (p :: ps) t Hwf F Ht) as (v & vs & O & V).
  fold line in O. rewrite O in E. exists (rows_of dec_scanner buf0 (file l1 [])), (mkrow k v vs), r2.
  split; [exact E|]. split.
  - unfold rows_of. rewrite rows_kinds_file by (auto using ok_nil). rewrite kinds_app. simpl. apply app_nil_r.
  - inversion V; subst. repeat split; assumption.
Qed.

Definition bl_ms : padded :=
  {| p_blanks := [32; 9]; p_plus := true; p_field := FDec {| dneg := false; dint := [7;5]; dfrac := Some [5] |} |}.
Definition bl_a : padded :=
  {| p_blanks := [11; 12; 32]; p_plus := false; p_field := FInt {| ineg := true; idig := [4;2] |} |}.

Example C04_blanks_case :
  Forall2 padded_ok (columns KD) [bl_ms; bl_a] /\
  marker KD ++ padded_join [bl_ms; bl_a] = b "D " ++ [9] ++ b "+75.5," ++ [11; 12] ++ b " -42" /\
  ok_line (marker KD ++ padded_join [bl_ms; bl_a] ++ [13]) /\
  exists rows, parse_gemfile dec_scanner [] 9
    (file [b "D60,1"; marker KD ++ padded_join [bl_ms; bl_a] ++ [13]; b "m"] []) = Some rows /\
    length rows = 3%nat.
Proof.
  split; [|split; [vm_compute; reflexivity|split]].
  - repeat (apply Forall2_cons || apply Forall2_nil); (split; [|split]).
    + cbn [p_blanks bl_ms]. repeat constructor; unfold blank; simpl; tauto.
    + cbn. unfold dec_ok, all_digits; cbn. repeat split; try discriminate; repeat constructor; lia.
    + reflexivity.
    + cbn [p_blanks bl_a]. repeat constructor; unfold blank; simpl; tauto.
    + cbn. unfold int_ok, all_digits, int_value; cbn. repeat split; try discriminate; repeat constructor; lia.
    + discriminate.
  - split; [|cbn; lia]. intros H. vm_compute in H. repeat (destruct H as [H|H]; [discriminate|]). exact H.
  - eexists. split; vm_compute; reflexivity.
Qed.

Print Assumptions C04_blanks_before_numbers.
