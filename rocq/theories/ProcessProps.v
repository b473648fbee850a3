(** Properties C10, C11, C13: interpretation of one raw file. *)
From Coq Require Import String.
From Coq Require Import ZArith QArith Qround List Bool Lia Lqa.
From Verif Require Import Lib Base Scan Parser ParserSpec UnwrapSpec Calendar CalendarSpec Process ProcessSpec
  ParserProofs ScanProofs ProcessProofs.
Import ListNotations.
Open Scope Z_scope.

(** C13.  Whatever the file, the format and the fallback readers: tables that are returned are
    consistent with the rows of the reader that produced them ([consistent]: one clock for the whole
    file, congruent to the recorded clock; every D row a sample 8.93 ms later; every M row with its own
    clock value; exactly the plausible fixes), neither table of samples nor metadata is empty, and with
    GPS required neither is the table of fixes. *)
Theorem C13_consistent sc buf0 ear pandas pandas08 content version offset req tab :
  read_single sc buf0 ear pandas pandas08 content version offset req = inl tab ->
  (exists df, (read_with_cython sc buf0 content req = inl df \/ pandas req = inl df \/ pandas08 req = inl df) /\
              consistent version offset req df tab) /\
  data tab <> [] /\ metadata tab <> [] /\ (req = true -> gps tab <> []).
Proof.
  unfold read_single. intros H. destruct (modern version).
  - apply try_readers_ok in H as (rd & df & I & E & C & X). split; [|exact X]. exists df. split; [|exact C].
    simpl in I. destruct I as [<-|[<-|[]]]; auto.
  - apply try_readers_ok in H as (rd & df & I & E & C & X). split; [|exact X]. exists df. split; [|exact C].
    simpl in I. destruct I as [<-|[]]; auto.
Qed.

(** Nothing but the documented exceptions escapes. *)
Theorem C13_only_documented_errors sc buf0 ear pandas pandas08 content version offset req e :
  read_single sc buf0 ear pandas pandas08 content version offset req = inr e ->
  In e [EmptyRawFile; NoGPS; CorruptRaw; FileNotFound; Interrupt].
Proof.
  unfold read_single. intros H.
  assert (e = CorruptRaw \/ fatal e = true) as [->|F].
  { destruct (modern version); eapply try_readers_exn; exact H. }
  - simpl; auto.
  - destruct e; try discriminate; simpl; auto 6.
Qed.

Theorem C13_missing_file sc buf0 ear pandas pandas08 version offset req : difference_coded version ->
  read_single sc buf0 ear pandas pandas08 None version offset req = inr FileNotFound.
Proof. intros V. destruct (difference_coded_settings _ V) as [M _]. unfold read_single. rewrite M. reflexivity. Qed.

(** Classification by the lines of the file. *)
Theorem C13_classification sc buf0 ear pandas pandas08 ls last version offset req :
  Forall ok_line ls -> ok_line last -> Z.of_nat (length (kinds (ls ++ [last]))) <= 65520000 ->
  difference_coded version ->
  let k := kinds (ls ++ [last]) in
  let result := read_single sc buf0 ear pandas pandas08 (Some (file ls last)) version offset req in
  (k = [] -> result = inr EmptyRawFile) /\
  (k <> [] -> ~ In KG k -> req = true -> result = inr NoGPS) /\
  (In KD k -> In KM k -> req = false -> exists tab, result = inl tab) /\
  (In KD k -> In KM k -> In KG k -> req = true ->
     (exists tab, result = inl tab) \/ result = inr NoGPS \/ result = inr CorruptRaw).
Proof.
  intros H1 H2 L V. cbv zeta.
  destruct (retry_lines sc buf0 ls last H1 H2 L) as (rows & P & K & Sh). rewrite <- K.
  destruct (difference_coded_settings _ V) as [Mo S].
  split; [|split; [|split]].
  - intros E. apply map_eq_nil in E. subst rows. rewrite (read_single_cython _ _ _ _ _ _ _ _ _ Mo).
    cbn [try_readers]. unfold read_with_cython. rewrite P. reflexivity.
  - intros N G ->. rewrite (read_single_cython _ _ _ _ _ _ _ _ _ Mo).
    cbn [try_readers]. unfold read_with_cython. rewrite P. destruct rows as [|r0 rs0]; [contradiction|].
    destruct (existsb (fun r => kind_eqb (rkind r) KG) (r0 :: rs0)) eqn:E.
    + apply exists_kind in E. contradiction.
    + reflexivity.
  - intros D M ->. rewrite (cython_decides _ _ _ _ _ _ _ _ _ _ V P D M).
    unfold read_with_cython. rewrite P. destruct rows as [|r0 rs0]; [destruct D|].
    rewrite andb_false_r. apply exists_kind in D. apply exists_kind in M.
    destruct (process_cython_total ear version offset false _ _ _ S Sh D M) as [[tab ->]|[[=] _]].
    destruct (gps tab); eauto.
  - intros D M G ->. rewrite (cython_decides _ _ _ _ _ _ _ _ _ _ V P D M).
    unfold read_with_cython. rewrite P. destruct rows as [|r0 rs0]; [destruct D|].
    apply exists_kind in G. rewrite G. cbn [negb andb].
    apply exists_kind in D. apply exists_kind in M.
    destruct (process_cython_total ear version offset true _ _ _ S Sh D M) as [[tab ->]|[_ ->]]; [|auto].
    destruct (gps tab); eauto.
Qed.

(** A file with samples, metadata and one plausible fix written in the documented form is read,
    whatever the rest of the file and whatever the fallback reader would do. *)
Theorem C13_one_fix_suffices sc buf0 ear pandas pandas08 l1 f lag y mo d h mi s la lo t l2 last version offset req epoch :
  reads_decimal sc ->
  Forall2 field_ok [Clf; Clf; Cd; Cd; Cd; Cd; Cd; Clf; Clf; Clf] [f; lag; y; mo; d; h; mi; s; la; lo] -> stops t ->
  let ls := l1 ++ line_G [f; lag; y; mo; d; h; mi; s; la; lo] t :: l2 in
  Forall ok_line ls -> ok_line last -> Z.of_nat (length (kinds (ls ++ [last]))) <= 65520000 ->
  difference_coded version ->
  In KD (kinds (ls ++ [last])) -> In KM (kinds (ls ++ [last])) ->
  plausible (mkfix 0 (Some (field_value lag)) (Some (field_value y)) (Some (field_value mo)) (Some (field_value d))
               (Some (field_value h)) (Some (field_value mi)) (Some (field_value s)) (Some (field_value la))
               (Some (field_value lo))) epoch ->
  exists tab, read_single sc buf0 ear pandas pandas08 (Some (file ls last)) version offset req = inl tab /\ gps tab <> [].
Proof.
  intros Hsc Hf Ht ls H1 H2 L V D M Pl. subst ls.
  set (g := line_G [f; lag; y; mo; d; h; mi; s; la; lo] t) in *.
  destruct (retry_lines sc buf0 (l1 ++ g :: l2) last H1 H2 L) as (rows & P & K & Sh).
  destruct (difference_coded_settings _ V) as [Mo S].
  rewrite <- K in D, M. rewrite (cython_decides _ _ _ _ _ _ _ _ _ _ V P D M).
  apply Forall_app in H1 as [H1a H1b]. inversion H1b as [|? ? Hg H1c]; subst.
  assert (X : exists x, In x rows /\ rkind x = KG /\ Forall2 Qeq (rvals x) (map field_value [lag; y; mo; d; h; mi; s; la; lo])).
  { assert (R : forall n, parse_gemfile sc buf0 n (file (l1 ++ g :: l2) last) = Some rows ->
      exists x, In x rows /\ rkind x = KG /\ Forall2 Qeq (rvals x) (map field_value [lag; y; mo; d; h; mi; s; la; lo])).
    { intros n E.
      pose proof (record_at sc buf0 l1 (Full_G [f; lag; y; mo; d; h; mi; s; la; lo] t) l2 last Hsc (conj Hf Ht) H1a Hg H1c H2) as R.
      unfold parse_gemfile in E. destruct (_ <=? n); [|discriminate]. injection E as <-.
      destruct R as (r1 & rs & r2 & E1 & _ & _ & Me). change (record_text (Full_G [f; lag; y; mo; d; h; mi; s; la; lo] t)) with g in E1.
      unfold rows_of in E1. rewrite E1. inversion Me; subst.
      match goal with Hd : denotes ?x KG _ _ |- _ => exists x; destruct Hd as (A & B & C) end.
      split; [apply in_or_app; right; left; reflexivity|]. auto. }
    unfold parse_retry in P. destruct (parse_gemfile sc buf0 1560000 (file (l1 ++ g :: l2) last)) as [rows'|] eqn:E.
    - injection P as ->. eapply R; exact E.
    - eapply R; exact P. }
  destruct X as (x & Ix & Kx & Vx).
  assert (G : In KG (map rkind rows)) by (rewrite <- Kx; now apply in_map).
  unfold read_with_cython. rewrite P. destruct rows as [|r0 rs0]; [destruct D|].
  apply exists_kind in G. rewrite G. cbn [negb andb].
  apply exists_kind in D. apply exists_kind in M.
  assert (W : exists x t, In x (r0 :: rs0) /\ rkind x = KG /\ exists m g, fix_in (m, drow_of x) g /\ plausible g t).
  { exists x, epoch. split; [exact Ix|]. split; [exact Kx|].
    destruct (rvals x) as [|v1 [|v2 [|v3 [|v4 [|v5 [|v6 [|v7 [|v8 [|v9 [|v10 vr]]]]]]]]]] eqn:Ev;
      try (apply Forall2_length_eq in Vx; discriminate).
    exists 0%Q, (mkfix 0 (Some v1) (Some v2) (Some v3) (Some v4) (Some v5) (Some v6) (Some v7) (Some v8) (Some v9)).
    split.
    - split; [reflexivity|]. exists []. simpl. rewrite Ev. simpl. split; [repeat constructor|reflexivity].
    - cbn [map] in Vx.
      repeat match goal with H : Forall2 Qeq (_ :: _) (_ :: _) |- _ => inversion H; clear H; subst end.
      eapply plausible_eq; [..|exact Pl]; cbn [msLag gyear gmonth gday ghour gminute gsecond glat glon opteq];
        symmetry; assumption. }
  destruct (process_cython ear version offset req (r0 :: rs0) _ _ S Sh D M W) as (tab & -> & Ng).
  destruct (gps tab) as [|g0 gr] eqn:Eg; [contradiction|].
  eexists. split; [reflexivity|]. cbn [gps]. congruence.
Qed.

(** Format '0.91', although listed among the formats of the fast reader, is never read
    ([_process_gemlog_data] does not know it). *)
Theorem C13_version_091_refuted sc buf0 ear pandas pandas08 content offset req tab :
  read_single sc buf0 ear pandas pandas08 content "0.91" offset req <> inl tab.
Proof.
  intros H. apply C13_consistent in H as [(df & _ & (r & clock & F & _)) _].
  destruct F as [[F _]|[F _]]; simpl in F; repeat destruct F as [F|F]; try discriminate; exact F.
Qed.

(** C10.  In difference-coded formats the samples are the running sums of the recorded differences
    (in the rows' order), in the plain formats the recorded values: part of [consistent], restated here
    for files with the lines needed, where no fallback is involved. *)
Theorem C10_samples_are_running_sums sc buf0 ear pandas pandas08 bs version offset req rows tab :
  difference_coded version -> parse_retry sc buf0 bs = Some rows ->
  In KD (map rkind rows) -> In KM (map rkind rows) ->
  read_single sc buf0 ear pandas pandas08 (Some bs) version offset req = inl tab ->
  running_sums (map (fun r => Some (hd 0%Q (rvals r))) (filter kind_D rows)) (map snd (data tab)).
Proof.
  intros V P D M H. rewrite (cython_decides _ _ _ _ _ _ _ _ _ _ V P D M) in H.
  unfold read_with_cython in H. rewrite P in H. destruct rows as [|r0 rs0]; [destruct D|].
  set (rows := r0 :: rs0) in *. destruct (difference_coded_settings _ V) as [Mo S].
  destruct (negb _ && req); [discriminate|].
  destruct (process ear version offset req (map drow_of rows)) as [out|e] eqn:Pr; [|discriminate].
  assert (Hg : gps out = [] -> req = false) by (intros E; rewrite E in H; destruct req; [discriminate|reflexivity]).
  destruct (process_ok ear version offset req _ out _ (correction_known _ _ _ S) Pr Hg) as ((r & clock & C) & _).
  assert (E : mktab (map (fun p => (fst p + (893 # 100), snd p))%Q (data out)) (metadata out) (gps out) = tab).
  { destruct (gps out), req; congruence. }
  rewrite E in C. destruct C as (F & Cg & _ & _ & C). cbv zeta in C. destruct C as (_ & (vs & Hv & Hr & _) & _).
  specialize (Hr V).
  assert (vs = map (fun r => Some (hd 0%Q (rvals r))) (filter kind_D rows)) as <-; [|exact Hr].
  pose proof (Forall2_length_eq _ _ _ Cg) as Lc. rewrite map_length in Lc.
  assert (Es : map snd (of_kind KD (combine clock (map drow_of rows))) = map drow_of (filter kind_D rows)).
  { rewrite of_kind_snd by exact Lc. rewrite filter_map. f_equal. }
  assert (Hv' : Forall2 (fun d v => exists c cs, dcells d = c :: cs /\ holds c v)
                  (map snd (of_kind KD (combine clock (map drow_of rows)))) vs).
  { apply Forall2_map_l. exact Hv. }
  rewrite Es in Hv'. apply Forall2_map_l in Hv'. clear -Hv'. induction Hv' as [|x v l vs (c & cs & E & Hc) H IH]; [reflexivity|].
  simpl. rewrite <- IH. f_equal. simpl in E. destruct (rvals x) as [|q l0]; [discriminate|]. simpl in E. injection E as <- <-.
  inversion Hc. reflexivity.
Qed.

(** Differencing the samples gives back the recorded differences. *)
Theorem C10_differences_recovered vs out i v0 v1 s0 s1 :
  running_sums vs out ->
  nth_error vs i = Some (Some v0) -> nth_error vs (S i) = Some (Some v1) ->
  nth_error out i = Some (Some s0) -> nth_error out (S i) = Some (Some s1) ->
  (s1 - s0 == v1)%Q.
Proof.
  intros [_ R] E0 E1 F0 F1.
  destruct (R _ _ E0) as (t0 & G0 & T0). destruct (R _ _ E1) as (t1 & G1 & T1).
  rewrite F0 in G0. rewrite F1 in G1. injection G0 as <-. injection G1 as <-.
  rewrite T0, T1. rewrite (firstn_snoc vs (S i) (Some v1) E1), total_app. simpl. ring.
Qed.

(** In the plain formats the recorded values are returned as they are. *)
Theorem C10_plain_formats_unchanged sc buf0 ear pandas pandas08 content version offset req tab :
  plain version ->
  read_single sc buf0 ear pandas pandas08 content version offset req = inl tab ->
  exists df, pandas08 req = inl df /\
    Forall2 (fun d v => exists c cs, dcells d = c :: cs /\ holds c v)
      (filter (fun d => kind_eqb (dkind d) KD) df) (map snd (data tab)).
Proof.
  intros V H. unfold read_single in H.
  assert (modern version = false) as Mo by (destruct V as [<-|[<-|[]]]; reflexivity).
  rewrite Mo in H. apply try_readers_ok in H as (rd & df & I & E & (r & clock & F & Cg & _ & _ & C) & _).
  simpl in I. destruct I as [<-|[]]. exists df. split; [exact E|].
  cbv zeta in C. destruct C as (_ & (vs & Hv & _ & Hp) & _). rewrite (Hp V).
  pose proof (Forall2_length_eq _ _ _ Cg) as Lc. rewrite map_length in Lc.
  rewrite <- (of_kind_snd KD clock df Lc). apply Forall2_map_l. exact Hv.
Qed.

(** C11.  A fix passes the filter and gets time [t] iff it is plausible ([plausible] spells out the
    documented limits and the calendar). *)
Theorem C11_filter_is_plausibility g t :
  (gps_in_bounds g = true /\ make_gps_time g = Some t) <-> plausible g t.
Proof. exact (plausible_iff g t). Qed.

(** The returned table consists of exactly the plausible fixes of the file, in order. *)
Theorem C11_exactly_the_plausible_fixes sc buf0 ear pandas pandas08 content version offset req tab :
  read_single sc buf0 ear pandas pandas08 content version offset req = inl tab ->
  exists df clock, (read_with_cython sc buf0 content req = inl df \/ pandas req = inl df \/ pandas08 req = inl df) /\
    length clock = length df /\
    (numeric_fixes (of_kind KG (combine clock df)) \/ req = true ->
     selected kept_as (of_kind KG (combine clock df)) (gps tab)).
Proof.
  intros H. apply C13_consistent in H as [(df & R & (r & clock & F & Cg & _ & _ & C)) _].
  exists df, clock. split; [exact R|]. pose proof (Forall2_length_eq _ _ _ Cg) as Lc. rewrite map_length in Lc.
  split; [exact Lc|]. cbv zeta in C. destruct C as (_ & _ & _ & [C|(_ & -> & N)]); [auto|].
  intros [X|X]; [contradiction|discriminate].
Qed.

(** Rows of the fast reader are always numeric, so the condition above is met by it. *)
Theorem C11_fast_reader_rows_numeric sc buf0 content req df clock :
  read_with_cython sc buf0 content req = inl df -> numeric_fixes (of_kind KG (combine clock df)).
Proof.
  unfold read_with_cython. destruct content as [bs|]; [|discriminate].
  destruct (parse_retry sc buf0 bs) as [[|r0 rs0]|] eqn:P; try discriminate.
  destruct (negb _ && req); [discriminate|]. intros [= <-].
  change (drow_of r0 :: map drow_of rs0) with (map drow_of (r0 :: rs0)).
  apply rows_numeric. eapply retry_shape. exact P.
Qed.

(** The fast and the reference filter accept the same fixes ... *)
Theorem C11_reference_filter_agrees g : gps_in_bounds g = check_gps g.
Proof. exact (bounds_agree g). Qed.

(** ... but the reference reader does not drop a fix whose date does not exist. *)
Theorem C11_reference_keeps_impossible_dates_refuted :
  exists g, check_gps g = true /\ make_gps_time g = None /\ forall t, ~ plausible g t.
Proof.
  exists (mkfix 0 (Some 1) (Some 2021) (Some 2) (Some 30) (Some 5) (Some 6) (Some 7) (Some 43) (Some (-116)))%Q.
  split; [reflexivity|]. split; [reflexivity|]. intros t P. apply plausible_iff in P as [_ P]. discriminate.
Qed.

(** A coordinate that is not a number is not filtered out. *)
Theorem C11_nan_position_refuted :
  exists g t, glat g = None /\ gps_in_bounds g = true /\ make_gps_time g = Some t.
Proof.
  exists (mkfix 0 (Some 1) (Some 2021) (Some 2) (Some 3) (Some 5) (Some 6) (Some 7) None (Some (-116)))%Q.
  eexists. split; [reflexivity|]. split; reflexivity.
Qed.

(** A concrete file: header lines, three samples, one plausible fix, one implausible, one metadata line. *)
Definition ex_raw : list bytes :=
  [b "#GemCSV0.91"; b "D8180,5"; b "G,8185,3.5,2020,2,29,23,59,58,43.5,-116.25"; b "nb"; b "D8,-7";
   b "G,10,3.5,2021,2,29,23,59,58,43.5,-116.25"; b "M,8,3.3,20.5,0,0,1,2,3,4,5,6,7"].

Example C13_case : exists tab,
  read_single dec_scanner [] true (fun _ => inr CorruptRaw) (fun _ => inr CorruptRaw) (Some (file ex_raw [])) "0.9" 0 true = inl tab /\
  Forall2 (fun x y => (fst x == fst y)%Q /\ match snd x with Some v => (v == snd y)%Q | None => False end) (data tab)
    [(-12 + 8.93, 5); (-1 + 8.93, -6); (8 + 8.93, -13)]%Q /\
  length (gps tab) = 1%nat /\ map snd (gps tab) = [1583020798] /\ length (metadata tab) = 1%nat.
Proof.
  eexists. split; [vm_compute; reflexivity|]. split; [repeat constructor|]. repeat split.
Qed.

Example C13_case_lines : Forall ok_line ex_raw /\
  In KD (kinds (ex_raw ++ [[]])) /\ In KM (kinds (ex_raw ++ [[]])) /\ In KG (kinds (ex_raw ++ [[]])) /\ difference_coded "0.9".
Proof.
  split; [|vm_compute; intuition].
  repeat constructor; simpl; try lia; intros H; repeat (destruct H as [H|H]; [discriminate|]); exact H.
Qed.

Example C13_case_fix :
  let fs := [FDec {| dneg := false; dint := [8;1;8;5]; dfrac := None |}; FDec {| dneg := false; dint := [3]; dfrac := Some [5] |};
     FInt {| ineg := false; idig := [2;0;2;0] |}; FInt {| ineg := false; idig := [2] |}; FInt {| ineg := false; idig := [2;9] |};
     FInt {| ineg := false; idig := [2;3] |}; FInt {| ineg := false; idig := [5;9] |};
     FDec {| dneg := false; dint := [5;8]; dfrac := None |}; FDec {| dneg := false; dint := [4;3]; dfrac := Some [5] |};
     FDec {| dneg := true; dint := [1;1;6]; dfrac := Some [2;5] |}] in
  nth 2 ex_raw [] = line_G fs [] /\
  Forall2 field_ok [Clf; Clf; Cd; Cd; Cd; Cd; Cd; Clf; Clf; Clf] fs /\
  plausible (mkfix 0 (Some (7#2)) (Some 2020) (Some 2) (Some 29) (Some 23) (Some 59) (Some 58) (Some (87#2)) (Some (-465#4)))%Q 1583020798.
Proof.
  cbv zeta. split; [reflexivity|]. split.
  - repeat constructor; try discriminate; try lia; cbn; lia.
  - apply plausible_iff. split; reflexivity.
Qed.

Example C10_case : running_sums [Some 5; Some (-11); None; Some 2]%Q [Some 5; Some (-6); None; Some (-4)]%Q.
Proof.
  split; [reflexivity|]. intros [|[|[|[|i]]]] v E; try (injection E as <-); simpl;
    try (eexists; split; [reflexivity|reflexivity]); try reflexivity.
  destruct i; discriminate.
Qed.

Example C10_case_plain : exists tab,
  read_single dec_scanner [] true (fun _ => inr CorruptRaw)
    (fun _ => inl [mkd KD 65530 [Num 100]; mkd KD 4 [Num 103]; mkd KM 5 (repeat (Num 0) 12)]) None "0.85" 0 false = inl tab /\
  map snd (data tab) = [Some 100; Some 103]%Q.
Proof. eexists. split; [vm_compute; reflexivity|reflexivity]. Qed.

Print Assumptions C13_consistent.
Print Assumptions C13_only_documented_errors.
Print Assumptions C13_missing_file.
Print Assumptions C13_classification.
Print Assumptions C13_one_fix_suffices.
Print Assumptions C13_version_091_refuted.
Print Assumptions C10_samples_are_running_sums.
Print Assumptions C10_differences_recovered.
Print Assumptions C10_plain_formats_unchanged.
Print Assumptions C11_filter_is_plausibility.
Print Assumptions C11_exactly_the_plausible_fixes.
Print Assumptions C11_fast_reader_rows_numeric.
Print Assumptions C11_reference_filter_agrees.
Print Assumptions C11_reference_keeps_impossible_dates_refuted.
Print Assumptions C11_nan_position_refuted.
