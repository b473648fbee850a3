From Coq Require Import ZArith QArith List Bool Lia Lqa.
From Verif Require Import Base Scan Parser ParserSpec.
Import ListNotations.
Open Scope Z_scope.

(** * Chunking *)

Lemma take_line_app n bs : let (c, r) := take_line n bs in c ++ r = bs.
Proof.
  revert bs; induction n as [|n IH]; intros [|x bs]; simpl; try reflexivity.
  destruct (x =? 10) eqn:E; [reflexivity|].
  specialize (IH bs). destruct (take_line n bs) as [c r]. simpl. now rewrite IH.
Qed.

Lemma take_line_nonempty n x bs : (length (fst (take_line (S n) (x :: bs))) > 0)%nat.
Proof.
  simpl. destruct (x =? 10); simpl; [lia|].
  destruct (take_line n bs); simpl; lia.
Qed.

Lemma concat_chunks_fuel f bs : (length bs <= f)%nat -> concat (chunks_fuel f bs) = bs.
Proof.
  revert bs; induction f as [|f IH]; intros bs H.
  - destruct bs; simpl in *; [reflexivity|lia].
  - destruct bs as [|x bs]; [reflexivity|].
    cbn [chunks_fuel].
    pose proof (take_line_app 255 (x :: bs)) as A.
    pose proof (take_line_nonempty 254 x bs) as B.
    destruct (take_line 255 (x :: bs)) as [c r] eqn:E.
    cbn [fst] in B. simpl concat. rewrite IH; [exact A|].
    apply (f_equal (@length Z)) in A. rewrite app_length in A. simpl in A, H. lia.
Qed.

(** [fgets] reads the whole file. *)
Lemma concat_chunks bs : concat (chunks bs) = bs.
Proof. apply concat_chunks_fuel. lia. Qed.

Lemma chunks_fuel_enough f g bs :
  (length bs <= f)%nat -> (length bs <= g)%nat -> chunks_fuel f bs = chunks_fuel g bs.
Proof.
  revert g bs; induction f as [|f IH]; intros g bs Hf Hg.
  - destruct bs; simpl in *; [|lia]. destruct g; reflexivity.
  - destruct bs as [|x bs]; [destruct g; reflexivity|].
    destruct g as [|g]; [simpl in Hg; lia|].
    cbn [chunks_fuel].
    pose proof (take_line_app 255 (x :: bs)) as A.
    pose proof (take_line_nonempty 254 x bs) as B.
    destruct (take_line 255 (x :: bs)) as [c r] eqn:E. cbn [fst] in B.
    apply (f_equal (@length Z)) in A. rewrite app_length in A. simpl in A, Hf, Hg.
    f_equal. apply IH; lia.
Qed.

Lemma chunks_cons bs : bs <> [] ->
  chunks bs = fst (take_line 255 bs) :: chunks (snd (take_line 255 bs)).
Proof.
  intros H. destruct bs as [|x bs]; [congruence|].
  unfold chunks. cbn [length chunks_fuel].
  pose proof (take_line_app 255 (x :: bs)) as A.
  pose proof (take_line_nonempty 254 x bs) as B.
  destruct (take_line 255 (x :: bs)) as [c r] eqn:E. cbn [fst snd] in *.
  apply (f_equal (@length Z)) in A. rewrite app_length in A. simpl in A.
  f_equal. apply chunks_fuel_enough; lia.
Qed.

Lemma take_line_nl n l r : ~ In 10 l -> (length l < n)%nat ->
  take_line n (l ++ 10 :: r) = (l ++ [10], r).
Proof.
  revert n; induction l as [|x l IH]; intros [|n] Hin Hlen; simpl in *; try lia.
  - reflexivity.
  - destruct (x =? 10) eqn:E; [apply Z.eqb_eq in E; exfalso; apply Hin; left; lia|].
    rewrite IH; [reflexivity| |lia]. intros H; apply Hin; now right.
Qed.

Lemma take_line_end n l : ~ In 10 l -> (length l <= n)%nat -> take_line n l = (l, []).
Proof.
  revert n; induction l as [|x l IH]; intros [|n] Hin Hlen; simpl in *; try lia; try reflexivity.
  destruct (x =? 10) eqn:E; [apply Z.eqb_eq in E; exfalso; apply Hin; left; lia|].
  rewrite IH; [reflexivity| |lia]. intros H; apply Hin; now right.
Qed.

Definition last_chunk (l : bytes) : list bytes := match l with [] => [] | _ => [l] end.

Lemma chunks_file ls last :
  Forall ok_line ls -> ok_line last ->
  chunks (file ls last) = map (fun l => l ++ [10]) ls ++ last_chunk last.
Proof.
  intros H Hl. induction H as [|l ls [Hn Hlen] _ IH]; unfold file, unlines; simpl.
  - destruct Hl as [Hn Hlen]. destruct last as [|x l]; [reflexivity|].
    rewrite chunks_cons by discriminate.
    rewrite take_line_end; [reflexivity|exact Hn|lia].
  - rewrite <- !app_assoc. simpl app.
    rewrite chunks_cons by (destruct l; discriminate).
    rewrite take_line_nl by (auto; lia). cbn [fst snd]. f_equal.
    exact IH.
Qed.

(** * Structure of [run] *)

Definition next (sc : scanner) (s : pstate) (c : bytes) : pstate := fst (step sc s c).
Definition out (sc : scanner) (s : pstate) (c : bytes) : list row :=
  match snd (step sc s c) with Some r => [r] | None => [] end.

Lemma run_cons sc s c cs : run sc s (c :: cs) = out sc s c ++ run sc (next sc s c) cs.
Proof.
  unfold out, next. simpl. destruct (step sc s c) as [s' [r|]]; reflexivity.
Qed.

Definition final (sc : scanner) (s : pstate) (cs : list bytes) : pstate := fold_left (next sc) cs s.

Lemma run_app sc s cs1 cs2 : run sc s (cs1 ++ cs2) = run sc s cs1 ++ run sc (final sc s cs1) cs2.
Proof.
  revert s; induction cs1 as [|c cs1 IH]; intros s; [reflexivity|].
  change ((c :: cs1) ++ cs2) with (c :: (cs1 ++ cs2)).
  rewrite !run_cons, IH, app_assoc. reflexivity.
Qed.

(** The part of the state other than the line buffer. *)
Definition core (s : pstate) := (prev s, dms s, adc s, gvars s, mvars s).

(** A chunk whose treatment does not depend on the old buffer. *)
Definition selfcontained (c : bytes) : Prop := c <> [] /\ c <> [71] /\ c <> [77].

Lemma cstr_stop c r1 r2 : cstr (c ++ 0 :: r1) = cstr (c ++ 0 :: r2).
Proof. induction c as [|x c IH]; simpl; [reflexivity|]. destruct (x =? 0); [reflexivity|now rewrite IH]. Qed.

Lemma nth1_app c r1 r2 : c <> [] -> nth 1 (c ++ 0 :: r1) 0 = nth 1 (c ++ 0 :: r2) 0.
Proof. destruct c as [|x [|y c]]; simpl; congruence. Qed.

Lemma nth0_app c r1 r2 : nth 0 (c ++ 0 :: r1) 0 = nth 0 (c ++ 0 :: r2) 0.
Proof. destruct c; reflexivity. Qed.

Lemma skip1_cstr c r1 r2 : c <> [] -> cstr (skipn 1 (c ++ 0 :: r1)) = cstr (skipn 1 (c ++ 0 :: r2)).
Proof. destruct c as [|x c]; [congruence|]. intros _. simpl. apply cstr_stop. Qed.

Lemma step_buf sc s1 s2 c :
  selfcontained c -> core s1 = core s2 ->
  core (next sc s1 c) = core (next sc s2 c) /\ out sc s1 c = out sc s2 c.
Proof.
  intros (Hne & HG & HM) Hc. unfold core in Hc. injection Hc as E1 E2 E3 E4 E5.
  unfold next, out, step.
  set (r1 := skipn (S (length c)) (buf s1)). set (r2 := skipn (S (length c)) (buf s2)).
  cbn [prev dms adc gvars mvars buf].
  rewrite <- E1, <- E2, <- E3, <- E4, <- E5.
  rewrite (nth0_app c r1 r2). rewrite (nth1_app c r1 r2 Hne).
  rewrite (skip1_cstr c r1 r2 Hne).
  destruct (is_lower (nth 0 (c ++ 0 :: r2) 0)).
  { destruct (negb (is_lower (nth 1 (c ++ 0 :: r2) 0))); split; reflexivity. }
  destruct (nth 0 (c ++ 0 :: r2) 0 =? 68).
  { destruct (sscanf sc fmt_D _) as [|v [|a q]]; split; reflexivity. }
  destruct (nth 0 (c ++ 0 :: r2) 0 =? 71) eqn:EG.
  { assert (Hs : cstr (skipn 2 (c ++ 0 :: r1)) = cstr (skipn 2 (c ++ 0 :: r2))).
    { destruct c as [|x [|y c]]; [congruence| |simpl; apply cstr_stop].
      simpl in EG. apply Z.eqb_eq in EG. subst. congruence. }
    rewrite Hs. split; reflexivity. }
  destruct (nth 0 (c ++ 0 :: r2) 0 =? 77) eqn:EM.
  { assert (Hs : cstr (skipn 2 (c ++ 0 :: r1)) = cstr (skipn 2 (c ++ 0 :: r2))).
    { destruct c as [|x [|y c]]; [congruence| |simpl; apply cstr_stop].
      simpl in EM. apply Z.eqb_eq in EM. subst. congruence. }
    rewrite Hs. split; reflexivity. }
  split; reflexivity.
Qed.

Lemma run_core sc cs : forall s1 s2,
  Forall selfcontained cs -> core s1 = core s2 -> run sc s1 cs = run sc s2 cs.
Proof.
  induction cs as [|c cs IH]; intros s1 s2 H E; [reflexivity|].
  inversion H; subst. rewrite !run_cons.
  destruct (step_buf sc s1 s2 c) as [A B]; auto.
  rewrite B. f_equal. now apply IH.
Qed.

Lemma final_core sc cs : forall s1 s2,
  Forall selfcontained cs -> core s1 = core s2 -> core (final sc s1 cs) = core (final sc s2 cs).
Proof.
  induction cs as [|c cs IH]; intros s1 s2 H E; [exact E|].
  inversion H; subst. simpl. apply IH; auto.
  now destruct (step_buf sc s1 s2 c).
Qed.

Lemma nl_selfcontained l : selfcontained (l ++ [10]).
Proof. repeat split; destruct l as [|x [|y l]]; discriminate. Qed.

Lemma lines_selfcontained ls : Forall selfcontained (map (fun l => l ++ [10]) ls).
Proof. apply Forall_forall. intros c H. apply in_map_iff in H as (l & <- & _). apply nl_selfcontained. Qed.

Lemma last_selfcontained l : ok_last l -> Forall selfcontained (last_chunk l).
Proof. intros (_ & H1 & H2). destruct l as [|x l]; constructor; [|constructor]. repeat split; congruence. Qed.

(** * Kinds of rows *)

Lemma out_kind sc s c : c <> [] ->
  map rkind (out sc s c) = match line_kind c with Some k => [k] | None => [] end.
Proof.
  intros Hc. destruct c as [|x c]; [congruence|]. clear Hc.
  unfold out, step, line_kind. cbn [app nth]. unfold is_lower.
  destruct ((97 <=? x) && (x <=? 122)) eqn:EL.
  { simpl orb. destruct (negb _); reflexivity. }
  destruct (x =? 68) eqn:ED.
  { simpl orb. destruct (sscanf sc fmt_D _) as [|v [|a q]]; reflexivity. }
  simpl orb. destruct (x =? 71); [reflexivity|]. destruct (x =? 77); reflexivity.
Qed.

Lemma line_kind_nl l : line_kind (l ++ [10]) = line_kind l.
Proof. destruct l; reflexivity. Qed.

Lemma kinds_app l1 l2 : kinds (l1 ++ l2) = kinds l1 ++ kinds l2.
Proof. induction l1 as [|l l1 IH]; [reflexivity|]. simpl. destruct (line_kind l); simpl; now rewrite IH. Qed.

Lemma run_kinds sc cs : forall s, Forall (fun c => c <> []) cs -> map rkind (run sc s cs) = kinds cs.
Proof.
  induction cs as [|c cs IH]; intros s H; [reflexivity|].
  inversion H; subst. rewrite run_cons, map_app, out_kind, IH by assumption.
  simpl. now destruct (line_kind c).
Qed.

Lemma kinds_nl ls : kinds (map (fun l => l ++ [10]) ls) = kinds ls.
Proof. induction ls as [|l ls IH]; [reflexivity|]. simpl map. simpl kinds. now rewrite line_kind_nl, IH. Qed.

Lemma kinds_last l : kinds (last_chunk l) = kinds [l].
Proof. destruct l; reflexivity. Qed.

Lemma chunks_nonempty_fuel f bs : Forall (fun c => c <> []) (chunks_fuel f bs).
Proof.
  revert bs; induction f as [|f IH]; intros [|x bs]; try constructor.
  cbn [chunks_fuel]. pose proof (take_line_nonempty 254 x bs) as B.
  destruct (take_line 255 (x :: bs)) as [c r]. cbn [fst] in B.
  constructor; [destruct c; [simpl in B; lia|discriminate]|apply IH].
Qed.

Lemma rows_kinds_any sc buf0 bs : map rkind (run sc (init buf0) (chunks bs)) = kinds (chunks bs).
Proof. apply run_kinds, chunks_nonempty_fuel. Qed.

Lemma rows_kinds_file sc buf0 ls last : Forall ok_line ls -> ok_line last ->
  map rkind (run sc (init buf0) (chunks (file ls last))) = kinds (ls ++ [last]).
Proof.
  intros H Hl. rewrite rows_kinds_any, chunks_file by assumption.
  now rewrite kinds_app, kinds_nl, kinds_last, <- kinds_app.
Qed.

(** * Inert lines *)

Lemma step_inert sc s c : c <> [] -> line_kind c = None ->
  core (next sc s c) = core s /\ out sc s c = [].
Proof.
  intros Hc Hk. destruct c as [|x c]; [congruence|]. clear Hc.
  unfold next, out, step, line_kind in *. cbn [app nth].
  unfold is_lower.
  destruct ((97 <=? x) && (x <=? 122)); [discriminate|].
  destruct (x =? 68); [discriminate|]. destruct (x =? 71); [discriminate|].
  destruct (x =? 77); [discriminate|]. split; reflexivity.
Qed.

Lemma run_filter sc cs : forall s1 s2,
  Forall selfcontained cs -> core s1 = core s2 -> run sc s1 cs = run sc s2 (filter is_data cs).
Proof.
  induction cs as [|c cs IH]; intros s1 s2 H E; [reflexivity|].
  inversion H as [|? ? Hc Hcs]; subst. rewrite run_cons. simpl filter.
  unfold is_data at 1. destruct (line_kind c) eqn:K.
  - rewrite run_cons. destruct (step_buf sc s1 s2 c) as [A B]; auto.
    rewrite B. f_equal. now apply IH.
  - destruct (step_inert sc s1 c) as [A B]; [apply Hc|assumption|].
    rewrite B. simpl. apply IH; congruence.
Qed.

Lemma filter_nl ls : filter is_data (map (fun l => l ++ [10]) ls) = map (fun l => l ++ [10]) (filter is_data ls).
Proof.
  induction ls as [|l ls IH]; [reflexivity|]. simpl map. simpl filter.
  replace (is_data (l ++ [10])) with (is_data l) by (unfold is_data; now rewrite line_kind_nl).
  destruct (is_data l); simpl; now rewrite IH.
Qed.

Definition keep_last (p : bytes -> bool) (l : bytes) : bytes := if p l then l else [].

Lemma filter_last l : filter is_data (last_chunk l) = last_chunk (keep_last is_data l).
Proof. destruct l as [|x l]; [reflexivity|]. unfold keep_last. simpl. destruct (is_data (x :: l)); reflexivity. Qed.

Lemma ok_lines_filter p ls : Forall ok_line ls -> Forall ok_line (filter p ls).
Proof. induction 1; simpl; [constructor|]. destruct (p x); [constructor|]; auto. Qed.

Lemma ok_nil : ok_line [].
Proof. split; simpl; [tauto|lia]. Qed.

Lemma ok_keep_last p l : ok_line l -> ok_line (keep_last p l).
Proof. intros H. unfold keep_last. destruct (p l); [exact H|apply ok_nil]. Qed.

Lemma parse_inert sc b1 b2 n ls last : Forall ok_line ls -> ok_last last ->
  parse_gemfile sc b1 n (file ls last) =
  parse_gemfile sc b2 n (file (filter is_data ls) (keep_last is_data last)).
Proof.
  intros H Hl. unfold parse_gemfile.
  rewrite !chunks_file; try assumption; try apply Hl; try (now apply ok_lines_filter); try (apply ok_keep_last; apply Hl).
  rewrite <- filter_nl, <- filter_last, <- filter_app.
  rewrite <- (run_filter sc _ (init b1) (init b2)); [reflexivity| |reflexivity].
  apply Forall_app. split; [apply lines_selfcontained|now apply last_selfcontained].
Qed.

(** * Samples do not depend on GPS / metadata lines *)

Definition dcore (s : pstate) := (prev s, dms s, adc s).

Lemma step_sample sc s1 s2 c : selfcontained c -> dcore s1 = dcore s2 -> line_kind c = Some KD ->
  dcore (next sc s1 c) = dcore (next sc s2 c) /\ out sc s1 c = out sc s2 c.
Proof.
  intros (Hne & HG & HM) Hc Hk. unfold dcore in Hc. injection Hc as E1 E2 E3.
  unfold next, out, step.
  set (r1 := skipn (S (length c)) (buf s1)). set (r2 := skipn (S (length c)) (buf s2)).
  cbn [prev dms adc gvars mvars buf].
  rewrite <- E1, <- E2, <- E3.
  rewrite (nth0_app c r1 r2). rewrite (nth1_app c r1 r2 Hne).
  rewrite (skip1_cstr c r1 r2 Hne).
  destruct c as [|x c]; [congruence|]. cbn [app nth]. unfold line_kind in Hk.
  change ((97 <=? x) && (x <=? 122)) with (is_lower x) in Hk.
  destruct (is_lower x) eqn:EL.
  { destruct (negb _); split; reflexivity. }
  destruct (x =? 68) eqn:ED.
  { destruct (sscanf sc fmt_D _) as [|v [|a q]]; split; reflexivity. }
  simpl in Hk. destruct (x =? 71); [discriminate|]. destruct (x =? 77); discriminate.
Qed.

Lemma step_nonsample sc s c : c <> [] -> is_sample c = false ->
  dcore (next sc s c) = dcore s /\ filter kind_D (out sc s c) = [].
Proof.
  intros Hc Hk. destruct c as [|x c]; [congruence|]. clear Hc.
  unfold next, out, step, is_sample, line_kind in *. cbn [app nth]. unfold is_lower.
  destruct ((97 <=? x) && (x <=? 122)); [discriminate|].
  destruct (x =? 68); [discriminate|]. destruct (x =? 71); [split; reflexivity|].
  destruct (x =? 77); split; reflexivity.
Qed.

Lemma run_samples sc cs : forall s1 s2,
  Forall (fun c => c <> []) cs -> Forall selfcontained (filter is_sample cs) -> dcore s1 = dcore s2 ->
  filter kind_D (run sc s1 cs) = run sc s2 (filter is_sample cs).
Proof.
  induction cs as [|c cs IH]; intros s1 s2 H0 H E; [reflexivity|].
  inversion H0; subst. rewrite run_cons, filter_app. simpl filter in *.
  destruct (is_sample c) eqn:K.
  - assert (Hk : line_kind c = Some KD)
      by (unfold is_sample in K; destruct (line_kind c) as [[]|]; congruence).
    inversion H; subst.
    rewrite run_cons. destruct (step_sample sc s1 s2 c) as [A B]; auto.
    rewrite B. f_equal; [|now apply IH].
    pose proof (out_kind sc s2 c ltac:(assumption)) as OK. rewrite Hk in OK.
    destruct (out sc s2 c) as [|r [|]]; try discriminate. simpl in *. injection OK as OK.
    unfold kind_D. now rewrite OK.
  - destruct (step_nonsample sc s1 c) as [A B]; auto. rewrite B. simpl. apply IH; congruence.
Qed.

Lemma filter_nl_s ls : filter is_sample (map (fun l => l ++ [10]) ls) = map (fun l => l ++ [10]) (filter is_sample ls).
Proof.
  induction ls as [|l ls IH]; [reflexivity|]. simpl map. simpl filter.
  replace (is_sample (l ++ [10])) with (is_sample l) by (unfold is_sample; now rewrite line_kind_nl).
  destruct (is_sample l); simpl; now rewrite IH.
Qed.

Lemma filter_last_s l : filter is_sample (last_chunk l) = last_chunk (keep_last is_sample l).
Proof. destruct l as [|x l]; [reflexivity|]. unfold keep_last. simpl. destruct (is_sample (x :: l)); reflexivity. Qed.

Lemma rows_samples sc b1 b2 ls last : Forall ok_line ls -> ok_line last ->
  filter kind_D (run sc (init b1) (chunks (file ls last))) =
  run sc (init b2) (chunks (file (filter is_sample ls) (keep_last is_sample last))).
Proof.
  intros H Hl.
  rewrite !chunks_file; try assumption; try (now apply ok_lines_filter); try (now apply ok_keep_last).
  rewrite <- filter_nl_s, <- filter_last_s, <- filter_app.
  apply run_samples; [| |reflexivity].
  - apply Forall_app. split.
    + apply Forall_forall. intros c Hc. apply in_map_iff in Hc as (l & <- & _). destruct l; discriminate.
    + destruct last; repeat constructor; discriminate.
  - rewrite filter_app. apply Forall_app. split.
    + rewrite filter_nl_s. apply lines_selfcontained.
    + destruct last as [|x l]; simpl; [constructor|]. destruct (is_sample (x :: l)) eqn:E; [|constructor].
      constructor; [|constructor]. repeat split; try discriminate; intros A; rewrite A in E; discriminate.
Qed.

(** * The clock state is the time stamp of the last sample row *)

Lemma step_prev sc s c : prev (next sc s c) = last_clock_from (prev s) (out sc s c).
Proof.
  unfold next, out, step.
  destruct (is_lower _).
  { destruct (negb _); reflexivity. }
  destruct (_ =? 68). { destruct (sscanf sc fmt_D _) as [|v [|a q]]; reflexivity. }
  destruct (_ =? 71); [reflexivity|]. destruct (_ =? 77); reflexivity.
Qed.

Lemma last_clock_app d r1 r2 : last_clock_from d (r1 ++ r2) = last_clock_from (last_clock_from d r1) r2.
Proof. revert d; induction r1 as [|r r1 IH]; intros d; simpl; [reflexivity|apply IH]. Qed.

Lemma final_prev sc cs : forall s, prev (final sc s cs) = last_clock_from (prev s) (run sc s cs).
Proof.
  induction cs as [|c cs IH]; intros s; [reflexivity|].
  rewrite run_cons, last_clock_app. simpl. now rewrite IH, step_prev.
Qed.

(** * Files extend row by row *)

Definition rows_of (sc : scanner) (buf0 : bytes) (bs : bytes) : list row := run sc (init buf0) (chunks bs).

Lemma file_rows sc buf0 ls last : Forall ok_line ls -> ok_line last ->
  rows_of sc buf0 (file ls last) =
  run sc (init buf0) (map (fun l => l ++ [10]) ls ++ last_chunk last).
Proof. intros. unfold rows_of. now rewrite chunks_file. Qed.

Definition state_after (sc : scanner) (buf0 : bytes) (ls : list bytes) : pstate :=
  final sc (init buf0) (map (fun l => l ++ [10]) ls).

Lemma rows_split sc buf0 l1 l2 last : Forall ok_line l1 -> Forall ok_line l2 -> ok_line last ->
  rows_of sc buf0 (file (l1 ++ l2) last) =
  rows_of sc buf0 (file l1 []) ++ run sc (state_after sc buf0 l1) (map (fun l => l ++ [10]) l2 ++ last_chunk last).
Proof.
  intros H1 H2 Hl. rewrite !file_rows; auto using ok_nil; [|now apply Forall_app].
  rewrite map_app, <- app_assoc, run_app. simpl. now rewrite app_nil_r.
Qed.

Lemma state_prev sc buf0 ls : Forall ok_line ls ->
  prev (state_after sc buf0 ls) = last_clock (rows_of sc buf0 (file ls [])).
Proof.
  intros H. unfold state_after. rewrite final_prev. rewrite file_rows by auto using ok_nil.
  simpl. rewrite app_nil_r. reflexivity.
Qed.

(** * Compact lines *)

Lemma Qmod_bounds x r : (0 < r)%Q -> (0 <= Qmod x r /\ Qmod x r < r)%Q.
Proof.
  intros Hr. unfold Qmod.
  assert (E : (x == r * (x / r))%Q) by (field; intros H; rewrite H in Hr; discriminate).
  pose proof (Qround.Qfloor_le (x / r)) as L.
  pose proof (Qround.Qlt_floor (x / r)) as U.
  rewrite inject_Z_plus in U.
  set (f := inject_Z (Qround.Qfloor (x / r))) in *.
  set (q := (x / r)%Q) in *. clearbody f q.
  assert (A : (r * f <= r * q)%Q) by (apply Qmult_le_l; assumption).
  assert (B : (r * q < r * (f + 1))%Q) by (apply Qmult_lt_l; assumption).
  split; rewrite E.
  - apply (Qplus_le_l _ _ (r * f)). ring_simplify. exact A.
  - apply (Qplus_lt_l _ _ (r * f)). ring_simplify. ring_simplify in B. exact B.
Qed.

Definition compact_dev (l : bytes) : Z :=
  match l with x :: y :: _ => if is_lower y then x - 109 else 0 | _ => 0 end.
Definition compact_diff (l : bytes) : Z :=
  match l with
  | x :: y :: _ => if is_lower y then y - 109 else x - 109
  | x :: _ => x - 109
  | [] => 0
  end.

(** * Cutting a file *)

Lemma take_line_firstn n k bs :
  let (c, r) := take_line n bs in
  take_line n (firstn k bs) =
    (firstn k c, firstn (k - length c) r).
Proof.
  revert k bs; induction n as [|n IH]; intros k [|x bs]; simpl.
  - now rewrite !firstn_nil.
  - destruct k; simpl; [reflexivity|]. reflexivity.
  - now rewrite !firstn_nil.
  - destruct k as [|k]; simpl.
    + destruct (x =? 10); [reflexivity|]. destruct (take_line n bs). reflexivity.
    + destruct (x =? 10); simpl; [now rewrite firstn_nil, Nat.sub_0_r|].
      specialize (IH k bs). destruct (take_line n bs) as [c r]. rewrite IH. reflexivity.
Qed.

Lemma chunks_firstn k bs : exists cs1 c cs2,
  chunks bs = cs1 ++ cs2 /\
  chunks (firstn k bs) = cs1 ++ last_chunk c.
Proof.
  remember (length bs) as n eqn:Hn. revert k bs Hn.
  induction n as [n IH] using lt_wf_ind; intros k bs Hn.
  destruct bs as [|x bs].
  { exists [], [], []. rewrite firstn_nil. split; reflexivity. }
  destruct k as [|k].
  { exists [], [], (chunks (x :: bs)). split; reflexivity. }
  assert (Hne : firstn (S k) (x :: bs) <> []) by discriminate.
  rewrite (chunks_cons (x :: bs)) by discriminate.
  rewrite (chunks_cons _ Hne).
  pose proof (take_line_app 255 (x :: bs)) as A.
  pose proof (take_line_nonempty 254 x bs) as B.
  pose proof (take_line_firstn 255 (S k) (x :: bs)) as T.
  destruct (take_line 255 (x :: bs)) as [c r] eqn:E. rewrite T. cbn [fst snd] in *.
  apply (f_equal (@length Z)) in A. rewrite app_length in A.
  destruct (le_lt_dec (length c) (S k)) as [L|L].
  - rewrite (firstn_all2 (n := S k) c) by lia.
    destruct (IH (length r)) with (k := (S k - length c)%nat) (bs := r) as (cs1 & c' & cs2 & E1 & E2);
      [lia|reflexivity|].
    exists (c :: cs1), c', cs2. rewrite E1, E2. split; reflexivity.
  - replace (S k - length c)%nat with 0%nat by lia. rewrite firstn_O.
    exists [], (firstn (S k) c), (c :: chunks r). split; [reflexivity|].
    destruct c as [|y c]; [simpl in B; lia|]. reflexivity.
Qed.

Lemma out_length sc s c : (length (out sc s c) <= 1)%nat.
Proof. unfold out. destruct (snd (step sc s c)); simpl; lia. Qed.

Lemma rows_cut sc buf0 bs k : exists common extra rest,
  rows_of sc buf0 bs = common ++ rest /\
  rows_of sc buf0 (firstn k bs) = common ++ extra /\ (length extra <= 1)%nat.
Proof.
  destruct (chunks_firstn k bs) as (cs1 & c & cs2 & E1 & E2).
  unfold rows_of. rewrite E1, E2, !run_app.
  eexists _, _, _. split; [reflexivity|]. split; [reflexivity|].
  destruct c as [|x c]; simpl; [lia|].
  match goal with |- context [step sc ?s ?c] => pose proof (out_length sc s c) as O; unfold out in O;
    destruct (step sc s c) as [s' [r|]]; simpl in *; lia end.
Qed.
