(** C63: from waveform files to a file of directions, with the two commands. *)
From Coq Require Import String.
From Coq Require Import ZArith QArith List Bool Lia Lqa.
From Verif Require Import Base Lib Names NamesProofs Stations StationsSpec StationsProofs Gps GpsProofs InventorySpec Windows
  Slowness SlownessSpec SlownessProofs SlownessProps Xcorr XcorrProofs Directions DirectionsProps Ids IdsSpec Days DaysSpec DaysProps
  Commands CommandsSpec CommandsProofs.
Import ListNotations.
Open Scope Z_scope.

(** ** Tables of days *)
Theorem C63_table ds : Forall (fun d => NoDup (map fst d)) ds ->
  first_occurrences [] (concat (map (map fst) ds)) (map fst (join_tables ds)) /\
  forall k c, In (k, c) (join_tables ds) -> exists cs, Forall2 (part_from k) ds cs /\ c = concat cs.
Proof.
  intros ND. split.
  - change (map fst (join_tables ds)) with (keys (join_tables ds)). rewrite join_keys.
    replace (concat (map (map fst) ds)) with (flat_map keys ds) by (unfold keys; symmetry; apply (eq_sym (flat_map_concat_map _ ds))).
    apply (unique_spec eqb_bytes eqb_bytes_iff).
  - intros k c I. unfold join_tables in I. apply in_map_iff in I as (k' & E & _). injection E as -> <-.
    exists (map (column_in k) ds). split; [|apply flat_map_concat_map].
    induction ND as [|d ds N F IH]; constructor; [|exact IH]. unfold part_from, column_in. destruct (col d k) as [x|] eqn:E.
    + left. apply col_some_in. exact E.
    + right. split; [|destruct d as [|[? ?] ?]; reflexivity]. intros I. apply col_exists in I as (x & X). congruence.
Qed.

(** The tables of days are joined.  The first has all stations; each further one has the same, or lacks some: then
    the joined table gives the directions of the former as if they were alone, and none for the latter. *)
Theorem C63_days ids d more ls ps :
  Forall plain ids -> NoDup (map fst ls) -> Forall2 (fun i p => In (i, p) ls) ids ps -> ~ collinear ps ->
  let tables := (ids, d) :: more in
  Forall (fun t => results_of (fst t) (snd t) /\ has_lines (lines_in (snd t)) (snd t)) tables ->
  (forall t, In t more -> fst t = ids \/ incl (fst t) ids /\ exists c, In c ids /\ ~ In c (fst t)) ->
  exists rs,
    Forall2 (fun t r => fst t = ids /\ invert_for_slowness (snd t) (lines_in (snd t)) ls = Some r \/
                        (exists c, In c ids /\ ~ In c (fst t)) /\ r = repeat None (lines_in (snd t))) tables rs /\
    invert_for_slowness (join_tables (map snd tables)) (lines_in (join_tables (map snd tables))) ls = Some (concat rs).
Proof.
  intros Pl NL Lo NC tables F M.
  assert (H0 : forall x : frame, lines_in x = height x) by (intros [|[? ?] ?]; reflexivity).
  assert (FH : Forall (fun d => has_lines (height d) d) (map snd tables)).
  { apply Forall_map. eapply Forall_impl; [|exact F]. intros t [_ H]. rewrite <- H0. exact H. }
  assert (N : (2 < length ids)%nat).
  { rewrite (Forall2_length_eq _ _ _ Lo). destruct (Nat.lt_ge_cases 2 (length ps)) as [L|L]; [exact L|]. destruct NC. apply two_collinear. lia. }
  assert (NI : ids <> []) by (intros ->; cbn in N; lia).
  inversion F as [|? ? [R0 L0] Fm]; subst. cbn [fst snd] in R0, L0.
  (* the columns *)
  destruct R0 as [K0 ND0].
  destruct (unique_app (keys d) (flat_map keys (map snd more)) ND0) as (ext & U & FO).
  assert (KJ : keys (join_tables (map snd tables)) = keys d ++ ext) by (rewrite join_keys; exact U).
  assert (Ex : forall k, In k ext -> part_of (b "rms") k = false).
  { intros k I. destruct (fo_in _ _ _ FO k I) as [A B]. apply in_flat_map in A as (d' & D' & Kk). apply in_map_iff in D' as (t & <- & T).
    rewrite Forall_forall in Fm. destruct (Fm t T) as [[Kt _] _].
    assert (Pt : Forall plain (fst t)).
    { destruct (M t T) as [->|[Inc _]]; [exact Pl|]. apply Forall_forall. intros x X. rewrite Forall_forall in Pl. exact (Pl x (Inc x X)). }
    unfold keys in Kk. rewrite Kt in Kk. destruct (part_of (b "rms") k) eqn:E; [|reflexivity]. exfalso. apply B.
    pose proof (stations_table (fst t) Pt) as St.
    assert (exists i, k = b "rms_" ++ i /\ In i (fst t)) as (i & -> & Ii).
    { clear - St Kk E. revert St Kk E. generalize (b "t_mid" :: item_names (fst t)) (fst t). intros ks0 is0 St. induction St as [|x ks is P St IH|i ks is P St IH]; [intros []|intros [->|X] E; [congruence|apply IH; assumption]|].
      intros [<-|X] E; [exists i; split; [reflexivity|left; reflexivity]|]. destruct (IH X E) as (j & -> & J). exists j. split; [reflexivity|right; exact J]. }
    unfold keys. rewrite K0. rewrite Forall_forall in Pt. apply (stations_rms _ ids i (stations_table ids Pl) (Pt i Ii)).
    destruct (M t T) as [<-|[Inc _]]; [exact Ii|apply Inc; exact Ii]. }
  assert (SI : short_ids (keys (join_tables (map snd tables))) = Some ids).
  { rewrite KJ, (short_ids_app_none _ _ Ex). unfold keys. rewrite K0. apply short_ids_table; assumption. }
  assert (LK : forall t, results_of ids t -> forall k, In k (lag_keys ids) -> In k (keys t)).
  { intros t [Kt _] k I. unfold keys. rewrite Kt. right. right. apply in_or_app. left. apply lag_keys_in. exact I. }
  assert (LJ : lag_columns (join_tables (map snd tables)) (lag_keys ids) = Some (map (fun k => flat_map (column_in k) (map snd tables)) (lag_keys ids))).
  { apply lag_columns_join. intros k I. cbn [tables map flat_map snd]. apply in_or_app. left. apply (LK d); [split; assumption|exact I]. }
  assert (LA : locate_all ls ids = Some ps) by (apply locate_all_in; assumption).
  destruct (proj1 (not_collinear ps (map (fun _ => 0%Q) (rows ps))) NC) as (s0 & V).
  set (g := fun l : option (list Q) => match l with None => None | Some lags => option_map arrival_of (solve (rows ps) lags) end).
  (* the inversion of a table with these stations *)
  assert (INV : forall t n cs, short_ids (keys t) = Some ids -> lag_columns t (lag_keys ids) = Some cs ->
    invert_for_slowness t n ls = Some (lines_of g cs n)).
  { intros t n cs A B. unfold invert_for_slowness. rewrite A, LA, B, V. destruct ids; [congruence|reflexivity]. }
  exists (map (fun t => lines_of g (map (fun k => column_in k (snd t)) (lag_keys ids)) (height (snd t))) tables). split.
  - assert (G : forall t, In t tables -> fst t = ids /\ invert_for_slowness (snd t) (lines_in (snd t)) ls = Some (lines_of g (map (fun k => column_in k (snd t)) (lag_keys ids)) (height (snd t))) \/
      (exists c, In c ids /\ ~ In c (fst t)) /\ lines_of g (map (fun k => column_in k (snd t)) (lag_keys ids)) (height (snd t)) = repeat None (lines_in (snd t))).
    { intros t T. rewrite Forall_forall in F. destruct (F t T) as [R _]. destruct T as [<-|T].
      - left. split; [reflexivity|]. cbn [fst snd] in *. rewrite H0. apply INV; [destruct R as [K _]; unfold keys; rewrite K; apply short_ids_table; assumption|].
        apply lag_columns_map. apply LK. exact R.
      - destruct (M t T) as [E|[Inc (c & C1 & C2)]].
        + left. split; [exact E|]. rewrite E in R. rewrite H0. apply INV; [destruct R as [K _]; unfold keys; rewrite K; apply short_ids_table; assumption|].
          apply lag_columns_map. apply LK. exact R.
        + right. split; [eauto|]. rewrite H0. destruct (lag_key_of ids c C1 ltac:(lia)) as (i & j & Ik & Ii & Ij & E).
          change (@None arrival) with (g None). apply (lines_none g _ _ _ Ik). destruct R as [K _]. unfold keys. rewrite K. intros X.
          rewrite Forall_forall in Pl. apply table_lag in X; [|apply Forall_forall; intros x Y; apply Pl; apply Inc; exact Y|apply Pl; exact Ii|apply Pl; exact Ij].
          apply follows_in in X. destruct E as [->| ->]; tauto. }
    clear - G. induction tables as [|t ts IH]; constructor; [apply G; left; reflexivity|]. apply IH. intros t' T. apply G. right. exact T.
  - rewrite (INV _ _ _ SI LJ). f_equal. rewrite H0.
    replace (height (join_tables (map snd tables))) with (list_sum (map height (map snd tables))).
    + rewrite lines_join by exact FH. rewrite <- flat_map_concat_map. rewrite !flat_map_concat_map, map_map. reflexivity.
    + symmetry. cbn [tables map snd]. apply height_join; [exact FH|]. intros ->. discriminate K0.
Qed.

(** Not true: that directions are found if they are found for each day alone.  A station that is missing on the
    first day, and does not come next to the last station of that day, makes the inversion of the joined table
    raise, wherever the stations are. *)
Theorem C63_late_station_refuted ids1 ids2 d1 d2 l c before after :
  Forall plain ids1 -> Forall plain ids2 -> results_of ids1 d1 -> results_of ids2 d2 ->
  (exists r, ids1 = r ++ [l]) -> ids2 = before ++ c :: after -> incl before ids1 -> ~ In c ids1 -> ~ follows ids2 l c ->
  forall n ls, invert_for_slowness (join_tables [d1; d2]) n ls = None.
Proof.
  intros P1 P2 [K1 ND1] [K2 ND2] (r1 & E1) E2 Inc Nc NF n ls.
  destruct (unique_app (keys d1) (keys d2) ND1) as (ext & U & FO).
  assert (KJ : keys (join_tables [d1; d2]) = keys d1 ++ ext). { rewrite join_keys. cbn [flat_map]. rewrite app_nil_r. exact U. }
  destruct (stations_first (keys d1) ids1 (keys d2) ext FO ids2) as (m & Sm & Fm).
  { unfold keys. rewrite K2. apply stations_table. exact P2. }
  { intros i Pi. unfold keys. rewrite K1. apply stations_rms; [apply stations_table; exact P1|exact Pi]. }
  assert (SI : short_ids (keys (join_tables [d1; d2])) = Some (ids1 ++ m)).
  { rewrite KJ. apply stations_short. apply stations_app; [unfold keys; rewrite K1; apply stations_table; exact P1|exact Sm]. }
  assert (exists m', m = c :: m') as (m' & ->).
  { clear - E2 Inc Nc Fm. subst ids2. revert Inc Fm. induction before as [|x bf IH]; intros Inc Fm; cbn [app] in Fm.
    - inversion Fm as [|? ? ? m' ? ?|? ? ? ? I]; subst; [exists m'; reflexivity|contradiction].
    - inversion Fm as [|? ? ? m' N ?|? ? ? ? I F']; subst; [destruct N; apply Inc; left; reflexivity|]. apply IH; [|exact F']. intros y Y. apply Inc. right. exact Y. }
  assert (PC : plain c). { rewrite Forall_forall in P2. apply P2. rewrite E2. apply in_or_app. right. left. reflexivity. }
  assert (PL : plain l). { rewrite Forall_forall in P1. apply P1. rewrite E1. apply in_or_app. right. left. reflexivity. }
  unfold invert_for_slowness. rewrite SI. destruct (ids1 ++ c :: m') as [|i0 rest] eqn:EI; [reflexivity|]. rewrite <- EI. clear EI.
  destruct (locate_all ls (ids1 ++ c :: m')) as [ps|]; [|reflexivity].
  rewrite (lag_columns_none _ _ (b "lag_" ++ l ++ b "_" ++ c)); [reflexivity| |].
  - rewrite E1, <- app_assoc. cbn [app]. clear. induction r1 as [|x r IH]; [left; reflexivity|].
    destruct r as [|y r]; [right; left; reflexivity|]. right. exact IH.
  - rewrite KJ. intros I. apply in_app_iff in I as [I|I].
    + unfold keys in I. rewrite K1 in I. apply (table_lag ids1 l c P1 PL PC) in I. apply follows_in in I. tauto.
    + apply (fo_in _ _ _ FO) in I as [I _]. unfold keys in I. rewrite K2 in I. apply (table_lag ids2 l c P2 PL PC) in I. contradiction.
Qed.

(** ** Positions *)
Lemma all_of_some {A B} (f : A -> option B) (P : A -> B -> Prop) l : (forall x, In x l -> exists y, f x = Some y /\ P x y) ->
  exists m, all_of (map f l) = Some m /\ Forall2 P l m.
Proof.
  induction l as [|x l IH]; intros H; [exists []; split; [reflexivity|constructor]|].
  destruct (H x (or_introl eq_refl)) as (y & E & Y). destruct IH as (m & M & F); [intros z Z0; apply H; right; exact Z0|].
  exists (y :: m). cbn [map all_of]. rewrite E, M. split; [reflexivity|constructor; assumption].
Qed.
Lemma find_channel_in inv c : NoDup (map c_code inv) -> In c inv -> find_channel inv (c_code c) = Some c.
Proof.
  induction inv as [|x inv IH]; intros ND I; [destruct I|]. inversion ND as [|? ? N ND']; subst. cbn [find_channel].
  destruct (eqb_bytes (c_code x) (c_code c)) eqn:E.
  - apply eqb_bytes_iff in E. destruct I as [->|I]; [reflexivity|]. destruct N. rewrite E. apply in_map. exact I.
  - destruct I as [->|I]; [rewrite (proj2 (eqb_bytes_iff _ _) eq_refl) in E; discriminate|]. apply IH; assumption.
Qed.
(** Every channel gets one position, in order: kilometres from the average longitude and latitude. *)
Theorem C63_positions geo inv : inv <> [] -> NoDup (map c_code inv) -> (forall c, In c inv -> exists id, at_place (c_code c) id) ->
  exists ls lon0 lat0, get_coordinates geo inv = Some ls /\ average (map c_lon inv) lon0 /\ average (map c_lat inv) lat0 /\
    Forall2 (fun c ip => at_place (c_code c) (fst ip) /\ snd ip = geo lon0 lat0 (c_lon c) (c_lat c)) inv ls.
Proof.
  intros N ND H. unfold get_coordinates.
  destruct (all_of_some (fun c => find_channel inv (c_code c)) eq inv) as (cs & -> & F1).
  { intros c I. exists c. split; [apply find_channel_in; assumption|reflexivity]. }
  assert (cs = inv) by (symmetry; clear - F1; induction F1; congruence). subst cs.
  destruct (all_of_some (fun c => place (c_code c)) (fun c i => at_place (c_code c) i) inv) as (is & -> & F2).
  { intros c I. destruct (H c I) as (id & net & sta & loc & cha & P & E1 & E2). exists id. split.
    - unfold place. rewrite E1. change (b ".") with [46]. rewrite !split_on_app by (apply P; cbn; auto). rewrite E2. reflexivity.
    - exists net, sta, loc, cha. auto. }
  assert (AV : forall f : channel -> Q, average (map f inv) (mean (map f inv))).
  { intros f. unfold average, mean, qsum. rewrite map_length. field. intros X. destruct inv; [congruence|]. discriminate X. }
  do 3 eexists. split; [reflexivity|]. split; [apply AV|]. split; [apply AV|].
  generalize (mean (map c_lon inv)) (mean (map c_lat inv)). intros x y. clear - F2.
  induction F2 as [|c i inv is A F IH]; constructor; [split; [exact A|reflexivity]|exact IH].
Qed.

(** Directions do not depend on the origin of the positions. *)
Theorem C63_origin d n ls ls' dx dy :
  Forall2 (fun p q => fst p = fst q /\ same_vector (snd q) (fst (snd p) + dx, snd (snd p) + dy)%Q) ls ls' ->
  match invert_for_slowness d n ls, invert_for_slowness d n ls' with
  | Some r, Some r' => Forall2 (fun x y => match x, y with
      | Some a, Some c => same_vector (toward a) (toward c) /\ (slowness2 a == slowness2 c)%Q
      | None, None => True
      | _, _ => False end) r r'
  | None, None => True
  | _, _ => False
  end.
Proof.
  intros F. unfold invert_for_slowness. destruct (short_ids (keys d)) as [[|i0 ids0]|]; [exact I| |exact I].
  set (ids := i0 :: ids0).
  assert (L : match locate_all ls ids, locate_all ls' ids with
    | Some ps, Some qs => Forall2 (fun p q => same_vector q (fst p + dx, snd p + dy)%Q) ps qs | None, None => True | _, _ => False end).
  { induction ids as [|i ids IH]; [constructor|]. cbn [locate_all].
    assert (L1 : match locate ls i, locate ls' i with Some p, Some q => same_vector q (fst p + dx, snd p + dy)%Q | None, None => True | _, _ => False end).
    { clear - F. induction F as [|[k p] [k' q] ls ls' [E V] F IH]; [exact I|]. cbn [fst snd] in *. subst k'. cbn [locate]. destruct (eqb_bytes k i); [exact V|exact IH]. }
    destruct (locate ls i), (locate ls' i); try contradiction; [|exact I].
    destruct (locate_all ls ids), (locate_all ls' ids); try contradiction; [|exact I]. constructor; assumption. }
  destruct (locate_all ls ids) as [ps|], (locate_all ls' ids) as [qs|]; try contradiction; [|exact I].
  destruct (lag_columns d (lag_keys ids)) as [cs|]; [|exact I].
  assert (R : Forall2 same_vector (rows ps) (rows qs)).
  { clear - L. induction L as [|p q ps qs H L IH]; [constructor|]. destruct L as [|p' q' ps qs H' L]; [constructor|].
    rewrite !rows_cons. constructor; [|exact IH]. destruct H as [H1 H2], H' as [H3 H4]. split; cbn [fst snd] in *; lra. }
  assert (SV : forall g h, Forall2 same_vector g h -> forall t, match solve g t, solve h t with Some x, Some y => same_vector x y | None, None => True | _, _ => False end).
  { clear. intros g h H t. rewrite !solve_eq.
    assert (A : (ga g == ga h /\ gh g == gh h /\ gc g == gc h)%Q).
    { clear t. unfold ga, gh, gc. induction H as [|x y g h [E1 E2] H (I1 & I2 & I3)]; [repeat split; reflexivity|]. cbn [map qsum fold_right].
      unfold qsum in *. rewrite I1, I2, I3, E1, E2. repeat split; reflexivity. }
    assert (B : (gu g t == gu h t /\ gv g t == gv h t)%Q).
    { clear A. unfold gu, gv. revert t. induction H as [|x y g h [E1 E2] H IH]; intros [|v t]; try (split; reflexivity). destruct (IH t) as (I1 & I2).
      cbn [combine map qsum fold_right fst snd]. unfold qsum in *. rewrite I1, I2, E1, E2. split; reflexivity. }
    destruct A as (A1 & A2 & A3), B as (B1 & B2).
    assert (D : (det g == det h)%Q) by (unfold det; rewrite A1, A2, A3; reflexivity).
    destruct (Qeq_bool (det g) 0) eqn:E1, (Qeq_bool (det h) 0) eqn:E2; [exact I| | |].
    - apply Qeq_bool_iff in E1. rewrite D in E1. apply Qeq_bool_iff in E1. congruence.
    - apply Qeq_bool_iff in E2. rewrite <- D in E2. apply Qeq_bool_iff in E2. congruence.
    - split; cbn [fst snd]; rewrite A1, A2, A3, B1, B2, D || rewrite A2, A3, B1, B2, D || rewrite A1, A2, B1, B2, D; reflexivity. }
  assert (S0 : forall t t', match solve (rows ps) t, solve (rows qs) t' with Some _, Some _ | None, None => True | _, _ => False end).
  { intros t t'. pose proof (SV _ _ R t) as X. destruct (solve (rows qs) t') as [y|] eqn:E.
    - destruct (solve (rows ps) t) as [x|]; [exact I|]. destruct (solve (rows qs) t) as [z|] eqn:E'; [exact X|]. apply solve_none in E'. 
      assert (solve (rows qs) t' = None) by (apply solve_none; exact E'). congruence.
    - apply solve_none in E. assert (solve (rows qs) t = None) as Y by (apply solve_none; exact E). rewrite Y in X. destruct (solve (rows ps) t); [destruct X|exact I]. }
  specialize (S0 (map (fun _ => 0%Q) (rows ps)) (map (fun _ => 0%Q) (rows qs))).
  destruct (solve (rows ps) _) as [s1|], (solve (rows qs) _) as [s2|]; try contradiction; [|exact I].
  induction (seq 0 n) as [|i is IH]; [constructor|]. cbn [map]. constructor; [|exact IH].
  destruct (line cs i) as [lags|]; [|exact I]. specialize (SV _ _ R lags).
  destruct (solve (rows ps) lags) as [x|], (solve (rows qs) lags) as [y|]; try contradiction; [|exact I]. cbn [option_map].
  destruct SV as [E1 E2]. unfold arrival_of, same_vector. cbn [toward slowness2 fst snd]. rewrite E1, E2. repeat split; reflexivity.
Qed.

(** ** The commands and the files *)
Lemma write_only st n t : only n st (write st n t).
Proof. intros m N. unfold write. destruct (eqb_bytes m n) eqn:E; [apply eqb_bytes_iff in E; contradiction|reflexivity]. Qed.
Lemma write_same st n t : write st n t n = Some t.
Proof. unfold write. rewrite (proj2 (eqb_bytes_iff n n) eq_refl). reflexivity. Qed.
Lemma writing_moment st n t x : In x (writing st n t) -> only n st x /\ begun x n t.
Proof.
  intros I. unfold writing in I. apply in_map_iff in I as (k & <- & _). split; [apply write_only|].
  exists (firstn k t), (skipn k t). split; [apply write_same|]. symmetry. apply firstn_skipn.
Qed.
Lemma last_cons {A} (x y : A) l : last (x :: l) y = last l x.
Proof.
  revert x y. induction l as [|z l IH]; intros x y; [reflexivity|]. change (last (x :: z :: l) y) with (last (z :: l) y).
  rewrite (IH z y), (IH z x). reflexivity.
Qed.
Lemma writing_last st n t s : last (writing st n t) s = write st n t.
Proof.
  unfold writing. rewrite seq_S, map_app. cbn [map plus]. rewrite last_last, firstn_all. reflexivity.
Qed.

Section commands.
Variable writable : bytes -> bool.
Variable geo_km : Q -> Q -> Q -> Q -> Q * Q.
Variable read_csv : bytes -> option frame.
Variable read_inventory : bytes -> option (list channel).
Variable results_csv : frame -> list (option arrival) -> bytes.
Notation direction_command := (calculate_direction writable geo_km read_csv read_inventory results_csv).

(** At every moment of the directions command only its output file differs from before.  If an option is missing, or
    a file cannot be read or written, nothing differs at all.  Otherwise the output file is made empty; if the
    inversion is refused it stays empty, and else it is filled from its beginning, to the end if the command is
    not interrupted. *)
Theorem C63_directions_file st o : let r := direction_command st o in
  (forall x, In x (moments r) -> exists out, d_output o = Some out /\ only out st x) /\
  (moments r = [] /\ succeeded r = false \/
   exists i l out ti tl d inv ls, d_input o = Some i /\ d_locations o = Some l /\ d_output o = Some out /\
     st i = Some ti /\ read_csv ti = Some d /\ st l = Some tl /\ read_inventory tl = Some inv /\
     get_coordinates geo_km inv = Some ls /\ writable out = true /\
     match invert_for_slowness d (lines_in d) ls with
     | None => succeeded r = false /\ after st r out = Some [] /\ (forall x, In x (moments r) -> x out = Some [])
     | Some res => succeeded r = true /\ after st r out = Some (results_csv d res) /\
         (forall x, In x (moments r) -> begun x out (results_csv d res))
     end).
Proof.
  cbv zeta. unfold calculate_direction.
  assert (ST : (forall x, In x (moments stop) -> exists out, d_output o = Some out /\ only out st x)) by (intros x []).
  assert (H0 : forall x : frame, lines_in x = height x) by (intros [|[? ?] ?]; reflexivity).
  destruct (d_input o) as [i|] eqn:Ei; [|split; [exact ST|left; split; reflexivity]].
  destruct (d_locations o) as [l|] eqn:El; [|split; [exact ST|left; split; reflexivity]].
  destruct (d_output o) as [out|] eqn:Eo; [|split; [exact ST|left; split; reflexivity]].
  destruct (st i) as [ti|] eqn:Eti; [|split; [exact ST|left; split; reflexivity]].
  destruct (read_csv ti) as [d|] eqn:Ed; [|split; [exact ST|left; split; reflexivity]].
  destruct (st l) as [tl|] eqn:Etl; [|split; [exact ST|left; split; reflexivity]].
  destruct (read_inventory tl) as [inv|] eqn:Einv; [|split; [exact ST|left; split; reflexivity]].
  destruct (get_coordinates geo_km inv) as [ls|] eqn:Els; [|split; [exact ST|left; split; reflexivity]].
  destruct (writable out) eqn:W; [|split; [exact ST|left; split; reflexivity]].
  assert (BE : forall text, begun (write st out []) out text) by (intros text; exists [], text; split; [apply write_same|reflexivity]).
  destruct (invert_for_slowness d (height d) ls) as [res|] eqn:Inv; cbn [moments succeeded].
  - split.
    + intros x [<-|I]; exists out; (split; [reflexivity|]); [apply write_only|apply (writing_moment _ _ _ _ I)].
    + right. exists i, l, out, ti, tl, d, inv, ls. do 9 (split; [assumption || reflexivity|]). rewrite H0, Inv. split; [reflexivity|]. split.
      * unfold after. cbn [moments]. rewrite last_cons, writing_last. apply write_same.
      * intros x [<-|I]; [apply BE|apply (writing_moment _ _ _ _ I)].
  - split.
    + intros x [<-|[]]. exists out. split; [reflexivity|apply write_only].
    + right. exists i, l, out, ti, tl, d, inv, ls. do 9 (split; [assumption || reflexivity|]). rewrite H0, Inv. split; [reflexivity|]. split.
      * apply write_same.
      * intros x [<-|[]]. apply write_same.
Qed.

Context {V : Type}.
Variable one_day : analysis -> list (bytes * list (Z * V)) -> option frame.
Variable search : bytes -> bytes -> option bool.
Variable read_waveforms : bytes -> option (list (bytes * list (Z * V))).
Variable lags_csv : frame -> bytes.
Notation lags_command := (calc_lags writable one_day search read_waveforms lags_csv).
(** The waveforms in the files. *)
Definition waveforms (st : store) (n : bytes) : option (list (bytes * list (Z * V))) :=
  match st n with Some t => read_waveforms t | None => None end.
(** The options accepted by the analysis. *)
Definition accepted (a : analysis) : Prop := validate_inputs (a_fl a) (a_fh a) (a_win a) (a_overlap a) (a_upsample a) = true.

(** At every moment of the lags command only its output file differs from before, and holds the beginning of the
    table.  It succeeds exactly if the options are complete, the output can be written and some day gave a table:
    then the file holds the tables of the days, one below the other. *)
Theorem C63_lags_file st o : let r := lags_command st o in
  (forall x, In x (moments r) -> succeeded r = true /\ exists out, l_output o = Some out /\ only out st x) /\
  (succeeded r = true <-> exists out t1 t2 d ds, l_output o = Some out /\ l_t1 o = Some t1 /\ l_t2 o = Some t2 /\ writable out = true /\
     accepted (l_analysis o) /\
     loop_through_days (waveforms st) (one_day (l_analysis o)) search (l_files o) t1 t2
       (option_map (split_on 44) (l_include o)) (option_map (split_on 44) (l_exclude o)) = Some (d :: ds)) /\
  (forall out t1 t2 ds, l_output o = Some out -> l_t1 o = Some t1 -> l_t2 o = Some t2 -> succeeded r = true ->
     loop_through_days (waveforms st) (one_day (l_analysis o)) search (l_files o) t1 t2
       (option_map (split_on 44) (l_include o)) (option_map (split_on 44) (l_exclude o)) = Some ds ->
     after st r out = Some (lags_csv (join_tables ds)) /\
     (forall x, In x (moments r) -> begun x out (lags_csv (join_tables ds)))).
Proof.
  cbv zeta. unfold calc_lags.
  assert (ST : forall P : Prop, ~ P -> (forall x, In x (moments stop) -> succeeded stop = true /\ exists out, l_output o = Some out /\ only out st x) /\
    (succeeded stop = true <-> P) /\ (forall out t1 t2 ds, l_output o = Some out -> l_t1 o = Some t1 -> l_t2 o = Some t2 -> succeeded stop = true ->
     loop_through_days (waveforms st) (one_day (l_analysis o)) search (l_files o) t1 t2
       (option_map (split_on 44) (l_include o)) (option_map (split_on 44) (l_exclude o)) = Some ds ->
     after st stop out = Some (lags_csv (join_tables ds)) /\ (forall x, In x (moments stop) -> begun x out (lags_csv (join_tables ds))))).
  { intros P NP. split; [intros x []|]. split; [split; [discriminate|tauto]|]. intros out t1 t2 ds _ _ _ X. discriminate X. }
  destruct (l_output o) as [out|] eqn:Eo; [|apply ST; intros (? & ? & ? & ? & ? & X & _); discriminate X].
  destruct (l_t1 o) as [t1|] eqn:E1; [|apply ST; intros (? & ? & ? & ? & ? & _ & X & _); discriminate X].
  destruct (l_t2 o) as [t2|] eqn:E2; [|apply ST; intros (? & ? & ? & ? & ? & _ & _ & X & _); discriminate X].
  unfold xcorr_all. destruct (validate_inputs _ _ _ _ _) eqn:Va.
  2:{ apply ST. intros (? & ? & ? & ? & ? & _ & _ & _ & _ & X & _). unfold accepted in X. congruence. }
  change (loop_through_days (fun n => match st n with Some t => read_waveforms t | None => None end) (one_day (l_analysis o)) search (l_files o) t1 t2
    (option_map (split_on 44) (l_include o)) (option_map (split_on 44) (l_exclude o)))
    with (loop_through_days (waveforms st) (one_day (l_analysis o)) search (l_files o) t1 t2
    (option_map (split_on 44) (l_include o)) (option_map (split_on 44) (l_exclude o))).
  destruct (loop_through_days (waveforms st) (one_day (l_analysis o)) search (l_files o) t1 t2
    (option_map (split_on 44) (l_include o)) (option_map (split_on 44) (l_exclude o))) as [[|d ds]|] eqn:L.
  - apply ST. intros (? & t1' & t2' & ? & ? & _ & A & B & _ & _ & X). injection A as <-. injection B as <-. congruence.
  - destruct (writable out) eqn:W.
    2:{ apply ST. intros (? & ? & ? & ? & ? & A & _ & _ & X & _). injection A as <-. congruence. }
    cbn [moments succeeded]. split; [|split].
    + intros x I. split; [reflexivity|]. exists out. split; [reflexivity|]. apply (writing_moment _ _ _ _ I).
    + split; [|reflexivity]. intros _. exists out, t1, t2, d, ds. unfold accepted. auto 8.
    + intros out' t1' t2' ds' A B C _ X. injection A as <-. injection B as <-. injection C as <-. rewrite L in X. injection X as <-. split.
      * unfold after. cbn [moments]. rewrite writing_last. apply write_same.
      * intros x I. apply (writing_moment _ _ _ _ I).
  - apply ST. intros (? & t1' & t2' & ? & ? & _ & A & B & _ & _ & X). injection A as <-. injection B as <-. congruence.
Qed.

(** The directions of the lines of a table with these stations: the plane wave that fits the lags best, which is the
    wave itself if the lags are those of a plane wave. *)
Definition directions_of (ids : list bytes) (ps : list (Q * Q)) (d : frame) (r : list (option arrival)) : Prop :=
  length r = lines_in d /\
  forall w lags, (w < lines_in d)%nat -> neighbours (recorded d w) (combine ids ps) lags ->
    exists a v, nth_error r w = Some (Some a) /\ toward a = (- fst v, - snd v)%Q /\ (slowness2 a == fst v * fst v + snd v * snd v)%Q /\
      (forall u k k', misfit v ps lags k -> misfit u ps lags k' -> k <= k')%Q /\
      (forall u, plane_wave u ps lags -> fst v == fst u /\ snd v == snd u)%Q.

(** One command after the other.  The lags command has succeeded, every day that could be analysed gave a table for the
    same stations, those have positions that are not on one line, and the table is read as it was written.  Then
    the directions command succeeds too, and its file holds, day by day, the directions for the samples of the
    wanted channels in the wanted interval. *)
Theorem C63_pipeline st o1 o2 out1 out2 loc tl inv ls ids ps t1 t2 all :
  l_output o1 = Some out1 -> l_t1 o1 = Some t1 -> l_t2 o1 = Some t2 ->
  d_input o2 = Some out1 -> d_output o2 = Some out2 -> d_locations o2 = Some loc -> loc <> out1 -> writable out2 = true ->
  (forall ds, loop_through_days (waveforms st) (one_day (l_analysis o1)) search (l_files o1) t1 t2
     (option_map (split_on 44) (l_include o1)) (option_map (split_on 44) (l_exclude o1)) = Some ds ->
     read_csv (lags_csv (join_tables ds)) = Some (join_tables ds)) ->
  st loc = Some tl -> read_inventory tl = Some inv -> get_coordinates geo_km inv = Some ls ->
  NoDup (map fst ls) -> Forall plain ids -> Forall2 (fun i p => In (i, p) ls) ids ps -> ~ collinear ps ->
  (forall c d, one_day (l_analysis o1) c = Some d -> results_of ids d /\ has_lines (lines_in d) d) ->
  NoDup all -> (forall n, In n all <-> In n (l_files o1)) ->
  (forall n l tr, waveforms st n = Some l -> In tr l -> in_order tr) ->
  let inc := option_map (split_on 44) (l_include o1) in
  let exc := option_map (split_on 44) (l_exclude o1) in
  let data := traces_of (waveforms st) (l_files o1) in
  let r1 := lags_command st o1 in
  let st1 := after st r1 in
  let r2 := direction_command st1 o2 in
  succeeded r1 = true ->
  succeeded r2 = true /\
  exists a z chans calls outs rs,
    limits data t1 t2 a z /\ (forall x, In x chans <-> asked search (map fst data) inc x /\ ~ excluded search exc x) /\
    Forall2 (fun w c => picked (fun s => In (s_id s) chans /\ inside (s_time s) w /\ s_time s <= z)
                          (samples (traces_of (waveforms st) all)) (samples c)) (day_windows a z) calls /\
    outputs (one_day (l_analysis o1)) calls outs /\
    Forall2 (directions_of ids ps) outs rs /\
    after st1 r2 out2 = Some (results_csv (join_tables outs) (concat rs)).
Proof.
  intros L1 L2 L3 D1 D2 D3 NE W RT TL INV GC NL Pl Lo NC OD NA All ORD inc exc data r1 st1 r2 S1.
  destruct (C63_lags_file st o1) as (M1 & S1' & F1). fold r1 in M1, S1', F1.
  destruct (proj1 S1' S1) as (out & u1 & u2 & d0 & ds & A & B & C & _ & _ & LP).
  rewrite L1 in A. injection A as <-. rewrite L2 in B. injection B as <-. rewrite L3 in C. injection C as <-.
  destruct (F1 out1 t1 t2 (d0 :: ds) L1 L2 L3 S1 LP) as [AF _]. fold st1 in AF. specialize (RT _ LP). fold inc exc in LP.
  pose proof (C39_data V frame (waveforms st) (one_day (l_analysis o1)) search (l_files o1) all t1 t2 inc exc NA All ORD) as C39.
  cbv zeta in C39. fold data in C39. rewrite LP in C39. destruct C39 as (a & z & chans & calls & Li & _ & _ & Ch & _ & Pk & Out).
  assert (RO : Forall (fun d => results_of ids d /\ has_lines (lines_in d) d) (d0 :: ds)).
  { clear - Out OD. induction Out as [|c o cs os E Out IH|c cs os E Out IH]; [constructor| |exact IH]. constructor; [apply (OD c); exact E|exact IH]. }
  destruct (C63_days ids d0 (map (fun d => (ids, d)) ds) ls ps Pl NL Lo NC) as (rs & Frs & IJ).
  { inversion RO; subst. constructor; [assumption|]. apply Forall_map. assumption. }
  { intros t T. apply in_map_iff in T as (d & <- & _). left. reflexivity. }
  assert (MS : map snd ((ids, d0) :: map (fun d => (ids, d)) ds) = d0 :: ds) by (cbn [map snd]; f_equal; rewrite map_map; apply map_id).
  assert (IJ' : invert_for_slowness (join_tables (d0 :: ds)) (lines_in (join_tables (d0 :: ds))) ls = Some (concat rs)) by (rewrite <- MS; exact IJ).
  clear IJ. rename IJ' into IJ.
  assert (STL : st1 loc = Some tl).
  { unfold st1, after. rewrite <- TL. destruct (moments r1) as [|m0 ms] eqn:EM; [reflexivity|].
    assert (X : In (last (m0 :: ms) st) (moments r1)). { rewrite EM. clear. revert m0. induction ms as [|m ms IH]; intros m0; [left; reflexivity|]. right. apply (IH m). }
    rewrite <- EM in *. destruct (M1 _ X) as (_ & out & E & O). rewrite L1 in E. injection E as <-. apply O. exact NE. }
  pose proof (C63_directions_file st1 o2) as DF. cbv zeta in DF. fold r2 in DF. destruct DF as (_ & [[M2 _]|G]).
  - exfalso. unfold r2, calculate_direction in M2. rewrite D1, D3, D2, AF, RT, STL, INV, GC, W in M2.
    match type of M2 with context [invert_for_slowness ?d ?n ?l] => destruct (invert_for_slowness d n l) end; cbn [moments] in M2; discriminate M2.
  - destruct G as (i & l & o' & ti & tl' & d & inv' & ls' & E1 & E2 & E3 & E4 & E5 & E6 & E7 & E8 & _ & G).
    rewrite D1 in E1. injection E1 as <-. rewrite D3 in E2. injection E2 as <-. rewrite D2 in E3. injection E3 as <-.
    rewrite AF in E4. injection E4 as <-. rewrite RT in E5. injection E5 as <-. rewrite STL in E6. injection E6 as <-. rewrite INV in E7. injection E7 as <-.
    rewrite GC in E8. injection E8 as <-. rewrite IJ in G. destruct G as (G1 & G2 & _). split; [exact G1|].
    exists a, z, chans, calls, (d0 :: ds), rs. split; [exact Li|]. split; [exact Ch|]. split; [exact Pk|]. split; [exact Out|]. split; [|exact G2].
    rewrite <- MS. rewrite <- MS in RO. clear - Frs RO Pl NL Lo NC.
    assert (I0 : forall t, In t ((ids, d0) :: map (fun d => (ids, d)) ds) -> fst t = ids).
    { intros t [<-|T]; [reflexivity|]. apply in_map_iff in T as (d & <- & _). reflexivity. }
    assert (G : forall (ts : list (list bytes * frame)) rs,
      Forall2 (fun t r => fst t = ids /\ invert_for_slowness (snd t) (lines_in (snd t)) ls = Some r \/
                          (exists c, In c ids /\ ~ In c (fst t)) /\ r = repeat None (lines_in (snd t))) ts rs ->
      Forall (fun d : frame => results_of ids d /\ has_lines (lines_in d) d) (map snd ts) -> (forall t, In t ts -> fst t = ids) ->
      Forall2 (directions_of ids ps) (map snd ts) rs); [|exact (G _ _ Frs RO I0)].
    clear - Pl NL Lo NC. intros ts rs F. induction F as [|t r ts rs H F IH]; intros RO I0; [constructor|].
    cbn [map] in RO |- *. inversion RO as [|? ? [R HL] RO']; subst. constructor; [|apply IH; [exact RO'|intros t' T; apply I0; right; exact T]].
    destruct H as [[_ E]|[(c & C1 & C2) _]]; [|rewrite (I0 t (or_introl eq_refl)) in C2; contradiction].
    unfold directions_of. split.
    + unfold invert_for_slowness in E. repeat match goal with H : match ?x with _ => _ end = Some _ |- _ => destruct x; try discriminate end.
      injection E as <-. rewrite map_length, seq_length. reflexivity.
    + intros w lags Lw NB. destruct (C40_slowness (snd t) (lines_in (snd t)) ls ids ps w lags R Pl NL Lo NC Lw NB) as (res & ar & v & X1 & X2 & X3 & X4 & X5 & X6 & X7).
      rewrite E in X1. injection X1 as <-. exists ar, v. auto 8.
Qed.
End commands.

(** Not true: that a directions command that fails leaves the files as they were.  The output file is made empty before
    the inversion; if it is also the file of lags, the lags are lost. *)
Theorem C63_lost_refuted writable geo_km read_csv read_inventory results_csv st o i l ti tl d inv ls :
  d_input o = Some i -> d_locations o = Some l -> d_output o = Some i -> st i = Some ti -> read_csv ti = Some d ->
  st l = Some tl -> read_inventory tl = Some inv -> get_coordinates geo_km inv = Some ls -> writable i = true ->
  invert_for_slowness d (lines_in d) ls = None ->
  let r := calculate_direction writable geo_km read_csv read_inventory results_csv st o in
  succeeded r = false /\ after st r i = Some [].
Proof.
  intros A B C E F G H J W N. cbv zeta. unfold calculate_direction. rewrite A, B, C, E, F, G, H, J, W.
  assert (H0 : lines_in d = height d) by (destruct d as [|[? ?] ?]; reflexivity). rewrite <- H0, N.
  split; [reflexivity|]. apply write_same.
Qed.

(** ** A case: two days of three stations *)
Definition two_days : list (bytes * list (Z * Z)) :=
  map (fun n => (b "XX." ++ n ++ b "..HDF", [(0, 1); (90000000000, 2)])) [b "A"; b "B"; b "C"].
Definition case_day (_ : analysis) (c : list (bytes * list (Z * Z))) : option frame := match c with [] => None | _ => Some case_table end.
Definition case_inv : list channel :=
  [mkch (b "XX.A..HDF") 0 0 0; mkch (b "XX.B..HDF") 0 3 0; mkch (b "XX.C..HDF") 4 1 0].
Definition case_geo (lon0 lat0 lon lat : Q) : Q * Q := (lon - lon0, lat - lat0)%Q.
Definition case_search (x y : bytes) : option bool := Some (part_of x y).
Definition case_store : store := fun n =>
  if eqb_bytes n (b "data") then Some [1] else if eqb_bytes n (b "stations.xml") then Some [2] else if eqb_bytes n (b "directions.csv") then Some [9] else None.
Definition case_waves (t : bytes) : option (list (bytes * list (Z * Z))) := if eqb_bytes t [1] then Some two_days else None.
Definition case_csv (d : frame) : bytes := [3; Z.of_nat (height d)].
Definition case_read (t : bytes) : option frame := if eqb_bytes t [3; 4] then Some (join_tables [case_table; case_table]) else None.
Definition case_xml (t : bytes) : option (list channel) := if eqb_bytes t [2] then Some case_inv else None.
Definition case_text (d : frame) (r : list (option arrival)) : bytes := [4; Z.of_nat (length r)].
Definition case_analysis := mka (Some 5%Q) (Some 20%Q) (Some 5%Q) (Some 0%Q) (Some 1%Q).
Definition case_o1 := mklo [b "data"] (Some (b "lags.csv")) (Some (b "A,B,C")) (Some (b "E")) (Some 0) (Some 200000000000) case_analysis.
Definition case_o2 := mkdo (Some (b "lags.csv")) (Some (b "stations.xml")) (Some (b "directions.csv")).
Definition case_r1 := calc_lags (fun _ => true) case_day case_search case_waves case_csv case_store case_o1.
Definition case_r2 := calculate_direction (fun _ => true) case_geo case_read case_xml case_text (after case_store case_r1) case_o2.

Example C63_case : succeeded case_r1 = true /\ after case_store case_r1 (b "lags.csv") = Some [3; 4] /\
  succeeded case_r2 = true /\ after case_store case_r2 (b "directions.csv") = Some [4; 4] /\
  map (fun x => x (b "directions.csv")) (moments case_r2) = [Some []; Some []; Some [4]; Some [4; 4]].
Proof. repeat split; vm_compute; reflexivity. Qed.

Definition case_ls : locations := match get_coordinates case_geo case_inv with Some l => l | None => [] end.
Example C63_case_hypotheses :
  b "stations.xml" <> b "lags.csv" /\
  (forall ds, loop_through_days (waveforms case_waves case_store) (case_day case_analysis) case_search [b "data"] 0 200000000000
     (Some (split_on 44 (b "A,B,C"))) (Some (split_on 44 (b "E"))) = Some ds -> case_read (case_csv (join_tables ds)) = Some (join_tables ds)) /\
  get_coordinates case_geo case_inv = Some case_ls /\ NoDup (map fst case_ls) /\ Forall plain case_ids /\
  Forall2 (fun i p => In (i, p) case_ls) case_ids (map snd case_ls) /\ ~ collinear (map snd case_ls) /\
  (forall c d, case_day case_analysis c = Some d -> results_of case_ids d /\ has_lines (lines_in d) d) /\
  (forall n l tr, waveforms case_waves case_store n = Some l -> In tr l -> in_order tr).
Proof.
  split; [discriminate|]. split.
  { intros ds H. vm_compute in H. injection H as <-. vm_compute. reflexivity. }
  split; [reflexivity|]. split.
  { vm_compute. repeat (constructor; [cbn; intuition discriminate|]). constructor. }
  split; [apply SlownessProps.C40_case|]. split.
  { repeat constructor; vm_compute; tauto. }
  split.
  { intros C. apply (proj1 (collinear_rows _)) in C. apply det_zero in C. vm_compute in C. discriminate C. }
  split.
  { intros c d H. unfold case_day in H. destruct c; [discriminate|]. injection H as <-. split; [apply SlownessProps.C40_case|].
    unfold has_lines. vm_compute. repeat (constructor; [reflexivity|]). constructor. }
  intros n l tr H I. unfold waveforms, case_store in H. destruct (eqb_bytes n (b "data")).
  - change (case_waves [1]) with (Some two_days) in H. injection H as <-. split.
    + destruct I as [<-|[<-|[<-|[]]]]; discriminate.
    + intros i j s s' L E E'. assert (G : forall tr0, In tr0 two_days -> snd tr0 = [(0, 1); (90000000000, 2)]) by (intros t0 [<-|[<-|[<-|[]]]]; reflexivity).
      rewrite (G tr I) in E, E'. destruct i as [|[|[|i]]], j as [|[|[|j]]]; cbn in E, E'; try discriminate; try lia; injection E as <-; injection E' as <-; cbn; lia.
  - destruct (eqb_bytes n (b "stations.xml")); [discriminate|]. destruct (eqb_bytes n (b "directions.csv")); discriminate.
Qed.

(** A day without station C, and one that begins without it: of the former's two lines no direction is found; with the
    latter first, the inversion raises although A, B, C lie in a triangle. *)
Definition four_ids := [b "XX.A."; b "XX.B."; b "XX.C."; b "XX.D."].
Definition plain_table (ids : list bytes) (n : nat) : frame := map (fun k => (k, repeat (Some 1%Q) n)) (b "t_mid" :: item_names ids).
Definition four_places : locations := combine four_ids [(0, 0); (1, 0); (0, 1); (1, 1)]%Q.
Example C63_case_days :
  (exists a c, invert_for_slowness (join_tables [plain_table four_ids 1; plain_table [b "XX.A."; b "XX.B."; b "XX.D."] 2; plain_table four_ids 1]) 4 four_places =
     Some [Some a; None; None; Some c]) /\
  (forall n ls, invert_for_slowness (join_tables [plain_table [b "XX.A."; b "XX.B."; b "XX.D."] 2; plain_table four_ids 1]) n ls = None).
Proof.
  split; [do 2 eexists; vm_compute; reflexivity|].
  apply (C63_late_station_refuted [b "XX.A."; b "XX.B."; b "XX.D."] four_ids _ _ (b "XX.D.") (b "XX.C.") [b "XX.A."; b "XX.B."] [b "XX.D."]).
  - repeat constructor; vm_compute; intuition discriminate.
  - repeat constructor; vm_compute; intuition discriminate.
  - split; [reflexivity|]. vm_compute. repeat (constructor; [cbn; intuition discriminate|]). constructor.
  - split; [reflexivity|]. vm_compute. repeat (constructor; [cbn; intuition discriminate|]). constructor.
  - exists [b "XX.A."; b "XX.B."]. reflexivity.
  - reflexivity.
  - intros x X. cbn in X |- *. tauto.
  - intros I. vm_compute in I. intuition discriminate.
  - intros [(l & r & E)|(l & r & E & E')]; [|discriminate E'].
    apply (f_equal (fun x => nth_error x 3)) in E as E3. 
    assert (P : forall i, nth_error four_ids i = Some (b "XX.D.") -> i = 3%nat) by (intros [|[|[|[|i]]]] H; try discriminate H; [reflexivity|destruct i; discriminate H]).
    assert (H1 : nth_error four_ids (length l) = Some (b "XX.D.")) by (rewrite E, nth_error_app2, Nat.sub_diag by lia; reflexivity).
    apply P in H1. apply (f_equal (@length bytes)) in E. rewrite app_length in E. cbn in E. lia.
Qed.

Print Assumptions C63_table.
Print Assumptions C63_days.
Print Assumptions C63_late_station_refuted.
Print Assumptions C63_positions.
Print Assumptions C63_origin.
Print Assumptions C63_directions_file.
Print Assumptions C63_lags_file.
Print Assumptions C63_pipeline.
Print Assumptions C63_lost_refuted.
