(** Property C61: the instrument response and its removal. *)
From Coq Require Import String.
From Coq Require Import ZArith QArith List Bool Lia.
From Verif Require Import Base Lib Names NamesProofs Specs SpecsSpec SpecsProofs Response ResponseSpec.
Import ListNotations.
Open Scope Z_scope.

Lemma join_located folder kind name : located folder kind name (path_join (path_join folder kind) name) \/ exists r, kind = 47 :: r.
Proof.
  destruct kind as [|c kind]; [|destruct (Z.eq_dec c 47) as [->|N]; [right; exists kind; reflexivity|]]; left.
  - unfold located. destruct name as [|d name]; [right; split; [discriminate|]; cbn; rewrite <- app_assoc; reflexivity|].
    destruct (Z.eq_dec d 47) as [->|M]; [left; exists name; auto|]. right. split; [congruence|].
    unfold path_join. rewrite <- !app_assoc. cbn [app]. destruct d as [|p|p]; try reflexivity. repeat (destruct p as [p|p|]; try reflexivity); congruence.
  - assert (E : path_join folder (c :: kind) = folder ++ [47] ++ c :: kind).
    { unfold path_join. destruct c as [|p|p]; try reflexivity. repeat (destruct p as [p|p|]; try reflexivity); congruence. }
    rewrite E. unfold located. destruct name as [|d name]; [right; split; [discriminate|]; cbn; rewrite <- app_assoc; reflexivity|].
    destruct (Z.eq_dec d 47) as [->|M]; [left; exists name; auto|]. right. split; [congruence|].
    assert (X : path_join (folder ++ [47] ++ c :: kind) (d :: name) = (folder ++ [47] ++ c :: kind) ++ [47] ++ d :: name).
    { unfold path_join. destruct d as [|p|p]; try reflexivity. repeat (destruct p as [p|p|]; try reflexivity); congruence. }
    rewrite X. rewrite <- !app_assoc. reflexivity.
Qed.
Lemma located_unique folder kind name p q : located folder kind name p -> located folder kind name q -> p = q.
Proof. intros [(r & A & B)|[A B]] [(s & C & D)|[C D]]; congruence. Qed.
Lemma sensor_at folder name p : located folder (b "sensor") name p <-> p = path_join (path_join folder (b "sensor")) name.
Proof.
  destruct (join_located folder (b "sensor") name) as [L|(r & L)]; [|discriminate]. split; [intros H; exact (located_unique _ _ _ _ _ H L)|intros ->; exact L].
Qed.
Lemma logger_at folder name p : located folder (b "datalogger") name p <-> p = path_join (path_join folder (b "datalogger")) name.
Proof.
  destruct (join_located folder (b "datalogger") name) as [L|(r & L)]; [|discriminate]. split; [intros H; exact (located_unique _ _ _ _ _ H L)|intros ->; exact L].
Qed.

Lemma word_high g : eqb_bytes (lower g) (b "high") = true <-> same_word g (b "high").
Proof. rewrite eqb_bytes_iff. apply lower_word. repeat (constructor; [cbn; lia|]). constructor. Qed.
Lemma word_low g : eqb_bytes (lower g) (b "low") = true <-> same_word g (b "low").
Proof. rewrite eqb_bytes_iff. apply lower_word. repeat (constructor; [cbn; lia|]). constructor. Qed.
Lemma choose_spec gain logger : match choose_logger gain logger with
  | inr n => or_standard logger default_logger n /\ (logger = [] -> valid_gain gain)
  | inl e => e = ValueError /\ logger = [] /\ ~ valid_gain gain
  end.
Proof.
  unfold choose_logger, valid_gain, or_standard. destruct logger as [|c l]; [|split; [right; split; [discriminate|reflexivity]|discriminate]].
  destruct (eqb_bytes (lower gain) (b "high")) eqn:E1; [split; [left; auto|]; intros _; left; apply word_high; exact E1|].
  destruct (eqb_bytes (lower gain) (b "low")) eqn:E2; [split; [left; auto|]; intros _; right; apply word_low; exact E2|].
  split; [reflexivity|]. split; [reflexivity|]. intros [H|H]; [apply word_high in H|apply word_low in H]; congruence.
Qed.

Lemma merge_ok sensor logger rs : merge sensor logger = inr rs -> combined sensor logger rs.
Proof.
  unfold merge. destruct (rs_stages logger) as [|l0 [|g1 [|g2 rest]]] eqn:El; destruct (rs_stages sensor) as [|s0 srest] eqn:Es; try discriminate. intros E. injection E as <-.
  exists s0, srest, l0, g1, g2, rest. split; [exact Es|]. split; [exact El|]. cbn [rs_stages rs_units rs_value2]. split; [reflexivity|]. split; [reflexivity|].
  assert (X : (filter_gain2 == (50 # 39) * (50 # 39) / (1 + (50 # 39) * (50 # 39)))%Q) by reflexivity. cbv zeta. rewrite X. reflexivity.
Qed.
Lemma merge_fails sensor logger e : merge sensor logger = inl e <-> e = IndexError /\ (rs_stages sensor = [] \/ (length (rs_stages logger) < 3)%nat).
Proof.
  unfold merge. destruct (rs_stages logger) as [|l0 [|g1 [|g2 rest]]] eqn:El; destruct (rs_stages sensor) as [|s0 srest] eqn:Es; cbn [length];
    (split; [intros E; first [discriminate E|injection E as <-; split; [reflexivity|first [left; reflexivity|right; lia]]]|intros (-> & [H|H]); first [reflexivity|discriminate H|lia]]).
Qed.

(** C61.  A response that is returned is that of the chosen sensor and logger together, read from where they are kept; the
    standard files are used where none is named, and then the gain must be "high" or "low" in any letter case. *)
Theorem C61_response : forall disk folder gain sensor_file logger_file rs, get_gem_response disk folder gain sensor_file logger_file = inr rs ->
  exists s l ps pl sensor logger,
    or_standard sensor_file default_sensor s /\ or_standard logger_file default_logger l /\ (logger_file = [] -> valid_gain gain) /\
    located folder (b "sensor") s ps /\ located folder (b "datalogger") l pl /\
    disk ps = Some sensor /\ disk pl = Some logger /\ combined sensor logger rs.
Proof.
  intros disk folder gain sf lf rs E. unfold get_gem_response in E. set (s := match sf with [] => default_sensor | _ => sf end) in E.
  destruct (disk (path_join (path_join folder (b "sensor")) s)) as [sensor|] eqn:E1; [|discriminate]. pose proof (choose_spec gain lf) as C.
  destruct (choose_logger gain lf) as [e|l]; [discriminate|]. destruct C as [C1 C2].
  destruct (disk (path_join (path_join folder (b "datalogger")) l)) as [logger|] eqn:E2; [|discriminate].
  exists s, l, (path_join (path_join folder (b "sensor")) s), (path_join (path_join folder (b "datalogger")) l), sensor, logger.
  split; [unfold or_standard, s; destruct sf; [left; auto|right; split; [discriminate|reflexivity]]|].
  split; [exact C1|]. split; [exact C2|]. split; [apply sensor_at; reflexivity|]. split; [apply logger_at; reflexivity|]. split; [exact E1|]. split; [exact E2|].
  apply merge_ok. exact E.
Qed.

(** C61.  It is refused exactly if a file cannot be read or has too few stages, or if no logger is named and the gain is
    neither "high" nor "low". *)
Theorem C61_refused : forall disk folder gain sensor_file logger_file s l ps pl,
  or_standard sensor_file default_sensor s -> or_standard logger_file default_logger l ->
  located folder (b "sensor") s ps -> located folder (b "datalogger") l pl ->
  ((exists e, get_gem_response disk folder gain sensor_file logger_file = inl e) <->
   disk ps = None \/ (logger_file = [] /\ ~ valid_gain gain) \/ disk pl = None \/
   (exists sensor logger, disk ps = Some sensor /\ disk pl = Some logger /\ (rs_stages sensor = [] \/ (length (rs_stages logger) < 3)%nat))).
Proof.
  intros disk folder gain sf lf s l ps pl Os Ol Ls Ll. apply sensor_at in Ls. apply logger_at in Ll. subst ps pl. unfold get_gem_response.
  replace (match sf with [] => default_sensor | _ :: _ => sf end) with s by (destruct Os as [[-> ->]|[N ->]]; [reflexivity|destruct sf; [congruence|reflexivity]]).
  destruct (disk (path_join (path_join folder (b "sensor")) s)) as [sensor|]; [|split; [left; reflexivity|intros _; eexists; reflexivity]].
  pose proof (choose_spec gain lf) as C. destruct (choose_logger gain lf) as [e|l'].
  { destruct C as (_ & C1 & C2). split; [right; left; auto|intros _; eexists; reflexivity]. }
  destruct C as [C1 C2]. assert (l' = l) as ->.
  { destruct C1 as [[A1 ->]|[A1 ->]], Ol as [[A2 ->]|[A2 ->]]; congruence. }
  destruct (disk (path_join (path_join folder (b "datalogger")) l)) as [logger|]; [|split; [right; right; left; reflexivity|intros _; eexists; reflexivity]].
  split.
  - intros (e & E). apply merge_fails in E. right. right. right. exists sensor, logger. tauto.
  - intros [H|[[H K]|[H|(sensor' & logger' & H1 & H2 & H)]]]; try discriminate; [exfalso; auto|]. injection H1 as <-. injection H2 as <-.
    exists IndexError. apply merge_fails. auto.
Qed.

(** What is done to one trace. *)
Definition treated disk folder remove gain s l (t t' : tr) : Prop :=
  tr_id t' = tr_id t /\ exists rs, get_gem_response disk folder gain s l = inr rs /\ tr_response t' = Some rs /\ remove rs (tr_samples t) = Some (tr_samples t').

Lemma attach_ok disk folder gain s l rs st : get_gem_response disk folder gain s l = inr rs ->
  attach disk folder gain s l st = (map (fun t => mktr (tr_id t) (Some rs) (tr_samples t)) st, None).
Proof. intros E. induction st as [|t st IH]; [reflexivity|]. cbn [attach map]. rewrite E, IH. reflexivity. Qed.
Lemma remove_ok remove rs st st' : remove_all remove (map (fun t => mktr (tr_id t) (Some rs) (tr_samples t)) st) = (st', None) <->
  Forall2 (fun t t' => tr_id t' = tr_id t /\ tr_response t' = Some rs /\ remove rs (tr_samples t) = Some (tr_samples t')) st st'.
Proof.
  revert st'. induction st as [|t st IH]; intros st'; cbn [map remove_all tr_response tr_samples tr_id].
  - split; [intros E; injection E as <-; constructor|intros F; inversion F; reflexivity].
  - destruct (remove rs (tr_samples t)) as [d|] eqn:R.
    + destruct (remove_all remove (map (fun t0 => mktr (tr_id t0) (Some rs) (tr_samples t0)) st)) as [r' e] eqn:RA. split.
      * intros E. injection E as <- ->. constructor; [cbn; auto|apply IH; reflexivity].
      * intros F. inversion F as [|? t' ? r (A & B & C) F' X Y]; subst. apply IH in F'. injection F' as <- ->. f_equal. f_equal. destruct t' as [i rr d']. cbn in *. congruence.
    + split; [discriminate|]. intros F. inversion F as [|? t' ? r (A & B & C) F' X Y]; subst. congruence.
Qed.

(** C61.  A stream that is returned has the traces of the given one in their order, each with the same response attached and
    removed; this happens exactly if it can be removed from each of them.  A trace is treated like the traces of a stream. *)
Theorem C61_stream : forall disk folder remove gain s l st st', 
  (deconvolve_gem_response disk folder remove (Stream st) gain s l = (Stream st', None) <-> Forall2 (treated disk folder remove gain s l) st st') /\
  (forall t t', deconvolve_gem_response disk folder remove (Trace t) gain s l = (Trace t', None) <-> treated disk folder remove gain s l t t').
Proof.
  intros disk folder remove gain s l st st'. unfold deconvolve_gem_response, treated.
  destruct (get_gem_response disk folder gain s l) as [e|rs] eqn:E.
  - split.
    + destruct st as [|t st]; cbn [attach remove_all].
      * split; [intros H; injection H as <-; constructor|intros F; inversion F; reflexivity].
      * rewrite E. split; [discriminate|]. intros F. inversion F as [|? ? ? ? (_ & rs & X & _)]. discriminate.
    + intros t t'. split; [discriminate|]. intros (_ & rs & X & _). discriminate.
  - assert (Iff : forall t t', (tr_id t' = tr_id t /\ tr_response t' = Some rs /\ remove rs (tr_samples t) = Some (tr_samples t')) <->
       (tr_id t' = tr_id t /\ exists rs', inr rs = (inr rs' : exn + response) /\ tr_response t' = Some rs' /\ remove rs' (tr_samples t) = Some (tr_samples t'))).
    { intros t t'. split; [intros (A & B & C); split; [exact A|]; exists rs; auto|intros (A & rs' & X & B & C); injection X as <-; auto]. }
    split.
    + rewrite (attach_ok disk folder gain s l rs st E).
      destruct (remove_all remove (map (fun t => mktr (tr_id t) (Some rs) (tr_samples t)) st)) as [r e] eqn:RA. split.
      * intros H. injection H as -> ->. apply remove_ok in RA. induction RA as [|x y lx ly P F IHF]; constructor; [apply Iff; exact P|exact IHF].
      * intros F. assert (G : Forall2 (fun t t' => tr_id t' = tr_id t /\ tr_response t' = Some rs /\ remove rs (tr_samples t) = Some (tr_samples t')) st st').
        { clear RA. induction F as [|x y lx ly P F IHF]; constructor; [apply Iff; exact P|exact IHF]. }
        apply remove_ok in G. rewrite G in RA. injection RA as <- <-. reflexivity.
    + intros t t'. rewrite <- Iff. cbn [remove_all tr_response tr_samples tr_id]. destruct (remove rs (tr_samples t)) as [d|].
      * split; [intros H; injection H as <-; auto|]. intros (A & B & C). f_equal. f_equal. destruct t' as [i rr d']. cbn in *. congruence.
      * split; [discriminate|]. intros (_ & _ & H). discriminate.
Qed.

(** C61.  If the response is refused, nothing has been changed. *)
Theorem C61_unchanged : forall disk folder remove x gain s l e, get_gem_response disk folder gain s l = inl e ->
  fst (deconvolve_gem_response disk folder remove x gain s l) = x /\
  (snd (deconvolve_gem_response disk folder remove x gain s l) = None <-> x = Stream []).
Proof.
  intros disk folder remove x gain s l e E. unfold deconvolve_gem_response. destruct x as [[|t st]|t|]; cbn [attach]; rewrite ?E; cbn; (split; [reflexivity|]); split; congruence.
Qed.

(** C61, finding.  "low" gain gives the response of high gain, whatever the files contain. *)
Theorem C61_low_is_high : forall disk folder gain gain' sensor_file logger_file, same_word gain (b "low") -> same_word gain' (b "high") ->
  get_gem_response disk folder gain sensor_file logger_file = get_gem_response disk folder gain' sensor_file logger_file.
Proof.
  intros disk folder g g' sf lf L H. apply word_low in L. apply word_high in H. unfold get_gem_response, choose_logger. rewrite L, H.
  destruct (eqb_bytes (lower g) (b "high")); reflexivity.
Qed.
(** C61.  If a logger is named, the gain has no effect, also if it is no gain at all. *)
Theorem C61_gain_ignored : forall disk folder gain gain' sensor_file logger_file, logger_file <> [] ->
  get_gem_response disk folder gain sensor_file logger_file = get_gem_response disk folder gain' sensor_file logger_file.
Proof. intros disk folder g g' sf lf N. unfold get_gem_response, choose_logger. destruct lf; [congruence|reflexivity]. Qed.

(** * Cases, with the files that come with the package *)
Notation F := (b "/data/response").
Example C61_case : exists rs, get_gem_response (shipped F) F (b "High") [] [] = inr rs /\ length (rs_stages rs) = 4%nat /\ rs_units rs = b "PA" /\
  (rs_value2 rs == (2231378 # 1000000000) * 128000 * ((2231378 # 1000000000) * 128000) * (2500 # 4021))%Q /\ valid_gain (b "High") /\ same_word (b "LOW") (b "low") /\
  located F (b "datalogger") default_logger (F ++ b "/datalogger/RESP.XX.GM002..HHZ.GEMINFRAV1.0.100").
Proof.
  eexists. split; [vm_compute; reflexivity|]. split; [reflexivity|]. split; [reflexivity|]. split; [reflexivity|].
  split; [left; apply word_high; reflexivity|]. split; [apply word_low; reflexivity|]. apply logger_at. vm_compute. reflexivity.
Qed.
Example C61_refused_case : get_gem_response (shipped F) F (b "half") [] [] = inl ValueError /\ get_gem_response (shipped F) F (b "high") (b "none") [] = inl ReadError /\
  (exists rs, get_gem_response (shipped F) F (b "half") [] default_logger = inr rs) /\ ~ valid_gain (b "half").
Proof.
  split; [vm_compute; reflexivity|]. split; [vm_compute; reflexivity|]. split; [eexists; vm_compute; reflexivity|].
  intros [H|H]; [apply word_high in H|apply word_low in H]; discriminate.
Qed.
Example C61_stream_case : exists st', deconvolve_gem_response (shipped F) F remove_flat (Stream [mktr (b "A") None [1; 2]%Q; mktr (b "B") None [0]%Q]) (b "high") [] [] = (Stream st', None) /\ length st' = 2%nat.
Proof. eexists. split; [vm_compute; reflexivity|reflexivity]. Qed.

(** C61, refuted.  Data that were recorded with half gain (64000 counts per volt) do not give back the pressure if the gain is
    declared as "low": in the band where the filters are flat they give half of it. *)
Theorem C61_low_pressure_refuted :
  (forall p t t', tr_samples t = map (fun x => (x * ((2231378 # 1000000000) * 64000))%Q) p ->
     deconvolve_gem_response (shipped F) F remove_flat (Trace t) (b "low") [] [] = (Trace t', None) ->
     Forall2 (fun x y => y == x / 2)%Q p (tr_samples t')) /\
  (forall p t t', tr_samples t = map (fun x => (x * ((2231378 # 1000000000) * 128000))%Q) p ->
     deconvolve_gem_response (shipped F) F remove_flat (Trace t) (b "high") [] [] = (Trace t', None) ->
     Forall2 (fun x y => y == x)%Q p (tr_samples t')).
Proof.
  assert (G : forall gain, get_gem_response (shipped F) F gain [] [] = get_gem_response (shipped F) F (b "high") [] [] ->
    forall t t', deconvolve_gem_response (shipped F) F remove_flat (Trace t) gain [] [] = (Trace t', None) ->
    Forall2 (fun c y => y == c / ((2231378 # 1000000000) * 128000))%Q (tr_samples t) (tr_samples t')).
  { intros gain Eg t t' H. apply (proj2 (C61_stream (shipped F) F remove_flat gain [] [] [] [])) in H. destruct H as (_ & rs & E & _ & R).
    rewrite Eg in E. assert (C : (counts_per_pascal rs == (2231378 # 1000000000) * 128000)%Q).
    { vm_compute in E. injection E as <-. reflexivity. }
    unfold remove_flat in R. injection R as <-. clear -C. induction (tr_samples t) as [|c cs IH]; cbn; constructor; [|exact IH]. rewrite C. reflexivity. }
  split; intros p t t' S H; apply G in H.
  - rewrite S in H. clear S. revert H. generalize (tr_samples t'). induction p as [|x p IH]; intros ys H; inversion H as [|? y ? ys' A H']; subst; constructor; [|apply IH; exact H'].
    rewrite A. field.
  - apply C61_low_is_high; [apply word_low|apply word_high]; reflexivity.
  - rewrite S in H. clear S. revert H. generalize (tr_samples t'). induction p as [|x p IH]; intros ys H; inversion H as [|? y ? ys' A H']; subst; constructor; [|apply IH; exact H'].
    rewrite A. field.
  - reflexivity.
Qed.

(** C61, refuted.  A call that fails may leave traces changed: those before the one whose response could not be removed. *)
Theorem C61_failed_unchanged_refuted : ~ forall disk folder remove x gain s l e,
  snd (deconvolve_gem_response disk folder remove x gain s l) = Some e -> fst (deconvolve_gem_response disk folder remove x gain s l) = x.
Proof.
  intros H. specialize (H (shipped F) F (fun rs d => match d with [] => None | _ => remove_flat rs d end)
    (Stream [mktr (b "A") None [1]%Q; mktr (b "B") None []]) (b "high") [] [] ValueError ltac:(vm_compute; reflexivity)). vm_compute in H. discriminate.
Qed.

Print Assumptions C61_response.
Print Assumptions C61_refused.
Print Assumptions C61_stream.
Print Assumptions C61_unchanged.
Print Assumptions C61_low_is_high.
Print Assumptions C61_gain_ignored.
Print Assumptions C61_low_pressure_refuted.
Print Assumptions C61_failed_unchanged_refuted.
