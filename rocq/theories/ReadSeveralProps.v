(** Properties C14, C15, C16: reading several raw files together. *)
From Coq Require Import String.
From Coq Require Import ZArith QArith List Bool Lia Lqa.
From Verif Require Import Lib Base Scan Parser ParserSpec UnwrapSpec Process ProcessSpec ProcessProofs ReadSeveral ReadSeveralSpec
  ParserProps ProcessProps ReadSeveralProofs.
Import ListNotations.
Open Scope Z_scope.

(** C14.  Every file either contributes its tables, in order, or is reported by exactly one message and
    contributes nothing; [history] also says when a file is good or bad and which message a bad one gets. *)
Theorem C14_contributes_or_is_reported F H S (read_v : F -> string -> Q -> bool -> res tables)
    (drift : tables -> F -> bool -> H + failure) (sn : F -> option S) version req fns out :
  read_several F H S read_v drift sn version req fns = Some out ->
  exists vs : list (F * verdict F H S),
    map fst vs = fns /\
    history (read F read_v version req) (fun L fn => drift L fn req) sn 0 vs /\
    jdata out = flat_map (fun p => data (snd (fst p))) (goods vs) /\
    jmeta out = flat_map (fun p => metadata (snd (fst p))) (goods vs) /\
    jgps out = flat_map (fun p => gps (snd (fst p))) (goods vs) /\
    jproblems out = bads vs /\
    length (jproblems out) = (length fns - length (goods vs))%nat /\
    Forall2 (fun v h => match snd v with
                        | Good L _ s => h_sn h = Some s /\ h_num h = Some (length (data L))
                        | Bad _ => h_sn h = None end) vs (jheader out).
Proof.
  intros E. destruct (loop_spec F H S read_v drift sn version req fns _ _ _ E) as (vs & hs & Ef & Hi & E1 & E2 & E3 & E4 & E5 & E6 & _).
  cbn [jdata jmeta jgps jproblems jheader app] in *. exists vs.
  repeat (split; [assumption|]). split.
  - rewrite E4, <- Ef, map_length. clear. unfold bads, goods.
    assert (X : (length (flat_map (complaint F H S) vs) + length (flat_map (contribution F H S) vs) = length vs)%nat).
    { induction vs as [|[fn [L h s|m]] vs IH]; [reflexivity| |]; cbn [flat_map complaint contribution app length]; lia. }
    lia.
  - rewrite E5. eapply Forall2_impl; [|exact E6]. intros [fn [L hi s|m]] h X; cbn in *; tauto.
Qed.

(** Only KeyboardInterrupt ends the loop early. *)
Theorem C14_only_interrupts_escape F H S (read_v : F -> string -> Q -> bool -> res tables)
    (drift : tables -> F -> bool -> H + failure) (sn : F -> option S) version req fns :
  (forall fn v start, read_v fn v start req <> inr Interrupt) -> (forall L fn, drift L fn req <> inr (Exn Interrupt)) ->
  exists out, read_several F H S read_v drift sn version req fns = Some out.
Proof.
  intros NR ND. unfold read_several. generalize 0%Q (@mkj F H S [] [] [] [] []).
  induction fns as [|fn fns IH]; intros start acc; [eexists; reflexivity|]. cbn [loop].
  destruct (one_file F H S read_v drift sn version req fn start) as [h [L|f]] eqn:O; [apply IH|].
  destruct f as [[]| |]; try apply IH. exfalso.
  unfold one_file in O.
  assert (NR' : read F read_v version req fn start <> inr Interrupt).
  { unfold read. destruct (existsb _ _); [apply NR|]. destruct (existsb _ _); [apply NR|discriminate]. }
  destruct (read F read_v version req fn start) as [L0|e]; [|congruence].
  destruct (align start L0) as [L|]; [|discriminate]. destruct (discontinuous _); [discriminate|].
  specialize (ND L fn). destruct (drift L fn req) as [hi|f]; [|congruence].
  destruct (sn fn); discriminate.
Qed.

(** Leaving the rejected files out of the list leaves the three tables unchanged (and nothing to report). *)
Theorem C14_rejected_files_removable F H S (read_v : F -> string -> Q -> bool -> res tables)
    (drift : tables -> F -> bool -> H + failure) (sn : F -> option S) version req fns out :
  read_several F H S read_v drift sn version req fns = Some out ->
  exists (vs : list (F * verdict F H S)) out', map fst vs = fns /\
    history (read F read_v version req) (fun L fn => drift L fn req) sn 0 vs /\ jproblems out = bads vs /\
    read_several F H S read_v drift sn version req (map (fun p => fst (fst p)) (goods vs)) = Some out' /\
    jdata out' = jdata out /\ jmeta out' = jmeta out /\ jgps out' = jgps out /\ jproblems out' = [].
Proof.
  intros E. destruct (loop_spec F H S read_v drift sn version req fns _ _ _ E) as (vs & hs & Ef & Hi & _ & _ & _ & E4 & _ & _ & E7).
  destruct (E7 (mkj [] [] [] [] []) eq_refl eq_refl eq_refl) as (out' & X). exists vs, out'.
  repeat (split; [assumption|]). exact X.
Qed.

(** A header line can be left behind by a file that was rejected: the table of header information is
    filled in before the serial number is looked up. *)
Theorem C14_rejected_header_refuted :
  exists (read_v : nat -> string -> Q -> bool -> res tables) (drift : tables -> nat -> bool -> unit + failure) (sn : nat -> option nat) out h,
    read_several nat unit nat read_v drift sn "0.9" true [1%nat] = Some out /\
    jproblems out = [Corrupt 1%nat] /\ jdata out = [] /\ jheader out = [h] /\ h_num h = Some 2%nat /\ h_info h = Some tt.
Proof.
  exists (fun _ _ _ _ => inl (mktab [(0, Some 1); (10, Some 2)]%Q [(0, [])]%Q
            [(mkfix 0 None None None None None None None None None, 0)])).
  exists (fun _ _ _ => inl tt), (fun _ => None). eexists. eexists. split; [vm_compute; reflexivity|]. repeat split.
Qed.

(** The rows that one of the readers of the 8192 ms formats makes of a file. *)
Definition rows_read sc buf0 (f : raw_file) (req : bool) (df : list drow) : Prop :=
  read_with_cython sc buf0 (f_content f) req = inl df \/ f_pandas f req = inl df.

Lemma read_raw_rows sc buf0 ear f start req L : read_raw sc buf0 ear f "0.9" start req = inl L ->
  (exists df, rows_read sc buf0 f req df /\ consistent "0.9" start req df L) /\ data L <> [].
Proof.
  unfold read_raw, read_single. change (modern "0.9") with true. cbv iota. intros R.
  apply try_readers_ok in R as (rd & df & I & E & C & N & _). split; [|exact N]. exists df. split; [|exact C].
  destruct I as [<-|[<-|[]]]; [left|right]; exact E.
Qed.

Definition rollover_8192 (version : string) : Prop := In version ["1.10"; "0.91"; "0.9"; "0.85C"]%string.

Lemma read_modern {F} (read_v : F -> string -> Q -> bool -> res tables) version req fn start : rollover_8192 version ->
  read F read_v version req fn start = read_v fn "0.9"%string start req.
Proof. intros [<-|[<-|[<-|[<-|[]]]]]; reflexivity. Qed.

(** C15.  The sample clock never goes backwards, from one file to the next or within a file, and within a
    file it never steps by over a second. *)
Theorem C15_never_backwards H S sc buf0 ear (drift : tables -> raw_file -> bool -> H + failure) (sn : raw_file -> option S)
    version req fns out :
  rollover_8192 version ->
  (forall fn df, In fn fns -> rows_read sc buf0 fn req df -> begins_well df) ->
  read_several raw_file H S (read_raw sc buf0 ear) drift sn version req fns = Some out ->
  chain Qle (map fst (jdata out)) /\
  (exists parts, jdata out = concat parts /\ (length parts + length (jproblems out) = length fns)%nat /\
     Forall (fun part => part <> [] /\ chain good_step (map fst part)) parts).
Proof.
  intros V W E.
  destruct (C14_contributes_or_is_reported _ _ _ _ _ _ _ _ _ _ E) as (vs & Ef & Hi & E1 & _ & _ & E4 & Ln & _).
  split.
  - rewrite E1. eapply chain_tail. eapply history_monotone; [|exact Hi].
    rewrite Ef. apply Forall_forall. intros fn I start L t v l R D.
    rewrite (read_modern _ _ _ _ _ V) in R. apply read_raw_rows in R as [(df & Rd & C) _].
    eapply first_sample; [|exact C|exact (W fn df I Rd)|exact D]. right; left; reflexivity.
  - exists (map (fun p => data (snd (fst p))) (goods vs)). rewrite E1, flat_map_concat_map. split; [reflexivity|].
    split.
    + rewrite map_length. rewrite E4, <- Ef, map_length. unfold goods, bads. clear.
      induction vs as [|[fn [L h s|m]] vs IH]; [reflexivity| |]; cbn [flat_map complaint contribution app length]; lia.
    + apply Forall_map. clear -Hi. induction Hi as [|start fn L h s t rest (C & G & _) _ Hi IH|]; [constructor| |exact IHHi].
      constructor; [|exact IH]. cbn [fst snd]. split; [|exact G].
      destruct C as (L0 & t0 & v0 & l0 & _ & E & [[_ ->]|[_ (A & _)]]); [rewrite E; discriminate|].
      intros N. rewrite E, N in A. inversion A.
Qed.

(** Two rows before the first sample, with a clock that runs backwards by nearly half a rollover twice,
    are enough to make the joined clock go backwards ... *)
Definition back_file (saws : list (kind * Q)) : raw_file :=
  mkraw (Some (b "D1,1")) (fun _ => inl (map (fun p => mkd (fst p) (snd p) (repeat (Num 0) 11)) saws))
        (fun _ => inl (map (fun p => mkd (fst p) (snd p) (repeat (Num 0) 11)) saws)).

Theorem C15_backward_rows_refuted :
  exists fns out, read_several raw_file unit unit (read_raw dec_scanner [] true) (fun _ _ _ => inl tt) (fun _ => Some tt) "0.9" false fns = Some out /\
    jproblems out = [] /\ ~ chain Qle (map fst (jdata out)).
Proof.
  exists [back_file [(KD, 0); (KM, 0)]; back_file [(KM, 4200); (KM, 200); (KD, 4392)]; back_file [(KD, 0); (KM, 0)]]%Q.
  eexists. split; [vm_compute; reflexivity|]. split; [reflexivity|].
  intros (X & _). vm_compute in X. apply X. reflexivity.
Qed.

(** ... and in the formats with a 65536 ms rollover even a file that begins with a sample does. *)
Theorem C15_plain_formats_refuted :
  exists fns out, read_several raw_file unit unit (read_raw dec_scanner [] true) (fun _ _ _ => inl tt) (fun _ => Some tt) "0.85" false fns = Some out /\
    jproblems out = [] /\ ~ chain Qle (map fst (jdata out)).
Proof.
  exists [back_file [(KD, 40000); (KM, 0)]; back_file [(KD, 20000); (KM, 0)]]%Q.
  eexists. split; [vm_compute; reflexivity|]. split; [reflexivity|].
  intros (X & _). vm_compute in X. apply X. reflexivity.
Qed.

(** C16.  [rec fn] gives the kinds and true clock values of the rows of each file.  If the rows that are
    read are those written by the logger, and each accepted file begins within half a rollover of the end
    of the accepted file before it, then the samples, metadata and GPS fixes of all accepted files are on
    the true clock, minus one constant (a number of rollovers) for the whole set; samples plus 8.93 ms. *)
Theorem C16_one_clock H S sc buf0 ear (drift : tables -> raw_file -> bool -> H + failure) (sn : raw_file -> option S)
    version req (rec : raw_file -> recording) fns out :
  rollover_8192 version ->
  (forall fn df, In fn fns -> rows_read sc buf0 fn req df -> written (rec fn) df) ->
  read_several raw_file H S (read_raw sc buf0 ear) drift sn version req fns = Some out ->
  exists vs : list (raw_file * verdict raw_file H S),
    map fst vs = fns /\
    history (read raw_file (read_raw sc buf0 ear) version req) (fun L fn => drift L fn req) sn 0 vs /\
    jproblems out = bads vs /\
    let recs := map (fun p => rec (fst (fst p))) (goods vs) in
    (chain follows recs ->
     exists k : Z,
       Forall2 (fun t p => fst p == t + (893 # 100) + 8192 * inject_Z k)%Q (flat_map (clocks_of KD) recs) (jdata out) /\
       Forall2 (fun t p => fst p == t + 8192 * inject_Z k)%Q (flat_map (clocks_of KM) recs) (jmeta out) /\
       Forall (fun e => exists t, In t (flat_map (clocks_of KG) recs) /\ msPPS (fst e) == t + 8192 * inject_Z k)%Q (jgps out)).
Proof.
  intros V W E.
  destruct (C14_contributes_or_is_reported _ _ _ _ _ _ _ _ _ _ E) as (vs & Ef & Hi & E1 & E2 & E3 & E4 & _).
  exists vs. repeat (split; [assumption|]). cbv zeta. intros Ch.
  destruct (one_clock_start raw_file H S (read raw_file (read_raw sc buf0 ear) version req) (fun L fn => drift L fn req) sn rec 0 vs)
    as (k & O); [|exact Hi|exact Ch|].
  { rewrite Ef. apply Forall_forall. intros fn I start L R. rewrite (read_modern _ _ _ _ _ V) in R.
    apply read_raw_rows in R as [(df & Rd & C) N].
    eapply on_clock_of_rows; [|exact C|exact (W fn df I Rd)|exact N]. right; left; reflexivity. }
  exists k. rewrite E1, E2, E3. destruct (on_clocks_joined raw_file H S rec k vs O) as (A & B & C).
  assert (X : forall K, flat_map (clocks_of K) (map (fun p => rec (fst (fst p))) (goods vs)) =
                        flat_map (fun p => clocks_of K (rec (fst (fst p)))) (goods vs)).
  { intros K. rewrite !flat_map_concat_map, map_map. reflexivity. }
  rewrite !X. auto.
Qed.

(** When nothing was rejected, that is all files. *)
Theorem C16_contiguous_files H S sc buf0 ear (drift : tables -> raw_file -> bool -> H + failure) (sn : raw_file -> option S)
    version req (rec : raw_file -> recording) fns out :
  rollover_8192 version ->
  (forall fn df, In fn fns -> rows_read sc buf0 fn req df -> written (rec fn) df) ->
  read_several raw_file H S (read_raw sc buf0 ear) drift sn version req fns = Some out ->
  jproblems out = [] -> chain follows (map rec fns) ->
  exists k : Z,
    Forall2 (fun t p => fst p == t + (893 # 100) + 8192 * inject_Z k)%Q (flat_map (fun fn => clocks_of KD (rec fn)) fns) (jdata out) /\
    Forall2 (fun t p => fst p == t + 8192 * inject_Z k)%Q (flat_map (fun fn => clocks_of KM (rec fn)) fns) (jmeta out) /\
    Forall (fun e => exists fn t, In fn fns /\ In t (clocks_of KG (rec fn)) /\ msPPS (fst e) == t + 8192 * inject_Z k)%Q (jgps out).
Proof.
  intros V W E P Ch. destruct (C16_one_clock _ _ _ _ _ _ _ _ _ rec _ _ V W E) as (vs & Ef & Hi & Eb & X). cbv zeta in X.
  rewrite P in Eb. symmetry in Eb.
  assert (G : map (fun p => fst (fst p)) (goods vs) = fns).
  { rewrite <- Ef. clear -Eb. induction vs as [|[fn [L h s|m]] vs IH]; [reflexivity| |discriminate].
    change (fn :: map (fun p => fst (fst p)) (goods vs) = fn :: map fst vs). f_equal. apply IH. exact Eb. }
  assert (G' : map (fun p => rec (fst (fst p))) (goods vs) = map rec fns) by (rewrite <- G, map_map; reflexivity).
  rewrite G' in X. destruct (X Ch) as (k & A & B & C). exists k.
  assert (Y : forall K, flat_map (clocks_of K) (map rec fns) = flat_map (fun fn => clocks_of K (rec fn)) fns).
  { intros K. rewrite !flat_map_concat_map, map_map. reflexivity. }
  rewrite !Y in *. split; [exact A|]. split; [exact B|].
  eapply Forall_impl; [|exact C]. cbn. intros e (t & I & Et). apply in_flat_map in I as (fn & I1 & I2). eauto 6.
Qed.

(** A concrete case: a recording in three files, the second missing, that crosses two rollovers. *)
Definition ex_rec1 : recording := [(KD, 8000); (KM, 8000); (KD, 8900); (KD, 9800)]%Q.
Definition ex_rec3 : recording :=
  [(KM, 10300); (KD, 10400); (KD, 11300); (KD, 12200); (KD, 13100); (KD, 14000); (KD, 14900); (KD, 15800); (KD, 16700)]%Q.
Definition ex_line (p : kind * Q) : bytes :=
  let s := str_Z (Qnum (snd p) mod 8192) in
  match fst p with KD => b "D" ++ s ++ b ",1" | _ => b "M," ++ s ++ b ",3.3,20.5,0,0,1,2,3,4,5,6,7" end.
Definition ex_file (rec : recording) : raw_file :=
  mkraw (Some (file (map ex_line rec) [])) (fun _ => inr CorruptRaw) (fun _ => inr CorruptRaw).
Definition ex_missing : raw_file := mkraw None (fun _ => inr CorruptRaw) (fun _ => inr CorruptRaw).
Definition ex_rec (f : raw_file) : recording :=
  match f_content f with
  | Some bs => if eqb_bytes bs (file (map ex_line ex_rec1) []) then ex_rec1 else ex_rec3
  | None => []
  end.
Definition ex_files := [ex_file ex_rec1; ex_missing; ex_file ex_rec3].

Example C14_C15_C16_case : exists out,
  read_several raw_file unit unit (read_raw dec_scanner [] true) (fun _ _ _ => inl tt) (fun _ => Some tt) "1.10" false ex_files = Some out /\
  length (jdata out) = 11%nat /\ jproblems out = [Failed ex_missing] /\
  map (fun p => Qred (fst p)) (jdata out) = map (fun t => Qred (t + (893 # 100)))%Q
    [8000; 8900; 9800; 10400; 11300; 12200; 13100; 14000; 14900; 15800; 16700]%Q.
Proof. eexists. split; [vm_compute; reflexivity|]. repeat split. Qed.

Lemma ex_rows f df : In f ex_files -> rows_read dec_scanner [] f false df ->
  df = map (fun p => mkd (fst p) (inject_Z (Qnum (snd p) mod 8192)) (match fst p with KD => [Num 1] | _ =>
         [Num (33#10); Num (205#10); Num 0; Num 0; Num 1; Num 2; Num 3; Num 4; Num 5; Num 6; Num 7] end)) (ex_rec f).
Proof.
  intros I R. destruct I as [<-|[<-|[<-|[]]]]; destruct R as [R|R]; vm_compute in R; try discriminate R; injection R as <-; vm_compute; reflexivity.
Qed.

Example C16_case_hypotheses :
  (forall fn df, In fn ex_files -> rows_read dec_scanner [] fn false df -> written (ex_rec fn) df) /\
  chain follows [ex_rec1; ex_rec3].
Proof.
  split.
  - intros f df I R. rewrite (ex_rows f df I R). clear df R.
    assert (X : In (ex_rec f) [ex_rec1; []; ex_rec3]).
    { destruct I as [<-|[<-|[<-|[]]]]; vm_compute; auto. }
    destruct X as [<-|[<-|[<-|[]]]]; (split; [reflexivity|split]); cbn;
      try exact I; repeat (split || constructor); try (unfold Qle, Qlt; cbn; lia).
    all: try (exists 0; reflexivity). all: try (exists 1; reflexivity). all: try (exists 2; reflexivity).
  - split; [|exact I]. intros l a s (pre & El) Ha Hs. cbn in *. injection Ha as <-. injection Hs as <-.
    assert (l = 9800%Q) as ->.
    { change ([8000; 8900]%Q ++ [9800%Q] = pre ++ [l]) in El. apply app_inj_tail in El as [_ El]. congruence. }
    repeat split; unfold Qle, Qlt; cbn; lia.
Qed.

Example C15_case_hypotheses : forall fn df, In fn ex_files -> rows_read dec_scanner [] fn false df -> begins_well df.
Proof.
  intros f df I R. rewrite (ex_rows f df I R). destruct I as [<-|[<-|[<-|[]]]].
  - eexists [], _, _. split; [vm_compute; reflexivity|]. repeat split; auto.
  - destruct R as [R|R]; vm_compute in R; discriminate R.
  - eexists [_], _, _. split; [vm_compute; reflexivity|]. split; [repeat constructor; discriminate|]. split; [reflexivity|].
    right. split; [|left; cbn; lia]. repeat constructor; unfold Qle, Qlt; cbn; lia.
Qed.

Print Assumptions C14_contributes_or_is_reported.
Print Assumptions C14_only_interrupts_escape.
Print Assumptions C14_rejected_files_removable.
Print Assumptions C14_rejected_header_refuted.
Print Assumptions C15_never_backwards.
Print Assumptions C15_backward_rows_refuted.
Print Assumptions C15_plain_formats_refuted.
Print Assumptions C16_one_clock.
Print Assumptions C16_contiguous_files.
