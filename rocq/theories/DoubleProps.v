(** Property C74: the clock and the samples in double precision. *)
From Coq Require Import String.
From Coq Require Import ZArith QArith Qabs Qround Qpower List Bool Lia Lqa.
From Verif Require Import Lib Base Scan Parser Unwrap UnwrapProofs Process DoubleSpec Double DoubleProofs DoubleRound ParserSpec ProcessProps.
Import ListNotations.
Open Scope Z_scope.

Lemma run_whole sc buf0 bs : whole_file sc buf0 bs -> Forall (fun r => whole_row (drow_of r)) (run sc (init buf0) (chunks bs)).
Proof.
  intros H. apply (H (Z.of_nat (length (run sc (init buf0) (chunks bs))))). unfold parse_gemfile. rewrite (proj2 (Z.leb_le _ _) (Z.le_refl _)). reflexivity.
Qed.
Lemma whole_D rows : Forall (fun r => whole_row (drow_of r)) rows -> Forall (fun r => rkind r = KD -> whole (2 ^ 40) (rmillis r)) rows.
Proof. apply Forall_impl. intros r [H _] _. exact H. Qed.

Section Double.
  Variable rnd : Q -> Q.
  Hypothesis N : rounds_to_nearest rnd.

  (** C74.  Reading the lines of any file whose sample clock is made of whole milliseconds: in doubles the rows are the same. *)
  Theorem C74_rows : forall sc buf0 n bs rows, parse_gemfile sc buf0 n bs = Some rows ->
    (forall r, In r rows -> rkind r = KD -> whole (2 ^ 40) (rmillis r)) ->
    exists rows', dparse_gemfile rnd sc buf0 n bs = Some rows' /\
      Forall2 (fun r' r => rkind r' = rkind r /\ (rmillis r' == rmillis r)%Q /\ rvals r' = rvals r) rows' rows.
  Proof.
    intros sc buf0 n bs rows E H. unfold parse_gemfile, dparse_gemfile in *. destruct (Z.of_nat (length (run sc (init buf0) (chunks bs))) <=? n) eqn:L; [|discriminate]. injection E as <-.
    pose proof (drun_init rnd N sc buf0 bs (proj2 (Forall_forall _ _) H)) as F. exists (drun rnd sc (init buf0) (chunks bs)). rewrite (Forall2_length_eq _ _ _ F), L. split; [reflexivity|exact F].
  Qed.

  (** Unwrapping a clock of whole milliseconds. *)
  Theorem C74_unwrap : forall r offset saw, r = 8192%Q \/ r = 65536%Q -> whole (2 ^ 50) offset -> Z.of_nat (length saw) <= 2 ^ 26 -> Forall (whole (2 ^ 40)) saw ->
    Forall2 Qeq (dunwrap rnd r offset saw) (unwrap r offset saw).
  Proof.
    intros r offset saw Hr Ho L F. assert (X : exists h, r = inject_Z (2 * h) /\ 0 < h <= 2 ^ 15) by (destruct Hr as [-> | ->]; [exists 4096|exists 32768]; split; try reflexivity; lia).
    destruct X as (h & -> & Hh). assert (T : Forall2 (twin (2 ^ 40)) saw saw) by (clear - F; induction F; constructor; [split; [reflexivity|assumption]|assumption]).
    pose proof (unwrap_twin rnd N (2 * h) h offset saw saw eq_refl Hh Ho L T) as G. clear - G. induction G as [|x y l m [E _] G IH]; constructor; assumption.
  Qed.

  Lemma cython_same sc buf0 content req : (forall bs, content = Some bs -> whole_file sc buf0 bs) ->
    match dread_with_cython rnd sc buf0 content req, read_with_cython sc buf0 content req with
    | inl d, inl e => Forall2 same_drow d e /\ whole_table e
    | inr x, inr y => x = y
    | _, _ => False
    end.
  Proof.
    intros H. unfold dread_with_cython, read_with_cython. destruct content as [bs|]; [|reflexivity]. specialize (H bs eq_refl). pose proof (run_whole _ _ _ H) as W.
    pose proof (drun_init rnd N sc buf0 bs (whole_D _ W)) as F. unfold dparse_retry, parse_retry, dparse_gemfile, parse_gemfile. rewrite (Forall2_length_eq _ _ _ F).
    assert (G : Z.of_nat (length (run sc (init buf0) (chunks bs))) <= 2 ^ 26 ->
      match match drun rnd sc (init buf0) (chunks bs) with [] => inr EmptyRawFile | _ :: _ => if negb (existsb (fun r => kind_eqb (rkind r) KG) (drun rnd sc (init buf0) (chunks bs))) && req then inr NoGPS else inl (map drow_of (drun rnd sc (init buf0) (chunks bs))) end,
            match run sc (init buf0) (chunks bs) with [] => inr EmptyRawFile | _ :: _ => if negb (existsb (fun r => kind_eqb (rkind r) KG) (run sc (init buf0) (chunks bs))) && req then inr NoGPS else inl (map drow_of (run sc (init buf0) (chunks bs))) end with
      | inl d, inl e => Forall2 same_drow d e /\ whole_table e | inr x, inr y => x = y | _, _ => False end).
    { intros L. clear H. revert W F L. generalize (drun rnd sc (init buf0) (chunks bs)), (run sc (init buf0) (chunks bs)). intros l m W F L.
      assert (Ex : existsb (fun r => kind_eqb (rkind r) KG) l = existsb (fun r => kind_eqb (rkind r) KG) m).
      { clear - F. induction F as [|x y l m (E & _) F IH]; [reflexivity|]. cbn [existsb]. rewrite E, IH. reflexivity. }
      rewrite Ex. destruct F as [|x y l m E F]; [reflexivity|]. destruct (negb _ && req); [reflexivity|]. split; [|split].
      - assert (F' : Forall2 same_row (x :: l) (y :: m)) by (constructor; assumption). clear - F'. induction F' as [|x0 y0 l0 m0 (A & B & C) F0 IH]; [constructor|]. cbn [map]. constructor; [|exact IH].
        unfold same_drow, drow_of. cbn [dkind dsaw dcells]. rewrite C. auto.
      - apply Forall_map. exact W.
      - rewrite map_length. exact L. }
    destruct (Z.of_nat (length (run sc (init buf0) (chunks bs))) <=? 1560000) eqn:L1.
    - assert (L : Z.of_nat (length (run sc (init buf0) (chunks bs))) <= 2 ^ 26) by lia. specialize (G L). clear - G.
      revert G. destruct (drun rnd sc (init buf0) (chunks bs)), (run sc (init buf0) (chunks bs)); auto.
    - destruct (Z.of_nat (length (run sc (init buf0) (chunks bs))) <=? 1560000 * 6 * 7) eqn:L2; [|reflexivity].
      assert (L : Z.of_nat (length (run sc (init buf0) (chunks bs))) <= 2 ^ 26) by lia. specialize (G L). clear - G.
      revert G. destruct (drun rnd sc (init buf0) (chunks bs)), (run sc (init buf0) (chunks bs)); auto.
  Qed.
  Lemma gps_both t u : close_tables 0 t u -> gps t = [] <-> gps u = [].
  Proof. intros (_ & _ & F). split; intros E; rewrite E in F; inversion F; reflexivity. Qed.

  Definition read_alike (x y : res (list drow)) : Prop :=
    match x, y with inl d, inl e => Forall2 same_drow d e /\ whole_table e | inr a, inr c => a = c | _, _ => False end.
  Lemma readers_same ear version offset req : whole (2 ^ 50) offset -> forall ds es, Forall2 (fun d e => read_alike (d req) (e req)) ds es ->
    match try_readers ear version offset req es with
    | inl u => exists t, dtry_readers rnd ear version offset req ds = inl t /\
        (Forall (fun p => Qabs (fst p) <= inject_Z (2 ^ 32))%Q (data u) -> close_tables (1 # 1000000) t u)
    | inr e => dtry_readers rnd ear version offset req ds = inr e
    end.
  Proof.
    intros Ho ds es F. induction F as [|d e ds es H F IH]; [reflexivity|]. cbn [dtry_readers try_readers]. unfold read_alike in H.
    destruct (d req) as [dd|x], (e req) as [ee|y]; try contradiction; [|subst y; destruct (fatal x); [reflexivity|exact IH]].
    destruct H as [H W]. pose proof (process_same rnd N ear version offset req dd ee Ho W H) as P. unfold close_results in P.
    destruct (dprocess rnd ear version offset req dd) as [t|x], (process ear version offset req ee) as [u|y]; try contradiction; [|subst y; destruct (fatal x); [reflexivity|exact IH]].
    pose proof (gps_both t u P) as Gb. destruct P as (P1 & P2 & P3).
    assert (R : forall c, time_correction version = Some c -> exists t', inl (mktab (map (fun p => (rnd (fst p + rnd c), snd p))%Q (data t)) (metadata t) (gps t)) = (inl t' : res tables) /\
      (Forall (fun p => Qabs (fst p) <= inject_Z (2 ^ 32))%Q (map (fun p => (fst p + c, snd p))%Q (data u)) -> close_tables (1 # 1000000) t' (mktab (map (fun p => (fst p + c, snd p))%Q (data u)) (metadata u) (gps u)))).
    { intros c Ec. eexists. split; [reflexivity|]. intros B. assert (c = (893 # 100)%Q) as -> by (unfold time_correction in Ec; destruct (existsb _ _); [congruence|discriminate]).
      split; [|split; [exact P2|exact P3]]. cbn [data] in *. clear - P1 B N. induction P1 as [|p q l m [A C] P IH]; [constructor|]. cbn [map] in *. inversion B as [|? ? B1 B2]; subst. constructor; [|apply IH; exact B2].
      cbn [fst snd] in *. split; [|exact C]. apply (corrected_time rnd N); [|exact B1]. apply Qabs_Qle_condition in A as [A1 A2]. lra. }
    destruct (gps t) as [|g gs] eqn:Et; destruct (gps u) as [|g' gs'] eqn:Eu; try (exfalso; destruct Gb as [G1 G2]; (discriminate (G1 eq_refl) || discriminate (G2 eq_refl))).
    - destruct req; [reflexivity|]. destruct (time_correction version) as [c|]; [exact (R c eq_refl)|reflexivity].
    - destruct (time_correction version) as [c|]; [exact (R c eq_refl)|reflexivity].
  Qed.

  (** Reading a whole file: the outcome is the same, and so are all the tables, except that the times of the samples are within a millionth of a
      millisecond (the correction of 8.93 ms is not a double), as long as they are below 2^32 ms (49 days). *)
  Theorem C74_read_single : forall sc buf0 ear pandas pandas08 content version offset req,
    whole (2 ^ 50) offset -> (forall bs, content = Some bs -> whole_file sc buf0 bs) ->
    (forall df, pandas req = inl df -> whole_table df) -> (forall df, pandas08 req = inl df -> whole_table df) ->
    match read_single sc buf0 ear pandas pandas08 content version offset req with
    | inl u => exists t, dread_single rnd sc buf0 ear pandas pandas08 content version offset req = inl t /\
        (Forall (fun p => Qabs (fst p) <= inject_Z (2 ^ 32))%Q (data u) -> close_tables (1 # 1000000) t u)
    | inr e => dread_single rnd sc buf0 ear pandas pandas08 content version offset req = inr e
    end.
  Proof.
    intros sc buf0 ear pandas pandas08 content version offset req Ho Hc Hp Hp8. unfold read_single, dread_single.
    assert (Sr : forall df : list drow, Forall2 same_drow df df) by (induction df; constructor; [repeat split; reflexivity|assumption]).
    assert (A : forall r : bool -> res (list drow), (forall df, r req = inl df -> whole_table df) -> read_alike (r req) (r req)).
    { intros r H. unfold read_alike. destruct (r req) as [df|x]; [split; [apply Sr|apply H; reflexivity]|reflexivity]. }
    destruct (modern version); apply readers_same; try exact Ho.
    - constructor; [exact (cython_same sc buf0 content req Hc)|]. constructor; [exact (A _ Hp)|constructor].
    - constructor; [exact (A _ Hp8)|constructor].
  Qed.
End Double.

(** Rounding to nearest, with ties to even, is such a rounding. *)
Theorem C74_rounding_exists : rounds_to_nearest round64.
Proof. exact round64_nearest. Qed.

Lemma second_same l m : Forall2 Qeq l m -> (nth 1 l 0 == nth 1 m 0)%Q.
Proof. intros [|x y l' m' E [|x' y' l2 m2 E2 F]]; [reflexivity|reflexivity|exact E2]. Qed.
(** Whole numbers of milliseconds are needed: a clock of 0.1 ms (the double nearest to it) after a rollover is moved by the unwrapping. *)
Theorem C74_fractions_refuted : exists x, double x /\ (0 < x < 1)%Q /\ ~ Forall2 Qeq (dunwrap round64 8192 0 [8190%Q; x]) (unwrap 8192 0 [8190%Q; x]).
Proof.
  exists (round64 (1 # 10)). split; [|split; [split; vm_compute; reflexivity|]].
  - refine (proj1 (round64_nearest (1 # 10) _)). vm_compute. discriminate.
  - intros F. apply second_same in F. revert F. vm_compute. discriminate.
Qed.

(** A concrete file, with compact lines and a rollover of the clock: it meets the hypotheses, and the times do differ from the exact ones. *)
Definition wholeb (n : Z) (x : Q) : bool := Qeq_bool x (inject_Z (Qfloor x)) && (Z.abs (Qfloor x) <=? n).
Lemma wholeb_whole n x : wholeb n x = true -> whole n x.
Proof. unfold wholeb. intros H. apply andb_true_iff in H as [A C]. exists (Qfloor x). split; [apply Qeq_bool_iff; exact A|lia]. Qed.
Definition whole_rowb (d : drow) : bool :=
  wholeb (2 ^ 40) (dsaw d) && (negb (kind_eqb (dkind d) KD) || match dcells d with Num x :: _ => wholeb (2 ^ 26) x | _ => true end).
Lemma whole_rowb_row d : whole_rowb d = true -> whole_row d.
Proof.
  unfold whole_rowb. intros H. apply andb_true_iff in H as [A C]. split; [apply wholeb_whole; exact A|]. intros K. rewrite K in C. cbn [kind_eqb negb orb] in C.
  destruct (dcells d) as [|c l]; cbn [firstn]; constructor; [|constructor]. intros x ->. apply wholeb_whole. exact C.
Qed.
Lemma some_same (l m : list row) : Some l = Some m -> l = m.
Proof. congruence. Qed.
Lemma ex_whole : whole_file dec_scanner [] (file ex_raw []).
Proof.
  intros n rows E. unfold parse_gemfile in E. destruct (_ <=? n); [|discriminate]. apply some_same in E. rewrite <- E. apply Forall_forall. intros r I. apply whole_rowb_row.
  assert (H : forallb (fun r => whole_rowb (drow_of r)) (run dec_scanner (init []) (chunks (file ex_raw []))) = true) by (vm_compute; reflexivity).
  rewrite forallb_forall in H. exact (H r I).
Qed.
Example C74_case : rounds_to_nearest round64 /\ whole (2 ^ 50) 0 /\ whole_file dec_scanner [] (file ex_raw []) /\
  exists t u, dread_single round64 dec_scanner [] true (fun _ => inr CorruptRaw) (fun _ => inr CorruptRaw) (Some (file ex_raw [])) "0.9" 0 true = inl t /\
    read_single dec_scanner [] true (fun _ => inr CorruptRaw) (fun _ => inr CorruptRaw) (Some (file ex_raw [])) "0.9" 0 true = inl u /\
    Forall (fun p => Qabs (fst p) <= inject_Z (2 ^ 32))%Q (data u) /\ length (data u) = 3%nat /\
    Forall2 (fun p q => ~ fst p == fst q)%Q (data t) (data u).
Proof.
  split; [exact round64_nearest|]. split; [exists 0; split; [reflexivity|lia]|]. split; [exact ex_whole|].
  eexists. eexists. split; [vm_compute; reflexivity|]. split; [vm_compute; reflexivity|]. split; [repeat constructor; vm_compute; discriminate|]. split; [reflexivity|].
  repeat constructor; vm_compute; discriminate.
Qed.
Print Assumptions C74_rows.
Print Assumptions C74_unwrap.
Print Assumptions C74_read_single.

Print Assumptions C74_rounding_exists.
Print Assumptions C74_fractions_refuted.
