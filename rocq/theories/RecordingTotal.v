(** Proofs that recordings are read without a problem. *)
From Coq Require Import String.
From Coq Require Import ZArith QArith Qabs Qround List Bool Lia Lqa.
From Verif Require Import Base Lib UnwrapSpec UnwrapProofs Scan Parser ParserProofs ParserProps Process ProcessSpec ProcessProofs
  ReadSeveral ReadSeveralSpec ReadSeveralProofs ReadSeveralProps Drift DriftSpec DriftProofs DriftProps Segments SegmentsSpec SegmentsProofs
  InterpSpec ParserSpec PolyfitSpec PolyfitWrong RecordingSpec RecordingProofs.
Import ListNotations.
Open Scope Q_scope.

Lemma read_total sc buf0 ear f start tau evs bs : reads_decimal sc -> f_content f = Some bs -> raw_text evs bs -> true_clock tau evs ->
  fixes_of evs <> [] -> exists L, read_raw sc buf0 ear f "0.9" start true = inl L.
Proof.
  intros Sc Ec Rt T Nf. destruct (raw_rows sc buf0 evs bs Sc Rt) as (rows & P & Lg & Sh & K).
  destruct (begin_kinds _ _ T) as [KD' KM']. rewrite <- K in KD', KM'.
  assert (V : difference_coded "0.9") by (right; left; reflexivity).
  unfold read_raw. rewrite Ec, (cython_decides sc buf0 ear _ _ bs "0.9" start true rows V P KD' KM').
  assert (X : exists x t, In x rows /\ rkind x = KG /\ exists m g, fix_in (m, drow_of x) g /\ plausible g t).
  { clear - Lg Nf. induction Lg as [|e r l m (A & _ & B) Lg IH]; [contradiction|].
    destruct e as [c d|c t|c|c]; cbn [fixes_of kind_of] in *; try (destruct (IH Nf) as (x & t' & I & Y); exists x, t'; split; [right; exact I|exact Y]).
    destruct B as (v1 & v2 & v3 & v4 & v5 & v6 & v7 & v8 & v9 & Er & Pl). exists r, t. split; [left; reflexivity|]. split; [exact A|].
    exists 0, (mkfix 0 (Some v1) (Some v2) (Some v3) (Some v4) (Some v5) (Some v6) (Some v7) (Some v8) (Some v9)). split; [|exact Pl].
    split; [reflexivity|]. exists []. cbn [snd dcells drow_of]. rewrite Er. cbn [map firstn msLag gyear gmonth gday ghour gminute gsecond glat glon]. split; [repeat constructor|reflexivity]. }
  pose proof (proj2 (exists_kind rows KD) KD') as HD. pose proof (proj2 (exists_kind rows KM) KM') as HM.
  assert (HG : existsb (fun x => kind_eqb (rkind x) KG) rows = true).
  { apply exists_kind. destruct X as (x & _ & I & Kx & _). rewrite <- Kx. apply in_map. exact I. }
  assert (R : read_with_cython sc buf0 (Some bs) true = inl (map drow_of rows)).
  { unfold read_with_cython. rewrite P. destruct rows as [|r0 rs]; [discriminate|]. rewrite HG. reflexivity. }
  rewrite R. edestruct (process_cython ear "0.9" start true rows) as (tab & Ep & Ng); [reflexivity|exact Sh|exact HD|exact HM|exact X|].
  rewrite Ep. destruct (gps tab); [contradiction|]. eexists. reflexivity.
Qed.

(** * The drift of a steady file *)

Lemma track_clock k evs L : track k evs L -> Forall2 (fun c x => x == c + (893 # 100) + 8192 * inject_Z k) (samples evs) (map fst (data L)).
Proof. intros [A _]. rewrite <- (levels_samples evs 0). induction A as [|s p l m (H & _) A IH]; cbn [map]; constructor; assumption. Qed.

Lemma chain_moved (R R' : Q -> Q -> Prop) a l m : (forall x y u w, u == x + a -> w == y + a -> R x y -> R' u w) ->
  Forall2 (fun c x => x == c + a) l m -> chain R l -> chain R' m.
Proof.
  intros H F. induction F as [|c x l m E F IH]; [intros; exact I|]. intros C. specialize (IH (chain_tail _ _ _ C)).
  destruct F as [|c' x' l m E' F]; [exact I|]. destruct C as [A _]. split; [exact (H _ _ _ _ E E' A)|exact IH].
Qed.

Lemma track_steps g k evs L tau : track k evs L -> steady_within g tau evs -> chain (fun x y => 0 < y - x /\ y - x <= g) (map fst (data L)).
Proof.
  intros Tr St. apply (chain_moved (fun x y => 0 < y - x /\ y - x <= g) _ ((893 # 100) + 8192 * inject_Z k) (samples evs)); [| |exact (st_samples _ _ St)].
  - intros x y u w -> -> [A B]. split; lra.
  - pose proof (track_clock _ _ _ Tr) as F. clear - F. induction F as [|c x l m E F IH]; constructor; [rewrite E; ring|exact IH].
Qed.

Lemma chain_weaken {A} (R R' : A -> A -> Prop) l : (forall x y, R x y -> R' x y) -> chain R l -> chain R' l.
Proof. intros H. induction l as [|x [|y l] IH]; intros C; [exact I|exact I|]. destruct C as [C1 C2]. split; [apply H; exact C1|apply IH; exact C2]. Qed.

Lemma steady_weaken g g' tau evs : g <= g' -> steady_within g tau evs -> steady_within g' tau evs.
Proof.
  intros L [A B C D E]. split; [exact A|exact B| |exact D|exact E]. eapply chain_weaken; [|exact C]. intros x y [X Y]. split; lra.
Qed.

Lemma line_at tau x : c2 tau == 0 -> c3 tau == 0 -> cubic_at tau x == c0 tau + c1 tau * x.
Proof. intros A B. rewrite cubic_at_flat, A, B. ring. Qed.

Lemma chain_lt_last l x y m : chain Qlt l -> l = x :: m ++ [y] -> x < y.
Proof.
  intros C ->. revert x C. induction m as [|z m IH]; intros x C; cbn in C; [tauto|]. destruct C as [A C]. specialize (IH z C). lra.
Qed.

Lemma ends_of (fs : list (Q * Z)) : (2 <= length fs)%nat -> exists c t mid c' t', fs = (c, t) :: mid ++ [(c', t')].
Proof. destruct fs as [|[c t] l]; intros L; [cbn in L; lia|]. destruct (exists_last (l := l)) as (mid & [c' t'] & ->); [intros ->; cbn in L; lia|]. eauto 6. Qed.
Lemma gives_ends s c t mid c' t' pts : Forall2 (gives s) ((c, t) :: mid ++ [(c', t')]) pts ->
  exists p0 pm p1, pts = p0 :: pm ++ [p1] /\ fst p0 == c + s /\ snd p0 = inject_Z t /\ fst p1 == c' + s /\ snd p1 = inject_Z t'.
Proof.
  intros B. inversion B as [|? e0 ? es (H0 & H0') B' E1 E2]; subst. apply Forall2_app_inv_l in B' as (em & el & Bm & Bl & ->).
  inversion Bl as [|? e1 ? ? (H1 & H1') Bn]; subst. inversion Bn; subst. exists e0, em, e1. auto.
Qed.
Lemma chain_lt_ends l a z g : chain (fun x y => 0 < y - x /\ y - x <= g) l -> begins l a -> finishes l z -> a <= z.
Proof.
  unfold begins. intros C B (l' & ->). destruct l' as [|x l']; cbn in B; injection B as ->; [lra|].
  revert a C. induction l' as [|y l' IH]; intros a C; cbn in C; [destruct C as [[C _] _]; lra|]. destruct C as [[A _] C]. specialize (IH y C). lra.
Qed.

Lemma low1 (p : linear) : exists p3, forall x, eval3 p3 x == eval1 p x.
Proof. exists (mkcubic (l0 p) (l1 p) 0 0). intros x. unfold eval1, eval3. cbn [c0 c1 c2 c3]. ring. Qed.

Lemma steady_drift g fit3 fit1 k evs L tau : fits_cubics fit3 -> fits_lines fit1 -> track k evs L -> true_clock tau evs -> steady_within g tau evs -> data L <> [] ->
  exists h, calculate_drift fit3 fit1 L true = inl h.
Proof.
  intros F3 F1 Tr T St N. destruct (st_line _ _ St) as (Z2 & Z3 & C1 & C1').
  pose proof (track_gives _ _ _ Tr) as G. pose proof (track_forward _ _ _ _ Tr T) as Ch.
  assert (Ln : length (fixes L) = length (fixes_of evs)) by (symmetry; exact (Forall2_length_eq _ _ _ G)).
  pose proof (st_fixes _ _ St) as L10. set (kk := 8192 * inject_Z k) in *.
  assert (L4 : (4 <= length (fixes L))%nat) by (unfold point in *; lia).
  assert (Ng : gps L <> []) by (intros E; unfold fixes in L4; rewrite E in L4; cbn in L4; lia).
  (* the two ends of the samples *)
  pose proof (track_clock _ _ _ Tr) as Tc.
  assert (Sx : exists a z A Z, begins (samples evs) a /\ finishes (samples evs) z /\ from_to (sample_clock L) A Z /\ Z - A == z - a).
  { assert (Nm : map fst (data L) <> []) by (destruct (data L); [contradiction|discriminate]). unfold sample_clock.
    destruct (exists_last Nm) as (l & Z & El).
    destruct (track_ends _ _ _ Tr Z) as (z & Fz & Hz); [exists l; exact El|].
    destruct (map fst (data L)) as [|A l0] eqn:Em; [contradiction|].
    destruct (track_starts _ _ _ Tr A) as (a & Fa & Ha); [rewrite Em; reflexivity|].
    exists a, z, A, Z. split; [exact Fa|]. split; [exact Fz|]. split; [split; [reflexivity|exists l; exact El]|]. rewrite Hz, Ha. ring. }
  destruct Sx as (a & z & A & Z & Ba & Fz & FT & Dz).
  assert (Az : 0 <= z - a) by (pose proof (chain_lt_ends _ _ _ _ (st_samples _ _ St) Ba Fz); lra).
  assert (Cov : covers L).
  { destruct (ends_of (fixes_of evs) ltac:(lia)) as (c & t & mid & c' & t' & Ef). rewrite Ef in G. destruct (gives_ends _ _ _ _ _ _ _ G) as (p0 & pm & p1 & Eg & _ & G0' & _ & G1').
    pose proof (st_cover _ _ St a z c t mid c' t' Ba Fz Ef) as Cv.
    exists A, Z, (inject_Z t), (inject_Z t'). split; [exact FT|]. split.
    - rewrite Eg. cbn [map]. rewrite map_app. cbn [map]. rewrite G0', G1'. split; [reflexivity|]. exists (inject_Z t :: map snd pm). reflexivity.
    - left. unfold Z.sub in Cv. rewrite inject_Z_plus, inject_Z_opp in Cv. rewrite Dz. split; lra. }
  assert (Ns : no_step fit1 L).
  { destruct (clock_kept linear eval1 comb1 one1 low1 fit1 2 F1 ltac:(lia) k evs L tau
      (mklinear (c0 tau - c1 tau * kk) (c1 tau)) None Tr T L4) as (p & kept & fs' & Pr & Hp & _).
    { intros x. fold kk. rewrite shifted_at, (line_at _ _ Z2 Z3). unfold eval1. cbn [l0 l1]. ring. }
    { discriminate. }
    exists p, kept. split; [exact Pr|]. unfold smooth.
    assert (R0 : forall q, In q kept -> residual linear eval1 p q == 0) by (intros [x y] J; unfold residual; cbn [fst snd]; rewrite (Hp x y J); ring).
    clear - R0. induction kept as [|q [|q' l] IH]; [exact I|exact I|]. split; [|apply IH; intros r Ir; apply R0; right; exact Ir].
    rewrite (R0 q) by (left; reflexivity). rewrite (R0 q') by (right; left; reflexivity). vm_compute. discriminate. }
  destruct (clock_kept cubic eval3 comb3 one3 (fun p => ex_intro _ p (fun _ => Qeq_refl _)) fit3 4 F3 (le_n 4) k evs L tau (shifted tau kk) (Some (1 # 100)) Tr T L4
    (fun x => eval3_cubic _ x) ltac:(intros m [= <-]; discriminate)) as (p & kept & fs' & Pr & Hp & On & Sb & Wf & Gk).
  fold kk in Gk. assert (Lk : (10 <= length kept)%nat).
  { rewrite <- (Forall2_length_eq _ _ _ Gk). destruct Wf as [->|(before & c & t & after & Ef & _ & -> & L33)]; [exact L10|]. rewrite Ef, app_length in L33. rewrite app_length. cbn [length] in L33. lia. }
  assert (Lf : length fs' = length kept) by exact (Forall2_length_eq _ _ _ Gk).
  destruct (ends_of fs' ltac:(unfold point in *; lia)) as (c & t & mid & c' & t' & Ef').
  assert (Cv : (1024 # 1000000) * (z - a) < 2 * inject_Z (t' - t)).
  { destruct Wf as [->|(before & cw & tw & after & Ef & Wr & -> & _)]; [exact (st_cover _ _ St a z c t mid c' t' Ba Fz Ef')|exact (st_others _ _ St before cw tw after Ef Wr a z c t mid c' t' Ba Fz Ef')]. }
  rewrite Ef' in Gk. destruct (gives_ends _ _ _ _ _ _ _ Gk) as (p0 & pm & p1 & Eg & G0 & G0' & G1 & G1').
  assert (Sp : fst p0 < fst p1).
  { pose proof (subsequence_chain _ _ Sb Ch) as Ck. rewrite Eg in Ck. cbn [map] in Ck. rewrite map_app in Ck. cbn [map] in Ck. exact (chain_lt_last _ _ _ _ Ck eq_refl). }
  assert (Tt : inject_Z t' - inject_Z t == c1 tau * (fst p1 - fst p0)).
  { pose proof (On (fst p0) (snd p0) ltac:(rewrite Eg; left; destruct p0; reflexivity)) as X0. pose proof (On (fst p1) (snd p1) ltac:(rewrite Eg; right; apply in_app_iff; right; left; destruct p1; reflexivity)) as X1.
    rewrite G0', eval3_cubic, shifted_at, (line_at _ _ Z2 Z3) in X0. rewrite G1', eval3_cubic, shifted_at, (line_at _ _ Z2 Z3) in X1. rewrite X0, X1. ring. }
  assert (Ub : c1 tau * (fst p1 - fst p0) <= fst p1 - fst p0) by (assert (0 <= (1 - c1 tau) * (fst p1 - fst p0)) by (apply Qmult_le_0_compat; lra); lra).
  unfold Z.sub in Cv. rewrite inject_Z_plus, inject_Z_opp in Cv.
  exists (mkhi A Z p (length (gps L)) (length kept) (Some (max_abs (residuals cubic eval3 p kept)))).
  apply C17_accepted_iff; [exact N|]. split; [exact Ng|]. split; [exact Cov|]. split; [exact Ns|]. cbn [h_fit h_nonoutliers h_mad].
  split; [split; [exact FT|reflexivity]|]. exists kept. split; [|auto].
  split; [exact Pr|]. split; [exact Lk|]. split.
  - apply Forall_forall. intros [x y] J. unfold residual. cbn [fst snd]. rewrite <- (Hp x y J). setoid_replace (y - y) with 0 by ring. vm_compute. discriminate.
  - exists A, Z, (fst p0), (fst p1). split; [exact FT|]. split.
    + rewrite Eg. cbn [map]. rewrite map_app. cbn [map]. split; [reflexivity|]. exists (fst p0 :: map fst pm). reflexivity.
    + right. left. rewrite Dz. split; [exact Sp|]. clear - Cv Tt Ub. lra.
Qed.

Section Files.
  Variables F S : Type.
  Variable sc : scanner.
  Variable buf0 : bytes.
  Variable ear : bool.
  Variable content : F -> raw_file.
  Variable sn : F -> option S.
  Variable fit3 : list point -> option cubic.
  Variable fit1 : list point -> option linear.
  Variable evs : F -> list event.
  Variable tau : F -> cubic.
  Hypothesis Sc : reads_decimal sc.
  Hypothesis F3 : fits_cubics fit3.
  Hypothesis F1 : fits_lines fit1.

  Let drift (L : tables) (_ : F) (r : bool) := calculate_drift fit3 fit1 L r.
  Let readv (f : F) := read_raw sc buf0 ear (content f).

  (** A file that is read by itself. *)
  Definition fine (f : F) : Prop := is_recording F content evs tau f /\ steady_within 1000 (tau f) (evs f) /\ sn f <> None.

  Lemma one_file_total fn start : fine fn -> exists row L, one_file F hinfo S readv drift sn "0.9" true fn start = (row, inl L).
  Proof.
    intros ((bs & Ec & Rt & T) & St & Ns). pose proof (st_fixes _ _ St) as L10.
    assert (Nf : fixes_of (evs fn) <> []) by (intros E; rewrite E in L10; cbn in L10; lia).
    destruct (read_total sc buf0 ear (content fn) start (tau fn) (evs fn) bs Sc Ec Rt T Nf) as (L0 & R).
    destruct (read_track _ _ _ _ _ _ _ _ _ Sc Ec Rt T R) as (k & Tr & N & _).
    unfold one_file. rewrite (read_modern readv "0.9" true fn start) by (right; right; left; reflexivity). unfold readv. rewrite R.
    assert (X : exists L1 k1, align start L0 = Some L1 /\ track k1 (evs fn) L1 /\ data L1 <> []).
    { unfold align. destruct (data L0) as [|[x v] l] eqn:Ed; [contradiction|]. destruct (Qltb x start); eexists; eexists; (split; [reflexivity|]).
      - split; [apply track_shift; exact Tr|]. cbn [shift data]. rewrite Ed. discriminate.
      - split; [exact Tr|rewrite Ed; discriminate]. }
    destruct X as (L1 & k1 & -> & Tr1 & N1).
    assert (D : discontinuous (map fst (data L1)) = false).
    { apply discontinuous_false. eapply chain_weaken; [|exact (track_steps _ _ _ _ _ Tr1 St)]. intros x y [A B]. split; lra. }
    rewrite D. destruct (steady_drift _ fit3 fit1 _ _ _ _ F3 F1 Tr1 T St N1) as (h & Dr). unfold drift. rewrite Dr.
    destruct (sn fn) as [s|]; [|contradiction]. eauto.
  Qed.

  Lemma loop_total fns : Forall fine fns -> forall start acc, exists out,
    loop F hinfo S readv drift sn "0.9" true start acc fns = Some out /\ jproblems out = jproblems acc.
  Proof.
    induction 1 as [|fn fns Fn Fs IH]; intros start acc; cbn [loop]; [eauto|].
    destruct (one_file_total fn start Fn) as (row & L & O). rewrite O.
    match goal with |- exists out, loop _ _ _ _ _ _ _ _ ?s ?a _ = _ /\ _ => destruct (IH s a) as (out & E & P) end. exists out. split; [exact E|exact P].
  Qed.

  (** Files that continue one another are on one clock. *)
  Lemma laid_clock start fl parts : laid F fit3 fit1 evs start fl parts -> Forall fine fl -> Forall (fun f => steady (tau f) (evs f)) fl -> chain (fun f g => continues (evs f) (evs g)) fl ->
    chain (fun x y => 0 < y - x /\ y - x <= 25) (concat (map (fun p => map fst (data (fst p))) parts)).
  Proof.
    induction 1 as [|start f fl k L h parts Tr Dr N Ch St Se La IH]; intros Fi Fs C; [exact I|].
    inversion Fi as [|? ? _ Fi']; subst. inversion Fs as [|? ? Sd Fs']; subst. specialize (IH Fi' Fs' (chain_tail _ _ _ C)). cbn [map concat fst].
    pose proof (track_steps _ _ _ _ _ Tr Sd) as C1.
    inversion La as [|? f' fl' k' L' h' parts' Tr' Dr' N' Ch' St' Se' La']; subst; [cbn [map concat]; rewrite app_nil_r; exact C1|].
    cbn [map concat fst] in *.
    assert (Nm : map fst (data L) <> []) by (destruct (data L); [contradiction|discriminate]).
    destruct (exists_last Nm) as (l & Z & El). destruct (data L') as [|[x' v'] l'] eqn:Ed'; [contradiction|]. cbn [map fst app] in *.
    assert (Gl : 0 < x' - Z /\ x' - Z <= 25).
    { destruct (track_ends _ _ _ Tr Z) as (z & Fz & Hz); [exists l; exact El|].
      destruct (track_starts _ _ _ Tr' x') as (s & Bs & Hs); [rewrite Ed'; reflexivity|].
      destruct (drift_describes _ _ _ _ _ Dr) as (_ & He & _). rewrite El, last_last in He.
      destruct (drift_describes _ _ _ _ _ Dr') as (Hs' & _). rewrite Ed' in Hs'. cbn in Hs'.
      destruct C as [Cn _]. destruct Se' as (k0 & Bd & Ck).
      inversion Fi' as [|? ? ((bs & _ & _ & T') & _) _]; subst.
      destruct (map reading (evs f')) as [|a as_] eqn:Ea.
      { destruct (evs f'); [|discriminate]. discriminate Bs. }
      destruct (Bd a eq_refl) as [B1 B2]. specialize (Cn z a s Fz). unfold begins in Cn. rewrite Ea in Cn.
      destruct (Cn eq_refl Bs) as (A1 & A2 & A3 & A4).
      assert (K : k0 = k).
      { assert ((k0 - k < 1)%Z /\ (-1 < k0 - k)%Z); [|lia]. rewrite !Zlt_Qlt. unfold Z.sub. rewrite inject_Z_plus, inject_Z_opp. change (inject_Z 1) with 1. change (inject_Z (-1)) with (-1). split; lra. }
      subst k0. destruct Ck as [->|[-> Hd]].
      - split; lra.
      - exfalso. rewrite Ed' in Hd. cbn in Hd. rewrite inject_Z_plus in Hs. change (inject_Z 1) with 1 in Hs. lra. }
    rewrite El in C1 |- *. rewrite <- app_assoc. cbn [app].
    clear - C1 IH Gl. induction l as [|y l IHl]; cbn [app] in *; [split; assumption|].
    destruct l as [|w l]; cbn [app] in *; destruct C1 as [A C1]; split; auto.
  Qed.

  Lemma continues_apart e e' : continues e e' -> (exists a, begins (map reading e') a) -> apart e e'.
  Proof.
    intros C (a & Ba) c c' Fc Bc (k & E). destruct (C c a c' Fc Ba Bc) as (_ & _ & A & B). rewrite E in A, B.
    assert ((k < 0)%Z /\ (-1 < k)%Z); [|lia]. rewrite !Zlt_Qlt. change (inject_Z 0) with 0. change (inject_Z (-1)) with (-1). split; lra.
  Qed.
End Files.
