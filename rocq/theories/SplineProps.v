(** C82: resampling follows the one smooth curve through the samples, and a steady or slowly changing pressure comes out as it is. *)
From Coq Require Import ZArith QArith Qabs Qreduction List Bool Lia Lqa.
From Verif Require Import Base UnwrapSpec Process Interp InterpSpec InterpProofs InterpProps StreamSpec BlockSpec Spline SplineSpec SplineProofs.
Import ListNotations.
Open Scope Q_scope.

Lemma knots_samples pts : knots (samples pts) = Some pts.
Proof. unfold samples. induction pts as [|[t v] pts IH]; [reflexivity|]. cbn [map fst snd knots]. rewrite IH. reflexivity. Qed.
Lemma knots_some l : forall ks, knots l = Some ks <-> l = samples ks.
Proof.
  induction l as [|[t [v|]] l IH]; intros ks; cbn [knots].
  - split; [intros E; injection E as <-; reflexivity|]. intros E. destruct ks; [reflexivity|discriminate E].
  - destruct (knots l) as [ks'|] eqn:K; cbn [option_map].
    + split; [intros E; injection E as <-; cbn [samples map fst snd]; f_equal; apply IH; reflexivity|].
      intros E. destruct ks as [|[t' v'] ks]; [discriminate E|]. cbn [samples map fst snd] in E. injection E as -> -> E. apply IH in E. injection E as ->. reflexivity.
    + split; [discriminate|]. intros E. destruct ks as [|[t' v'] ks]; [discriminate E|]. cbn [samples map] in E. injection E as _ _ E. apply IH in E. discriminate E.
  - split; [discriminate|]. intros E. destruct ks; discriminate E.
Qed.
Lemma increasing_chain pts : increasing pts = true <-> chain Qlt (map fst pts).
Proof.
  induction pts as [|p [|q pts] IH]; [split; intros; reflexivity || exact I|split; intros; reflexivity || exact I|].
  change (increasing (p :: q :: pts)) with (Qltb (fst p) (fst q) && increasing (q :: pts)). rewrite andb_true_iff, Qltb_iff, IH. reflexivity.
Qed.
Lemma spline_some l f : cubic_spline l = Some f <-> exists pts, l = samples pts /\ (2 <= length pts)%nat /\ chain Qlt (map fst pts) /\ f = spline_at (pieces pts (slopes pts)).
Proof.
  unfold cubic_spline. destruct (knots l) as [ks|] eqn:K.
  - apply knots_some in K. destruct ((2 <=? length ks)%nat && increasing ks) eqn:B.
    + apply andb_true_iff in B as [B1 B2]. apply Nat.leb_le in B1. apply increasing_chain in B2. split.
      * intros E. injection E as <-. exists ks. auto.
      * intros (pts & E & L & C & ->). assert (pts = ks) as -> by (apply knots_some in E; apply knots_some in K; congruence). reflexivity.
    + split; [discriminate|]. intros (pts & E & L & C & _). assert (pts = ks) as -> by (apply knots_some in E; apply knots_some in K; congruence).
      apply Nat.leb_le in L. apply increasing_chain in C. unfold knot in *; rewrite L, C in B. discriminate B.
  - split; [discriminate|]. intros (pts & -> & _). rewrite knots_samples in K. discriminate K.
Qed.

(** Two or more samples at increasing times have a spline, and it is what is computed ... *)
Theorem C82_spline pts : (2 <= length pts)%nat -> chain Qlt (map fst pts) -> exists f, cubic_spline (samples pts) = Some f /\ is_spline pts f.
Proof. intros L C. eexists. split; [apply spline_some; exists pts; auto|apply model_is_spline; assumption]. Qed.
(** ... there is only one ... *)
Theorem C82_only pts f g : (2 <= length pts)%nat -> chain Qlt (map fst pts) -> is_spline pts f -> is_spline pts g -> forall t, f t == g t.
Proof. apply spline_unique. Qed.
(** ... and anything else is refused. *)
Theorem C82_refused l : cubic_spline l = None <-> (length l < 2)%nat \/ ~ chain Qlt (map fst l) \/ Exists (fun p => snd p = None) l.
Proof.
  split.
  - intros N. destruct (knots l) as [ks|] eqn:K.
    + apply knots_some in K. subst l. unfold samples. rewrite map_length, map_map. cbn [fst].
      destruct (Nat.lt_ge_cases (length ks) 2) as [L|L]; [left; exact L|right; left]. intros C. destruct (C82_spline ks L C) as (f & E & _). congruence.
    + right. right. clear N. induction l as [|[t [v|]] l IH]; [discriminate K|right|left; reflexivity]. apply IH. cbn [knots] in K. destruct (knots l); [discriminate K|reflexivity].
  - intros H. destruct (cubic_spline l) as [f|] eqn:E; [exfalso|reflexivity]. apply spline_some in E as (pts & -> & L & C & _). unfold samples in H. rewrite map_length, map_map in H. cbn [fst] in H.
    destruct H as [H|[H|H]]; [lia|apply H; exact C|]. apply Exists_exists in H as (p & I & E). apply in_map_iff in I as (q & <- & _). discriminate E.
Qed.

(** It takes the values of the samples. *)
Lemma spline_values pts f t v x : (2 <= length pts)%nat -> chain Qlt (map fst pts) -> is_spline pts f -> In (t, v) pts -> x == t -> f x == v.
Proof.
  intros L C (ps & J & _ & Fo) Hi E. apply In_nth_error in Hi as (i & Hi). pose proof (passes_length _ _ (joined_passes _ _ J)) as Le. unfold knot in *.
  assert (V : forall pts ps j p a z, passes pts ps -> nth_error ps j = Some p -> nth_error pts j = Some a -> nth_error pts (S j) = Some z -> value p (fst a) == snd a /\ value p (fst z) == snd z).
  { clear. induction pts as [|a0 [|z0 pts] IH]; intros [|p0 ps] j p a z P Np Na Nz; try contradiction P; [destruct j; discriminate Np|]. destruct P as (P1 & P2 & P).
    destruct j as [|j]; [cbn in Np, Na, Nz; injection Np as <-; injection Na as <-; injection Nz as <-; auto|]. apply (IH ps j p a z P Np Na Nz). }
  assert (W : forall c, value c x == value c t) by (intros c; unfold value; rewrite E; reflexivity).
  assert (Il : (i < length pts)%nat) by (apply nth_error_Some; congruence). destruct (Nat.eq_dec (S i) (length pts)) as [El|El].
  - destruct i as [|i]; [lia|]. destruct (nth_error ps i) as [p|] eqn:Np; [|apply nth_error_None in Np; lia]. destruct (nth_error pts i) as [a|] eqn:Na; [|apply nth_error_None in Na; lia].
    destruct (V pts ps i p a (t, v) (joined_passes _ _ J) Np Na Hi) as [_ V2].
    rewrite (Fo i p a (t, v) x Np Na Hi); [rewrite W; exact V2| |left; lia].
    right. rewrite E. apply Qlt_le_weak. apply nth_error_split in Na as (l1 & l2 & -> & Ll).
    assert (C' : chain Qlt (map fst (a :: l2))). { clear - C. induction l1 as [|b l1 IH]; [exact C|]. apply IH. cbn [app map] in C. destruct (map fst (l1 ++ a :: l2)) as [|? ?]; [exact I|apply C]. }
    apply (chain_later l2 a 0 (t, v) C'). rewrite nth_error_app2 in Hi by lia. replace (S i - length l1)%nat with 1%nat in Hi by lia. exact Hi.
  - destruct (nth_error ps i) as [p|] eqn:Np; [|apply nth_error_None in Np; lia]. destruct (nth_error pts (S i)) as [z|] eqn:Nz; [|apply nth_error_None in Nz; lia].
    destruct (V pts ps i p (t, v) z (joined_passes _ _ J) Np Hi Nz) as [V1 _].
    rewrite (Fo i p (t, v) z x Np Hi Nz); [rewrite W; exact V1|right; cbn [fst]; lra|].
    right. rewrite E. apply Qlt_le_weak. apply nth_error_split in Hi as (l1 & l2 & -> & Ll).
    assert (C' : chain Qlt (map fst ((t, v) :: l2))). { clear - C. induction l1 as [|b l1 IH]; [exact C|]. apply IH. cbn [app map] in C. destruct (map fst (l1 ++ (t, v) :: l2)) as [|? ?]; [exact I|apply C]. }
    change t with (fst (t, v)). apply (chain_later l2 (t, v) 0 z C'). rewrite nth_error_app2 in Nz by lia. replace (S i - length l1)%nat with 1%nat in Nz by lia. exact Nz.
Qed.
Theorem C82_contract : spline_contract cubic_spline.
Proof.
  intros l L C V. assert (K : exists pts, l = samples pts).
  { clear - V. induction V as [|[t [v|]] l H V IH]; [exists []; reflexivity| |contradiction H; reflexivity]. destruct IH as (pts & ->). exists ((t, v) :: pts). reflexivity. }
  destruct K as (pts & ->). unfold samples in L, C. rewrite map_length in L. rewrite map_map in C. cbn [fst] in C.
  destruct (C82_spline pts L C) as (f & E & S). exists f. split; [exact E|]. intros t v x I X. apply in_map_iff in I as ([t' v'] & I & Hi). cbn [fst snd] in I. injection I as -> ->.
  apply (spline_values pts f t v x L C S Hi X).
Qed.

Lemma same_joined c pts : (1 <= length pts)%nat -> on_curve c pts -> joined pts (repeat c (length pts - 1)).
Proof.
  induction pts as [|[t v] [|[t' v'] pts] IH]; intros L O; [cbn in L; lia|exact I|]. inversion O as [|? ? O1 O']; subst. inversion O' as [|? ? O2 _]; subst. cbn [fst snd] in O1, O2.
  specialize (IH ltac:(cbn [length]; lia) O'). cbn [length] in *. replace (S (S (length pts)) - 1)%nat with (S (length pts)) by lia. replace (S (length pts) - 1)%nat with (length pts) in IH by lia.
  cbn [repeat joined]. split; [symmetry; exact O1|]. split; [symmetry; exact O2|]. split; [destruct (repeat c (length pts)) as [|q l] eqn:R; [exact I|]|exact IH].
  assert (q = c) as -> by (apply (repeat_spec (length pts)); rewrite R; left; reflexivity). split; reflexivity.
Qed.
Lemma curve_spline c pts : (2 <= length pts)%nat -> on_curve c pts -> determined c (length pts) -> is_spline pts (value c).
Proof.
  intros L O D. exists (repeat c (length pts - 1)). split; [apply same_joined; [lia|exact O]|]. split.
  - destruct pts as [|p [|q [|r [|u pts]]]]; cbn [length] in L; try lia; cbn [length Nat.sub repeat ends_free].
    + destruct D as [D|[[D _]|D]]; cbn [length] in D; [lia|lia|exact D].
    + destruct D as [D|[[_ D]|[_ D]]]; cbn [length] in D; [lia|auto|auto].
    + split; [reflexivity|]. exists (c :: repeat c (length pts)), c, c. split; [|reflexivity]. clear.
      assert (X : c :: c :: repeat c (length pts) = repeat c (length pts) ++ [c; c]) by (induction (length pts) as [|n IH]; [reflexivity|]; cbn [repeat app]; rewrite <- IH; reflexivity).
      rewrite X. reflexivity.
  - intros i p a z t Np _ _ _ _. assert (p = c) as -> by (apply (repeat_spec (length pts - 1)); apply (nth_error_In _ i); exact Np). reflexivity.
Qed.
(** Samples of a polynomial of degree at most three (two, if there are only three samples; one, if there are only two) are
    followed exactly, also between and beyond the samples. *)
Theorem C82_exact c pts f : on_curve c pts -> determined c (length pts) -> cubic_spline (samples pts) = Some f -> forall t, f t == value c t.
Proof.
  intros O D E. apply spline_some in E as (pts' & Es & L & C & ->). assert (pts' = pts) as ->.
  { pose proof (knots_samples pts') as X. rewrite <- Es, knots_samples in X. congruence. }
  apply (spline_unique pts); [exact L|exact C|apply model_is_spline; assumption|apply curve_spline; assumption].
Qed.

Definition mix (g h : Q) (p q : curve) : curve := mkcurve (g * k0 p + h * k0 q) (g * k1 p + h * k1 q) (g * k2 p + h * k2 q) (g * k3 p + h * k3 q).
Lemma mix_value g h p q t : value (mix g h p q) t == g * value p t + h * value q t.
Proof. unfold value, mix. cbn [k0 k1 k2 k3]. ring. Qed.
Fixpoint mixed (g h : Q) (ps qs : list curve) : list curve := match ps, qs with p :: ps', q :: qs' => mix g h p q :: mixed g h ps' qs' | _, _ => [] end.
Lemma mixed_joined g h l : forall ps qs, joined (map (fun p => (fst p, fst (snd p))) l) ps -> joined (map (fun p => (fst p, snd (snd p))) l) qs -> joined (combined g h l) (mixed g h ps qs).
Proof.
  unfold combined. induction l as [|[t [v w]] [|[t' [v' w']] l] IH]; intros [|p ps] [|q qs] J K; cbn [map fst snd joined] in J, K; try contradiction; [exact I|].
  destruct J as (J1 & J2 & J3 & J). destruct K as (K1 & K2 & K3 & K). specialize (IH ps qs J K). cbn [map fst snd mixed joined] in *.
  split; [rewrite mix_value, J1, K1; reflexivity|]. split; [rewrite mix_value, J2, K2; reflexivity|]. split; [|exact IH].
  destruct ps as [|p' ps], qs as [|q' qs]; cbn [mixed]; try exact I. destruct J3 as [J3 J4], K3 as [K3 K4]. unfold slope, bend, mix in *. cbn [k0 k1 k2 k3]. split.
  - transitivity (g * (k1 p + 2 * k2 p * t' + 3 * k3 p * (t' * t')) + h * (k1 q + 2 * k2 q * t' + 3 * k3 q * (t' * t'))); [ring|]. rewrite J3, K3. ring.
  - transitivity (g * (2 * k2 p + 6 * k3 p * t') + h * (2 * k2 q + 6 * k3 q * t')); [ring|]. rewrite J4, K4. ring.
Qed.
Lemma mixed_free g h ps qs : length ps = length qs -> ends_free ps -> ends_free qs -> ends_free (mixed g h ps qs).
Proof.
  intros L F G. destruct ps as [|p [|p1 [|p2 ps]]]; destruct qs as [|q [|q1 [|q2 qs]]]; cbn [length] in L; try discriminate L; try contradiction F.
  - destruct F as [F1 F2], G as [G1 G2]. cbn [mixed ends_free mix k2 k3]. rewrite F1, F2, G1, G2. split; ring.
  - destruct F as [F1 F2], G as [G1 G2]. cbn [mixed ends_free mix k2 k3]. rewrite F1, F2, G1, G2. split; ring.
  - destruct F as [F1 F2], G as [G1 G2]. apply last_free_iff in F2; [|cbn [length]; lia]. apply last_free_iff in G2; [|cbn [length]; lia].
    change (ends_free (mixed g h (p :: p1 :: p2 :: ps) (q :: q1 :: q2 :: qs))) with
      (k3 (mix g h p q) == k3 (mix g h p1 q1) /\ exists l a z, mixed g h (p :: p1 :: p2 :: ps) (q :: q1 :: q2 :: qs) = l ++ [a; z] /\ k3 a == k3 z).
    split; [cbn [mix k3]; rewrite F1, G1; reflexivity|]. apply last_free_iff; [cbn [mixed length]; lia|].
    assert (X : forall ps qs, length ps = length qs -> last_free ps -> last_free qs -> last_free (mixed g h ps qs)).
    { clear. induction ps as [|a [|a1 [|a2 ps]] IH]; intros [|c [|c1 [|c2 qs]]] L F G; cbn [length] in L; try discriminate L; try exact I.
      - cbn [last_free mixed mix k3] in *. rewrite F, G. reflexivity.
      - change (last_free (mixed g h (a1 :: a2 :: ps) (c1 :: c2 :: qs))). apply IH; [cbn [length]; lia|exact F|exact G]. }
    apply X; [cbn [length]; lia|exact F2|exact G2].
Qed.
(** Sums and multiples of records are resampled to sums and multiples (before the rounding to integers): a change of the gain
    or of the offset does not change the shape. *)
Theorem C82_superposition g h l f f' f'' :
  cubic_spline (samples (map (fun p => (fst p, fst (snd p))) l)) = Some f -> cubic_spline (samples (map (fun p => (fst p, snd (snd p))) l)) = Some f' ->
  cubic_spline (samples (combined g h l)) = Some f'' -> forall t, f'' t == g * f t + h * f' t.
Proof.
  intros E E' E''. apply spline_some in E as (p1 & Ep & L & C & ->). apply spline_some in E' as (p2 & Ep' & _ & _ & ->). apply spline_some in E'' as (p3 & Ep'' & _ & _ & ->).
  assert (Inj : forall u w, samples u = samples w -> u = w) by (intros u w X; pose proof (knots_samples u) as Y; rewrite X, knots_samples in Y; congruence).
  apply Inj in Ep, Ep', Ep''. subst p1 p2 p3. set (l1 := map (fun p => (fst p, fst (snd p))) l) in *. set (l2 := map (fun p => (fst p, snd (snd p))) l).
  assert (M2 : map fst l2 = map fst l1) by (unfold l1, l2; rewrite !map_map; reflexivity). assert (M3 : map fst (combined g h l) = map fst l1) by (unfold l1, combined; rewrite !map_map; reflexivity).
  assert (Le2 : length l2 = length l1) by (unfold l1, l2; rewrite !map_length; reflexivity). assert (Le3 : length (combined g h l) = length l1) by (unfold l1, combined; rewrite !map_length; reflexivity).
  assert (C2 : chain Qlt (map fst l2)) by (rewrite M2; exact C). assert (C3 : chain Qlt (map fst (combined g h l))) by (rewrite M3; exact C).
  assert (L2 : (2 <= length l2)%nat) by lia. assert (L3 : (2 <= length (combined g h l))%nat) by lia.
  apply (spline_unique (combined g h l) _ (fun t => g * spline_at (pieces l1 (slopes l1)) t + h * spline_at (pieces l2 (slopes l2)) t) L3 C3 (model_is_spline _ L3 C3)).
  destruct (model_is_spline l1 L C) as (ps & J & F & Fo). destruct (model_is_spline l2 L2 C2) as (qs & J' & F' & Fo').
  assert (Lp : length ps = length qs) by (pose proof (passes_length _ _ (joined_passes _ _ J)); pose proof (passes_length _ _ (joined_passes _ _ J')); unfold knot in *; lia).
  exists (mixed g h ps qs). split; [apply mixed_joined; assumption|]. split; [apply mixed_free; assumption|].
  intros i p a z t Np Na Nz A B. unfold combined in Na, Nz.
  assert (X : exists p0 q0, nth_error ps i = Some p0 /\ nth_error qs i = Some q0 /\ p = mix g h p0 q0).
  { clear - Np Lp. revert qs i Np Lp. induction ps as [|p0 ps IH]; intros [|q0 qs] [|i] Np L; try discriminate; [injection Np as <-; exists p0, q0; auto|]. cbn [mixed nth_error] in *; apply IH; [exact Np|cbn in L; lia]. }
  destruct X as (p0 & q0 & N0 & N1 & ->). rewrite nth_error_map in Na, Nz. destruct (nth_error l i) as [a0|] eqn:A0; [|discriminate Na]. destruct (nth_error l (S i)) as [z0|] eqn:Z0; [|discriminate Nz].
  injection Na as <-. injection Nz as <-. cbn [fst] in A, B.
  assert (Lm : length (mixed g h ps qs) = length ps) by (clear - Lp; revert qs Lp; induction ps as [|p ps IH]; intros [|q qs] L; try discriminate; [reflexivity|]; cbn [mixed length]; rewrite IH; [reflexivity|cbn in L; lia]).
  rewrite Lm in B. rewrite mix_value.
  rewrite (Fo i p0 (fst a0, fst (snd a0)) (fst z0, fst (snd z0)) t N0); [|unfold l1; rewrite nth_error_map, A0; reflexivity|unfold l1; rewrite nth_error_map, Z0; reflexivity|exact A|exact B].
  rewrite (Fo' i q0 (fst a0, snd (snd a0)) (fst z0, snd (snd z0)) t N1); [|unfold l2; rewrite nth_error_map, A0; reflexivity|unfold l2; rewrite nth_error_map, Z0; reflexivity|exact A|rewrite <- Lp; exact B]. reflexivity.
Qed.

(** ** Resampled records *)
Lemma around_exact c pts s e f : all_on c pts -> cubic_spline (around s e pts) = Some f -> determined c (length (around s e pts)) -> forall t, f t == value c t.
Proof.
  intros O E D. pose proof E as E'. apply spline_some in E' as (ks & Ek & _). rewrite Ek in E, D. unfold samples in D. rewrite map_length in D.
  apply (C82_exact c ks f); [|exact D|exact E]. apply Forall_forall. intros p Hp.
  assert (Hi : In (fst p, Some (snd p)) pts).
  { assert (In (fst p, Some (snd p)) (around s e pts)) as X by (rewrite Ek; apply (in_map (fun p => (fst p, Some (snd p))) _ _ Hp)). apply filter_In in X. apply X. }
  unfold all_on in O. rewrite Forall_forall in O. destruct (O _ Hi) as (v & Ev & V). cbn [fst snd] in *. injection Ev as ->. exact V.
Qed.
Lemma chain_within l : forall s e x, chain Qlt l -> begins l s -> finishes l e -> In x l -> s <= x <= e.
Proof.
  induction l as [|y l IH]; intros s e x C B (l' & E) Hi; [contradiction|]. injection B as ->. destruct l as [|z l].
  - destruct Hi as [<-|[]]. destruct l' as [|? [|? ?]]; try discriminate E. injection E as <-. lra.
  - destruct C as [C1 C]. assert (F' : finishes (z :: l) e) by (destruct l' as [|? l']; [discriminate E|injection E as _ E; exists l'; exact E]).
    destruct (IH z e z C eq_refl F' (or_introl eq_refl)). destruct Hi as [<-|Hi]; [lra|]. specialize (IH z e x C eq_refl F' Hi). lra.
Qed.
Lemma chain_middle {A} (R : A -> A -> Prop) l m n : chain R (l ++ m ++ n) -> chain R m.
Proof.
  induction l as [|x l IH]; cbn [app]; intros C.
  - revert C. induction m as [|x m IH]; [intros; exact I|]. cbn [app]. destruct m as [|y m]; [intros; exact I|]. intros [C1 C]. split; [exact C1|apply IH; exact C].
  - apply IH. destruct (l ++ m ++ n); [exact I|apply C].
Qed.
Lemma around_length pts runs r s e : chain Qlt (map fst pts) -> concat runs = map fst pts -> In r runs -> begins r s -> finishes r e -> (length r <= length (around s e pts))%nat.
Proof.
  intros C Ec Ir B F. destruct (in_split _ _ Ir) as (r1 & r2 & ->). rewrite concat_app in Ec. cbn [concat] in Ec. rewrite <- Ec in C. apply chain_middle in C.
  symmetry in Ec. apply map_eq_app in Ec as (p1 & p23 & -> & _ & Ec). apply map_eq_app in Ec as (p2 & p3 & -> & E2 & _).
  unfold around. rewrite !filter_app, !app_length.
  assert (X : filter (fun p : Q * option Q => Qle_bool (s - (11 # 1000)) (fst p) && Qle_bool (fst p) (e + (9 # 1000))) p2 = p2).
  { assert (A : forall p, In p p2 -> s <= fst p <= e) by (intros p Hp; apply (chain_within r s e (fst p) C B F); rewrite <- E2; apply in_map; exact Hp).
    clear - A. induction p2 as [|p p2 IH]; [reflexivity|]. cbn [filter]. destruct (A p (or_introl eq_refl)) as [A1 A2].
    assert (Qle_bool (s - (11 # 1000)) (fst p) = true) as -> by (apply Qle_bool_iff; lra). assert (Qle_bool (fst p) (e + (9 # 1000)) = true) as -> by (apply Qle_bool_iff; lra).
    cbn [andb]. rewrite IH; [reflexivity|]. intros q Hq. apply A. right. exact Hq. }
  rewrite X. rewrite <- E2, map_length. lia.
Qed.
Lemma determined_more c n m : (n <= m)%nat -> determined c n -> determined c m.
Proof. intros L [D|[[D1 D2]|D]]; [left; lia|right; left; split; [lia|exact D2]|right; right; exact D]. Qed.

Lemma uniform_times f s e tr : resampling f s e tr -> (forall m : Z, ~ s * 100 == inject_Z m + (1 # 2)) ->
  forall k, (k < length (tr_data tr))%nat -> exists t v, t == time_of tr k /\ nth_error (tr_data tr) k = Some v /\ nearest (f t) v.
Proof.
  intros T.
  intros NH k K. destruct T as (L & _ & _ & g & G & S).
  destruct (G k K) as ((z & Gz) & D & v & V & Nv). exists (g k), v. split; [|auto].
  destruct (G 0%nat) as ((z0 & Gz0) & D0 & _); [lia|]. unfold time_of. rewrite S.
  change (inject_Z (Z.of_nat 0)) with 0 in D0. apply Qabs_Qle_condition in D, D0.
  set (q := inject_Z (Z.of_nat k)) in *.
  assert (X : inject_Z z - inject_Z z0 - q == 0).
  { assert (A1 : inject_Z z - inject_Z z0 - q <= 1) by lra. assert (A2 : -1 <= inject_Z z - inject_Z z0 - q) by lra.
    destruct (Qlt_le_dec (inject_Z z - inject_Z z0 - q) 1) as [A3|A3].
    - destruct (Qlt_le_dec (-1) (inject_Z z - inject_Z z0 - q)) as [A4|A4].
      + unfold q in *. unfold Qminus in *. rewrite <- !inject_Z_opp, <- !inject_Z_plus in *.
        change 1 with (inject_Z 1) in A3. change (-1) with (inject_Z (-1)) in A4. rewrite <- Zlt_Qlt in A3, A4.
        change 0 with (inject_Z 0). f_equal. apply inject_Z_injective. lia.
      + exfalso. apply (NH (z0 - 1)%Z). unfold Z.sub. rewrite inject_Z_plus. change (inject_Z (-(1))) with (-1). lra.
    - exfalso. apply (NH z0). lra. }
  lra.
Qed.

(** A pressure that follows a polynomial of degree three comes out as it is: every value is the nearest integer to the
    polynomial at its time (unless the run begins exactly half-way between two grid times, see [C20_tie_refuted]). *)
Theorem C82_resampled c rows trs pts runs tr :
  interp cubic_spline rows = Some trs -> points rows pts -> runs_of (map fst pts) runs -> chain Qlt (map fst pts) -> In tr trs ->
  all_on c pts -> (forall r, In r runs -> (2 <= length r)%nat -> determined c (length r)) ->
  exists r s, In r runs /\ begins r s /\
    ((forall m : Z, ~ s * 100 == inject_Z m + (1 # 2)) ->
     forall k, (k < length (tr_data tr))%nat -> exists v, nth_error (tr_data tr) k = Some v /\ nearest (value c (time_of tr k)) v).
Proof.
  intros E P Ru C Ht O D. pose proof (the_runs _ _ _ _ _ E P Ru) as R. destruct Ru as (Ec & Ru).
  destruct (resampled_in _ _ _ _ _ R Ht) as (r & s & e & f & Ir & B & F & Sp & T).
  exists r, s. split; [exact Ir|]. split; [exact B|]. intros NH k K.
  assert (L2 : (2 <= length r)%nat).
  { destruct T as (T1 & T2 & _). assert (0 < inject_Z (Z.of_nat (length (tr_data tr)))) by (change 0 with (inject_Z 0); rewrite <- Zlt_Qlt; lia).
    destruct r as [|x [|y r]]; [discriminate B| |cbn [length]; lia]. injection B as ->. destruct F as (l' & El). destruct l' as [|? [|? ?]]; try discriminate El. injection El as <-. lra. }
  destruct (uniform_times f s e tr T NH k K) as (t & v & Et & Ev & Nv). exists v. split; [exact Ev|].
  pose proof (around_exact c pts s e f O Sp (determined_more _ _ _ (around_length pts runs r s e C Ec Ir B F) (D r Ir L2)) t) as Ft.
  unfold nearest in *. assert (W : value c t == value c (time_of tr k)) by (unfold value; rewrite Et; reflexivity). rewrite <- W, <- Ft. exact Nv.
Qed.

(** The same for a straight line, without these conditions: every value is within half a unit of the line at a time at most
    one interval aside. *)
Theorem C82_line c pts k v : k2 c == 0 -> k3 c == 0 -> all_on c pts -> explained cubic_spline pts k v ->
  Qabs (inject_Z v - value c (inject_Z k * (1 # 100))) <= (1 # 2) + Qabs (k1 c) * (1 # 100).
Proof.
  intros K2 K3 O (runs & r & s & e & f & g & _ & _ & _ & _ & Sp & _ & _ & G & N & _).
  pose proof (around_exact c pts s e f O Sp ltac:(right; right; split; assumption) g) as Fg. unfold nearest in N. rewrite Fg in N.
  set (t := inject_Z k * (1 # 100)) in *. assert (V : forall x, value c x == k0 c + k1 c * x) by (intros x; unfold value; rewrite K2, K3; ring). rewrite V in *.
  assert (A : Qabs (k1 c * (g - t)) <= Qabs (k1 c) * (1 # 100)) by (rewrite Qabs_Qmult; pose proof (Qabs_nonneg (k1 c)); rewrite (Qmult_comm (Qabs (k1 c)) (Qabs (g - t))), (Qmult_comm (Qabs (k1 c)) (1 # 100)); apply Qmult_le_compat_r; assumption).
  apply Qabs_Qle_condition in A, N. apply Qabs_Qle_condition. set (q := Qabs (k1 c)) in *. clearbody q. split; lra.
Qed.
(** A steady record stays steady. *)
Corollary C82_steady x pts k v : Forall (fun p => exists y, snd p = Some y /\ y == inject_Z x) pts -> explained cubic_spline pts k v -> v = x.
Proof.
  intros O Ex. pose proof (C82_line (mkcurve (inject_Z x) 0 0 0) pts k v) as L. cbn [k1 k2 k3] in L. unfold value in L. cbn [k0 k1 k2 k3] in L.
  assert (H : Qabs (inject_Z v - inject_Z x) <= 1 # 2).
  { eapply Qle_trans; [|eapply Qle_trans; [apply L; [reflexivity|reflexivity| |exact Ex]|vm_compute; discriminate]].
    - apply Qle_lteq. right. apply Qabs_wd. ring.
    - eapply Forall_impl; [|exact O]. intros p (y & E & Y). exists y. split; [exact E|]. rewrite Y. unfold value. cbn [k0 k1 k2 k3]. ring. }
  unfold Qminus in H. rewrite <- inject_Z_opp, <- inject_Z_plus in H. apply Qabs_Qle_condition in H as [H1 H2]. unfold Qle, inject_Z in H1, H2. cbn [Qnum Qden Qopp] in H1, H2. lia.
Qed.

(** ** Cases *)
(** Five samples at uneven times. *)
Definition uneven : list (Q * Q) := [(0, 3); (1, 7); (3, -(2)); (4, 0); (6, 5)].
Example C82_case : (2 <= length uneven)%nat /\ chain Qlt (map fst uneven) /\
  exists f, cubic_spline (samples uneven) = Some f /\ f 1 == 7 /\ f 2 == 94 # 39.
Proof. split; [cbn; lia|]. split; [repeat split; reflexivity|]. eexists. split; [reflexivity|]. split; vm_compute; reflexivity. Qed.
(** Samples of the curve [t^3 - t] at uneven times. *)
Example C82_exact_case : let c := mkcurve 0 (-(1)) 0 1 in let pts := [(0, 0); (1, 0); (3, 24); (4, 60); (6, 210)] in
  on_curve c pts /\ determined c (length pts) /\ cubic_spline (samples pts) <> None /\ value c 5 == 120.
Proof.
  split; [repeat constructor|]. split; [left; cbn; lia|]. split; [|reflexivity]. intros N. apply C82_refused in N as [N|[N|N]].
  - cbn in N. lia.
  - apply N. repeat split; reflexivity.
  - apply Exists_exists in N as (p & Hp & N). cbn in Hp. intuition subst; discriminate N.
Qed.
(** Six samples 12 ms apart of a pressure that rises by one unit a millisecond, from 2 ms on. *)
Example C82_resampled_case : let rows := map ex_row [2; 14; 26; 38; 50; 62]%Z in let c := mkcurve 0 1000 0 0 in
  points rows (timed_points rows) /\ runs_of (map fst (timed_points rows)) [map fst (timed_points rows)] /\ chain Qlt (map fst (timed_points rows)) /\
  all_on c (timed_points rows) /\ determined c 6 /\ option_map (map tr_data) (interp cubic_spline rows) = Some [[0; 10; 20; 30; 40; 50]%Z].
Proof.
  cbv zeta. split; [reflexivity|]. split.
  - split; [reflexivity|]. exists (2 # 1000), (62 # 1000). split; [reflexivity|]. split; [exists (map fst (timed_points (map ex_row [2; 14; 26; 38; 50]%Z))); reflexivity|]. split; [|exact I].
    constructor; [|constructor]. split; [discriminate|]. cbn [map ex_row timed_points flat_map app fst snd chain]. unfold break.
    repeat split; intros [[X|X] _]; vm_compute in X; discriminate X.
  - split; [repeat split; reflexivity|]. split; [repeat constructor; eexists; split; reflexivity|]. split; [left; lia|vm_compute; reflexivity].
Qed.
(** Two samples at the same time. *)
Example C82_refused_case : cubic_spline (samples [(0, 1); (1, 2); (1, 2); (2, 3)]) = None.
Proof. reflexivity. Qed.

Print Assumptions C82_spline.
Print Assumptions C82_only.
Print Assumptions C82_refused.
Print Assumptions C82_contract.
Print Assumptions C82_exact.
Print Assumptions C82_superposition.
Print Assumptions C82_resampled.
Print Assumptions C82_line.
Print Assumptions C82_steady.
