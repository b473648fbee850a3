(** Proofs about least-squares fits. *)
From Coq Require Import ZArith QArith Qabs Qreduction List Bool Lia Lqa.
From Verif Require Import Base Lib UnwrapSpec Process ReadSeveral Drift DriftSpec DriftProofs DriftProps Polyfit PolyfitSpec.
Import ListNotations.
Open Scope Q_scope.

(** * Polynomials *)
Lemma value_at p x : value p x = poly_at p x.
Proof. induction p as [|a p IH]; cbn; [reflexivity|]. rewrite IH. reflexivity. Qed.
Lemma poly_at_proper p x y : x == y -> poly_at p x == poly_at p y.
Proof. intros E. induction p as [|a p IH]; cbn; [reflexivity|]. rewrite IH, E. reflexivity. Qed.
Lemma plus_at p : forall q x, poly_at (poly_plus p q) x == poly_at p x + poly_at q x.
Proof. induction p as [|a p IH]; intros [|c q] x; cbn [poly_plus poly_at]; try ring. rewrite IH, Qred_correct. ring. Qed.
Lemma times_at k p x : poly_at (poly_times k p) x == k * poly_at p x.
Proof. unfold poly_times. induction p as [|a p IH]; cbn [map poly_at]; [ring|]. rewrite IH, Qred_correct. ring. Qed.
Lemma plus_length p : forall q, length (poly_plus p q) = Nat.max (length p) (length q).
Proof. induction p as [|a p IH]; intros [|c q]; cbn [poly_plus length]; try lia. rewrite IH. lia. Qed.
Lemma times_length k p : length (poly_times k p) = length p.
Proof. apply map_length. Qed.
Lemma monomial_length k : length (monomial k) = S k.
Proof. unfold monomial. rewrite app_length, repeat_length. cbn. lia. Qed.
Lemma plus_last p : forall q, (length q < length p)%nat -> last (poly_plus p q) 0 == last p 0.
Proof.
  induction p as [|a p IH]; intros q L; [cbn in L; lia|]. destruct q as [|c q]; [reflexivity|]. cbn [length] in L. cbn [poly_plus].
  destruct p as [|a' p]; [cbn in L; lia|]. specialize (IH q ltac:(lia)).
  assert (N : poly_plus (a' :: p) q <> []) by (destruct q; cbn; discriminate).
  destruct (poly_plus (a' :: p) q) as [|u l]; [contradiction|]. exact IH.
Qed.

(** Division by [x - a]. *)
Fixpoint quotient (a : Q) (p : list Q) : list Q :=
  match p with [] => [] | c :: p' => match p' with [] => [] | _ => poly_at p' a :: quotient a p' end end.
Lemma quotient_at a p x : poly_at p x == poly_at p a + (x - a) * poly_at (quotient a p) x.
Proof.
  induction p as [|c p IH]; [cbn; ring|]. destruct p as [|c' p]; [cbn; ring|].
  change (c + x * poly_at (c' :: p) x == c + a * poly_at (c' :: p) a + (x - a) * (poly_at (c' :: p) a + x * poly_at (quotient a (c' :: p)) x)).
  rewrite IH at 1. ring.
Qed.
Lemma quotient_length a p : length (quotient a p) = (length p - 1)%nat.
Proof.
  induction p as [|c p IH]; [reflexivity|]. destruct p as [|c' p]; [reflexivity|].
  change (S (length (quotient a (c' :: p))) = (length (c :: c' :: p) - 1)%nat). rewrite IH. cbn. lia.
Qed.
Definition zeros (p : list Q) : Prop := Forall (fun a => a == 0) p.
Lemma zeros_at p x : zeros p -> poly_at p x == 0.
Proof. induction 1 as [|a p A _ IH]; cbn; [reflexivity|]. rewrite A, IH. ring. Qed.
Lemma quotient_zeros a p : zeros (quotient a p) -> poly_at p a == 0 -> zeros p.
Proof.
  induction p as [|c p IH]; intros Zq Zp; [constructor|]. destruct p as [|c' p].
  - cbn in Zp. constructor; [lra|constructor].
  - change (zeros (poly_at (c' :: p) a :: quotient a (c' :: p))) in Zq. inversion Zq as [|? ? A B]; subst.
    specialize (IH B A). constructor; [|exact IH]. change (c + a * poly_at (c' :: p) a == 0) in Zp. rewrite A in Zp. lra.
Qed.
(** As many different roots as coefficients: all coefficients are zero. *)
Lemma many_roots zs : forall p, (length p <= length zs)%nat -> different zs -> (forall z, In z zs -> poly_at p z == 0) -> zeros p.
Proof.
  induction zs as [|z zs IH]; intros p L D R; [destruct p; [constructor|cbn in L; lia]|].
  inversion D as [|? ? Dz Dr]; subst. apply (quotient_zeros z); [|apply R; left; reflexivity].
  apply IH; [rewrite quotient_length; cbn [length] in L; lia|exact Dr|]. intros w Iw.
  pose proof (quotient_at z p w) as E. rewrite (R w (or_intror Iw)), (R z (or_introl eq_refl)) in E.
  rewrite Forall_forall in Dz. specialize (Dz w Iw).
  assert (X : (w - z) * poly_at (quotient z p) w == 0) by lra. apply Qmult_integral in X as [X|X]; [exfalso; apply Dz; lra|exact X].
Qed.

(** The polynomial with these roots. *)
Fixpoint rooted (zs : list Q) : list Q :=
  match zs with [] => [1] | z :: zs' => poly_plus (0 :: rooted zs') (poly_times (- z) (rooted zs')) end.
Lemma rooted_length zs : length (rooted zs) = S (length zs).
Proof. induction zs as [|z zs IH]; [reflexivity|]. cbn [rooted]. rewrite plus_length, times_length. cbn [length]. lia. Qed.
Lemma rooted_last zs : last (rooted zs) 0 == 1.
Proof.
  induction zs as [|z zs IH]; [reflexivity|]. cbn [rooted]. rewrite plus_last by (rewrite times_length; cbn [length]; lia).
  pose proof (rooted_length zs). destruct (rooted zs) as [|a l]; [cbn in *; lia|]. exact IH.
Qed.
Lemma rooted_at zs z x : In z zs -> x == z -> poly_at (rooted zs) x == 0.
Proof.
  intros Hi E. induction zs as [|w zs IH]; [contradiction|]. cbn [rooted]. rewrite plus_at, times_at. cbn [poly_at].
  destruct Hi as [->|Hi]; [generalize (poly_at (rooted zs) x); intros v; rewrite E; ring|rewrite (IH Hi); ring].
Qed.

(** * Products of columns *)
Fixpoint ip (pts : list point) (u v : point -> Q) : Q := match pts with [] => 0 | q :: r => u q * v q + ip r u v end.
Lemma product_ip pts u v : product pts u v == ip pts u v.
Proof. induction pts as [|q r IH]; [reflexivity|]. unfold product in *. cbn [fold_right ip]. rewrite Qred_correct, IH. reflexivity. Qed.
Lemma ip_ext pts u u' v v' : (forall q, In q pts -> u q == u' q) -> (forall q, In q pts -> v q == v' q) -> ip pts u v == ip pts u' v'.
Proof.
  induction pts as [|q r IH]; intros A C; [reflexivity|]. cbn [ip].
  rewrite (A q (or_introl eq_refl)), (C q (or_introl eq_refl)), IH; [reflexivity| |]; intros w Iw; [apply A|apply C]; right; exact Iw.
Qed.
Lemma ip_sym pts u v : ip pts u v == ip pts v u.
Proof. induction pts as [|q r IH]; [reflexivity|]. cbn [ip]. rewrite IH. ring. Qed.
Lemma ip_lin pts u v w k : ip pts (fun q => u q + k * v q) w == ip pts u w + k * ip pts v w.
Proof. induction pts as [|q r IH]; cbn [ip]; [ring|]. rewrite IH. ring. Qed.
Lemma ip_square pts u : 0 <= ip pts u u.
Proof. induction pts as [|q r IH]; cbn [ip]; [lra|]. nra. Qed.
Lemma ip_null pts u : ip pts u u == 0 -> forall q, In q pts -> u q == 0.
Proof.
  induction pts as [|q r IH]; intros E w Hi; [contradiction|]. cbn [ip] in E. pose proof (ip_square r u).
  assert (0 <= u q * u q) by nra. destruct Hi as [<-|Hi]; [|apply IH; [lra|exact Hi]].
  assert (X : u q * u q == 0) by lra. apply Qmult_integral in X as [X|X]; exact X.
Qed.
Lemma ip_zero_l pts u v : (forall q, In q pts -> u q == 0) -> ip pts u v == 0.
Proof. induction pts as [|q r IH]; intros E; cbn [ip]; [reflexivity|]. rewrite (E q (or_introl eq_refl)), IH; [ring|]. intros w Iw. apply E. right. exact Iw. Qed.
Lemma ip_expand pts u v k : ip pts (fun q => u q + k * v q) (fun q => u q + k * v q) == ip pts u u + 2 * k * ip pts u v + k * k * ip pts v v.
Proof. induction pts as [|q r IH]; cbn [ip]; [ring|]. rewrite IH. ring. Qed.

Notation col := column.
Lemma col_plus pts p q v : ip pts (col (poly_plus p q)) v == ip pts (col p) v + ip pts (col q) v.
Proof.
  rewrite (ip_ext pts _ (fun w => col p w + 1 * col q w) v v).
  - rewrite ip_lin. ring.
  - intros w _. unfold column. rewrite plus_at. ring.
  - reflexivity.
Qed.
Lemma col_times pts k q v : ip pts (col (poly_times k q)) v == k * ip pts (col q) v.
Proof.
  rewrite (ip_ext pts _ (fun w => 0 + k * col q w) v v).
  - rewrite ip_lin, (ip_zero_l pts (fun _ => 0)); [ring|reflexivity].
  - intros w _. unfold column. rewrite times_at. ring.
  - reflexivity.
Qed.

(** * Orthogonal columns *)
Section Columns.
  Variable pts : list point.
  Notation ort u v := (ip pts u v == 0).

  Definition nonnull (q : list Q) : Prop := ~ ip pts (col q) (col q) == 0.
  (** Mutually orthogonal, none null. *)
  Fixpoint frame (qs : list (list Q)) : Prop :=
    match qs with [] => True | q :: r => nonnull q /\ Forall (fun q' => ort (col q) (col q')) r /\ frame r end.

  Lemma share_is u q : nonnull q -> share pts u q * ip pts (col q) (col q) == ip pts u (col q).
  Proof. intros N. unfold share. rewrite Qred_correct, !product_ip. field. exact N. Qed.

  Lemma frame_each qs : frame qs -> Forall nonnull qs.
  Proof. induction qs as [|q r IH]; intros F; constructor; [apply F|apply IH; apply F]. Qed.

  (** The rest is orthogonal to what was taken out, and keeps what it was orthogonal to. *)
  Lemma rest_keeps v qs : forall p, ort (col p) v -> Forall (fun q => ort (col q) v) qs -> ort (col (rest pts p qs)) v.
  Proof.
    induction qs as [|q qs IH]; intros p A F; [exact A|]. cbn [rest]. inversion F as [|? ? B F']; subst. apply IH; [|exact F'].
    rewrite col_plus, col_times, A, B. ring.
  Qed.
  Lemma rest_ort qs : forall p, frame qs -> Forall (fun q => ort (col (rest pts p qs)) (col q)) qs.
  Proof.
    induction qs as [|q qs IH]; intros p F; [constructor|]. destruct F as (N & O & F). cbn [rest]. constructor; [|apply IH; exact F].
    apply rest_keeps.
    - rewrite col_plus, col_times. pose proof (share_is (col p) q N). lra.
    - eapply Forall_impl; [|exact O]. intros q' E. rewrite ip_sym. exact E.
  Qed.
  Lemma rest_length qs : forall p, Forall (fun q => (length q <= length p)%nat) qs -> length (rest pts p qs) = length p.
  Proof.
    induction qs as [|q qs IH]; intros p F; [reflexivity|]. cbn [rest]. inversion F as [|? ? L F']; subst.
    assert (E : length (poly_plus p (poly_times (- share pts (col p) q) q)) = length p) by (rewrite plus_length, times_length; lia).
    rewrite IH; [exact E|]. rewrite E. exact F'.
  Qed.
  Lemma rest_last qs : forall p, Forall (fun q => (length q < length p)%nat) qs -> last (rest pts p qs) 0 == last p 0.
  Proof.
    induction qs as [|q qs IH]; intros p F; [reflexivity|]. cbn [rest]. inversion F as [|? ? L F']; subst.
    assert (E : length (poly_plus p (poly_times (- share pts (col p) q) q)) = length p) by (rewrite plus_length, times_length; lia).
    rewrite IH; [apply plus_last; rewrite times_length; exact L|]. rewrite E. exact F'.
  Qed.
  (** What is orthogonal to the frame and to the rest is orthogonal to the whole. *)
  Lemma rest_span v qs : forall p, ort (col (rest pts p qs)) v -> Forall (fun q => ort (col q) v) qs -> ort (col p) v.
  Proof.
    induction qs as [|q qs IH]; intros p A F; [exact A|]. cbn [rest] in A. inversion F as [|? ? B F']; subst. specialize (IH _ A F').
    rewrite col_plus, col_times, B in IH. lra.
  Qed.

  (** What [columns] gives: monic polynomials of each degree. *)
  Fixpoint graded (qs : list (list Q)) : Prop :=
    match qs with [] => True | q :: r => length q = S (length r) /\ last q 0 == 1 /\ graded r end.
  Lemma graded_length qs : graded qs -> Forall (fun q => (length q <= length qs)%nat) qs.
  Proof.
    induction qs as [|q r IH]; intros G; constructor; [destruct G as (G & _); cbn; lia|]. destruct G as (_ & _ & G).
    eapply Forall_impl; [|exact (IH G)]. intros w L. cbn in *. lia.
  Qed.
  Lemma columns_frame k : forall qs, columns pts k = Some qs -> length qs = k /\ frame qs /\ graded qs.
  Proof.
    induction k as [|k IH]; intros qs E; cbn [columns] in E; [injection E as <-; cbn; auto|].
    destruct (columns pts k) as [r|]; [|discriminate]. destruct (IH r eq_refl) as (L & F & G). cbv zeta in E.
    destruct (Qeq_bool _ 0) eqn:Z; [discriminate|]. injection E as <-. apply Qeq_bool_neq in Z. rewrite product_ip in Z.
    pose proof (graded_length r G) as Gl. split; [cbn; lia|]. split.
    - split; [exact Z|]. split; [apply rest_ort; exact F|exact F].
    - cbn [graded]. split; [|split; [|exact G]].
      + rewrite rest_length, monomial_length; [lia|]. rewrite monomial_length. eapply Forall_impl; [|exact Gl]. cbn. intros; lia.
      + rewrite rest_last; [unfold monomial; rewrite last_last; reflexivity|]. rewrite monomial_length. eapply Forall_impl; [|exact Gl]. cbn. intros; lia.
  Qed.

  (** The frame spans all polynomials of its length. *)
  Lemma last_term p a x : poly_at (p ++ [a]) x == poly_at p x + a * poly_at (monomial (length p)) x.
  Proof.
    induction p as [|c p IH]; [cbn; ring|]. change (c + x * poly_at (p ++ [a]) x == c + x * poly_at p x + a * (0 + x * poly_at (monomial (length p)) x)).
    rewrite IH. ring.
  Qed.
  Lemma frame_span v qs : graded qs -> Forall (fun q => ort (col q) v) qs -> forall p, (length p <= length qs)%nat -> ort (col p) v.
  Proof.
    induction qs as [|q qs IH]; intros G F p L.
    - destruct p; [apply ip_zero_l; reflexivity|cbn in L; lia].
    - destruct G as (Lq & Mq & G). inversion F as [|? ? Oq F']; subst. specialize (IH G F').
      destruct (Nat.eq_dec (length p) (S (length qs))) as [E|E]; [|apply IH; cbn in L; lia].
      destruct (exists_last (l := p)) as (p0 & a & ->); [intros ->; discriminate|].
      destruct (exists_last (l := q)) as (q0 & c & ->); [intros ->; discriminate|].
      rewrite last_last in Mq. rewrite app_length in E, Lq. cbn [length] in E, Lq.
      assert (Ed : ort (col (poly_plus p0 (poly_times (- a) q0))) v) by (apply IH; rewrite plus_length, times_length; lia).
      rewrite (ip_ext pts _ (fun w => col (poly_plus p0 (poly_times (- a) q0)) w + a * col (q0 ++ [c]) w) v v).
      + rewrite ip_lin, Ed, Oq. ring.
      + intros w _. unfold column. rewrite plus_at, times_at, !last_term, Mq. replace (length q0) with (length p0) by lia. ring.
      + reflexivity.
  Qed.

  (** The fit leaves a rest orthogonal to the frame. *)
  Lemma combined_length u qs : graded qs -> length (fold_right (fun q p => poly_plus (poly_times (share pts u q) q) p) [] qs) = length qs.
  Proof. induction qs as [|q qs IH]; intros G; [reflexivity|]. cbn [fold_right]. destruct G as (Lq & _ & G). rewrite plus_length, times_length, (IH G), Lq. cbn [length]. lia. Qed.
  Lemma combined_ort u v qs : Forall (fun q => ort (col q) v) qs ->
    ort (col (fold_right (fun q p => poly_plus (poly_times (share pts u q) q) p) [] qs)) v.
  Proof.
    induction 1 as [|q qs O F IH]; [apply ip_zero_l; reflexivity|]. cbn [fold_right]. rewrite col_plus, col_times, IH, O. ring.
  Qed.
  Lemma combined_rest u qs : frame qs ->
    Forall (fun q => ip pts (col (fold_right (fun q p => poly_plus (poly_times (share pts u q) q) p) [] qs)) (col q) == ip pts u (col q)) qs.
  Proof.
    induction qs as [|q qs IH]; intros F; [constructor|]. destruct F as (N & O & F). cbn [fold_right]. constructor.
    - rewrite col_plus, col_times, combined_ort; [pose proof (share_is u q N); lra|]. eapply Forall_impl; [|exact O]. intros w E. rewrite ip_sym. exact E.
    - specialize (IH F). rewrite Forall_forall in *. intros w Iw. rewrite col_plus, col_times, (IH w Iw), (O w Iw). ring.
  Qed.

  Definition gap (p : list Q) (q : point) : Q := snd q - poly_at p (fst q).
  Lemma polyfit_normal d p : polyfit d pts = Some p -> length p = S d /\ forall p', (length p' <= S d)%nat -> ort (gap p) (col p').
  Proof.
    unfold polyfit. destruct (columns pts (S d)) as [qs|] eqn:E; [|discriminate]. intros [= <-].
    destruct (columns_frame _ _ E) as (L & F & G). split; [rewrite combined_length; [exact L|exact G]|]. intros p' L'. rewrite ip_sym.
    apply (frame_span _ qs G); [|lia]. pose proof (combined_rest snd qs F) as C. eapply Forall_impl; [|exact C]. intros q Eq.
    rewrite ip_sym. rewrite (ip_ext pts _ (fun w => snd w + -(1) * col (fold_right (fun q p => poly_plus (poly_times (share pts snd q) q) p) [] qs) w) (col q) (col q)).
    - rewrite ip_lin, Eq. ring.
    - intros w _. unfold gap, column. ring.
    - reflexivity.
  Qed.

  (** It is there if and only if there are enough abscissae. *)
  Lemma columns_defined k : columns pts k <> None <-> abscissae k pts.
  Proof.
    split.
    - (* too few: the polynomial with all of them as roots has a null column *)
      intros D. destruct (columns pts k) as [qs|] eqn:E; [clear D|contradiction]. destruct (columns_frame _ _ E) as (L & F & G).
      (* the different abscissae *)
      assert (X : exists zs, different zs /\ (forall z, In z zs -> exists x y, In (x, y) pts /\ x == z) /\ (forall q, In q pts -> exists z, In z zs /\ fst q == z)).
      { clear. induction pts as [|[x y] r (zs & D & A & B)].
        - exists []. split; [constructor|]. split; intros ? [].
        - destruct (existsb (Qeq_bool x) zs) eqn:Ex.
          + apply existsb_exists in Ex as (z & Iz & Ez). apply Qeq_bool_iff in Ez. exists zs. split; [exact D|]. split.
            * intros w Iw. destruct (A w Iw) as (x' & y' & I' & E'). exists x', y'. split; [right; exact I'|exact E'].
            * intros q [<-|Iq]; [exists z; auto|apply B; exact Iq].
          + exists (x :: zs). split; [|split].
            * constructor; [|exact D]. apply Forall_forall. intros z Iz Ez.
              assert (existsb (Qeq_bool x) zs = true) by (apply existsb_exists; exists z; split; [exact Iz|apply Qeq_bool_iff; exact Ez]). congruence.
            * intros z [<-|Iz]; [exists x, y; split; [left; reflexivity|reflexivity]|]. destruct (A z Iz) as (x' & y' & I' & E'). exists x', y'. split; [right; exact I'|exact E'].
            * intros q [<-|Iq]; [exists x; split; [left; reflexivity|reflexivity]|]. destruct (B q Iq) as (z & Iz & Ez). exists z. split; [right; exact Iz|exact Ez]. }
      destruct X as (zs & D & A & B).
      destruct (Nat.le_gt_cases k (length zs)) as [Le|Gt].
      + exists (firstn k zs). split; [apply firstn_length_le; exact Le|]. split.
        * clear - D. revert k. induction D as [|z zs Dz D IH]; intros [|k]; cbn [firstn]; constructor; [|apply IH].
          rewrite Forall_forall in *. intros w Iw. apply Dz. rewrite <- (firstn_skipn k zs). apply in_or_app. left. exact Iw.
        * intros z Iz. apply A. rewrite <- (firstn_skipn k zs). apply in_or_app. left. exact Iz.
      + (* the frame holds a polynomial as long as [rooted zs] *)
        exfalso. assert (Lr : (length (rooted zs) <= k)%nat) by (rewrite rooted_length; lia).
        assert (N0 : forall q, In q pts -> col (rooted zs) q == 0).
        { intros q Iq. destruct (B q Iq) as (z & Iz & Ez). unfold column. eapply rooted_at; eassumption. }
        clear - F G L Lr N0. revert Lr. pose proof (rooted_length zs) as R1. pose proof (rooted_last zs) as R2. generalize dependent (rooted zs). intros s N0 R1 R2 Lr.
        subst k. induction qs as [|q qs IH]; [cbn in Lr; lia|]. destruct F as (N & O & F). destruct G as (Lq & Mq & G). cbn [length] in Lr.
        destruct (Nat.eq_dec (length s) (S (length qs))) as [El|El]; [|apply IH; [exact F|exact G|lia]].
        (* [q] minus [s] is in the span of the rest of the frame, to which [q] is orthogonal *)
        destruct (exists_last (l := s)) as (s0 & a & ->); [intros ->; discriminate|].
        destruct (exists_last (l := q)) as (q0 & c & ->); [intros ->; discriminate|].
        rewrite last_last in Mq, R2. rewrite app_length in El, Lq. cbn [length] in El, Lq.
        assert (Od : ort (col (poly_plus q0 (poly_times (-(1)) s0))) (col (q0 ++ [c]))).
        { apply (frame_span _ qs G); [|rewrite plus_length, times_length; lia]. eapply Forall_impl; [|exact O]. intros w E. rewrite ip_sym. exact E. }
        apply N. rewrite (ip_ext pts _ (fun w => col (poly_plus q0 (poly_times (-(1)) s0)) w + 1 * col (s0 ++ [a]) w) (col (q0 ++ [c])) (col (q0 ++ [c]))).
        * rewrite ip_lin, Od, (ip_zero_l pts (col (s0 ++ [a]))) by exact N0. ring.
        * intros w _. unfold column. rewrite plus_at, times_at, !last_term, Mq, R2. replace (length q0) with (length s0) by lia. ring.
        * reflexivity.
    - intros (zs & L & D & A). induction k as [|k IH] in zs, L, D, A |- *; [discriminate|]. cbn [columns].
      destruct zs as [|z zs]; [discriminate|]. injection L as L. inversion D as [|? ? Dz D']; subst.
      specialize (IH zs eq_refl D' (fun w Iw => A w (or_intror Iw))). destruct (columns pts (length zs)) as [qs|] eqn:E; [|contradiction]. cbv zeta.
      destruct (Qeq_bool _ 0) eqn:Z; [|discriminate]. exfalso. apply Qeq_bool_iff in Z. rewrite product_ip in Z.
      destruct (columns_frame _ _ E) as (Lq & F & G). pose proof (graded_length qs G) as Gl.
      set (r := rest pts (monomial (length zs)) qs) in *.
      assert (Lr : length r = S (length zs)).
      { unfold r. rewrite rest_length, monomial_length; [reflexivity|]. rewrite monomial_length. eapply Forall_impl; [|exact Gl]. cbn. intros; lia. }
      assert (Mr : last r 0 == 1).
      { unfold r. rewrite rest_last; [unfold monomial; rewrite last_last; reflexivity|]. rewrite monomial_length. eapply Forall_impl; [|exact Gl]. cbn. intros; lia. }
      assert (Zr : zeros r).
      { apply (many_roots (z :: zs)); [cbn; lia|exact D|]. intros w Iw. destruct (A w Iw) as (x & y & Ip & Ex).
        rewrite <- (poly_at_proper r x w Ex). exact (ip_null pts (col r) Z (x, y) Ip). }
      clear - Lr Mr Zr. destruct (exists_last (l := r)) as (r0 & a & Er); [intros ->; discriminate|]. rewrite Er in *. rewrite last_last in Mr.
      unfold zeros in Zr. rewrite Forall_app in Zr. destruct Zr as [_ Zr]. inversion Zr; subst. rewrite Mr in *. discriminate.
  Qed.
End Columns.
