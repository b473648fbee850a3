(** C82, whole conversions: with the modelled fits and splines, from the files of a card to the output. *)
From Coq Require Import String.
From Coq Require Import ZArith QArith Qabs Qround List Bool Lia Lqa.
From Verif Require Import Base UnwrapSpec Scan ParserSpec Process Drift Interp InterpSpec InterpProofs Stream StreamSpec
  Convert ConvertSpec Block BlockSpec RecordingSpec RecordingWhole Card CardSpec CardProps CardCase
  Polyfit PolyfitProps Spline SplineSpec SplineProofs SplineProps.
Import ListNotations.
Open Scope Q_scope.

(** The modelled libraries do what the theorems about whole recordings ask of them. *)
Theorem C82_libraries sc : reads_decimal sc -> libraries sc polyfit3 polyfit1 cubic_spline.
Proof. intros Sc. apply C81_libraries; [exact Sc|exact C82_contract]. Qed.

Lemma record_parts parts taken : concat parts = taken -> forall part w, In part parts -> In w (record part) -> In w (record taken).
Proof.
  intros E part w Hp Hw. unfold record in *. apply in_flat_map in Hw as (r & Hr & Hw). apply in_flat_map. exists r. split; [|exact Hw]. rewrite <- E. apply in_concat. eauto.
Qed.
Lemma recorded_on c l pts : (forall t x, In (t, x) l -> inject_Z x == value c t) -> Forall2 is_recorded l pts -> all_on c pts.
Proof.
  intros H F. induction F as [|[t x] p l pts (E & v & Ev & V) F IH]; constructor.
  - exists v. split; [exact Ev|]. cbn [fst snd] in *. rewrite V, (H t x (or_introl eq_refl)). unfold value. rewrite E. reflexivity.
  - apply IH. intros u y Hi. apply H. right. exact Hi.
Qed.
Lemma quot_near p q : (0 < q)%Z -> Qabs (inject_Z (Z.quot p q) - inject_Z p / inject_Z q) <= 1.
Proof.
  intros Q0. pose proof (Z.quot_rem' p q) as E. pose proof (Z.rem_bound_abs p q ltac:(lia)) as R. assert (P : 0 < inject_Z q) by (change 0 with (inject_Z 0); rewrite <- Zlt_Qlt; exact Q0).
  set (d := Z.quot p q) in *. set (r := Z.rem p q) in *. assert (X : inject_Z d - inject_Z p / inject_Z q == - (inject_Z r / inject_Z q)).
  { rewrite E. rewrite inject_Z_plus, inject_Z_mult. field. lra. }
  rewrite X, Qabs_opp. apply Qabs_Qle_condition. assert (R1 : (- q <= r)%Z) by lia. assert (R2 : (r <= q)%Z) by lia.
  rewrite Zle_Qle in R1, R2. rewrite inject_Z_opp in R1. split; [apply Qle_shift_div_l|apply Qle_shift_div_r]; lra.
Qed.
(** Between two values near a line, the value filled in is near it. *)
Lemma fill_near a c d (P : Z -> Z -> Prop) k v : (forall k v, P k v -> Qabs (inject_Z v - (a + c * (inject_Z k * (1 # 100)))) <= d) -> fills P k v ->
  Qabs (inject_Z v - (a + c * (inject_Z k * (1 # 100)))) <= d + 1.
Proof.
  intros H (i & j & x & y & Px & Py & (K1 & K2) & _ & _ & ->). apply H in Px, Py.
  pose proof (quot_near (x * (j - i) + (k - i) * (y - x)) (j - i) ltac:(lia)) as N. set (w := Z.quot _ _) in *.
  assert (L1 : inject_Z i < inject_Z k) by (rewrite <- Zlt_Qlt; exact K1). assert (L2 : inject_Z k < inject_Z j) by (rewrite <- Zlt_Qlt; exact K2).
  unfold Z.sub in N. rewrite !inject_Z_plus, !inject_Z_mult, !inject_Z_plus, !inject_Z_opp in N.
  set (qi := inject_Z i) in *. set (qj := inject_Z j) in *. set (qk := inject_Z k) in *. set (qx := inject_Z x) in *. set (qy := inject_Z y) in *. set (qw := inject_Z w) in *. clearbody qi qj qk qx qy qw.
  set (u := (qk - qi) / (qj - qi)). assert (U : 0 <= u /\ u <= 1) by (unfold u; split; [apply Qle_shift_div_l|apply Qle_shift_div_r]; lra).
  assert (E : (qx * (qj + - qi) + (qk + - qi) * (qy + - qx)) / (qj + - qi) == (1 - u) * qx + u * qy) by (unfold u; field; lra).
  assert (Ek : qk == (1 - u) * qi + u * qj) by (unfold u; field; lra). rewrite E in N. rewrite Ek. clear E Ek.
  apply Qabs_Qle_condition in N, Px, Py. apply Qabs_Qle_condition. clearbody u. clear w K1 K2 H P L1 L2.
  set (ex := qx - (a + c * (qi * (1 # 100)))) in *. set (ey := qy - (a + c * (qj * (1 # 100)))) in *.
  assert (X : qw - (a + c * (((1 - u) * qi + u * qj) * (1 # 100))) == (qw - ((1 - u) * qx + u * qy)) + ((1 - u) * ex + u * ey)) by (unfold ex, ey; ring).
  rewrite X. destruct U as [U1 U2]. assert (B1 : (1 - u) * ex + u * ey <= d) by nra. assert (B2 : - d <= (1 - u) * ex + u * ey) by nra. split; lra.
Qed.
Lemma fill_same x (P : Z -> Z -> Prop) k v : (forall k v, P k v -> v = x) -> fills P k v -> v = x.
Proof.
  intros H (i & j & a & z & Pa & Pz & B & _ & _ & ->). apply H in Pa, Pz. subst a z. replace (x * (j - i) + (k - i) * (x - x))%Z with (x * (j - i))%Z by ring. apply Z.quot_mul. lia.
Qed.

(** The conversion of a card with one unbroken record (as in C66, without any assumption about the fits and splines).  If the
    recorded values lie on a straight line in time, every value of every output file is near this line; if they are all the
    same, so are those of the output files. *)
Theorem C82_archive sc buf0 ear now oddS oddV oddC reader9 reader8 sn recs taken c nums blockdays f t2 s1 :
  reads_decimal sc -> serial_number sn -> card_of sn recs c ->
  (forall r, In r taken <-> In r recs /\ asked_for nums r) -> chain Z.lt (map r_number taken) -> taken <> [] -> unbroken taken ->
  0 < blockdays -> (0 < f)%Z ->
  (forall t x, In (t, x) (record taken) -> 1 # 200 <= t /\ t * 100 + day * blockdays + inject_Z f + 200 <= t2) ->
  begins (map fst (record taken)) s1 ->
  exists n h,
    (forall fuel, (n <= fuel)%nat -> convert_card sc buf0 ear polyfit3 polyfit1 cubic_spline now oddS oddV oddC reader9 reader8 c sn nums blockdays (inject_Z f) None t2 fuel = inr (h, Returns [])) /\
    (forall e g, (forall t x, In (t, x) (record taken) -> inject_Z x == e + g * t) ->
       forall k v, sample (written h) k v -> Qabs (inject_Z v - (e + g * (inject_Z k * (1 # 100)))) <= (3 # 2) + Qabs g * (1 # 100)) /\
    (forall x0, (forall t x, In (t, x) (record taken) -> x = x0) -> forall k v, sample (written h) k v -> v = x0).
Proof.
  intros Sc Hsn Hc Ht Ct Nt Hu Hb Hf Hw Bs.
  destruct (C66_archive sc buf0 ear polyfit3 polyfit1 cubic_spline now oddS oddV oddC reader9 reader8 sn recs taken c nums blockdays f t2 s1 (C82_libraries sc Sc) Hsn Hc Ht Ct Nt Hu Hb Hf Hw Bs)
    as (parts & n & h & (Ep & _) & Cv & _ & _ & _ & P & HP & HS).
  exists n, h. split; [exact Cv|]. split.
  - intros e g L.
    assert (A : forall k v, recorded_value cubic_spline parts k v -> Qabs (inject_Z v - (e + g * (inject_Z k * (1 # 100)))) <= (1 # 2) + Qabs g * (1 # 100)).
    { intros k v (part & pts & Hp & F & Ex). pose proof (C82_line (mkcurve e g 0 0) pts k v ltac:(reflexivity) ltac:(reflexivity)) as X. cbn [k1] in X.
      eapply Qle_trans; [|apply X; [|exact Ex]].
      - apply Qle_lteq. right. apply Qabs_wd. unfold value. cbn [k0 k1 k2 k3]. ring.
      - apply (recorded_on _ (record part)); [|exact F]. intros t x Hi. rewrite (L t x (record_parts _ _ Ep _ _ Hp Hi)). unfold value. cbn [k0 k1 k2 k3]. ring. }
    intros k v S. destruct (HS k v S) as [R|Fi]; [specialize (A k v R); lra|].
    pose proof (fill_near e g _ P k v (fun k v Hk => A k v (HP k v Hk)) Fi). lra.
  - intros x0 L.
    assert (A : forall k v, recorded_value cubic_spline parts k v -> v = x0).
    { intros k v (part & pts & Hp & F & Ex). apply (C82_steady x0 pts k v); [|exact Ex].
      assert (L' : forall t x, In (t, x) (record part) -> x = x0) by (intros t x Hi; apply (L t x (record_parts _ _ Ep _ _ Hp Hi))).
      clear - F L'. induction F as [|[t x] p l pts (E & v & Ev & V) F IH]; constructor; [|apply IH; intros u y Hi; apply (L' u y); right; exact Hi].
      exists v. split; [exact Ev|]. rewrite V. cbn [snd]. rewrite (L' t x (or_introl eq_refl)). reflexivity. }
    intros k v S. destruct (HS k v S) as [R|Fi]; [exact (A k v R)|]. exact (fill_same x0 P k v (fun k v Hk => A k v (HP k v Hk)) Fi).
Qed.

Print Assumptions C82_libraries.
Print Assumptions C82_archive.
