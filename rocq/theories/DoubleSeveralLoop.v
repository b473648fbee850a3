(** Proofs about the loop over several files in double precision. *)
From Coq Require Import String.
From Coq Require Import ZArith QArith Qabs Qround Qpower List Bool Lia Lqa.
From Verif Require Import Lib Base Scan Parser Unwrap UnwrapProofs Process ReadSeveral UnwrapSpec DoubleSpec Double DoubleProofs DoubleProps DoubleSeveral DoubleSeveralSpec DoubleSeveralProofs.
Import ListNotations.
Open Scope Q_scope.

Section Read.
  Variable rnd : Q -> Q.
  Hypothesis N : rounds_to_nearest rnd.
  Hypothesis Pr : respects rnd.
  Variable sc : scanner.
  Variable buf0 : bytes.
  Variable ear : bool.

  Lemma cython_low f req : low_file sc buf0 f -> low_alike (dread_with_cython rnd sc buf0 (f_content f) req) (read_with_cython sc buf0 (f_content f) req).
  Proof.
    intros (Hc & _). assert (W : forall bs, f_content f = Some bs -> whole_file sc buf0 bs).
    { intros bs E n rows P. eapply Forall_impl; [|exact (Hc bs n rows E P)]. intros r [H _]. exact H. }
    pose proof (cython_same rnd N sc buf0 (f_content f) req W) as S. unfold low_alike.
    destruct (dread_with_cython rnd sc buf0 (f_content f) req) as [d|x] eqn:Ed, (read_with_cython sc buf0 (f_content f) req) as [e|y] eqn:Ee; try contradiction; [|exact S].
    destruct S as [S Wt]. split; [exact S|]. split; [|exact (proj2 Wt)]. unfold read_with_cython in Ee. destruct (f_content f) as [bs|] eqn:Ec; [|discriminate].
    destruct (parse_retry sc buf0 bs) as [[|r rows]|] eqn:Ep; try discriminate. destruct (negb _ && req); [discriminate|].
    assert (X : map drow_of (r :: rows) = e) by congruence. rewrite <- X. apply Forall_map.
    unfold parse_retry in Ep. destruct (parse_gemfile sc buf0 1560000 bs) as [rows'|] eqn:E1.
    - injection Ep as Ep. rewrite <- Ep. exact (Hc bs _ _ eq_refl E1).
    - exact (Hc bs _ _ eq_refl Ep).
  Qed.
  Lemma read_raw_on f version s' s req : low_file sc buf0 f -> starts s' s ->
    match dread_raw rnd sc buf0 ear f version s' req, read_raw sc buf0 ear f version s req with
    | inl t, inl u => exists g, follows g /\ read_on rnd g t u
    | inr x, inr y => x = y
    | _, _ => False
    end.
  Proof.
    intros L St. unfold dread_raw, read_raw, dread_single, read_single. assert (Sr : forall df : list drow, Forall2 same_drow df df) by (induction df; constructor; [repeat split; reflexivity|assumption]).
    assert (A : forall r : bool -> res (list drow), (forall df, r req = inl df -> low_table df) -> low_alike (r req) (r req)).
    { intros r H. unfold low_alike. destruct (r req) as [df|x]; [split; [apply Sr|apply H; reflexivity]|reflexivity]. }
    pose proof L as (_ & L1 & L2). destruct (modern version); apply (readers_on rnd N Pr); try exact St.
    - constructor; [exact (cython_low f req L)|]. constructor; [exact (A _ (L1 req))|constructor].
    - constructor; [exact (A _ (L2 req))|constructor].
  Qed.
End Read.

Section Loop.
  Variable rnd : Q -> Q.
  Hypothesis N : rounds_to_nearest rnd.
  Hypothesis Pr : respects rnd.

  (** A sample clock: 8.93 ms after a whole number, computed by a function of it. *)
  Definition sampled (G : Z -> Q) (x y : Q) : Prop := exists z : Z, y == inject_Z z + (893 # 100) /\ x == G z.

  Lemma near_33 x : Qabs x <= 8589934592 -> Qabs (rnd x - x) <= 96 # 100000000.
  Proof. exact (near_big rnd N x). Qed.
  Lemma near_34 x : Qabs x <= 17179869184 -> Qabs (rnd x - x) <= 2 # 1000000.
  Proof.
    intros B. assert (A : Qabs (rnd x - x) <= 1 / inject_Z (2 ^ (18 + 1))) by (apply (rnd_near rnd N); [lia|exact B]).
    eapply Qle_trans; [exact A|]. apply Qle_bool_iff. vm_compute. reflexivity.
  Qed.
  Lemma const_near : Qabs (rnd (893 # 100) - (893 # 100)) <= 1 # 1000000000.
  Proof. apply (near_small rnd N). apply Qle_bool_iff. vm_compute. reflexivity. Qed.

  Lemma below_whole y z c : Qabs y <= inject_Z (2 ^ 32) -> y == inject_Z z + c -> Qabs c <= 32768 -> (Z.abs z <= 2 ^ 32 + 2 ^ 15)%Z.
  Proof.
    intros B E C. apply Qabs_Qle_condition in B as [B1 B2], C as [C1 C2]. change (inject_Z (2 ^ 32)) with 4294967296 in *.
    assert (U : inject_Z z <= inject_Z (2 ^ 32 + 2 ^ 15)) by (change (inject_Z (2 ^ 32 + 2 ^ 15)) with 4295000064; lra).
    assert (L : inject_Z (- (2 ^ 32 + 2 ^ 15)) <= inject_Z z) by (change (inject_Z (- (2 ^ 32 + 2 ^ 15))) with (- (4295000064)); lra).
    rewrite <- Zle_Qle in U, L. lia.
  Qed.
  Lemma on_near g x y : follows g -> Qabs y <= inject_Z (2 ^ 32) -> on g x y -> Qabs (x - y) <= 4 # 1000000.
  Proof.
    intros F B (z & E & X). assert (Bz : (Z.abs z <= 2 ^ 32 + 2 ^ 15)%Z) by (apply (below_whole y z 0); [exact B|rewrite E; ring|apply Qle_bool_iff; reflexivity]).
    pose proof (F z Bz) as A. rewrite X, E. exact A.
  Qed.
  Lemma lagged_near g x y : follows g -> Qabs y <= inject_Z (2 ^ 32) -> lagged rnd g x y -> Qabs (x - y) <= 5 # 1000000.
  Proof.
    intros F B (z & E & X). assert (Bz : (Z.abs z <= 2 ^ 32 + 2 ^ 15)%Z) by (apply (below_whole y z (893 # 100)); [exact B|exact E|apply Qle_bool_iff; reflexivity]).
    pose proof (F z Bz) as A. pose proof const_near as C. apply Qabs_Qle_condition in A as [A1 A2], C as [C1 C2], B as [B1 B2]. change (inject_Z (2 ^ 32)) with 4294967296 in *.
    set (k := rnd (893 # 100)) in *. rewrite E in B1, B2. assert (R : Qabs (rnd (g z + k) - (g z + k)) <= 96 # 100000000) by (apply near_33; apply Qabs_Qle_condition; split; lra).
    apply Qabs_Qle_condition in R as [R1 R2]. apply Qabs_Qle_condition. rewrite X, E. split; lra.
  Qed.
  Lemma shifted_near x y : Qabs y <= inject_Z (2 ^ 32) -> Qabs (x - y) <= 5 # 1000000 -> Qabs (rnd (x + 8192) - (y + 8192)) <= tiny.
  Proof.
    intros B A. apply Qabs_Qle_condition in A as [A1 A2], B as [B1 B2]. change (inject_Z (2 ^ 32)) with 4294967296 in *.
    assert (R : Qabs (rnd (x + 8192) - (x + 8192)) <= 96 # 100000000) by (apply near_33; apply Qabs_Qle_condition; split; lra).
    apply Qabs_Qle_condition in R as [R1 R2]. unfold tiny. apply Qabs_Qle_condition. split; lra.
  Qed.
  Lemma le_tiny x : Qabs x <= 5 # 1000000 -> Qabs x <= tiny.
  Proof. intros H. eapply Qle_trans; [exact H|]. apply Qle_bool_iff. reflexivity. Qed.
  Lemma le_tiny4 x : Qabs x <= 4 # 1000000 -> Qabs x <= 5 # 1000000.
  Proof. intros H. eapply Qle_trans; [exact H|]. apply Qle_bool_iff. reflexivity. Qed.

  (** The order of the first sample and the start. *)
  Lemma gap_start s' s x y : starts s' s -> (exists z, y == inject_Z z + (893 # 100)) -> ~ y == s -> Qabs (x - y) <= 5 # 1000000 -> Qltb x s' = Qltb y s.
  Proof.
    intros St (z & E) Ne A. apply Qabs_Qle_condition in A as [A1 A2].
    assert (G : y + (1 # 20) < s \/ s + (1 # 20) < y).
    { destruct St as [s s' Es (o & Eo & _)|s s' o Eo _ _].
      - destruct (Z_lt_le_dec z (o - 8)) as [H|H].
        + left. assert (Hq : inject_Z z + 9 <= inject_Z o) by (change 9 with (inject_Z 9); rewrite <- inject_Z_plus, <- Zle_Qle; lia). lra.
        + right. assert (Hq : inject_Z o <= inject_Z z + 8) by (change 8 with (inject_Z 8); rewrite <- inject_Z_plus, <- Zle_Qle; lia). lra.
      - unfold lag in Eo. destruct (Z_lt_le_dec (z + 8) o) as [H|H].
        + left. assert (Hq : inject_Z z + 9 <= inject_Z o) by (change 9 with (inject_Z 9); rewrite <- inject_Z_plus, <- Zle_Qle; lia). lra.
        + destruct (Z.eq_dec (z + 8) o) as [X|X].
          * exfalso. apply Ne. rewrite E, Eo, <- X, inject_Z_plus. change (inject_Z 8) with 8. lra.
          * right. assert (Hq : inject_Z o + 1 <= inject_Z z + 8) by (change 8 with (inject_Z 8); change 1 with (inject_Z 1); rewrite <- !inject_Z_plus, <- Zle_Qle; lia). lra. }
    assert (B : Qabs (s' - s) <= tiny).
    { destruct St as [s s' Es _|s s' o _ _ B]; [|exact B]. setoid_replace (s' - s) with 0 by (rewrite Es; ring). apply Qle_bool_iff. reflexivity. }
    unfold tiny in B. apply Qabs_Qle_condition in B as [B1 B2].
    destruct G as [G|G].
    - rewrite (proj2 (Qltb_lt x s')) by lra. symmetry. apply Qltb_lt. lra.
    - rewrite (proj2 (Qltb_ge x s')) by lra. symmetry. apply Qltb_ge. lra.
  Qed.

  (** The look for discontinuities. *)
  Lemma discontinuous_same G xs ys : Forall2 (fun x y => sampled G x y /\ Qabs (x - y) <= tiny /\ Qabs y <= 4294975488) xs ys -> chain (fun x y => ~ y - x == 1000) ys ->
    ddiscontinuous rnd xs = discontinuous ys.
  Proof.
    induction 1 as [|x y xs ys (S1 & A1 & B1) F IH]; intros C; [reflexivity|]. destruct F as [|x' y' xs ys (S2 & A2 & B2) F]; [reflexivity|].
    change (ddiscontinuous rnd (x :: x' :: xs)) with (Qltb (rnd (x' - x)) 0 || Qltb 1000 (rnd (x' - x)) || ddiscontinuous rnd (x' :: xs)).
    change (discontinuous (y :: y' :: ys)) with (Qltb (y' - y) 0 || Qltb 1000 (y' - y) || discontinuous (y' :: ys)).
    destruct C as [C0 C]. rewrite (IH C). f_equal. clear IH F C xs ys. unfold tiny in *.
    apply Qabs_Qle_condition in A1 as [A11 A12], A2 as [A21 A22], B1 as [B11 B12], B2 as [B21 B22]. destruct S1 as (z & E1 & X1), S2 as (z' & E2 & X2).
    assert (R : Qabs (rnd (x' - x) - (x' - x)) <= 2 # 1000000) by (apply near_34; apply Qabs_Qle_condition; split; lra). apply Qabs_Qle_condition in R as [R1 R2].
    destruct (Z_lt_le_dec z' z) as [H|H].
    - assert (Hq : inject_Z z' + 1 <= inject_Z z) by (change 1 with (inject_Z 1); rewrite <- inject_Z_plus, <- Zle_Qle; lia).
      rewrite (proj2 (Qltb_lt (rnd (x' - x)) 0)) by lra. rewrite (proj2 (Qltb_lt (y' - y) 0)) by lra. reflexivity.
    - destruct (Z.eq_dec z' z) as [X|X].
      + subst z'. assert (E : rnd (x' - x) == 0) by (apply (rnd_int rnd N _ 0%Z); [rewrite X1, X2; ring|lia]).
        rewrite (proj2 (Qltb_ge (rnd (x' - x)) 0)) by lra. rewrite (proj2 (Qltb_ge (y' - y) 0)) by lra. rewrite (proj2 (Qltb_ge 1000 (rnd (x' - x)))) by lra. rewrite (proj2 (Qltb_ge 1000 (y' - y))) by lra. reflexivity.
      + assert (Hq : inject_Z z + 1 <= inject_Z z') by (change 1 with (inject_Z 1); rewrite <- inject_Z_plus, <- Zle_Qle; lia).
        rewrite (proj2 (Qltb_ge (rnd (x' - x)) 0)) by lra. rewrite (proj2 (Qltb_ge (y' - y) 0)) by lra.
        destruct (Z_lt_le_dec z' (z + 1000)) as [K|K].
        * assert (Kq : inject_Z z' + 1 <= inject_Z z + 1000) by (change 1000 with (inject_Z 1000); change 1 with (inject_Z 1); rewrite <- !inject_Z_plus, <- Zle_Qle; lia).
          rewrite (proj2 (Qltb_ge 1000 (rnd (x' - x)))) by lra. rewrite (proj2 (Qltb_ge 1000 (y' - y))) by lra. reflexivity.
        * destruct (Z.eq_dec z' (z + 1000)) as [Y|Y].
          -- exfalso. apply C0. rewrite E1, E2, Y, inject_Z_plus. change (inject_Z 1000) with 1000. ring.
          -- assert (Kq : inject_Z z + 1001 <= inject_Z z') by (change 1001 with (inject_Z 1001); rewrite <- inject_Z_plus, <- Zle_Qle; lia).
             rewrite (proj2 (Qltb_lt 1000 (rnd (x' - x)))) by lra. rewrite (proj2 (Qltb_lt 1000 (y' - y))) by lra. reflexivity.
  Qed.

  (** Tables after the alignment. *)
  Definition aligned_on (t u : tables) : Prop := near_tables tiny t u /\
    exists G, Forall2 (fun x y => sampled G x y /\ Qabs (x - y) <= tiny /\ Qabs y <= 4294975488) (map fst (data t)) (map fst (data u)).

  Lemma Forall2_with A B (R R' : A -> B -> Prop) (P : B -> Prop) a c : Forall2 R a c -> Forall P c -> (forall x y, R x y -> P y -> R' x y) -> Forall2 R' a c.
  Proof. intros F. induction F as [|x y a c H F IH]; intros Hp K; constructor; inversion Hp; subst; [apply K; assumption|apply IH; assumption]. Qed.
  Lemma Forall2_maps A B A' B' (f : A -> A') (h : B -> B') (R : A -> B -> Prop) (R' : A' -> B' -> Prop) a c : Forall2 R a c -> (forall x y, R x y -> R' (f x) (h y)) -> Forall2 R' (map f a) (map h c).
  Proof. intros F K. induction F; cbn [map]; constructor; auto. Qed.
  Lemma Forall2_weak A B (R R' : A -> B -> Prop) a c : Forall2 R a c -> (forall x y, R x y -> R' x y) -> Forall2 R' a c.
  Proof. intros F K. induction F; constructor; auto. Qed.

  Lemma align_on g t u s' s : follows g -> starts s' s -> read_on rnd g t u ->
    Forall (fun p => Qabs (fst p) <= inject_Z (2 ^ 32)) (data u) -> Forall (fun p => Qabs (fst p) <= inject_Z (2 ^ 32)) (metadata u) ->
    Forall (fun g => Qabs (msPPS (fst g)) <= inject_Z (2 ^ 32)) (gps u) -> (forall p, hd_error (data u) = Some p -> ~ fst p == s) ->
    match dalign rnd s' t, align s u with
    | Some t', Some u' => aligned_on t' u' /\ data u' <> []
    | None, None => True
    | _, _ => False
    end.
  Proof.
    intros Fg St (Rd & Rm & Rg) Bd Bm Bg Nh. unfold dalign, align. unfold rel_data in Rd. destruct (data t) as [|[x v] l] eqn:Dt, (data u) as [|[y w] m] eqn:Du; [exact Logic.I|inversion Rd|inversion Rd|].
    pose proof Rd as Rd'. assert (H : lagged rnd g x y) by (inversion Rd as [|? ? ? ? [H _] _]; exact H).
    assert (Hy : Qabs (x - y) <= 5 # 1000000) by (apply (lagged_near g); [exact Fg|exact (Forall_inv Bd)|exact H]).
    assert (Eq : Qltb x s' = Qltb y s).
    { apply gap_start; [exact St|destruct H as (z & E & _); exists z; exact E|apply (Nh (y, w)); reflexivity|exact Hy]. }
    rewrite Eq. assert (Dn : Forall2 (fun p q : Q * option Q => lagged rnd g (fst p) (fst q) /\ same_value (snd p) (snd q) /\ Qabs (fst p - fst q) <= 5 # 1000000 /\ Qabs (fst q) <= inject_Z (2 ^ 32)) ((x, v) :: l) ((y, w) :: m)).
    { refine (Forall2_with _ _ _ _ _ _ _ Rd Bd _). intros p q [Hl V] B. split; [exact Hl|]. split; [exact V|]. split; [apply (lagged_near g); assumption|assumption]. }
    assert (Mn : Forall2 (fun p q : Q * list (option Q) => Qabs (fst p - fst q) <= 5 # 1000000 /\ snd p = snd q /\ Qabs (fst q) <= inject_Z (2 ^ 32)) (metadata t) (metadata u)).
    { refine (Forall2_with _ _ _ _ _ _ _ Rm Bm _). intros p q [Hl V] B. split; [apply le_tiny4; apply (on_near g); assumption|]. split; assumption. }
    assert (Gn : Forall2 (fun p q => near_fix (5 # 1000000) p q /\ Qabs (msPPS (fst q)) <= inject_Z (2 ^ 32)) (gps t) (gps u)).
    { refine (Forall2_with _ _ _ _ _ _ _ Rg Bg _). intros p q (E0 & Hl & E) B. split; [|assumption]. split; [exact E0|]. split; [apply le_tiny4; apply (on_near g); assumption|exact E]. }
    clear Rd Rm Rg Bd Bm Bg Nh H Hy Eq Rd'. destruct (Qltb y s).
    - split; [|unfold shift; cbn [data]; rewrite Du; discriminate]. unfold aligned_on, near_tables, dshift, shift. cbn [data metadata gps]. rewrite Dt, Du. split; [split; [|split]|].
      + refine (Forall2_maps _ _ _ _ _ _ _ _ _ _ Dn _). intros p q (Hl & V & A & B). cbn [fst snd]. split; [apply shifted_near; assumption|exact V].
      + refine (Forall2_maps _ _ _ _ _ _ _ _ _ _ Mn _). intros p q (A & V & B). cbn [fst snd]. split; [apply shifted_near; assumption|exact V].
      + refine (Forall2_maps _ _ _ _ _ _ _ _ _ _ Gn _). intros p q ((E0 & A & E) & B). split; [exact E0|]. split; [apply shifted_near; assumption|exact E].
      + exists (fun z => rnd (rnd (g (z - 8192)%Z + rnd (893 # 100)) + 8192)). rewrite !map_map. refine (Forall2_maps _ _ _ _ _ _ _ _ _ _ Dn _). intros p q ((z & E & X) & V & A & B). cbn [fst].
        split; [|split; [apply shifted_near; assumption|]].
        * exists (z + 8192)%Z. split; [rewrite E, inject_Z_plus; change (inject_Z 8192) with 8192; ring|]. apply Pr. rewrite X. replace (z + 8192 - 8192)%Z with z by lia. reflexivity.
        * apply Qabs_Qle_condition in B as [B1 B2]. change (inject_Z (2 ^ 32)) with 4294967296 in *. apply Qabs_Qle_condition. split; lra.
    - split; [|rewrite Du; discriminate]. unfold aligned_on, near_tables. rewrite Dt, Du. split; [split; [|split]|].
      + refine (Forall2_weak _ _ _ _ _ _ Dn _). intros p q (Hl & V & A & B). split; [apply le_tiny; exact A|exact V].
      + refine (Forall2_weak _ _ _ _ _ _ Mn _). intros p q (A & V & B). split; [apply le_tiny; exact A|exact V].
      + refine (Forall2_weak _ _ _ _ _ _ Gn _). intros p q ((E0 & A & E) & B). split; [exact E0|]. split; [apply le_tiny; exact A|exact E].
      + exists (fun z => rnd (g z + rnd (893 # 100))). refine (Forall2_maps _ _ _ _ _ _ _ _ _ _ Dn _). intros p q ((z & E & X) & V & A & B).
        split; [exists z; auto|]. split; [apply le_tiny; exact A|]. apply Qabs_Qle_condition in B as [B1 B2]. change (inject_Z (2 ^ 32)) with 4294967296 in *. apply Qabs_Qle_condition. split; lra.
  Qed.
End Loop.

Section Several.
  Variable rnd : Q -> Q.
  Hypothesis N : rounds_to_nearest rnd.
  Hypothesis Pr : respects rnd.
  Variables F H S : Type.
  Variables dread_v read_v : F -> string -> Q -> bool -> res tables.
  Variables ddrift drift : tables -> F -> bool -> H + failure.
  Variable alike : H -> H -> Prop.
  Variable sn : F -> option S.
  Variable version : string.
  Variable require_gps : bool.
  Variable good : F -> Prop.
  Hypothesis RV : forall fn v s' s req, good fn -> starts s' s ->
    match dread_v fn v s' req, read_v fn v s req with
    | inl t, inl u => exists g, follows g /\ read_on rnd g t u
    | inr x, inr y => x = y
    | _, _ => False
    end.

  Lemma align_data s L u : align s L = Some u -> data u = data L \/ data u = map (fun p => (fst p + 8192, snd p)) (data L).
  Proof.
    unfold align. destruct (data L) as [|[y w] m] eqn:E; [discriminate|]. destruct (Qltb y s); intros X; injection X as X; subst u; [right; unfold shift; cbn [data]; rewrite E; reflexivity|left; exact E].
  Qed.
  Lemma align_chain s L u : align s L = Some u -> chain (fun x y => ~ y - x == 1000) (map fst (data L)) -> chain (fun x y => ~ y - x == 1000) (map fst (data u)).
  Proof.
    intros A C. destruct (align_data s L u A) as [E|E]; rewrite E; [exact C|]. clear A E u. rewrite map_map. cbn [fst]. revert C. induction (data L) as [|p l IH]; [exact (fun _ => Logic.I)|].
    destruct l as [|q l]; [exact (fun _ => Logic.I)|]. intros [C0 C]. split; [intros X; apply C0; rewrite <- X; ring|exact (IH C)].
  Qed.
  Lemma last_ne d l (m : list (Q * option Q)) : m <> [] -> last_of d (l ++ m) = last_of 0 m.
  Proof.
    intros Hm. assert (K : forall d e, last_of d m = last_of e m) by (destruct m as [|[t v] m]; [congruence|reflexivity]).
    revert d. induction l as [|[t v] l IH]; intros d; cbn [app last_of]; [apply K|apply IH].
  Qed.
  Lemma next_start s' s t u l m : aligned_on t u -> data u <> [] -> starts (last_of s' (l ++ data t)) (last_of s (m ++ data u)).
  Proof.
    intros (_ & G & Fo) Hu. assert (Ht : data t <> []) by (intros E; rewrite E in Fo; cbn [map] in Fo; inversion Fo as [K|]; destruct (data u); [congruence|discriminate]).
    rewrite !last_ne by assumption. revert Fo Hu Ht. generalize (data t), (data u). clear - N. intros a c. revert c. induction a as [|[x v] a IH]; intros c Fo Hu Ht; [congruence|].
    destruct c as [|[y w] c]; [congruence|]. cbn [map] in Fo. inversion Fo as [|? ? ? ? (( z & E & _) & A & B) Fo']; subst. cbn [fst] in *.
    destruct a as [|p a], c as [|q c]; cbn [map] in Fo'; try (inversion Fo'; fail).
    - cbn [last_of]. apply (st_lag _ _ (z + 8)%Z); [rewrite E, inject_Z_plus; unfold lag; change (inject_Z 8) with 8; lra| |exact A].
      apply Qabs_Qle_condition in B as [B1 B2]. assert (U : inject_Z z <= inject_Z (2 ^ 32 + 2 ^ 14)) by (change (inject_Z (2 ^ 32 + 2 ^ 14)) with 4294983680; lra).
      assert (L : inject_Z (- (2 ^ 32 + 2 ^ 14)) <= inject_Z z) by (change (inject_Z (- (2 ^ 32 + 2 ^ 14))) with (- (4294983680)); lra). rewrite <- Zle_Qle in U, L. lia.
    - cbn [last_of]. destruct p as [q0 o], q as [q o0]. exact (IH ((q, o0) :: c) Fo' ltac:(discriminate) ltac:(discriminate)).
  Qed.

  Lemma read_alike fn s' s : good fn -> starts s' s ->
    match read F dread_v version require_gps fn s', read F read_v version require_gps fn s with
    | inl t, inl u => exists g, follows g /\ read_on rnd g t u
    | inr x, inr y => x = y
    | _, _ => False
    end.
  Proof. intros G St. unfold read. destruct (existsb _ _); [apply RV; assumption|]. destruct (existsb _ _); [apply RV; assumption|reflexivity]. Qed.

  Lemma empty_alike : alike_line alike (@empty_hrow H S) empty_hrow.
  Proof. repeat split. Qed.

  Lemma one_alike fn s' s : good fn -> starts s' s -> (forall L, read F read_v version require_gps fn s = inl L -> calm F H ddrift drift alike require_gps s fn L) ->
    let a := done_file rnd F H S dread_v ddrift sn version require_gps fn s' in
    let c := one_file F H S read_v drift sn version require_gps fn s in
    alike_line alike (fst a) (fst c) /\
    match snd a, snd c with
    | inl t, inl u => aligned_on t u /\ data u <> []
    | inr x, inr y => x = y
    | _, _ => False
    end.
  Proof.
    intros G St C. cbv zeta. unfold done_file, one_file. pose proof (read_alike fn s' s G St) as R.
    destruct (read F dread_v version require_gps fn s') as [t|x], (read F read_v version require_gps fn s) as [u|y]; try contradiction; [|subst; split; [exact empty_alike|reflexivity]].
    destruct R as (g & Fg & R). destruct (C u eq_refl) as (B1 & B2 & B3 & Nh & Ch & Dr). pose proof (align_on rnd N Pr g t u s' s Fg St R B1 B2 B3 Nh) as A.
    destruct (dalign rnd s' t) as [t'|], (align s u) as [u'|] eqn:Eu; try contradiction; [|split; [exact empty_alike|reflexivity]].
    destruct A as [A Ne]. pose proof (align_chain s u u' Eu Ch) as Ch'. destruct A as [Nt (G0 & Fo)]. rewrite (discontinuous_same rnd N G0 _ _ Fo Ch').
    destruct (discontinuous (map fst (data u'))); [split; [exact empty_alike|reflexivity]|].
    pose proof (Dr u' t' eq_refl Nt) as D. destruct (ddrift t' fn require_gps) as [h'|f'], (drift u' fn require_gps) as [h|f]; try contradiction; [|subst; split; [exact empty_alike|reflexivity]].
    destruct Nt as (N1 & N2 & N3). rewrite (Forall2_length_eq _ _ _ N3), (Forall2_length_eq _ _ _ N1).
    assert (Al : forall n q, alike_line alike (@mkh H S (if negb require_gps || negb (Nat.eqb (length (gps u')) 0) then Some h' else None) n q) (mkh (if negb require_gps || negb (Nat.eqb (length (gps u')) 0) then Some h else None) n q)).
    { intros n q. unfold alike_line. cbn [h_num h_sn h_info]. destruct (_ || _); repeat split; exact D. }
    destruct (sn fn); (split; [apply Al|]); [|reflexivity]. split; [|exact Ne]. split; [split; [exact N1|split; assumption]|exists G0; exact Fo].
  Qed.

  Lemma loop_alike fns : Forall good fns -> forall s' s a c, starts s' s -> near_joined alike a c -> calm_run F H S read_v ddrift drift alike sn version require_gps s (jdata c) fns ->
    match dloop rnd F H S dread_v ddrift sn version require_gps s' a fns, loop F H S read_v drift sn version require_gps s c fns with
    | Some x, Some y => near_joined alike x y
    | None, None => True
    | _, _ => False
    end.
  Proof.
    induction 1 as [|fn fns Hg Hgs IH]; intros s' s a c St Na Cr; [exact Na|]. destruct Cr as [C Cr]. pose proof (one_alike fn s' s Hg St C) as O. cbv zeta in O.
    cbn [dloop loop]. destruct (done_file rnd F H S dread_v ddrift sn version require_gps fn s') as [h' o'], (one_file F H S read_v drift sn version require_gps fn s) as [h o].
    cbn [fst snd] in *. destruct O as [Ah O]. destruct Na as (N1 & N2 & N3 & N4 & N5).
    assert (Hh : Forall2 (alike_line alike) (jheader a ++ [h']) (jheader c ++ [h])) by (apply Forall2_app; [exact N4|constructor; [exact Ah|constructor]]).
    destruct o' as [t|f'], o as [u|f]; try contradiction.
    - destruct O as [A Ne]. apply IH; [apply next_start; assumption| |exact Cr]. destruct A as [(T1 & T2 & T3) _].
      split; [apply Forall2_app; assumption|]. split; [apply Forall2_app; assumption|]. split; [apply Forall2_app; assumption|]. split; [exact Hh|exact N5].
    - subst f'. assert (K : match dloop rnd F H S dread_v ddrift sn version require_gps s' (mkj (jdata a) (jmeta a) (jgps a) (jheader a ++ [h']) (jproblems a ++ [message_for F fn f])) fns,
        loop F H S read_v drift sn version require_gps s (mkj (jdata c) (jmeta c) (jgps c) (jheader c ++ [h]) (jproblems c ++ [message_for F fn f])) fns with
        | Some x, Some y => near_joined alike x y | None, None => True | _, _ => False end).
      { apply IH; [exact St| |exact Cr]. split; [exact N1|]. split; [exact N2|]. split; [exact N3|]. split; [exact Hh|]. cbn [jproblems]. rewrite N5. reflexivity. }
      destruct f as [e| |]; [destruct e|..]; try exact K. exact Logic.I.
  Qed.

  Theorem several_alike fns : Forall good fns -> calm_run F H S read_v ddrift drift alike sn version require_gps 0 [] fns ->
    match dread_several rnd F H S dread_v ddrift sn version require_gps fns, read_several F H S read_v drift sn version require_gps fns with
    | Some x, Some y => near_joined alike x y
    | None, None => True
    | _, _ => False
    end.
  Proof.
    intros G C. unfold dread_several, read_several. apply loop_alike; [exact G| | |exact C].
    - apply st_whole; [reflexivity|]. exists 0%Z. split; [reflexivity|lia].
    - repeat split; constructor.
  Qed.
End Several.
