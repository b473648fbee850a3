(** Proofs about resampling. *)
From Coq Require Import ZArith QArith Qabs Qround List Bool Lia Lqa.
From Verif Require Import Lib Base UnwrapSpec UnwrapProofs Process ReadSeveralProofs Interp InterpSpec.
Import ListNotations.
Open Scope Q_scope.

(** * Rounding *)

Lemma np_round_near x : Qabs (x - inject_Z (np_round x)) <= 1 # 2.
Proof.
  pose proof (Qfloor_le x) as A. pose proof (Qlt_floor x) as B. rewrite inject_Z_plus in B. change (inject_Z 1) with 1 in B.
  unfold np_round. apply Qabs_Qle_condition.
  destruct (Qcompare (x - inject_Z (Qfloor x)) (1 # 2)) eqn:E.
  - apply Qeq_alt in E. destruct (Z.even (Qfloor x)); [lra|]. rewrite inject_Z_plus. change (inject_Z 1) with 1. lra.
  - apply Qlt_alt in E. lra.
  - apply Qgt_alt in E. rewrite inject_Z_plus. change (inject_Z 1) with 1. lra.
Qed.

Lemma floor_unique x n : inject_Z n <= x -> x < inject_Z n + 1 -> Qfloor x = n.
Proof.
  intros A B. pose proof (Qfloor_le x) as C. pose proof (Qlt_floor x) as D. rewrite inject_Z_plus in D. change (inject_Z 1) with 1 in D.
  assert (inject_Z n < inject_Z (Qfloor x) + 1) as E by lra. assert (inject_Z (Qfloor x) < inject_Z n + 1) as F by lra.
  change 1 with (inject_Z 1) in E, F. rewrite <- inject_Z_plus, <- Zlt_Qlt in E, F. lia.
Qed.

Lemma floor_plus x n : Qfloor (x + inject_Z n) = (Qfloor x + n)%Z.
Proof.
  pose proof (Qfloor_le x) as C. pose proof (Qlt_floor x) as D. rewrite inject_Z_plus in D. change (inject_Z 1) with 1 in D.
  apply floor_unique; rewrite inject_Z_plus; lra.
Qed.

Global Instance np_round_comp : Proper (Qeq ==> eq) np_round.
Proof.
  intros x y E. unfold np_round. rewrite (Qfloor_comp _ _ E).
  assert (E' : x - inject_Z (Qfloor y) == y - inject_Z (Qfloor y)) by lra.
  rewrite (Qcompare_comp _ _ E' (1 # 2) (1 # 2) (Qeq_refl _)). reflexivity.
Qed.

(** Not halfway between two integers. *)
Definition no_half (x : Q) : Prop := forall n : Z, ~ x == inject_Z n + (1 # 2).

Lemma np_round_plus x n : no_half x -> np_round (x + inject_Z n) = (np_round x + n)%Z.
Proof.
  intros N. unfold np_round. rewrite floor_plus.
  assert (E : x + inject_Z n - inject_Z (Qfloor x + n) == x - inject_Z (Qfloor x)) by (rewrite inject_Z_plus; ring).
  rewrite (Qcompare_comp _ _ E (1 # 2) (1 # 2) (Qeq_refl _)).
  destruct (Qcompare (x - inject_Z (Qfloor x)) (1 # 2)) eqn:C; [|reflexivity|lia].
  apply Qeq_alt in C. exfalso. apply (N (Qfloor x)). lra.
Qed.

Lemma np_round_int n : np_round (inject_Z n) = n.
Proof.
  unfold np_round. rewrite Qfloor_Z.
  assert (E : inject_Z n - inject_Z n == 0) by ring.
  rewrite (Qcompare_comp _ _ E (1 # 2) (1 # 2) (Qeq_refl _)). reflexivity.
Qed.

(** * Positions of breaks *)

Fixpoint pairs (l : list Q) : list (Q * Q) := match l with x :: ((y :: _) as r) => (x, y) :: pairs r | _ => [] end.

Lemma where_pairs (c : Q -> bool) ts : forall pre l, ts = pre ++ l ->
  map (fun i => (at_ ts i, at_ ts (S i))) (where_ (length pre) (map c (diffs l))) = filter (fun p => c (snd p - fst p)) (pairs l).
Proof.
  intros pre l. revert pre. induction l as [|x [|y r] IH]; intros pre E; [reflexivity|reflexivity|].
  change (diffs (x :: y :: r)) with ((y - x) :: diffs (y :: r)). change (pairs (x :: y :: r)) with ((x, y) :: pairs (y :: r)).
  cbn [map where_ filter fst snd].
  assert (E' : ts = (pre ++ [x]) ++ y :: r) by (rewrite E, <- app_assoc; reflexivity).
  specialize (IH (pre ++ [x]) E'). rewrite app_length, Nat.add_comm in IH. cbn [length Nat.add] in IH.
  assert (H1 : at_ ts (length pre) = x) by (unfold at_; rewrite E, app_nth2, Nat.sub_diag by lia; reflexivity).
  assert (H2 : at_ ts (S (length pre)) = y).
  { unfold at_. rewrite E, app_nth2 by lia. replace (S (length pre) - length pre)%nat with 1%nat by lia. reflexivity. }
  destruct (c (y - x)); cbn [map]; rewrite IH, ?H1, ?H2; reflexivity.
Qed.

Lemma map_filter {A B} (f : A -> B) (P : B -> bool) l : map f (filter (fun x => P (f x)) l) = filter P (map f l).
Proof. induction l as [|x l IH]; [reflexivity|]. cbn. destruct (P (f x)); cbn; rewrite IH; reflexivity. Qed.
Lemma filter_filter {A} (P R : A -> bool) l : filter P (filter R l) = filter (fun x => R x && P x) l.
Proof. induction l as [|x l IH]; [reflexivity|]. cbn. destruct (R x); cbn; [destruct (P x)|]; rewrite IH; reflexivity. Qed.

Definition brk (mn mx a z x y : Q) : bool := (Qltb mx (y - x) || Qltb (y - x) mn) && (Qltb a x && Qltb y z).

Lemma chunks_pairs mn mx a z ts :
  chunks mn mx a z ts =
  filter (fun c => negb (Qeq_bool (fst c) (snd c)))
    (let bp := filter (fun p => brk mn mx a z (fst p) (snd p)) (pairs ts) in combine (a :: map snd bp) (map fst bp ++ [z])).
Proof.
  unfold chunks. cbv zeta. set (bs := breaks mn mx a z ts).
  assert (E : map (fun i => (at_ ts i, at_ ts (S i))) bs = filter (fun p => brk mn mx a z (fst p) (snd p)) (pairs ts)).
  { unfold bs, breaks, breaks_raw.
    rewrite (map_filter (fun i => (at_ ts i, at_ ts (S i))) (fun p => Qltb a (fst p) && Qltb (snd p) z)).
    pose proof (where_pairs (fun d => Qltb mx d || Qltb d mn) ts [] ts eq_refl) as W. cbn [length] in W.
    rewrite W, filter_filter. reflexivity. }
  rewrite <- E, !map_map. reflexivity.
Qed.

(** * Runs *)

Fixpoint split (br : Q -> Q -> bool) (l : list Q) : list (list Q) :=
  match l with
  | [] => []
  | x :: r =>
      match r with
      | [] => [[x]]
      | y :: _ => if br x y then [x] :: split br r
                  else match split br r with h :: t => (x :: h) :: t | [] => [[x]] end
      end
  end.

Lemma split_cons br x y r : split br (x :: y :: r) =
  if br x y then [x] :: split br (y :: r) else match split br (y :: r) with h :: t => (x :: h) :: t | [] => [[x]] end.
Proof. reflexivity. Qed.

Lemma split_head br x r : exists h t, split br (x :: r) = (x :: h) :: t.
Proof.
  revert x. induction r as [|y r IH]; intros x; [exists [], []; reflexivity|]. rewrite split_cons.
  destruct (br x y); [eauto|]. destruct (IH y) as (h & t & ->). eauto.
Qed.

Lemma split_ends br x r : let bp := filter (fun p => br (fst p) (snd p)) (pairs (x :: r)) in
  combine (x :: map snd bp) (map fst bp ++ [last (x :: r) 0]) = map (fun c => (hd 0 c, last c 0)) (split br (x :: r)).
Proof.
  revert x. induction r as [|y r IH]; intros x; [reflexivity|]. cbv zeta in *.
  change (pairs (x :: y :: r)) with ((x, y) :: pairs (y :: r)). rewrite split_cons. specialize (IH y).
  change (last (x :: y :: r) 0) with (last (y :: r) 0).
  cbn [filter fst snd]. destruct (br x y) eqn:B.
  - cbn [map app combine fst snd hd last]. f_equal. exact IH.
  - destruct (split_head br y r) as (h & t & E). rewrite E in IH |- *. set (bp := filter _ _) in *.
    destruct (map fst bp ++ [last (y :: r) 0]) as [|w ws] eqn:W; [destruct (map fst bp); discriminate|].
    cbn [combine map hd] in IH |- *. injection IH as IH1 IH2. rewrite IH2. f_equal. f_equal. rewrite IH1.
    destruct h; reflexivity.
Qed.

Lemma split_concat br l : concat (split br l) = l.
Proof.
  induction l as [|x [|y r] IH]; [reflexivity|reflexivity|]. rewrite split_cons.
  destruct (br x y); [cbn [concat app]; rewrite IH; reflexivity|].
  destruct (split_head br y r) as (h & t & E). rewrite E in IH |- *. cbn [concat app] in *. rewrite IH. reflexivity.
Qed.

Lemma split_inside br l : Forall (fun r => r <> [] /\ chain (fun x y => br x y = false) r) (split br l).
Proof.
  induction l as [|x [|y r] IH]; [constructor|repeat constructor; discriminate|]. rewrite split_cons.
  destruct (br x y) eqn:B; [constructor; [split; [discriminate|exact I]|exact IH]|].
  destruct (split_head br y r) as (h & t & E). rewrite E in IH |- *. inversion IH as [|? ? [_ C] IH']; subst.
  constructor; [|exact IH']. split; [discriminate|]. split; assumption.
Qed.

Lemma split_between br l : chain (fun r r' => forall x y, finishes r x -> begins r' y -> br x y = true) (split br l).
Proof.
  induction l as [|x [|y r] IH]; [exact I|exact I|]. rewrite split_cons.
  destruct (split_head br y r) as (h & t & E). destruct (br x y) eqn:B.
  - rewrite E in IH |- *. split; [|exact IH]. intros u v (l' & F) G. unfold begins in G. cbn in G. injection G as <-.
    destruct l' as [|? [|? ?]]; [injection F as <-; exact B|discriminate|discriminate].
  - rewrite E in IH |- *. destruct t as [|r' t]; [exact I|]. destruct IH as [IH1 IH2]. split; [|exact IH2].
    intros u v (l' & F) G. apply IH1; [|exact G]. destruct l' as [|w l']; [discriminate|]. injection F as _ F. exists l'. exact F.
Qed.

Lemma brk_break a z x y : brk 0 (25 # 1000) a z x y = true <-> break a z x y.
Proof.
  unfold brk, break. rewrite !andb_true_iff, orb_true_iff, !Qltb_lt.
  split; intros [[A|A] B]; (split; [|exact B]); [left|right|left|right]; lra.
Qed.

Lemma finishes_last l x : finishes l x -> last l 0 = x.
Proof. intros (l' & ->). apply last_last. Qed.
Lemma last_finishes l : l <> [] -> finishes l (last l 0).
Proof. intros N. exists (removelast l). apply app_removelast_last. exact N. Qed.
Lemma begins_hd l x : begins l x -> hd 0 l = x.
Proof. destruct l; intros [= <-]. reflexivity. Qed.
Lemma hd_begins l : l <> [] -> begins l (hd 0 l).
Proof. destruct l; [contradiction|reflexivity]. Qed.

Definition cut (ts : list Q) : list (list Q) := split (brk 0 (25 # 1000) (hd 0 ts) (last ts 0)) ts.

Lemma cut_runs ts : ts <> [] -> runs_of ts (cut ts).
Proof.
  intros N. split; [apply split_concat|]. exists (hd 0 ts), (last ts 0).
  split; [apply hd_begins; exact N|]. split; [apply last_finishes; exact N|]. split.
  - eapply Forall_impl; [|apply split_inside]. intros r [A B]. split; [exact A|].
    eapply chain_imp; [|exact B]. cbn. intros x y E X. apply brk_break in X. congruence.
  - eapply chain_imp; [|apply split_between]. cbn. intros r r' X x y F G. apply brk_break. exact (X x y F G).
Qed.

(** The decomposition is unique. *)
Lemma runs_split br ts runs : concat runs = ts ->
  Forall (fun r => r <> [] /\ chain (fun x y => br x y = false) r) runs ->
  chain (fun r r' => forall x y, finishes r x -> begins r' y -> br x y = true) runs -> runs = split br ts.
Proof.
  revert runs. induction ts as [|x [|y r] IH]; intros runs E F C.
  - destruct runs as [|[|w r] runs]; [reflexivity|inversion F as [|? ? [X _] _]; contradiction|discriminate].
  - destruct runs as [|[|w r] runs]; [discriminate|inversion F as [|? ? [X _] _]; contradiction|].
    injection E as -> E. apply app_eq_nil in E as [-> E]. destruct runs as [|[|u v] runs]; [reflexivity| |discriminate].
    inversion F as [|? ? _ F']; subst. inversion F' as [|? ? [X _] _]. contradiction.
  - destruct runs as [|[|w rr] runs]; [discriminate|inversion F as [|? ? [X _] _]; contradiction|].
    cbn [concat app] in E. injection E as -> E. rewrite split_cons. inversion F as [|? ? [_ Cw] F']; subst.
    destruct rr as [|w rr].
    + cbn in E. destruct runs as [|r1 runs]; [discriminate|].
      destruct r1 as [|y' r1]; [inversion F' as [|? ? [X _] _]; contradiction|].
      assert (y' = y) as -> by (injection E; auto). destruct C as [C1 C2].
      rewrite (C1 x y); [|exists []; reflexivity|reflexivity]. f_equal. apply IH; [exact E|exact F'|exact C2].
    + cbn in E. assert (w = y) as -> by (injection E; auto). destruct Cw as [B Cw]. rewrite B.
      rewrite <- (IH ((y :: rr) :: runs)).
      * reflexivity.
      * exact E.
      * constructor; [split; [discriminate|exact Cw]|exact F'].
      * destruct runs as [|r1 runs]; [exact I|]. destruct C as [C1 C2]. split; [|exact C2].
        intros u v (l' & Fu) G. apply C1; [|exact G]. exists (x :: l'). rewrite Fu. reflexivity.
Qed.

Lemma runs_unique ts runs : ts <> [] -> runs_of ts runs -> runs = cut ts.
Proof.
  intros N (E & a & z & Ba & Fz & F & C). unfold cut. rewrite (begins_hd _ _ Ba), (finishes_last _ _ Fz). apply runs_split; [exact E| |].
  - eapply Forall_impl; [|exact F]. intros r [A B]. split; [exact A|]. eapply chain_imp; [|exact B]. cbn. intros x y X.
    destruct (brk 0 (25 # 1000) a z x y) eqn:Y; [|reflexivity]. apply brk_break in Y. contradiction.
  - eapply chain_imp; [|exact C]. cbn. intros r r' X x y G H. apply brk_break. exact (X x y G H).
Qed.

(** * Resampling *)

Lemma near_around s e pts : near s e pts = around s e pts.
Proof.
  unfold near, around. apply filter_ext. intros p. f_equal; apply eq_true_iff_eq; rewrite !Qle_bool_iff; split; lra.
Qed.

Lemma timed_points_points rows : points rows (timed_points rows).
Proof.
  unfold points, timed_points. induction rows as [|[[t|] v] rows IH]; [reflexivity| |exact IH]. cbn. rewrite IH. reflexivity.
Qed.
Lemma points_unique rows pts : points rows pts -> pts = timed_points rows.
Proof.
  intros E. pose proof (timed_points_points rows) as E'. unfold points in *. rewrite <- E in E'. revert E'. generalize (timed_points rows).
  clear. induction pts as [|[t v] pts IH]; intros [|[t' v'] l] E; try discriminate; [reflexivity|].
  injection E as -> -> E. f_equal. apply IH. exact E.
Qed.

Lemma floor_pos x : (0 < Z.to_nat (Qfloor x))%nat -> inject_Z (Z.of_nat (Z.to_nat (Qfloor x))) <= x /\ x < inject_Z (Z.of_nat (Z.to_nat (Qfloor x))) + 1.
Proof.
  intros P. rewrite Z2Nat.id by lia. pose proof (Qfloor_le x). pose proof (Qlt_floor x) as D.
  rewrite inject_Z_plus in D. split; assumption.
Qed.

Lemma grid_resampling f s e t0 g : grid s e = t0 :: g -> resampling f s e (mktr t0 (map (fun t => np_round (f t)) (t0 :: g))).
Proof.
  intros E. unfold grid in E. set (n := Z.to_nat (Qfloor ((e - s) / (1 # 100)))) in *.
  unfold resampling. cbv zeta. cbn [tr_data tr_start]. rewrite <- E, !map_length, seq_length.
  assert (P : (0 < n)%nat) by (destruct n; [discriminate|lia]).
  destruct (floor_pos _ P) as [A B]. fold n in A, B.
  assert (Ed : (e - s) / (1 # 100) == (e - s) * 100) by (field; discriminate).
  rewrite Ed in A, B. split; [lia|]. split; [lra|]. split; [lra|].
  exists (fun k => round2 (s + inject_Z (Z.of_nat k) * (1 # 100))). split.
  - intros k K. split; [|split].
    + exists (np_round ((s + inject_Z (Z.of_nat k) * (1 # 100)) * 100)). unfold round2. ring.
    + unfold round2. set (x := s + inject_Z (Z.of_nat k) * (1 # 100)). pose proof (np_round_near (x * 100)) as R.
      apply Qabs_Qle_condition in R. apply Qabs_Qle_condition. lra.
    + exists (np_round (f (round2 (s + inject_Z (Z.of_nat k) * (1 # 100))))). split; [|apply np_round_near].
      rewrite map_map. apply (map_nth_error (fun k => np_round (f (round2 (s + inject_Z (Z.of_nat k) * (1 # 100)))))).
      rewrite (nth_error_nth' _ 0%nat) by (rewrite seq_length; exact K). rewrite seq_nth by exact K. reflexivity.
  - destruct n; [lia|]. cbn [seq map] in E. injection E as <- _. reflexivity.
Qed.

Lemma grid_nil s e : grid s e = [] <-> e - s < 1 # 100.
Proof.
  unfold grid. assert (Ed : (e - s) / (1 # 100) == (e - s) * 100) by (field; discriminate). rewrite Ed. split.
  - intros E. apply map_eq_nil in E. destruct (Z.to_nat (Qfloor ((e - s) * 100))) eqn:N; [|discriminate].
    assert (Z : (Qfloor ((e - s) * 100) <= 0)%Z) by lia.
    pose proof (Qlt_floor ((e - s) * 100)) as D. rewrite inject_Z_plus in D. change (inject_Z 1) with 1 in D.
    rewrite Zle_Qle in Z. change (inject_Z 0) with 0 in Z. lra.
  - intros L. assert (Qfloor ((e - s) * 100) <= 0)%Z as Z.
    { assert (Qfloor ((e - s) * 100) < 1)%Z; [|lia]. rewrite Zlt_Qlt. pose proof (Qfloor_le ((e - s) * 100)). change (inject_Z 1) with 1. lra. }
    replace (Z.to_nat (Qfloor ((e - s) * 100))) with 0%nat by lia. reflexivity.
Qed.

Section Spline.
  Variable spline : list (Q * option Q) -> option (Q -> Q).

  Lemma resample_runs pts runs : Forall (fun r => r <> []) runs ->
    match resample spline pts (filter (fun c => negb (Qeq_bool (fst c) (snd c))) (map (fun c => (hd 0 c, last c 0)) runs)) with
    | Some trs => resampled spline pts runs trs /\ Forall (fun r => ~ too_short spline pts r) runs
    | None => Exists (too_short spline pts) runs
    end.
  Proof.
    induction 1 as [|r runs N _ IH]; [split; constructor|]. cbn [map filter fst snd].
    pose proof (hd_begins r N) as B. pose proof (last_finishes r N) as F.
    set (s := hd 0 r) in *. set (e := last r 0) in *. set (rest := filter _ _) in *.
    assert (Un : forall s' e', begins r s' -> finishes r e' -> s' = s /\ e' = e).
    { intros s' e' B' F'. rewrite <- (begins_hd _ _ B'), <- (finishes_last _ _ F'). auto. }
    destruct (Qeq_bool s e) eqn:Q; cbn [negb].
    - apply Qeq_bool_iff in Q. destruct (resample spline pts rest) as [trs|]; [|right; exact IH].
      destruct IH as [R T]. split; [eapply res_single; eassumption|]. constructor; [|exact T].
      intros (s' & e' & f & B' & F' & Ne & _). destruct (Un _ _ B' F') as [-> ->]. contradiction.
    - assert (Ne : ~ s == e) by (intros X; apply Qeq_bool_iff in X; congruence).
      cbn [resample]. rewrite near_around. destruct (spline (around s e pts)) as [f|] eqn:Sp.
      + destruct (grid s e) as [|t0 g] eqn:G.
        * left. exists s, e, f. repeat (split; [assumption|]). apply grid_nil. exact G.
        * destruct (resample spline pts rest) as [trs|]; [|right; exact IH]. destruct IH as [R T]. split.
          -- eapply res_trace; [exact B|exact F|exact Ne|exact Sp|apply grid_resampling; exact G|exact R].
          -- constructor; [|exact T]. intros (s' & e' & f' & B' & F' & _ & _ & L). destruct (Un _ _ B' F') as [-> ->].
             apply grid_nil in L. congruence.
      + destruct (resample spline pts rest) as [trs|]; [|right; exact IH]. destruct IH as [R T].
        split; [eapply res_failed; eassumption|]. constructor; [|exact T].
        intros (s' & e' & f' & B' & F' & _ & Sp' & _). destruct (Un _ _ B' F') as [-> ->]. congruence.
  Qed.

  Lemma interp_cut rows : let pts := timed_points rows in let ts := map fst pts in ts <> [] ->
    interp spline rows = resample spline pts (filter (fun c => negb (Qeq_bool (fst c) (snd c))) (map (fun c => (hd 0 c, last c 0)) (cut ts))).
  Proof.
    cbv zeta. intros N. unfold interp, interp_time. set (pts := timed_points rows) in *. set (ts := map fst pts) in *.
    assert (F1 : first_from None ts = Some (hd 0 ts)) by (destruct ts; [contradiction|reflexivity]).
    assert (F2 : last_upto None ts = Some (last ts 0)).
    { unfold last_upto. rewrite (app_removelast_last 0 N) at 1. rewrite rev_app_distr. reflexivity. }
    rewrite F1, F2, chunks_pairs. f_equal. f_equal. cbv zeta. unfold cut.
    destruct ts as [|x r]; [contradiction|]. exact (split_ends (brk 0 (25 # 1000) x (last (x :: r) 0)) x r).
  Qed.

  Lemma interp_empty rows : map fst (timed_points rows) = [] -> interp spline rows = None.
  Proof. intros E. unfold interp, interp_time. rewrite E. reflexivity. Qed.
End Spline.
