(** C38: analysis in sliding windows. *)
From Coq Require Import String.
From Coq Require Import ZArith QArith Qround List Bool Lia Lqa.
From Verif Require Import Lib Base Scan Unwrap UnwrapProofs NamesProofs StationsSpec StationsProofs InventorySpec InventoryProofs GpsProofs Windows WindowsSpec WindowsProofs.
Import ListNotations.
Open Scope Q_scope.

Local Arguments b : simpl never.

(** C38.  On a record longer than one window, the windows are evenly spaced from the beginning to the end
    of the record, overlap by the wanted fraction (up to a millionth of the step) and are as few as this
    allows.  If the analysis succeeds in all of them, the result has for each window its middle time and the
    items found in it; otherwise the exception is passed on. *)
Theorem C38_windows : forall S V (f : list (bytes * list (Q * S)) -> option (list (bytes * V))) st t1 t2 win overlap,
  (forall w d, f w = Some d -> NoDup (map fst d)) ->
  record st t1 t2 -> 0 < win -> 0 <= overlap < 1 -> win + (1#1000000) * wanted_step win overlap < t2 - t1 ->
  exists m step starts, (1 <= m)%nat /\ spread t1 t2 win step m starts /\
    0 < step <= (1 + (1#1000000)) * wanted_step win overlap /\
    (forall m', (1 <= m')%nat -> t2 - t1 - win <= inject_Z (Z.of_nat m') * wanted_step win overlap -> (m <= m')%nat) /\
    match apply_function_windows f st win overlap with
    | Some (tmid, cols) => exists ds,
        Forall2 (fun s d => exists w, cut (in_window win s) st w /\ f w = Some d) starts ds /\
        Forall2 (fun s t => t == s + win / 2) starts tmid /\ table_of ds cols
    | None => exists s w, In s starts /\ cut (in_window win s) st w /\ f w = None
    end.
Proof.
  intros S V f st t1 t2 win overlap FD (id & tr & rest & E & (x & r & E1 & <-) & (y & r' & E2 & <-)) W O L.
  set (len := (fst y - fst x)%Q).
  assert (L' : win * (1 + eps * (1 - overlap)) < len).
  { unfold wanted_step in L. fold eps in L. unfold len. assert (Q : win * (1 + eps * (1 - overlap)) == win + eps * (win * (1 - overlap))) by ring. rewrite Q. exact L. }
  set (n := num_windows len win overlap). set (m := Z.to_nat (n - 1)).
  set (start := fun i => win_start (fst x) len win n (Z.of_nat i)).
  assert (T := n_two len win overlap W O L'). fold n in T.
  exists m, ((len - win) / inject_Z (n - 1)), (map start (seq 0 (Datatypes.S m))).
  split; [apply (m_pos len win overlap W O L')|].
  assert (SEQ : forall i s, nth_error (map start (seq 0 (Datatypes.S m))) i = Some s -> s = start i /\ (i < Datatypes.S m)%nat).
  { intros i s H. assert (B : (i < Datatypes.S m)%nat).
    { rewrite <- (seq_length (Datatypes.S m) 0), <- (map_length start). apply nth_error_Some. congruence. }
    split; [|exact B].
    assert (NE : nth_error (seq 0 (Datatypes.S m)) i = Some i).
    { rewrite (nth_error_nth' (seq 0 (Datatypes.S m)) 0%nat) by (rewrite seq_length; exact B). f_equal. rewrite seq_nth by exact B. reflexivity. }
    rewrite (map_nth_error start _ _ NE) in H. congruence. }
  split; [|split; [|split]].
  - split; [rewrite map_length, seq_length; reflexivity|]. intros i s H. destruct (SEQ i s H) as [-> B]. split.
    + apply (start_is (fst x) len win overlap W O L').
    + intros ->. unfold start, m, n. rewrite (last_start (fst x) len win overlap W O L'). unfold len. ring.
  - destruct (gap_le len win overlap W O L') as [G1 G2]. split; [exact G2|exact G1].
  - intros m' M H. apply (m_least len win overlap W O L' m' M H).
  - assert (AE : apply_function_windows f st win overlap = run_windows f st (fst x) len win n 0 (Z.to_nat n) [] []).
    { assert (RV : rev tr = y :: rev r') by (rewrite E2, rev_app_distr; reflexivity).
      unfold apply_function_windows. rewrite E. cbn [snd]. rewrite RV, E1. cbn zeta. fold len. fold n.
      replace (n =? 1)%Z with false by (symmetry; apply Z.eqb_neq; lia). reflexivity. }
    rewrite AE.
    assert (R := run_spec f FD st (fst x) len win n (Z.to_nat n) 0 [] [] [] eq_refl).
    assert (TN : table_of (V := V) [] []) by (split; [constructor|intros k c []]).
    specialize (R TN (Forall2_nil _) (Forall2_nil _)). cbn [Nat.add] in R.
    replace (Z.to_nat n) with (Datatypes.S m) in R |- * by (unfold m; lia).
    assert (CW : forall j, cut (in_window win (start j)) st (window_of st (fst x) len win n j)).
    { intros j. unfold window_of. fold (start j). apply slice_cut. intros t. reflexivity. }
    destruct (run_windows f st (fst x) len win n 0 (Datatypes.S m) [] []) as [[tmid cols]|].
    + destruct R as (ds & R1 & R2 & R3). exists ds. split; [|split; [|exact R1]].
      * clear - R3 CW. revert R3. generalize (seq 0 (Datatypes.S m)). intros l F. induction F as [|j d l ds H F IH]; [constructor|].
        cbn [map]. constructor; [|exact IH]. exists (window_of st (fst x) len win n j). split; [apply CW|exact H].
      * clear - R2. fold start in R2. revert R2. generalize (seq 0 (Datatypes.S m)). intros l F. induction F as [|j d l ds H F IH]; [constructor|].
        cbn [map]. constructor; [exact H|exact IH].
    + destruct R as (j & J & R). exists (start j), (window_of st (fst x) len win n j). split; [|split; [apply CW|exact R]].
      apply in_map. apply in_seq. lia.
Qed.

(** Every instant of the record belongs to a window, up to the last microsecond, if the wanted overlap is
    a millionth or more. *)
Theorem C38_no_gap : forall t1 t2 win overlap step m starts t,
  0 < win -> (1#1000000) <= overlap < 1 -> (1 <= m)%nat -> spread t1 t2 win step m starts ->
  0 < step <= (1 + (1#1000000)) * wanted_step win overlap ->
  t1 <= t <= t2 - (1#1000000) -> exists s, In s starts /\ in_window win s t.
Proof.
  intros t1 t2 win overlap step m starts t W O M [L SP] ST T.
  assert (SW : step <= win).
  { unfold wanted_step in ST. assert (Q1 : (1 + (1#1000000)) * (win * (1 - overlap)) <= win); [|lra].
    assert (Q2 : (1 + (1#1000000)) * (win * (1 - overlap)) == win * ((1 + (1#1000000)) * (1 - overlap))) by ring. rewrite Q2.
    rewrite <- (Qmult_1_r win) at 2. apply Qmult_le_l; [exact W|]. lra. }
  set (e := (1#1000000)) in *. assert (EP : 0 < e) by reflexivity.
  (* the last window that starts in time *)
  assert (A : forall k, (k <= m)%nat -> (exists s, In s starts /\ in_window win s t) \/ t1 + inject_Z (Z.of_nat k) * step - e <= t).
  { induction k as [|k IH]; intros K.
    - right. change (inject_Z (Z.of_nat 0)) with 0. lra.
    - destruct IH as [H|H]; [lia|left; exact H|].
      destruct (Qlt_le_dec t (t1 + inject_Z (Z.of_nat (S k)) * step - e)) as [Q|Q]; [|right; exact Q]. left.
      destruct (nth_error starts k) as [s|] eqn:E; [|apply nth_error_None in E; lia]. exists s. split; [apply nth_error_In in E; exact E|].
      destruct (SP k s E) as [X _]. unfold in_window. fold e. rewrite Nat2Z.inj_succ in Q. unfold Z.succ in Q. rewrite inject_Z_plus in Q.
      change (inject_Z 1) with 1 in Q. lra. }
  destruct (A m (Nat.le_refl m)) as [H|H]; [exact H|].
  destruct (nth_error starts m) as [s|] eqn:E; [|apply nth_error_None in E; lia]. exists s. split; [apply nth_error_In in E; exact E|].
  destruct (SP m s E) as [X Y]. specialize (Y eq_refl). unfold in_window. fold e. lra.
Qed.

(** Records that are not long enough: about as long as a window, there is an exception; shorter by (about)
    the wanted step, there is no window. *)
Theorem C38_short : forall S V (f : list (bytes * list (Q * S)) -> option (list (bytes * V))) st t1 t2 win overlap,
  record st t1 t2 -> 0 < win -> 0 <= overlap < 1 ->
  (win - (1 - (1#1000000)) * wanted_step win overlap < t2 - t1 <= win + (1#1000000) * wanted_step win overlap ->
     apply_function_windows f st win overlap = None) /\
  (t2 - t1 <= win - (1 - (1#1000000)) * wanted_step win overlap ->
     apply_function_windows f st win overlap = Some ([], [])).
Proof.
  intros S V f st t1 t2 win overlap (id & tr & rest & E & (x & r & E1 & <-) & (y & r' & E2 & <-)) W O.
  set (len := (fst y - fst x)%Q). set (n := num_windows len win overlap).
  assert (AE : apply_function_windows f st win overlap = if (n =? 1)%Z then None else run_windows f st (fst x) len win n 0 (Z.to_nat n) [] []).
  { assert (RV : rev tr = y :: rev r') by (rewrite E2, rev_app_distr; reflexivity).
    unfold apply_function_windows. rewrite E. cbn [snd]. rewrite RV, E1. reflexivity. }
  rewrite AE. clear AE. assert (N1 := n_le len win overlap W O 1). assert (N0 := n_ge len win overlap W O 0). assert (N0' := n_le len win overlap W O 0).
  fold n in N1, N0, N0'. change (inject_Z 1) with 1 in N1. change (inject_Z 0) with 0 in N0, N0'. fold eps.
  split; intros H.
  - assert (N : n = 1%Z); [|rewrite (proj2 (Z.eqb_eq n 1)) by assumption; reflexivity].
    assert (n <= 1)%Z; [apply N1|]. { assert (Q : (1 - 1 + eps) * wanted_step win overlap == eps * wanted_step win overlap) by ring. rewrite Q. lra. }
    assert (0 < n)%Z; [apply N0|lia]. assert (Q : (0 - 1 + eps) * wanted_step win overlap == - ((1 - eps) * wanted_step win overlap)) by ring. rewrite Q. lra.
  - assert (n <= 0)%Z; [apply N0'|]. { assert (Q : (0 - 1 + eps) * wanted_step win overlap == - ((1 - eps) * wanted_step win overlap)) by ring. rewrite Q. lra. }
    replace (n =? 1)%Z with false by (symmetry; apply Z.eqb_neq; lia). replace (Z.to_nat n) with 0%nat by lia. reflexivity.
Qed.

(** Only numbers that make sense are accepted (or, for the corner frequencies and the window length, NaN). *)
Theorem C38_validated : forall fl fh win overlap upsample,
  validate_inputs fl fh win overlap upsample = true <->
  (forall x, fl = Some x -> 0 <= x) /\ (forall x, fh = Some x -> 0 <= x) /\ (forall x y, fl = Some x -> fh = Some y -> x < y) /\
  (forall w, win = Some w -> 0 < w) /\ (exists o, overlap = Some o /\ 0 <= o < 1) /\ (exists u, upsample = Some u /\ 1 <= u).
Proof.
  intros fl fh win overlap upsample. unfold validate_inputs.
  assert (LT : forall x y, lt_nan x (Some y) = false <-> forall a, x = Some a -> y <= a).
  { intros [a|] y; cbn; [|split; [intros _ a; discriminate|reflexivity]]. split.
    - intros H c Q. injection Q as <-. apply Qltb_ge. exact H.
    - intros H. apply Qltb_ge. apply H. reflexivity. }
  assert (LE : forall x y, le_nan x y = false <-> forall a c, x = Some a -> y = Some c -> c < a).
  { intros [a|] [c|]; cbn; try (split; [intros _ ? ?; discriminate|reflexivity]). split.
    - intros H a' c' Q1 Q2. injection Q1 as <-. injection Q2 as <-. apply Qnot_le_lt. rewrite <- Qle_bool_iff, H. discriminate.
    - intros H. apply not_true_is_false. rewrite Qle_bool_iff. apply Qlt_not_le. apply H; reflexivity. }
  assert (GE : forall y, le_nan (Some 0) y = true <-> exists o, y = Some o /\ 0 <= o).
  { intros [o|]; cbn; [rewrite Qle_bool_iff|]; split; try discriminate.
    - intros H. exists o. auto.
    - intros (o' & Q & H). injection Q as ->. exact H.
    - intros (o' & Q & H). discriminate. }
  assert (GL : forall y, lt_nan y (Some 1) = true <-> exists o, y = Some o /\ o < 1).
  { intros [o|]; cbn; [rewrite Qltb_lt|]; split; try discriminate.
    - intros H. exists o. auto.
    - intros (o' & Q & H). injection Q as ->. exact H.
    - intros (o' & Q & H). discriminate. }
  assert (GU : forall y, le_nan (Some 1) y = true <-> exists o, y = Some o /\ 1 <= o).
  { intros [o|]; cbn; [rewrite Qle_bool_iff|]; split; try discriminate.
    - intros H. exists o. auto.
    - intros (o' & Q & H). injection Q as ->. exact H.
    - intros (o' & Q & H). discriminate. }
  rewrite !andb_true_iff, !negb_true_iff, !orb_false_iff, !LT, !LE, GE, GL, GU. split.
  - intros (((((A1 & A2) & A3) & A4) & (A5 & A6)) & A7). split; [exact A1|]. split; [exact A2|].
    split; [intros x y X Y; apply (A3 y x Y X)|]. split; [intros w X; apply (A4 w 0 X eq_refl)|]. split; [|exact A7].
    destruct A5 as (o & -> & H1). destruct A6 as (o' & Q & H2). injection Q as <-. exists o. auto.
  - intros (A1 & A2 & A3 & A4 & (o & -> & H1 & H2) & A7). split; [split; [split; [split; [split; [exact A1|exact A2]|]|]|split]|exact A7].
    + intros a c X Y. apply (A3 c a Y X).
    + intros a c X Y. injection Y as <-. apply (A4 a X).
    + exists o. auto.
    + exists o. auto.
Qed.

(** Not true: that a record of exactly one window length is analysed. *)
Theorem C38_one_window_refuted : forall S V (f : list (bytes * list (Q * S)) -> option (list (bytes * V))) st t1 win,
  record st t1 (t1 + win) -> 0 < win -> apply_function_windows f st win 0 = None.
Proof.
  intros S V f st t1 win R W. destruct (C38_short S V f st t1 (t1 + win) win 0 R W ltac:(split; [apply Qle_refl|reflexivity])) as [H _].
  apply H. unfold wanted_step. lra.
Qed.

(** Not true: that the last sample of the record is used. *)
Theorem C38_last_sample_refuted : forall t1 t2 win step m starts s,
  0 < step -> spread t1 t2 win step m starts -> In s starts -> ~ in_window win s t2.
Proof.
  intros t1 t2 win step m starts s P [L SP] I1 [_ H]. destruct (In_nth_error _ _ I1) as (i & E).
  assert (B : (i < length starts)%nat) by (apply nth_error_Some; congruence).
  destruct (nth_error starts m) as [z|] eqn:EM; [|apply nth_error_None in EM; lia].
  destruct (SP m z EM) as [Z1 Z2]. specialize (Z2 eq_refl). destruct (SP i s E) as [S1 _].
  assert (LE : inject_Z (Z.of_nat i) * step <= inject_Z (Z.of_nat m) * step).
  { apply Qmult_le_compat_r; [|lra]. rewrite <- Zle_Qle. lia. }
  lra.
Qed.

(** A case: ten samples, one per second, in windows of four seconds overlapping by half; the analysis
    counts samples and, where there are four, names the first. *)
Definition demo_stream : list (bytes * list (Q * Z)) :=
  [(b "A", map (fun k => (inject_Z (Z.of_nat k), Z.of_nat (10 * k))) (seq 0 10)); (b "B", [(3#1, 7%Z)])].
Definition demo_analysis (w : list (bytes * list (Q * Z))) : option (list (bytes * Z)) :=
  match w with
  | (_, x :: r) :: rest => Some ((b "n", Z.of_nat (length r + 1)) :: (b "traces", Z.of_nat (length rest + 1)) ::
      (if Nat.eqb (length r) 2 then [] else [(b "first", snd x)]))
  | _ => None
  end.
Example C38_case :
  record demo_stream 0 9 /\ 4 + (1#1000000) * wanted_step 4 (1#2) < 9 - 0 /\
  match apply_function_windows demo_analysis demo_stream 4 (1#2) with
  | Some (tmid, cols) => map Qred tmid = [2; 11#3; 16#3; 7] /\
      cols = [(b "n", [Some 4; Some 4; Some 4; Some 4]); (b "traces", [Some 2; Some 2; Some 1; Some 1]);
              (b "first", [Some 0; Some 20; Some 40; Some 50])]%Z
  | None => False
  end.
Proof.
  split; [|split; [reflexivity|]].
  - unfold demo_stream. do 3 eexists. split; [reflexivity|]. split.
    + do 2 eexists. split; reflexivity.
    + exists (9, 90%Z), (map (fun k => (inject_Z (Z.of_nat k), Z.of_nat (10 * k))) (seq 0 9)). split; reflexivity.
  - vm_compute. split; reflexivity.
Qed.

Print Assumptions C38_windows.
Print Assumptions C38_no_gap.
Print Assumptions C38_short.
Print Assumptions C38_validated.
