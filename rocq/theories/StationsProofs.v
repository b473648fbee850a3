From Coq Require Import String.
From Coq Require Import ZArith QArith List Bool Lia Permutation Arith.
From Verif Require Import Lib Base Scan CalendarSpec Names NamesSpec NamesProofs Stations StationsSpec.
Import ListNotations.
Open Scope Z_scope.

Local Arguments lower : simpl never.
Local Arguments b : simpl never.

(** * Names and capitals *)

Definition lc (c : Z) : Z := if (65 <=? c) && (c <=? 90) then c + 32 else c.
Lemma lower_map s : lower s = map lc s. Proof. reflexivity. Qed.

Definition lowercase (k : bytes) : Prop := Forall (fun c => ~ 65 <= c <= 90) k.

Lemma lc_upper c : 65 <= c <= 90 -> lc c = c + 32.
Proof. intros H. unfold lc. replace ((65 <=? c) && (c <=? 90)) with true by (symmetry; apply andb_true_intro; lia). reflexivity. Qed.
Lemma lc_other c : ~ 65 <= c <= 90 -> lc c = c.
Proof.
  intros H. unfold lc. destruct ((65 <=? c) && (c <=? 90)) eqn:E; [|reflexivity].
  apply andb_true_iff in E. lia.
Qed.

Lemma letter_iff n k : ~ 65 <= k <= 90 -> (same_letter n k <-> lc n = k).
Proof.
  intros K. split.
  - intros H. inversion H; subst.
    + apply lc_other. exact K.
    + apply lc_upper. assumption.
    + lia.
  - intros H. destruct (Z_le_dec 65 n) as [A|A]; [destruct (Z_le_dec n 90) as [B|B]|].
    + rewrite lc_upper in H by lia. subst k. apply sl_upper. lia.
    + rewrite lc_other in H by lia. subst. apply sl_same.
    + rewrite lc_other in H by lia. subst. apply sl_same.
Qed.

Lemma same_name_iff n k : lowercase k -> (same_name n k <-> lower n = k).
Proof.
  intros L. rewrite lower_map. revert n. induction L as [|c k H L IH]; intros n.
  - split; intros E; [inversion E; reflexivity|destruct n; [constructor|discriminate]].
  - split; intros E.
    + inversion E as [|a c' n' k' A B]; subst. cbn. f_equal; [apply letter_iff; assumption|apply IH; assumption].
    + destruct n as [|a n]; [discriminate|]. cbn in E. injection E as E1 E2.
      constructor; [apply letter_iff; assumption|apply IH; assumption].
Qed.

Lemma five_lower k : In k five -> lowercase k.
Proof.
  intros H. cbn in H. unfold lowercase.
  repeat (destruct H as [<-|H]; [repeat constructor; vm_compute; intros [A B]; congruence|]). destruct H.
Qed.

(** * Columns by lower-case name *)

Fixpoint data_of (t : table) (k : bytes) : option (list cell) :=
  match t with
  | [] => None
  | (n, c) :: r => if eqb_bytes (lower n) k then Some c else data_of r k
  end.
Definition lnames (t : table) : list bytes := map (fun p => lower (fst p)) t.
Definition ok_table (t : table) : Prop := NoDup (lnames t) /\ (forall n, In n (lnames t) -> In n five).

Lemma allowed_lower K : In K allowed -> In (lower K) five.
Proof.
  intros H. cbn in H. repeat (destruct H as [<-|H]; [vm_compute; tauto|]). destruct H.
Qed.

Lemma same_start_iff n K : In (lower n) five -> In K allowed ->
  (same_start n K = true <-> lower n = lower K).
Proof.
  intros N A. unfold same_start. rewrite eqb_bytes_iff. split; [|intros ->; reflexivity].
  generalize (lower n) N. clear n N. intros n N. cbn in A, N.
  repeat (destruct A as [<-|A]; [|]); try contradiction;
  repeat (destruct N as [<-|N]; [|]); try contradiction; vm_compute; congruence.
Qed.

Lemma data_none t k : data_of t k = None <-> ~ In k (lnames t).
Proof.
  induction t as [|[n c] t IH]; cbn.
  - split; auto.
  - destruct (eqb_bytes (lower n) k) eqn:E.
    + apply eqb_bytes_iff in E. split; [discriminate|]. intros H. exfalso. apply H. left. exact E.
    + rewrite IH. split; [|tauto]. intros H [C|C]; [|tauto]. apply eqb_bytes_iff in C. congruence.
Qed.
Lemma data_some t k c : data_of t k = Some c ->
  exists t1 n t2, t = t1 ++ (n, c) :: t2 /\ lower n = k /\ ~ In k (lnames t1).
Proof.
  induction t as [|[n c'] t IH]; cbn; [discriminate|].
  destruct (eqb_bytes (lower n) k) eqn:E.
  - intros H. injection H as ->. exists [], n, t. apply eqb_bytes_iff in E. cbn. auto.
  - intros H. destruct (IH H) as (t1 & m & t2 & -> & A & B). exists ((n, c') :: t1), m, t2.
    split; [reflexivity|]. split; [exact A|]. cbn. intros [C|C]; [|tauto]. apply eqb_bytes_iff in C. congruence.
Qed.
Lemma data_app t1 t2 k : data_of (t1 ++ t2) k = match data_of t1 k with Some c => Some c | None => data_of t2 k end.
Proof. induction t1 as [|[n c] t1 IH]; cbn; [reflexivity|]. destruct (eqb_bytes (lower n) k); [reflexivity|exact IH]. Qed.

Lemma lnames_app t1 t2 : lnames (t1 ++ t2) = lnames t1 ++ lnames t2.
Proof. apply map_app. Qed.

Lemma pop_none t K : ok_table t -> In K allowed -> data_of t (lower K) = None -> pop_like t K = None.
Proof.
  intros O A. destruct O as [_ O]. induction t as [|[n c] t IH]; intros H; [reflexivity|].
  cbn in H |- *. destruct (eqb_bytes (lower n) (lower K)) eqn:E; [discriminate|].
  destruct (same_start n K) eqn:F.
  - apply same_start_iff in F; [|apply O; left; reflexivity|exact A]. apply eqb_bytes_iff in F. congruence.
  - rewrite IH; [reflexivity| |exact H]. intros m M. apply O. right. exact M.
Qed.
Lemma pop_some t1 n c t2 K : ok_table (t1 ++ (n, c) :: t2) -> In K allowed -> lower n = lower K ->
  ~ In (lower K) (lnames t1) -> pop_like (t1 ++ (n, c) :: t2) K = Some (c, t1 ++ t2).
Proof.
  intros [_ O] A L N. induction t1 as [|[m d] t1 IH].
  - cbn. assert (F : same_start n K = true) by (unfold same_start; rewrite L; apply eqb_bytes_iff; reflexivity).
    rewrite F. reflexivity.
  - cbn in O, N |- *. destruct (same_start m K) eqn:F.
    + apply same_start_iff in F; [|apply O; left; reflexivity|exact A]. exfalso. apply N. left. exact F.
    + rewrite IH; [reflexivity| |tauto]. intros q Q. apply O. right. exact Q.
Qed.
Lemma set_fresh t K c : ~ In (lower K) (lnames t) -> set_column t K c = t ++ [(K, c)].
Proof.
  induction t as [|[n d] t IH]; intros N; cbn; [reflexivity|].
  destruct (eqb_bytes n K) eqn:E.
  - apply eqb_bytes_iff in E. subst. exfalso. apply N. left. reflexivity.
  - rewrite IH; [reflexivity|]. intros H. apply N. right. exact H.
Qed.

Lemma fix_key_form t K : ok_table t -> In K allowed ->
  (data_of t (lower K) = None /\ fix_key t K = t) \/
  (exists t1 n c t2, t = t1 ++ (n, c) :: t2 /\ lower n = lower K /\ ~ In (lower K) (lnames (t1 ++ t2)) /\
     fix_key t K = (t1 ++ t2) ++ [(K, c)]).
Proof.
  intros O A. destruct (data_of t (lower K)) as [c|] eqn:D.
  - right. destruct (data_some _ _ _ D) as (t1 & n & t2 & -> & L & N).
    exists t1, n, c, t2. split; [reflexivity|]. split; [exact L|].
    assert (F : ~ In (lower K) (lnames (t1 ++ t2))).
    { destruct O as [ND _]. rewrite lnames_app in ND. cbn in ND. apply NoDup_remove_2 in ND.
      rewrite L in ND. rewrite lnames_app. exact ND. }
    split; [exact F|]. unfold fix_key. rewrite (pop_some t1 n c t2 K O A L N). apply set_fresh. exact F.
  - left. split; [reflexivity|]. unfold fix_key. rewrite (pop_none t K O A D). reflexivity.
Qed.

Definition named (t : table) (K : bytes) : Prop := forall n c, In (n, c) t -> lower n = lower K -> n = K.

Lemma fix_key_ok t K : ok_table t -> In K allowed ->
  ok_table (fix_key t K) /\ (forall k, data_of (fix_key t K) k = data_of t k) /\
  named (fix_key t K) K /\ (forall K', named t K' -> In K' allowed -> named (fix_key t K) K').
Proof.
  intros O A. destruct (fix_key_form t K O A) as [[D ->]|(t1 & n & c & t2 & -> & L & N & ->)].
  - split; [exact O|]. split; [reflexivity|]. split; [|auto].
    intros m d M E. exfalso. apply data_none in D. apply D. rewrite <- E.
    apply in_map_iff. exists (m, d). auto.
  - assert (P : Permutation (lnames ((t1 ++ t2) ++ [(K, c)])) (lnames (t1 ++ (n, c) :: t2))).
    { rewrite !lnames_app. cbn. rewrite L. rewrite <- app_assoc. apply Permutation_app_head.
      symmetry. apply Permutation_cons_append. }
    split; [|split; [|split]].
    + destruct O as [ND O]. split; [apply (Permutation_NoDup (Permutation_sym P) ND)|].
      intros m M. apply O. apply (Permutation_in m P M).
    + intros k. rewrite !data_app. cbn. rewrite L.
      destruct (eqb_bytes (lower K) k) eqn:E.
      * apply eqb_bytes_iff in E. subst k. rewrite lnames_app in N.
        replace (data_of t1 (lower K)) with (@None (list cell)).
        2:{ symmetry. apply data_none. intros H. apply N. apply in_or_app. left. exact H. }
        replace (data_of t2 (lower K)) with (@None (list cell)); [reflexivity|].
        symmetry. apply data_none. intros H. apply N. apply in_or_app. right. exact H.
      * destruct (data_of t1 k); [reflexivity|]. destruct (data_of t2 k); reflexivity.
    + intros m d M E. apply in_app_or in M. destruct M as [M|[M|[]]].
      * exfalso. apply N. rewrite <- E. apply in_map_iff. exists (m, d). auto.
      * congruence.
    + intros K' H I' m d M E. apply in_app_or in M. destruct M as [M|[M|[]]].
      * apply (H m d); [|exact E]. apply in_app_or in M. apply in_or_app. destruct M; [left|right; right]; assumption.
      * injection M as <- <-. 
        (* K and K' are both standard names with the same lower case *)
        clear - A I' E. cbn in A, I'.
        repeat (destruct A as [<-|A]; [|]); try contradiction;
        repeat (destruct I' as [<-|I']; [|]); try contradiction; try reflexivity; vm_compute in E; discriminate.
Qed.

Lemma fix_keys_ok ks t : ok_table t -> (forall K, In K ks -> In K allowed) ->
  let t' := fold_left fix_key ks t in
  ok_table t' /\ (forall k, data_of t' k = data_of t k) /\
  (forall K, In K allowed -> (In K ks \/ named t K) -> named t' K).
Proof.
  revert t. induction ks as [|K ks IH]; intros t O A; cbn zeta.
  - cbn. split; [exact O|]. split; [reflexivity|]. intros K _ [[]|H]. exact H.
  - cbn [fold_left]. destruct (fix_key_ok t K O (A K (or_introl eq_refl))) as (O1 & D1 & N1 & P1).
    destruct (IH (fix_key t K) O1 (fun K' H => A K' (or_intror H))) as (O2 & D2 & N2).
    split; [exact O2|]. split.
    + intros k. rewrite D2. apply D1.
    + intros K' I' [[->|H]|H].
      * apply N2; [exact I'|]. right. exact N1.
      * apply N2; [exact I'|]. left. exact H.
      * apply N2; [exact I'|]. right. apply P1; assumption.
Qed.

Lemma column_named t K : named t K -> column t K = data_of t (lower K).
Proof.
  induction t as [|[n c] t IH]; intros N; cbn; [reflexivity|].
  destruct (eqb_bytes n K) eqn:E.
  - apply eqb_bytes_iff in E. subst. replace (eqb_bytes (lower K) (lower K)) with true; [reflexivity|].
    symmetry. apply eqb_bytes_iff. reflexivity.
  - destruct (eqb_bytes (lower n) (lower K)) eqn:F.
    + apply eqb_bytes_iff in F. assert (X := N n c (or_introl eq_refl) F). apply eqb_bytes_iff in X. congruence.
    + apply IH. intros m d M. apply (N m d). right. exact M.
Qed.

Lemma fixed_column t K : ok_table t -> In K allowed ->
  column (fix_station_info_keys t) K = data_of t (lower K).
Proof.
  intros O A. destruct (fix_keys_ok allowed t O (fun K H => H)) as (_ & D & N).
  unfold fix_station_info_keys. rewrite (column_named _ K (N K A (or_introl A))). apply D.
Qed.

(** * Columns of a file *)

Fixpoint pos (k : bytes) (h : list bytes) : option nat :=
  match h with [] => None | n :: r => if eqb_bytes (lower n) k then Some O else option_map S (pos k r) end.
Definition at_pos (i : nat) (row : list bytes) : cell := match nth_error row i with Some s => Txt s | None => Missing end.

Lemma columns_data h j rows k :
  data_of (columns h j rows) k = option_map (fun i => map (at_pos (j + i)) rows) (pos k h).
Proof.
  revert j. induction h as [|n h IH]; intros j; cbn; [reflexivity|].
  destruct (eqb_bytes (lower n) k).
  - cbn. rewrite Nat.add_0_r. reflexivity.
  - rewrite IH. destruct (pos k h); cbn; [|reflexivity]. rewrite Nat.add_succ_r. reflexivity.
Qed.
Lemma columns_lnames h j rows : lnames (columns h j rows) = map lower h.
Proof. revert j. induction h as [|n h IH]; intros j; cbn; [reflexivity|]. f_equal. apply IH. Qed.

Lemma cell_under_pos k h row c : lowercase k -> NoDup (map lower h) -> length row = length h ->
  (cell_under k h row c <-> exists i, pos k h = Some i /\ nth_error row i = Some c).
Proof.
  intros L. revert row. induction h as [|n h IH]; intros row ND E.
  - split; [intros H; inversion H|]. intros (i & P & _). discriminate.
  - destruct row as [|x row]; [discriminate|]. cbn in ND, E |- *.
    inversion ND as [|? ? NI ND']; subst. injection E as E.
    destruct (eqb_bytes (lower n) k) eqn:F.
    + apply eqb_bytes_iff in F. split.
      * intros H. inversion H; subst.
        -- exists O. auto.
        -- exfalso. assert (G : exists i, pos (lower n) h = Some i).
           { match goal with H' : cell_under _ h row c |- _ => apply (IH row ND' E) in H'; destruct H' as (i & P & _) end.
             exists i. exact P. }
           destruct G as (i & P). apply NI. clear - P. revert i P.
           induction h as [|m h IH]; intros i P; cbn in P; [discriminate|].
           destruct (eqb_bytes (lower m) (lower n)) eqn:Q; [apply eqb_bytes_iff in Q; left; exact Q|].
           destruct (pos (lower n) h) as [j|] eqn:R; [|discriminate]. right. apply (IH j). reflexivity.
      * intros (i & P & Q). injection P as <-. cbn in Q. injection Q as ->.
        apply under_here. apply same_name_iff; assumption.
    + split.
      * intros H. inversion H; subst.
        -- exfalso. assert (X : lower n = k) by (apply same_name_iff; assumption).
           apply eqb_bytes_iff in X. congruence.
        -- match goal with H' : cell_under _ h row c |- _ => apply (IH row ND' E) in H'; destruct H' as (i & P & Q) end.
           exists (S i). rewrite P. auto.
      * intros (i & P & Q). destruct (pos k h) as [j|] eqn:R; [|discriminate]. injection P as <-. cbn in Q.
        apply under_next. apply (IH row ND' E). exists j. auto.
Qed.

Lemma pos_in k h : In k (map lower h) -> exists i, pos k h = Some i /\ (i < length h)%nat.
Proof.
  induction h as [|n h IH]; intros H; [destruct H|]. cbn.
  destruct (eqb_bytes (lower n) k) eqn:E; [exists O; split; [reflexivity|lia]|].
  destruct H as [H|H]; [apply eqb_bytes_iff in H; congruence|].
  destruct (IH H) as (i & P & L). exists (S i). rewrite P. split; [reflexivity|lia].
Qed.

(** * Completing the table *)

Lemma set_column_same t k c : column (set_column t k c) k = Some c.
Proof.
  induction t as [|[n d] t IH]; cbn.
  - replace (eqb_bytes k k) with true by (symmetry; apply eqb_bytes_iff; reflexivity). reflexivity.
  - destruct (eqb_bytes n k) eqn:E; cbn; rewrite E; [reflexivity|exact IH].
Qed.
Lemma set_column_other t k c k' : k <> k' -> column (set_column t k c) k' = column t k'.
Proof.
  intros N. induction t as [|[n d] t IH]; cbn.
  - destruct (eqb_bytes k k') eqn:E; [apply eqb_bytes_iff in E; congruence|reflexivity].
  - destruct (eqb_bytes n k) eqn:E; cbn.
    + apply eqb_bytes_iff in E. subst. destruct (eqb_bytes k k') eqn:F; [apply eqb_bytes_iff in F; congruence|reflexivity].
    + destruct (eqb_bytes n k'); [reflexivity|exact IH].
Qed.

Ltac diff := vm_compute; congruence.

Lemma complete_columns t l n : column t (b "location") = Some l -> column t (b "network") = Some n ->
  exists t', complete t = Some t' /\ column t' (b "SN") = column t (b "SN") /\
    column t' (b "station") = column t (b "station") /\
    column t' (b "location") = Some (map (fill (Txt [])) l) /\
    column t' (b "network") = Some (map (fill (Txt [])) n) /\
    column t' (b "elevation") = Some (match column t (b "elevation") with
                                      | Some e => map (fill (Number (-9999))) e
                                      | None => repeat (Number (-9999)) (height t)
                                      end).
Proof.
  intros L N. unfold complete.
  set (t1 := match column t (b "elevation") with Some _ => t | None => set_column t (b "elevation") (repeat (Number (-9999)) (height t)) end).
  assert (C1 : forall k, k <> b "elevation" -> column t1 k = column t k).
  { intros k K. unfold t1. destruct (column t (b "elevation")); [reflexivity|]. apply set_column_other. congruence. }
  assert (E1 : exists e, column t1 (b "elevation") = Some e /\
    map (fill (Number (-9999))) e = match column t (b "elevation") with
                                      | Some e => map (fill (Number (-9999))) e
                                      | None => repeat (Number (-9999)) (height t)
                                      end).
  { unfold t1. destruct (column t (b "elevation")) as [e|] eqn:E.
    - exists e. rewrite E. auto.
    - exists (repeat (Number (-9999)) (height t)). split; [apply set_column_same|].
      generalize (height t). intros m. induction m as [|m IH]; [reflexivity|]. cbn [repeat map]. rewrite IH. reflexivity. }
  destruct E1 as (e & E1 & E2). rewrite (C1 (b "location")) by diff. rewrite (C1 (b "network")) by diff.
  rewrite L, N, E1. eexists. split; [reflexivity|].
  rewrite !set_column_other by diff. rewrite !C1 by diff.
  split; [reflexivity|]. split; [reflexivity|].
  rewrite set_column_same. split; [reflexivity|].
  rewrite set_column_other by diff. rewrite set_column_same. split; [reflexivity|].
  rewrite set_column_same, E2. reflexivity.
Qed.

(** * Looking up *)

Section Lookup.
  Variable h : list bytes.
  Variable body : list (list bytes).
  Variables isn inet ista iloc : nat.
  Hypothesis ND : NoDup (map lower h).
  Hypothesis W : Forall (fun r => length r = length h) body.
  Hypothesis Psn : pos (b "sn") h = Some isn.
  Hypothesis Pnet : pos (b "network") h = Some inet.
  Hypothesis Psta : pos (b "station") h = Some ista.
  Hypothesis Ploc : pos (b "location") h = Some iloc.
  Hypothesis Bsn : (isn < length h)%nat.
  Hypothesis Bnet : (inet < length h)%nat.
  Hypothesis Bsta : (ista < length h)%nat.
  Hypothesis Bloc : (iloc < length h)%nat.

  Lemma at_cell k i row : In k five -> pos k h = Some i -> (i < length h)%nat -> length row = length h ->
    exists c, nth_error row i = Some c /\ at_pos i row = Txt c /\ cell_under k h row c /\
      (forall c', cell_under k h row c' -> c' = c).
  Proof using ND.
    intros K P B E. destruct (nth_error row i) as [c|] eqn:N.
    - exists c. split; [reflexivity|]. split; [unfold at_pos; rewrite N; reflexivity|]. split.
      + apply (cell_under_pos k h row c (five_lower k K) ND E). eauto.
      + intros c' C. apply (cell_under_pos k h row c' (five_lower k K) ND E) in C.
        destruct C as (j & Q & R). congruence.
    - exfalso. apply nth_error_None in N. clear - N B E. lia.
  Qed.

  Definition outcome (t : table) (sn : bytes) (r : option (bytes * bytes * bytes)) : Prop :=
    codes_of t sn = match r with None => Skip | Some (n, s, l) => Codes (Txt n) (Txt s) (Txt l) end.

  Variable t : table.
  Hypothesis Csn : column t (b "SN") = Some (map (at_pos isn) body).
  Hypothesis Cnet : column t (b "network") = Some (map (at_pos inet) body).
  Hypothesis Csta : column t (b "station") = Some (map (at_pos ista) body).
  Hypothesis Cloc : column t (b "location") = Some (map (at_pos iloc) body).

  Definition lookup_rows (rows : list (list bytes)) (sn : bytes) : found :=
    match index_of sn (map (at_pos isn) rows) with
    | None => Skip
    | Some w => match nth_error (map (at_pos inet) rows) w, nth_error (map (at_pos ista) rows) w,
                      nth_error (map (at_pos iloc) rows) w with
                | Some n, Some s, Some l => Codes n s l
                | _, _, _ => Crash
                end
    end.
  Lemma codes_of_rows sn : codes_of t sn = lookup_rows body sn.
  Proof using Csn Cnet Csta Cloc. unfold codes_of, lookup_rows, get. rewrite Csn, Cnet, Csta, Cloc. reflexivity. Qed.

  Lemma lookup_rows_cons row rows sn :
    lookup_rows (row :: rows) sn =
    if eqb_cell sn (at_pos isn row) then Codes (at_pos inet row) (at_pos ista row) (at_pos iloc row)
    else lookup_rows rows sn.
  Proof using Type.
    unfold lookup_rows. cbn [map index_of]. destruct (eqb_cell sn (at_pos isn row)); [reflexivity|].
    destruct (index_of sn (map (at_pos isn) rows)); reflexivity.
  Qed.

  Lemma mem_five : In (b "sn") five /\ In (b "network") five /\ In (b "station") five /\ In (b "location") five.
  Proof using Type. cbn. tauto. Qed.

  Lemma lookup_iff rows sn r : Forall (fun r => length r = length h) rows ->
    codes_in h sn rows r ->
    lookup_rows rows sn = match r with None => Skip | Some (n, s, l) => Codes (Txt n) (Txt s) (Txt l) end.
  Proof using ND Psn Pnet Psta Ploc Bsn Bnet Bsta Bloc.
    intros F C. destruct mem_five as (M1 & M2 & M3 & M4).
    induction C as [|row rows n s l U1 U2 U3 U4|row rows sn' r U1 NE C IH]; [reflexivity| |];
      inversion F as [|? ? E F']; subst; rewrite lookup_rows_cons;
      destruct (at_cell _ _ row M1 Psn Bsn E) as (c1 & _ & A1 & _ & Q1).
    - destruct (at_cell _ _ row M2 Pnet Bnet E) as (c2 & _ & A2 & _ & Q2).
      destruct (at_cell _ _ row M3 Psta Bsta E) as (c3 & _ & A3 & _ & Q3).
      destruct (at_cell _ _ row M4 Ploc Bloc E) as (c4 & _ & A4 & _ & Q4).
      rewrite A1, A2, A3, A4. rewrite <- (Q1 _ U1), <- (Q2 _ U2), <- (Q3 _ U3), <- (Q4 _ U4). cbn.
      replace (eqb_bytes sn sn) with true by (symmetry; apply eqb_bytes_iff; reflexivity). reflexivity.
    - rewrite A1. rewrite <- (Q1 _ U1). cbn.
      destruct (eqb_bytes sn' sn) eqn:X; [apply eqb_bytes_iff in X; contradiction|]. apply IH. exact F'.
  Qed.

  Lemma codes_in_total rows sn : Forall (fun r => length r = length h) rows -> exists r, codes_in h sn rows r.
  Proof using ND Psn Pnet Psta Ploc Bsn Bnet Bsta Bloc.
    intros F. destruct mem_five as (M1 & M2 & M3 & M4). induction F as [|row rows E F IH]; [exists None; constructor|].
    destruct (at_cell _ _ row M1 Psn Bsn E) as (c1 & _ & _ & U1 & _).
    destruct (list_eq_dec Z.eq_dec c1 sn) as [->|NE].
    - destruct (at_cell _ _ row M2 Pnet Bnet E) as (c2 & _ & _ & U2 & _).
      destruct (at_cell _ _ row M3 Psta Bsta E) as (c3 & _ & _ & U3 & _).
      destruct (at_cell _ _ row M4 Ploc Bloc E) as (c4 & _ & _ & U4 & _).
      eexists. apply codes_here; eassumption.
    - destruct IH as (r & C). exists r. apply codes_next with c1; assumption.
  Qed.
End Lookup.

Lemma good_header_facts h : good_header h ->
  NoDup (map lower h) /\ (forall k, In k (map lower h) -> In k five) /\
  (forall k, In k four -> In k (map lower h)) /\ (length h = 4 \/ length h = 5)%nat.
Proof.
  intros (p & P & F).
  assert (S5 : forall k, In k p -> In k five).
  { intros k K. destruct P as [P|P]; apply (Permutation_in k P) in K; [|exact K].
    unfold five. apply in_or_app. left. exact K. }
  assert (E : map lower h = p).
  { clear P. revert S5. induction F as [|n k h p H F IH]; intros S5; [reflexivity|]. cbn. f_equal.
    - apply same_name_iff; [apply five_lower, S5; left; reflexivity|exact H].
    - apply IH. intros q Q. apply S5. right. exact Q. }
  rewrite E. assert (N5 : NoDup five) by (unfold five, four; repeat constructor; vm_compute; intuition congruence).
  assert (N4 : NoDup four) by (unfold four; repeat constructor; vm_compute; intuition congruence).
  split; [destruct P as [P|P]; apply (Permutation_NoDup (Permutation_sym P)); assumption|].
  split; [exact S5|]. split.
  - intros k K. destruct P as [P|P]; apply (Permutation_in k (Permutation_sym P)); [exact K|].
    unfold five. apply in_or_app. left. exact K.
  - rewrite <- (map_length lower), E. destruct P as [P|P]; rewrite (Permutation_length P); cbn; auto.
Qed.

Lemma fill_text l : Forall (fun c => c <> Missing) l -> map (fill (Txt [])) l = l.
Proof. intros F. induction F as [|c l H F IH]; [reflexivity|]. cbn. rewrite IH. destruct c; [reflexivity|congruence|reflexivity]. Qed.

Lemma at_pos_text i (h : list bytes) rows : (i < length h)%nat -> Forall (fun r : list bytes => length r = length h) rows ->
  Forall (fun c => c <> Missing) (map (at_pos i) rows).
Proof.
  intros B F. induction F as [|row rows E F IH]; [constructor|]. constructor; [|exact IH].
  unfold at_pos. destruct (nth_error row i) eqn:N; [discriminate|]. apply nth_error_None in N. lia.
Qed.

(** A table whose headings are good, read and completed. *)
Lemma table_columns h body : good_header h -> Forall (fun r => length r = length h) body ->
  exists t isn inet ista iloc, complete (fix_station_info_keys (columns h 0 body)) = Some t /\
    (pos (b "sn") h = Some isn /\ pos (b "network") h = Some inet /\ pos (b "station") h = Some ista /\
     pos (b "location") h = Some iloc) /\
    ((isn < length h)%nat /\ (inet < length h)%nat /\ (ista < length h)%nat /\ (iloc < length h)%nat) /\
    column t (b "SN") = Some (map (at_pos isn) body) /\ column t (b "network") = Some (map (at_pos inet) body) /\
    column t (b "station") = Some (map (at_pos ista) body) /\ column t (b "location") = Some (map (at_pos iloc) body).
Proof.
  intros G F. destruct (good_header_facts h G) as (ND & S5 & S4 & _).
  assert (O : ok_table (columns h 0 body)) by (split; rewrite columns_lnames; assumption).
  assert (C : forall K, In K allowed -> column (fix_station_info_keys (columns h 0 body)) K =
    option_map (fun i => map (at_pos i) body) (pos (lower K) h)).
  { intros K A. rewrite (fixed_column _ K O A), columns_data. reflexivity. }
  destruct (pos_in (b "sn") h) as (isn & P1 & B1); [apply S4; cbn; tauto|].
  destruct (pos_in (b "network") h) as (inet & P2 & B2); [apply S4; cbn; tauto|].
  destruct (pos_in (b "station") h) as (ista & P3 & B3); [apply S4; cbn; tauto|].
  destruct (pos_in (b "location") h) as (iloc & P4 & B4); [apply S4; cbn; tauto|].
  assert (C1 := C (b "SN") ltac:(cbn; tauto)). change (lower (b "SN")) with (b "sn") in C1. rewrite P1 in C1.
  assert (C2 := C (b "network") ltac:(cbn; tauto)). change (lower (b "network")) with (b "network") in C2. rewrite P2 in C2.
  assert (C3 := C (b "station") ltac:(cbn; tauto)). change (lower (b "station")) with (b "station") in C3. rewrite P3 in C3.
  assert (C4 := C (b "location") ltac:(cbn; tauto)). change (lower (b "location")) with (b "location") in C4. rewrite P4 in C4.
  cbn [option_map] in C1, C2, C3, C4.
  destruct (complete_columns _ _ _ C4 C2) as (t & E & D1 & D3 & D4 & D2 & _).
  rewrite C1 in D1. rewrite C3 in D3.
  rewrite (fill_text _ (at_pos_text iloc h body B4 F)) in D4.
  rewrite (fill_text _ (at_pos_text inet h body B2 F)) in D2.
  exists t, isn, inet, ista, iloc. split; [exact E|]. split; [auto|]. split; [auto|]. auto.
Qed.
Lemma table_lookup h body : good_header h -> Forall (fun r => length r = length h) body ->
  exists t, complete (fix_station_info_keys (columns h 0 body)) = Some t /\
    (forall sn r, codes_in h sn body r ->
       codes_of t sn = match r with None => Skip | Some (n, s, l) => Codes (Txt n) (Txt s) (Txt l) end) /\
    (forall sn, exists r, codes_in h sn body r).
Proof.
  intros G F. destruct (good_header_facts h G) as (ND & _).
  destruct (table_columns h body G F) as (t & isn & inet & ista & iloc & E & (P1 & P2 & P3 & P4) & (B1 & B2 & B3 & B4) & D1 & D2 & D3 & D4).
  exists t. split; [exact E|]. split.
  - intros sn r CI. rewrite (codes_of_rows body isn inet ista iloc t D1 D2 D3 D4).
    apply (lookup_iff h isn inet ista iloc ND P1 P2 P3 P4 B1 B2 B3 B4 body sn r F CI).
  - intros sn. apply (codes_in_total h isn inet ista iloc ND P1 P2 P3 P4 B1 B2 B3 B4 body sn F).
Qed.

(** * Removing duplicates *)

Section Unique.
  Context {A : Type}.
  Variable eqb : A -> A -> bool.
  Hypothesis eqb_iff : forall x y, eqb x y = true <-> x = y.

  Lemma unique_from acc l m : (forall seen, (forall x, In x seen <-> In x acc) -> first_occurrences seen l m) <->
    fold_left (unique_step eqb) l acc = acc ++ m.
  Proof.
    revert acc m. induction l as [|x l IH]; intros acc m.
    - cbn. split.
      + intros H. assert (E := H acc (fun _ => iff_refl _)). inversion E. rewrite app_nil_r. reflexivity.
      + intros E seen _. rewrite <- (app_nil_r acc) in E at 1. apply app_inv_head in E. subst. constructor.
    - cbn [fold_left]. unfold unique_step at 2. destruct (existsb (eqb x) acc) eqn:E.
      + assert (X : In x acc) by (apply existsb_exists in E; destruct E as (y & Y & Q); apply eqb_iff in Q; subst; exact Y).
        rewrite <- IH. split; intros H seen S'.
        * assert (K := H seen S'). inversion K; subst; [exfalso; rewrite S' in *; contradiction|assumption].
        * apply fo_old; [apply S'; exact X|apply H; exact S'].
      + assert (X : ~ In x acc).
        { intros H. assert (existsb (eqb x) acc = true); [|congruence].
          apply existsb_exists. exists x. split; [exact H|apply eqb_iff; reflexivity]. }
        split.
        * intros H. assert (K := H acc (fun _ => iff_refl _)). inversion K as [|? ? ? m' N K'|]; subst; [|contradiction].
          assert (R : fold_left (unique_step eqb) l (acc ++ [x]) = (acc ++ [x]) ++ m').
          { apply IH. intros seen S'. clear H K.
            assert (Ext : forall l s1 s2 m, (forall y : A, In y s1 <-> In y s2) -> first_occurrences s1 l m -> first_occurrences s2 l m).
            { clear. intros l. induction l as [|z l IH]; intros s1 s2 m H F; inversion F; subst.
              - constructor.
              - apply fo_new; [rewrite <- H; assumption|]. apply (IH (z :: s1)); [|assumption]. intros y. cbn. rewrite H. tauto.
              - apply fo_old; [rewrite <- H; assumption|]. apply (IH s1); assumption. }
            apply (Ext l (x :: acc)); [|exact K']. intros y. rewrite S', in_app_iff. cbn. tauto. }
          rewrite R, <- app_assoc. reflexivity.
        * intros H seen S'.
          assert (P : exists m', m = x :: m' /\ fold_left (unique_step eqb) l (acc ++ [x]) = (acc ++ [x]) ++ m').
          { assert (G : forall l a, exists z, fold_left (unique_step eqb) l a = a ++ z).
            { clear. intros l. induction l as [|y l IH]; intros a; [exists []; cbn; rewrite app_nil_r; reflexivity|].
              cbn [fold_left]. unfold unique_step at 2. destruct (existsb (eqb y) a); [apply IH|].
              destruct (IH (a ++ [y])) as (z & Z). exists (y :: z). rewrite Z, <- app_assoc. reflexivity. }
            destruct (G l (acc ++ [x])) as (z & Z). exists z. split; [|exact Z].
            rewrite Z, <- app_assoc in H. apply app_inv_head in H. symmetry. exact H. }
          destruct P as (m' & -> & P). apply fo_new; [rewrite S'; exact X|].
          apply (proj2 (IH (acc ++ [x]) m') P). intros y. cbn. rewrite in_app_iff, S'. cbn. tauto.
  Qed.

  Lemma unique_spec l : first_occurrences [] l (unique eqb l).
  Proof using eqb_iff. apply (proj2 (unique_from [] l (unique eqb l)) eq_refl). intros x. reflexivity. Qed.
End Unique.

Lemma fo_in {A} (dec : forall x y : A, {x = y} + {x <> y}) seen (l m : list A) : first_occurrences seen l m ->
  (forall x, In x m -> In x l /\ ~ In x seen) /\ (forall x, In x l -> ~ In x seen -> In x m) /\ NoDup m.
Proof.
  intros F. induction F as [seen|seen y l m N F IH|seen y l m N F IH].
  - cbn. split; [tauto|]. split; [tauto|constructor].
  - destruct IH as (H1 & H2 & H3). split; [|split].
    + intros x [->|H]; [split; [left; reflexivity|exact N]|]. destruct (H1 x H) as [A1 A2].
      split; [right; exact A1|]. intros C. apply A2. right. exact C.
    + intros x [->|H] K; [left; reflexivity|].
      destruct (dec y x) as [->|D]; [left; reflexivity|]. right. apply H2; [exact H|].
      intros [C|C]; contradiction.
    + constructor; [|exact H3]. intros C. destruct (H1 y C) as [_ A2]. apply A2. left. reflexivity.
  - destruct IH as (H1 & H2 & H3). split; [|split; [|exact H3]].
    + intros x H. destruct (H1 x H) as [A1 A2]. split; [right; exact A1|exact A2].
    + intros x [->|H] K; [contradiction|]. apply H2; assumption.
Qed.

(** * Renaming *)

Lemma split_on_nonempty c s : split_on c s <> [].
Proof. induction s as [|x s IH]; cbn; [discriminate|]. destruct (x =? c); [discriminate|]. destruct (split_on c s); discriminate. Qed.

Lemma split_on_app c s r : ~ In c s -> split_on c (s ++ [c] ++ r) = s :: split_on c r.
Proof.
  induction s as [|x s IH]; intros N; cbn.
  - rewrite Z.eqb_refl. reflexivity.
  - replace (x =? c) with false by (symmetry; apply Z.eqb_neq; intros ->; apply N; left; reflexivity).
    cbn in IH. rewrite IH; [reflexivity|]. intros H. apply N. right. exact H.
Qed.
Lemma split_on_none c s : ~ In c s -> split_on c s = [s].
Proof.
  induction s as [|x s IH]; intros N; cbn; [reflexivity|].
  replace (x =? c) with false by (symmetry; apply Z.eqb_neq; intros ->; apply N; left; reflexivity).
  rewrite IH; [reflexivity|]. intros H. apply N. right. exact H.
Qed.

Lemma last_split dir name : ~ In 47 name -> last (split_on 47 (dir ++ [47] ++ name)) [] = name.
Proof.
  intros N. induction dir as [|x dir IH]; cbn.
  - rewrite (split_on_none 47 name N). reflexivity.
  - cbn in IH. destruct (x =? 47).
    + destruct (split_on 47 (dir ++ 47 :: name)) eqn:E; [exfalso; eapply split_on_nonempty; exact E|].
      exact IH.
    + destruct (split_on 47 (dir ++ 47 :: name)) as [|p q] eqn:E; [exfalso; eapply split_on_nonempty; exact E|].
      destruct q as [|q0 q]; [|exact IH]. exfalso.
      assert (L : forall d n : bytes, Nat.le 2 (length (split_on 47 (d ++ 47 :: n)))).
      { clear. intros d n. induction d as [|y d IH]; cbn.
        - pose proof (split_on_nonempty 47 n). destruct (split_on 47 n); [congruence|]. cbn. lia.
        - destruct (y =? 47); [cbn; lia|]. destruct (split_on 47 (d ++ 47 :: n)); [cbn in IH; lia|]. exact IH. }
      specialize (L dir name). rewrite E in L. cbn in L. lia.
Qed.

(** The third dotted part of a file name. *)
Lemma file_sn_third dir t n s rest : ~ In 47 t -> ~ In 47 n -> ~ In 47 s -> ~ In 47 rest ->
  ~ In 46 t -> ~ In 46 n -> ~ In 46 s ->
  file_sn (dir ++ [47] ++ t ++ [46] ++ n ++ [46] ++ s ++ [46] ++ rest) = Some s.
Proof.
  intros T N S' R T' N' S''. unfold file_sn. rewrite last_split.
  - rewrite (split_on_app 46 t _ T'), (split_on_app 46 n _ N'), (split_on_app 46 s _ S''). reflexivity.
  - rewrite !in_app_iff. cbn. intuition lia.
Qed.

Lemma fold_min l m : fold_left (fun m tr => Z.min m (tstart tr)) l m <= m /\
  (forall tr, In tr l -> fold_left (fun m tr => Z.min m (tstart tr)) l m <= tstart tr) /\
  (fold_left (fun m tr => Z.min m (tstart tr)) l m = m \/
   exists tr, In tr l /\ fold_left (fun m tr => Z.min m (tstart tr)) l m = tstart tr).
Proof.
  revert m. induction l as [|x l IH]; intros m; cbn [fold_left].
  - split; [lia|]. split; [intros tr []|left; reflexivity].
  - destruct (IH (Z.min m (tstart x))) as (A & B & C). split; [lia|]. split.
    + intros tr [->|H]; [lia|apply B; exact H].
    + destruct C as [C|(tr & H & C)].
      * destruct (Z.min_spec m (tstart x)) as [[_ E]|[_ E]]; rewrite E in C.
        -- left. rewrite E. exact C.
        -- right. exists x. split; [left; reflexivity|]. rewrite E. exact C.
      * right. exists tr. split; [right; exact H|exact C].
Qed.
