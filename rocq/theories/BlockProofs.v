(** Proofs about blocks of raw files. *)
From Coq Require Import String.
From Coq Require Import ZArith QArith Qabs Qround List Bool Lia Lqa.
From Verif Require Import Base Lib UnwrapSpec UnwrapProofs Scan Parser Process ReadSeveral ReadSeveralSpec ReadSeveralProofs Drift
  Segments SegmentsSpec SegmentsProofs SegmentsProps Interp InterpSpec InterpProofs InterpProps Stream StreamSpec StreamProofs
  Select SelectSpec SelectProofs SelectProps Specs Fields Breaks BreaksSpec BreaksProps Block BlockSpec.
Import ListNotations.
Open Scope Q_scope.

(** * GPS rows keep their times *)
Definition dated (e : tag) : Prop := make_gps_time (fst e) = Some (snd e).

Lemma keep_fixes_dated gs : Forall dated (keep_fixes gs).
Proof.
  induction gs as [|g gs IH]; [constructor|]. cbn [keep_fixes]. destruct (gps_in_bounds g); [|exact IH].
  destruct (make_gps_time g) eqn:E; [constructor; assumption|exact IH].
Qed.

Lemma gps_table_dated ear G l : gps_table ear G = Some l -> Forall dated l.
Proof.
  unfold gps_table. destruct G as [|c G]; [discriminate|]. destruct (traverse fix_of (c :: G)) as [gs|]; [|discriminate].
  destruct (filter gps_in_bounds gs); [destruct ear; [discriminate|]; intros [= <-]; constructor|]. intros [= <-]. apply keep_fixes_dated.
Qed.

Lemma process_dated ear version offset req df L : process ear version offset req df = inl L -> Forall dated (gps L).
Proof.
  unfold process. destruct (settings version) as [[r n]|]; [|discriminate]. destruct df as [|d0 df]; [discriminate|]. cbv zeta.
  destruct (group KD _) as [|x D]; [discriminate|]. destruct (group KM _) as [|m M]; [discriminate|].
  destruct (traverse sample_of (x :: D)); [|discriminate]. destruct (traverse (meta_of n) (m :: M)); [|discriminate].
  destruct (gps_table ear _) as [g|] eqn:G.
  - intros [= <-]. exact (gps_table_dated _ _ _ G).
  - destruct req; [discriminate|]. intros [= <-]. constructor.
Qed.

Lemma try_readers_dated ear version offset req readers L : try_readers ear version offset req readers = inl L -> Forall dated (gps L).
Proof.
  induction readers as [|rd readers IH]; [discriminate|]. cbn [try_readers].
  destruct (match rd req with inl df => process ear version offset req df | inr e => inr e end) as [out|e] eqn:E.
  - intros H. assert (P : Forall dated (gps out)).
    { destruct (rd req); [|discriminate]. exact (process_dated _ _ _ _ _ _ E). }
    destruct (time_correction version); [|destruct (gps out), req; discriminate].
    destruct (gps out), req; try discriminate; injection H as <-; exact P.
  - destruct (fatal e); [discriminate|]. exact IH.
Qed.

Lemma read_raw_dated sc buf0 ear f version start req L : read_raw sc buf0 ear f version start req = inl L -> Forall dated (gps L).
Proof. unfold read_raw, read_single. destruct (modern version); apply try_readers_dated. Qed.

Lemma align_dated start L L' : Forall dated (gps L) -> align start L = Some L' -> Forall dated (gps L').
Proof.
  intros D. unfold align. destruct (data L) as [|[t v] l]; [discriminate|]. intros [= <-]. destruct (Qltb t start); [|exact D].
  cbn [gps shift]. apply Forall_map. exact D.
Qed.

Section Join.
  Variables F H S : Type.
  Variable read_v : F -> string -> Q -> bool -> res tables.
  Variable drift : tables -> F -> bool -> H + failure.
  Variable sn : F -> option S.
  Variable version : string.
  Variable req : bool.
  Hypothesis read_dated : forall fn v start L, read_v fn v start req = inl L -> Forall dated (gps L).

  Lemma one_file_dated fn start h L : one_file F H S read_v drift sn version req fn start = (h, inl L) -> Forall dated (gps L).
  Proof.
    unfold one_file. destruct (read F read_v version req fn start) as [L0|e] eqn:R; [|discriminate].
    assert (D0 : Forall dated (gps L0)).
    { unfold read in R. destruct (existsb _ _); [|destruct (existsb _ _); [|discriminate]]; exact (read_dated _ _ _ _ R). }
    destruct (align start L0) as [L1|] eqn:A; [|discriminate]. apply (align_dated _ _ _ D0) in A.
    destruct (discontinuous _); [discriminate|]. destruct (drift L1 fn req); [|discriminate]. destruct (sn fn); [|discriminate].
    intros [= _ <-]. exact A.
  Qed.

  Lemma loop_dated fns : forall start acc out, loop F H S read_v drift sn version req start acc fns = Some out ->
    Forall dated (jgps acc) -> Forall dated (jgps out).
  Proof.
    induction fns as [|fn fns IH]; intros start acc out E D; cbn [loop] in E; [injection E as <-; exact D|].
    destruct (one_file F H S read_v drift sn version req fn start) as [h r] eqn:O. destruct r as [L|f].
    - apply IH in E; [exact E|]. cbn [jgps]. apply Forall_app. split; [exact D|exact (one_file_dated _ _ _ _ O)].
    - destruct f as [[]| |]; try discriminate; apply IH in E; assumption.
  Qed.
End Join.

Lemma filled_dated l : Forall dated l -> Forall dated (filled l).
Proof. destruct l; [|auto]. intros _. constructor; [reflexivity|constructor]. Qed.

(** * Times *)
Lemma time_line {S} (header : list (hrow hinfo S)) x :
  match apply_segments header x with
  | Some t => exists h, last_containing (lines header) x h /\ t == cubic_at (h_fit h) x
  | None => Forall (fun h => ~ contains h x) (lines header)
  end.
Proof.
  destruct (segments_lines header x) as [[N ->]|(h & L & ->)]; [exact N|]. exists h. split; [exact L|apply apply_fit_cubic].
Qed.

Lemma timed_points_by {F S} (out : joined F hinfo S) :
  Forall (fun p => exists t, apply_segments (jheader out) (fst p) = Some t) (jdata out) ->
  timed_by out (timed_points (timed (jheader out) (jdata out))).
Proof.
  unfold timed_by. generalize (jdata out). intros D A. induction A as [|p D (t & E) A IH]; [constructor|].
  unfold timed. cbn [map]. unfold timed_points. cbn [flat_map fst]. rewrite E. cbn [app]. constructor; [|exact IH]. cbn [fst snd].
  split; [reflexivity|]. pose proof (time_line (jheader out) (fst p)) as T. rewrite E in T. exact T.
Qed.

Lemma meta_times {F S} (out : joined F hinfo S) : meta_timed out (map (fun p => (apply_segments (jheader out) (fst p), snd p)) (jmeta out)).
Proof.
  unfold meta_timed. generalize (jmeta out). intros M. induction M as [|p M IH]; [constructor|]. constructor; [|exact IH]. cbn [fst snd].
  split; [reflexivity|]. pose proof (time_line (jheader out) (fst p)) as T. destruct (apply_segments (jheader out) (fst p)); exact T.
Qed.

Lemma timed_by_unique {F S} (out : joined F hinfo S) pts pts' : timed_by out pts -> timed_by out pts' ->
  Forall2 (fun p q => fst p == fst q /\ snd p = snd q) pts pts'.
Proof.
  unfold timed_by. intros A. revert pts'. induction A as [|p q D pts (E1 & h1 & L1 & T1) A IH]; intros pts' A'; inversion A' as [|? q' ? ? (E2 & h2 & L2 & T2) A2]; subst; [constructor|].
  constructor; [|apply IH; assumption]. rewrite (last_containing_unique _ _ _ _ L1 L2) in T1. split; [rewrite T1, T2; reflexivity|congruence].
Qed.

Lemma chain_Qeq l m : Forall2 Qeq l m -> chain Qlt l -> chain Qlt m.
Proof.
  intros F. induction F as [|x y l m E F IH]; [auto|]. intros C. destruct F as [|x' y' l m E' F]; [exact I|].
  change (x < x' /\ chain Qlt (x' :: l)) in C. destruct C as [C1 C2]. split; [rewrite <- E, <- E'; exact C1|apply IH; exact C2].
Qed.

Lemma chain_lt_all x l : chain Qlt (x :: l) -> forall y, In y l -> x < y.
Proof.
  revert x. induction l as [|z l IH]; intros x C y I; [contradiction|]. change (x < z /\ chain Qlt (z :: l)) in C. destruct C as [A C].
  destruct I as [<-|I]; [exact A|]. specialize (IH z C y I). lra.
Qed.

Lemma chain_app_lt l m : chain Qlt (l ++ m) -> forall x y, In x l -> In y m -> x < y.
Proof.
  induction l as [|z l IH]; intros C x y I J; [contradiction|]. destruct I as [<-|I].
  - apply (chain_lt_all _ _ C). apply in_or_app. right. exact J.
  - apply IH; [|exact I|exact J]. exact (chain_tail _ _ _ C).
Qed.

(** * The sampling grid *)
Lemma to_grid_start tr : on_grid (tr_start tr) -> tr_start tr == inject_Z (gs (to_grid tr)) * (1 # 100).
Proof.
  intros (k & E). unfold to_grid. cbn [gs]. assert (Qfloor (tr_start tr * 100) = k) as -> by (rewrite E; apply Qfloor_Z). rewrite <- E. ring.
Qed.

Lemma to_grid_time tr i : on_grid (tr_start tr) -> time_of tr i == inject_Z (gs (to_grid tr) + Z.of_nat i) * (1 # 100).
Proof. intros G. unfold time_of. rewrite (to_grid_start _ G), inject_Z_plus. ring. Qed.

Section Trs.
  Variable spline : list (Q * option Q) -> option (Q -> Q).
  Variables (rows : list (option Q * option Q)) (trs : list trace) (pts : list (Q * option Q)).
  Hypothesis E : interp spline rows = Some trs.
  Hypothesis P : points rows pts.

  Lemma has_runs : pts <> [] /\ exists runs, runs_of (map fst pts) runs /\ resampled spline pts runs trs.
  Proof.
    destruct (C20_one_trace_per_run _ _ _ E) as (pts' & runs & P' & N & R & Rs). rewrite (points_unique _ _ P), <- (points_unique _ _ P'). split; [exact N|]. exists runs. auto.
  Qed.

  (** Each trace lies within a run. *)
  Lemma trace_within tr : In tr trs -> on_grid (tr_start tr) /\ tr_data tr <> [] /\
    exists s e, In s (map fst pts) /\ In e (map fst pts) /\
      forall k, (k < length (tr_data tr))%nat -> s - (1 # 200) <= time_of tr k <= e - (1 # 200).
  Proof.
    intros I. destruct has_runs as (_ & runs & Ru & _).
    destruct (C20_traces_within_runs _ _ _ _ _ _ E P Ru I) as (G & N & r & s & e & Ir & B & F & X). split; [exact G|]. split; [exact N|].
    exists s, e. destruct Ru as (Ec & _). rewrite <- Ec.
    assert (A : forall x, In x r -> In x (concat runs)) by (intros x J; apply in_concat; exists r; auto).
    split; [apply A; unfold begins in B; destruct r; [discriminate|]; injection B as ->; left; reflexivity|].
    split; [apply A; destruct F as (r' & ->); apply in_elt|exact X].
  Qed.

  Lemma gend_time tr : In tr trs -> inject_Z (gend (to_grid tr)) * (1 # 100) == time_of tr (length (tr_data tr) - 1).
  Proof.
    intros I. destruct (trace_within tr I) as (G & N & _). rewrite (to_grid_time _ _ G). unfold gend. cbn [gd to_grid].
    destruct (tr_data tr) as [|x l]; [contradiction|]. cbn [length].
    assert (X : forall a c : Z, a = c -> inject_Z a * (1 # 100) == inject_Z c * (1 # 100)) by (intros a c ->; reflexivity). apply X. lia.
  Qed.

  Lemma grid_in_order : chain Qlt (map fst pts) -> in_order (map to_grid trs).
  Proof.
    intros C. split; [apply Forall_map, Forall_forall; intros tr I; apply (trace_within tr I)|].
    assert (A : forall l1 tr l2 tr' l3, trs = l1 ++ tr :: l2 ++ tr' :: l3 -> (gend (to_grid tr) < gs (to_grid tr'))%Z).
    { intros l1 tr l2 tr' l3 Et.
      assert (I1 : In tr trs) by (rewrite Et; apply in_elt).
      assert (I2 : In tr' trs) by (rewrite Et; apply in_or_app; right; right; apply in_elt).
      destruct (trace_within tr I1) as (_ & N1 & _). destruct (trace_within tr' I2) as (G2 & N2 & _).
      pose proof (C20_traces_in_order _ _ _ _ _ _ _ _ _ (length (tr_data tr) - 1) 0 E P C Et) as X.
      destruct (tr_data tr) as [|x l] eqn:E1; [contradiction|]. destruct (tr_data tr') as [|x' l'] eqn:E2; [contradiction|].
      specialize (X ltac:(cbn; lia) ltac:(cbn; lia)).
      pose proof (gend_time tr I1) as Y. rewrite E1 in Y. rewrite <- Y in X. unfold time_of in X. change (inject_Z (Z.of_nat 0)) with 0 in X.
      rewrite (to_grid_start _ G2) in X. rewrite Zlt_Qlt. lra. }
    clear - A. induction trs as [|tr l IH]; [exact I|]. destruct l as [|tr' l]; [exact I|].
    split; [apply (A [] tr [] tr' l eq_refl)|]. apply IH. intros l1 a l2 c l3 Et. apply (A (tr :: l1) a l2 c l3). cbn. rewrite Et. reflexivity.
  Qed.

  Lemma grid_explained k v : sample (map to_grid trs) k v -> explained spline pts k v.
  Proof.
    intros (gt & i & I & Ev & Ek). apply in_map_iff in I as (tr & <- & I). cbn [gd to_grid] in Ev.
    destruct has_runs as (_ & runs & Ru & Rs).
    destruct (resampled_in _ _ _ _ _ Rs I) as (r & s & e & f & Ir & B & F & Sp & T). pose proof T as T0.
    assert (Li : (i < length (tr_data tr))%nat) by (apply nth_error_Some; congruence).
    destruct T as (L & _ & _ & g & Hg & S). cbv zeta in *.
    destruct (Hg i Li) as (Gi & Di & w & Ew & Nw). assert (w = v) as -> by congruence.
    destruct (Hg 0%nat L) as (G0 & D0 & _). change (inject_Z (Z.of_nat 0)) with 0 in D0. rewrite <- S in D0, G0.
    assert (Tk : time_of tr i == inject_Z k * (1 # 100)) by (rewrite Ek; apply to_grid_time; exact G0).
    exists runs, r, s, e, f, (g i). repeat (split; [assumption|]).
    split; [rewrite <- Tk; exact (resampling_span _ _ _ _ _ T0 Li)|]. split; [exact Gi|].
    split.
    { rewrite <- Tk. unfold time_of. apply Qabs_Qle_condition in Di, D0. apply Qabs_Qle_condition. split; lra. }
    split; [exact Nw|]. intros NH. rewrite <- Tk. clear Tk Ek.
    destruct Gi as (zi & Ezi). destruct G0 as (z0 & Ez0). unfold time_of. apply Qabs_Qle_condition in Di, D0.
    set (q := inject_Z (Z.of_nat i)) in *.
    assert (W : (zi = z0 + Z.of_nat i)%Z).
    { pose proof (NH z0) as N1. pose proof (NH (z0 - 1)%Z) as N2. replace (z0 - 1)%Z with (z0 + (-1))%Z in N2 by lia. rewrite inject_Z_plus in N2.
      change (inject_Z (-1)) with (-(1)) in N2.
      assert (U1 : s * 100 - inject_Z z0 <= 1 # 2) by lra. assert (U2 : -(1 # 2) <= s * 100 - inject_Z z0) by lra.
      assert (V1 : ~ s * 100 - inject_Z z0 == 1 # 2) by (intros X; apply N1; lra).
      assert (V2 : ~ s * 100 - inject_Z z0 == -(1 # 2)) by (intros X; apply N2; lra).
      assert (U1' : s * 100 - inject_Z z0 < 1 # 2) by (apply Qnot_le_lt; intros X; apply V1; lra).
      assert (U2' : -(1 # 2) < s * 100 - inject_Z z0) by (apply Qnot_le_lt; intros X; apply V2; lra).
      assert (Y1 : inject_Z zi < inject_Z (z0 + Z.of_nat i + 1)) by (rewrite !inject_Z_plus; fold q; change (inject_Z 1) with 1; lra).
      assert (Y2 : inject_Z (z0 + Z.of_nat i - 1) < inject_Z zi).
      { unfold Z.sub. rewrite !inject_Z_plus. fold q. change (inject_Z (- (1))) with (-(1)). lra. }
      rewrite <- Zlt_Qlt in Y1, Y2. lia. }
    rewrite W, inject_Z_plus in Ezi. fold q in Ezi. lra.
  Qed.
End Trs.

Lemma in_order_app a c : in_order a -> in_order c -> (forall x y, In x a -> In y c -> (gend x < gs y)%Z) -> in_order (a ++ c).
Proof.
  intros [A1 A2] [C1 C2] X. split; [apply Forall_app; auto|]. clear A1 C1. induction a as [|x a IH]; [exact C2|].
  destruct a as [|y a].
  - cbn [app]. destruct c as [|y c]; [exact I|]. split; [apply X; left; reflexivity|exact C2].
  - change ((gend x < gs y)%Z /\ chain (fun x y => (gend x < gs y)%Z) (y :: a)) in A2. destruct A2 as [A2 A3].
    cbn [app]. split; [exact A2|]. apply IH; [exact A3|]. intros u w I J. apply X; [right; exact I|exact J].
Qed.
