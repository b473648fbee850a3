(** C57: from a stream to the directions of the waves in its windows. *)
From Coq Require Import String.
From Coq Require Import ZArith QArith Qround Qabs List Bool Lia Lqa.
From Verif Require Import Base Lib UnwrapProofs NamesProofs Stations StationsSpec StationsProofs InventorySpec
  Windows WindowsSpec WindowsProps Huddle Slowness SlownessSpec SlownessProps Xcorr XcorrSpec XcorrProofs XcorrProps Directions.
Import ListNotations.
Open Scope Z_scope.

Lemma set_keys d k v x : In x (map fst (set d k v)) <-> x = k \/ In x (map fst d).
Proof.
  induction d as [|[k' v'] d IH]; cbn; [intuition|]. destruct (eqb_bytes k' k) eqn:E.
  - apply eqb_bytes_iff in E. subst. cbn. intuition.
  - cbn. rewrite IH. intuition.
Qed.
Lemma set_nodup d k v : NoDup (map fst d) -> NoDup (map fst (set d k v)).
Proof.
  induction d as [|[k' v'] d IH]; cbn; [intros _; constructor; [intros []|constructor]|]. intros H. inversion H as [|? ? N H']; subst.
  destruct (eqb_bytes k' k) eqn:E; cbn; constructor; auto. rewrite set_keys. intros [->|I]; [|contradiction].
  assert (X : eqb_bytes k k = true) by (apply eqb_bytes_iff; reflexivity). congruence.
Qed.
Lemma xcorr_nodup D prepare std correlate st m d : xcorr_function D prepare std correlate st m = Some d -> NoDup (map fst d).
Proof.
  unfold xcorr_function. destruct st as [|s r]; [discriminate|]. cbv zeta.
  set (g := rint _). set (n := Z.of_nat _). generalize (ring D s (s :: r)) as ps. intros ps.
  assert (G : forall ps d c q, (NoDup (map fst d) /\ ~ In (b "mean_coef") (map fst d)) ->
    let '(d', _, _) := fold_left (pair_step D prepare std correlate g (s_delta D s) n) ps (d, c, q) in NoDup (map fst d') /\ ~ In (b "mean_coef") (map fst d')).
  { clear. induction ps as [|[x y] ps IH]; intros d c q [N M]; [split; assumption|]. cbn [fold_left]. unfold pair_step at 2.
    destruct (correlate _ _ g) as [sh va]. apply IH. split; [repeat apply set_nodup; exact N|].
    rewrite !set_keys. intros [H|[H|[H|H]]]; try discriminate. contradiction. }
  specialize (G ps [] 0%Q 0%Q). destruct (fold_left _ ps _) as [[d' c] q]. destruct G as [N M]; [split; [constructor|intros []]|].
  intros E. apply (f_equal (fun o => match o with Some v => v | None => [] end)) in E. cbv beta iota in E. subst d.
  cbn [map fst]. constructor; [|apply set_nodup; exact N]. rewrite set_keys. intros [H|H]; [discriminate|contradiction].
Qed.

Lemma fo_known {A} (l : list A) : forall seen, (forall x, In x l -> In x seen) -> first_occurrences seen l [].
Proof. induction l as [|x l IH]; intros seen H; [constructor|]. apply fo_old; [apply H; left; reflexivity|]. apply IH. intros y I. apply H. right. exact I. Qed.
Lemma fo_new_list {A} (l : list A) : forall seen, NoDup l -> (forall x, In x l -> ~ In x seen) -> first_occurrences seen l l.
Proof.
  induction l as [|x l IH]; intros seen ND H; [constructor|]. inversion ND as [|? ? N ND']; subst. apply fo_new; [apply H; left; reflexivity|].
  apply IH; [exact ND'|]. intros y I [<-|J]; [contradiction|]. exact (H y (or_intror I) J).
Qed.
Lemma fo_app {A} (l l' m m' : list A) : forall seen, first_occurrences seen l m -> first_occurrences (rev m ++ seen) l' m' -> first_occurrences seen (l ++ l') (m ++ m').
Proof.
  intros seen H. revert m'. induction H as [seen|seen x l m N H IH|seen x l m N H IH]; intros m' H'; cbn [app]; [exact H'| |].
  - apply fo_new; [exact N|]. apply IH. cbn [rev] in H'. rewrite <- app_assoc in H'. exact H'.
  - apply fo_old; [exact N|]. apply IH. exact H'.
Qed.
Lemma fo_det {A} (l m : list A) : forall seen m', first_occurrences seen l m -> first_occurrences seen l m' -> m = m'.
Proof.
  intros seen m' H. revert m'. induction H as [seen|seen x l m N H IH|seen x l m N H IH]; intros m' H'; inversion H'; subst; try contradiction; try reflexivity.
  - f_equal. apply IH. assumption.
  - apply IH. assumption.
Qed.
Lemma same_columns {A} (ks : list A) (kss : list (list A)) m : NoDup ks -> kss <> [] -> (forall x, In x kss -> x = ks) ->
  first_occurrences [] (concat kss) m -> m = ks.
Proof.
  intros ND N H F. destruct kss as [|k0 kss]; [congruence|]. assert (k0 = ks) by (apply H; left; reflexivity). subst k0.
  apply (fo_det _ _ _ _ F). cbn [concat]. rewrite <- (app_nil_r ks) at 2. apply fo_app; [apply fo_new_list; auto|].
  rewrite app_nil_r. apply fo_known. intros x I. apply in_concat in I as (y & Y & I). rewrite <- in_rev.
  rewrite <- (H y); [exact I|right; exact Y].
Qed.

Section C57.
Context {S : Type}.
Variable prepare : list S -> list S.
Variable std : list S -> Q.
Variable correlate : list S -> list S -> Z -> Z * Q.
Variable dt : Q.
Variable maxshift : option Q.

(** A trace of a station: its id is network.station.location.channel. *)
Definition station_is (id : bytes) (tr : bytes * list (Q * S)) : Prop :=
  exists net sta loc cha, (forall p, In p [net; sta; loc; cha] -> ~ In 46 p) /\
    fst tr = net ++ b "." ++ sta ++ b "." ++ loc ++ b "." ++ cha /\ id = net ++ b "." ++ sta ++ b "." ++ loc.

Lemma station_sensor id tr : station_is id tr -> short_id (list S) (sensor_of dt tr) = id /\ s_data (list S) (sensor_of dt tr) = map snd (snd tr) /\ s_delta (list S) (sensor_of dt tr) = dt.
Proof.
  intros (net & sta & loc & cha & P & E & ->). unfold sensor_of. rewrite E. change (b ".") with [46].
  rewrite !split_on_app by (apply P; cbn; auto). cbn. auto.
Qed.

(** The lag found between two traces of a window. *)
Definition lag_between (x y : bytes * list (Q * S)) : Q :=
  (inject_Z (fst (correlate (prepare (map snd (snd x))) (prepare (map snd (snd y))) (rint (seconds maxshift / dt)))) * dt)%Q.

(** Each sensor has data in every window. *)
Definition complete (st : list (bytes * list (Q * S))) (t1 t2 win : Q) : Prop :=
  forall id tr s, In (id, tr) st -> (t1 <= s)%Q -> (s + win <= t2)%Q -> exists x, In x tr /\ in_window win s (fst x).

Lemma those_none {A} (P : A -> Prop) l m : those_with P l m -> m = [] -> forall x, In x l -> ~ P x.
Proof.
  induction 1 as [|x l m Px H IH|x l m Px H IH]; intros E y I; [destruct I|discriminate|]. destruct I as [<-|I]; [exact Px|]. apply IH; assumption.
Qed.
Lemma complete_cut (st : list (bytes * list (Q * S))) win s w : (forall id tr, In (id, tr) st -> exists x, In x tr /\ in_window win s (fst x)) ->
  cut (in_window win s) st w -> map fst w = map fst st.
Proof.
  intros H C. induction C as [|id tr r st w T N C IH|id tr st w T C IH]; [reflexivity| |].
  - cbn [map fst]. f_equal. apply IH. intros i t I. apply (H i t). right. exact I.
  - destruct (H id tr (or_introl eq_refl)) as (x & I & X). destruct (those_none _ _ _ T eq_refl x I X).
Qed.

Lemma forall2_nth {A B} (R : A -> B -> Prop) l m : Forall2 R l m -> forall i x, nth_error l i = Some x -> exists y, nth_error m i = Some y /\ R x y.
Proof. induction 1 as [|x y l m H F IH]; intros [|i] z E; cbn in E; try discriminate; [injection E as <-; exists y; split; [reflexivity|exact H]|apply IH; exact E]. Qed.

Lemma those_det {A} (P : A -> Prop) l k k' : those_with P l k -> those_with P l k' -> k = k'.
Proof.
  intros T. revert k'. induction T as [|x l k Px T IH|x l k Px T IH]; intros k' H; inversion H; subst; try contradiction; try reflexivity; [f_equal|]; apply IH; assumption.
Qed.
Lemma cut_det (P : Q -> Prop) (st w w' : list (bytes * list (Q * S))) : cut P st w -> cut P st w' -> w = w'.
Proof.
  intros C. revert w'. induction C as [|id tr r st w T N C IH|id tr st w T C IH]; intros w' C'; inversion C' as [|? ? r' ? ? T' N' C2|? ? ? ? T' C2]; subst; [reflexivity| | | |].
  - f_equal; [f_equal; exact (those_det _ _ _ _ T T')|apply IH; exact C2].
  - destruct N. exact (those_det _ _ _ _ T T').
  - destruct N'. exact (those_det _ _ _ _ T' T).
  - apply IH. exact C2.
Qed.
Lemma nb_map {A B} (R : A -> A -> Q -> Prop) (R' : B -> B -> Q -> Prop) l lags : neighbours R l lags ->
  forall l', length l' = length l ->
  (forall i x y x' y' t, nth_error l i = Some x -> nth_error l (Datatypes.S i) = Some y ->
     nth_error l' i = Some x' -> nth_error l' (Datatypes.S i) = Some y' -> R x y t -> R' x' y' t) -> neighbours R' l' lags.
Proof.
  induction 1 as [|x|x y r t lags H N IH]; intros l' L G.
  - destruct l'; [constructor|discriminate].
  - destruct l' as [|x' [|? ?]]; try discriminate. constructor.
  - destruct l' as [|x' [|y' r']]; try discriminate. constructor; [apply (G O x y); reflexivity || exact H|].
    apply IH; [cbn in *; lia|]. intros i a c a' c' u. exact (G (Datatypes.S i) a c a' c' u).
Qed.
Lemma nodup_value {A B} (l : list (A * B)) k v w : NoDup (map fst l) -> In (k, v) l -> In (k, w) l -> v = w.
Proof.
  induction l as [|[a c] l IH]; intros ND I J; [destruct I|]. inversion ND as [|? ? N ND']; subst.
  destruct I as [I|I], J as [J|J]; try congruence; [| |apply IH; assumption]; exfalso; apply N.
  - injection I as <- <-. apply in_map_iff. exists (a, w). auto.
  - injection J as <- <-. apply in_map_iff. exists (a, v). auto.
Qed.

(** For every stream of named sensors with data in each window: the directions are computed; the windows are
    evenly spread; and the direction reported for a window is that of the plane wave which fits the lags found
    by correlating the samples of neighbours in that very window best.  If those lags are the ones of a plane
    wave, that wave is reported. *)
Theorem C57_directions st t1 t2 win overlap ids ps ls :
  record st t1 t2 -> (0 < win)%Q -> (0 <= overlap < 1)%Q -> (win + (1#1000000) * wanted_step win overlap < t2 - t1)%Q ->
  Forall2 station_is ids st -> NoDup ids -> Forall plain ids -> complete st t1 t2 win ->
  NoDup (map fst ls) -> Forall2 (fun i p => In (i, p) ls) ids ps -> ~ collinear ps ->
  exists m step starts tmid res,
    spread t1 t2 win step m starts /\ (0 < step <= (1 + (1#1000000)) * wanted_step win overlap)%Q /\
    directions prepare std correlate dt maxshift st win overlap ls = Some (tmid, res) /\
    Forall2 (fun s t => t == s + win / 2)%Q starts tmid /\ length res = length starts /\
    forall j s w lags, nth_error starts j = Some s -> cut (in_window win s) st w ->
      neighbours (fun x y t => t = lag_between x y) w lags ->
      exists a v, nth_error res j = Some (Some a) /\
        toward a = (- fst v, - snd v)%Q /\ (slowness2 a == fst v * fst v + snd v * snd v)%Q /\
        (forall u k k', misfit v ps lags k -> misfit u ps lags k' -> k <= k')%Q /\
        (forall u, plane_wave u ps lags -> fst v == fst u /\ snd v == snd u)%Q.
Proof.
  intros R W O L St ND Pl Co NL Lo NC.
  set (f := analyse prepare std correlate dt maxshift).
  destruct (C38_windows S item f st t1 t2 win overlap) as (m & step & starts & M & SP & STEP & _ & A); [|exact R|exact W|exact O|exact L|].
  { intros w d E. exact (xcorr_nodup _ _ _ _ _ _ _ E). }
  (* every window gives a result with the same names *)
  assert (In_range : forall s, In s starts -> (t1 <= s)%Q /\ (s + win <= t2)%Q).
  { destruct SP as [Ls SP]. intros s I. apply In_nth_error in I as (i & E). destruct (SP i s E) as [S1 _].
    assert (Bi : (i < length starts)%nat) by (apply nth_error_Some; congruence).
    destruct (nth_error starts m) as [z|] eqn:EM; [|apply nth_error_None in EM; lia].
    destruct (SP m z EM) as [Z1 Z2]. specialize (Z2 eq_refl).
    assert (LE : (inject_Z (Z.of_nat i) * step <= inject_Z (Z.of_nat m) * step)%Q) by (apply Qmult_le_compat_r; [rewrite <- Zle_Qle; lia|lra]).
    assert (LE0 : (0 <= inject_Z (Z.of_nat i) * step)%Q) by (apply Qmult_le_0_compat; [change 0%Q with (inject_Z 0); rewrite <- Zle_Qle; lia|lra]).
    split; lra. }
  assert (Nst : st <> []). { destruct R as (id & tr & rest & -> & _). discriminate. }
  assert (Sids : forall w, map fst w = map fst st -> map (short_id (list S)) (map (sensor_of dt) w) = ids).
  { clear - St. intros w. revert w. induction St as [|i tr ids st H F IH]; intros [|tr' w] E; try discriminate; [reflexivity|]. cbn [map] in *.
    injection E as E1 E2. rewrite (IH w E2). f_equal. apply (station_sensor i tr'). destruct H as (n & a & l & c & P & X & Y). exists n, a, l, c. rewrite E1. auto. }
  assert (Ok : forall s w, In s starts -> cut (in_window win s) st w ->
    map fst w = map fst st /\ w <> [] /\ distinct (list S) (map (sensor_of dt) w)).
  { intros s w I C. destruct (In_range s I) as [R1 R2]. assert (E : map fst w = map fst st).
    { apply (complete_cut st win s w); [|exact C]. intros id tr J. exact (Co id tr s J R1 R2). }
    split; [exact E|]. split; [intros ->; destruct st; [congruence|discriminate]|]. split; [rewrite (Sids w E); exact ND|].
    intros x J. assert (In (short_id (list S) x) ids) by (rewrite <- (Sids w E); apply in_map; exact J).
    rewrite Forall_forall in Pl. exact (proj1 (Pl _ H)). }
  destruct (apply_function_windows f st win overlap) as [[tmid cols]|] eqn:AE.
  2:{ destruct A as (s & w & I & C & E). destruct (Ok s w I C) as (_ & Nw & Di). exfalso.
      destruct (C56_items (list S) prepare std correlate (map (sensor_of dt) w) maxshift) as (d & D & _); [destruct w; [congruence|discriminate]|exact Di|].
      unfold f, analyse in E. rewrite D in E. discriminate. }
  destruct A as (ds & Fd & Ft & T1 & T2).
  assert (Keys : forall d, In d ds -> map fst d = item_names ids).
  { intros d I. apply In_nth_error in I as (j & Ej). assert (exists s, nth_error starts j = Some s) as (s & Es).
    { destruct (nth_error starts j) as [s|] eqn:Es; [eauto|]. apply nth_error_None in Es. rewrite (Forall2_length_eq _ _ _ Fd) in Es.
      assert (j < length ds)%nat by (apply nth_error_Some; congruence). lia. }
    destruct (forall2_nth _ _ _ Fd j s Es) as (d' & Ed & w & C & E). assert (d' = d) by congruence. subst d'.
    destruct (Ok s w (nth_error_In _ _ Es) C) as (Ew & Nw & Di).
    destruct (C56_items (list S) prepare std correlate (map (sensor_of dt) w) maxshift) as (d2 & D2 & _ & K & _); [destruct w; [congruence|discriminate]|exact Di|].
    unfold f, analyse in E. rewrite D2 in E. injection E as <-. rewrite K. f_equal. apply Sids. exact Ew. }
  assert (Lds : length ds = length starts) by (symmetry; exact (Forall2_length_eq _ _ _ Fd)).
  assert (Dne : ds <> []) by (destruct SP as [Ls _]; intros ->; cbn in Lds; lia).
  assert (NDk : NoDup (item_names ids)).
  { destruct ds as [|d0 ds]; [congruence|]. rewrite <- (Keys d0 (or_introl eq_refl)).
    inversion Fd as [|s0 ? ? ? (w & _ & E) _]; subst. exact (xcorr_nodup _ _ _ _ _ _ _ E). }
  assert (Kc : map fst cols = item_names ids).
  { apply (same_columns _ (map (map fst) ds)); [exact NDk|destruct ds; [congruence|discriminate]| |exact T1].
    intros x I. apply in_map_iff in I as (d & <- & I). exact (Keys d I). }
  assert (Lt : length tmid = length starts) by (symmetry; exact (Forall2_length_eq _ _ _ Ft)).
  set (fr := table (tmid, cols)).
  assert (RO : results_of ids fr).
  { assert (K : map fst fr = b "t_mid" :: item_names ids). { unfold fr, table. cbn [map fst snd]. f_equal. rewrite map_map. cbn [fst]. exact Kc. }
    split; [exact K|]. rewrite K. constructor; [|exact NDk]. unfold item_names. intros [H|H]; [discriminate|]. apply in_app_iff in H as [H|[H|[]]]; [|discriminate].
    apply pair_items_in in H as (i & _ & [H|[(j & H)|(j & H)]]); discriminate. }
  (* the inversion succeeds *)
  assert (Inv : exists res, invert_for_slowness fr (length tmid) ls = Some res).
  { destruct (invert_for_slowness fr (length tmid) ls) as [res|] eqn:E; [eauto|]. exfalso.
    apply (C40_refused fr (length tmid) ls ids RO Pl NL) in E. apply E. exists ps. auto. }
  destruct Inv as (res & EI). exists m, step, starts, tmid, res.
  assert (Lr : length res = length tmid).
  { unfold invert_for_slowness in EI. repeat match goal with H : match ?x with _ => _ end = Some _ |- _ => destruct x; try discriminate end.
    injection EI as <-. rewrite map_length, seq_length. reflexivity. }
  split; [exact SP|]. split; [exact STEP|]. split.
  { unfold directions. change (apply_function_windows (analyse prepare std correlate dt maxshift) st win overlap) with (apply_function_windows f st win overlap).
    rewrite AE. cbn [fst]. fold fr. rewrite EI. reflexivity. }
  split; [exact Ft|]. split; [lia|].
  intros j s w lags Es C Nb.
  destruct (forall2_nth _ _ _ Fd j s Es) as (d & Ed & w' & C' & E).
  assert (w' = w).
  { exact (cut_det _ _ _ _ C' C). }
  subst w'. destruct (Ok s w (nth_error_In _ _ Es) C) as (Ew & Nw & Di).
  destruct (C56_items (list S) prepare std correlate (map (sensor_of dt) w) maxshift) as (d2 & D2 & _ & _ & It); [destruct w; [congruence|discriminate]|exact Di|].
  unfold f, analyse in E. rewrite D2 in E. injection E as <-.
  assert (Rec : neighbours (recorded fr j) (combine ids ps) lags).
  { pose proof (Forall2_length_eq _ _ _ Lo) as Lips. pose proof (Forall2_length_eq _ _ _ St) as List_. assert (Lw : length w = length st) by (rewrite <- (map_length fst w), Ew, map_length; reflexivity).
    apply (nb_map _ _ _ _ Nb); [rewrite combine_length; lia|]. intros i x y x' y' t Ex Ey Ex' Ey' ->.
    assert (Hx : forall k z z', nth_error w k = Some z -> nth_error (combine ids ps) k = Some z' ->
      short_id (list S) (sensor_of dt z) = fst z' /\ s_data (list S) (sensor_of dt z) = map snd (snd z) /\ s_delta (list S) (sensor_of dt z) = dt).
    { intros k z z' E1 E2. assert (K : nth_error ids k = Some (fst z')).
      { clear - E2. revert ids ps E2. induction k as [|k IH]; intros [|i ids] [|p ps] E; cbn in E; try discriminate; [injection E as <-; reflexivity|]. apply (IH ids ps). exact E. }
      apply station_sensor. destruct (forall2_nth _ _ _ St k _ K) as (tr & Et & (n & a & l & c & P & X & Y)). exists n, a, l, c. split; [exact P|]. split; [|exact Y].
      rewrite <- X. apply (map_nth_error fst) in E1, Et. rewrite Ew in E1. congruence. }
    destruct (Hx _ _ _ Ex Ex') as (N1 & D1 & _). destruct (Hx _ _ _ Ey Ey') as (N2 & D2' & _).
    destruct w as [|s0 wr] eqn:Ew0; [congruence|]. rewrite <- Ew0 in *.
    assert (Sd : s_delta (list S) (sensor_of dt s0) = dt).
    { destruct (combine ids ps) as [|z zs] eqn:Ec; [destruct i; discriminate|]. apply (Hx 0%nat s0 z); [rewrite Ew0; reflexivity|reflexivity]. }
    destruct (It (sensor_of dt s0) i (sensor_of dt x) (sensor_of dt y)) as (_ & Il & _).
    { rewrite Ew0. reflexivity. }
    { split; [apply map_nth_error; exact Ex|]. rewrite map_length. assert (Datatypes.S i < length w)%nat by (apply nth_error_Some; congruence).
      rewrite Nat.mod_small by lia. replace (i + 1)%nat with (Datatypes.S i) by lia. apply map_nth_error. exact Ey. }
    rewrite N1, N2 in Il. unfold result in Il. rewrite D1, D2', Sd in Il. fold (lag_between x y) in Il.
    set (k := b "lag_" ++ fst x' ++ b "_" ++ fst y') in *.
    assert (Ik : In k (map fst cols)). { rewrite Kc, <- (Keys d2 (nth_error_In _ _ Ed)). apply in_map_iff. eexists. split; [|exact Il]. reflexivity. }
    apply in_map_iff in Ik as ([k' c] & Ek & Ic). cbn [fst] in Ek. subst k'.
    destruct (forall2_nth _ _ _ (T2 k c Ic) j _ Ed) as (v & Ev & V).
    exists (map number c). split; [right; apply in_map_iff; exists (k, c); auto|]. rewrite (map_nth_error number _ _ Ev). f_equal.
    destruct v as [v|]; cbn [value_of_item] in V; [|exfalso; apply V; apply in_map_iff; eexists; split; [|exact Il]; reflexivity].
    rewrite (nodup_value d2 k v _ (xcorr_nodup _ _ _ _ _ _ _ D2) V Il). reflexivity. }
  destruct (C40_slowness fr (length tmid) ls ids ps j lags RO Pl NL Lo NC) as (res' & a & v & E1 & E2 & E3 & E4 & E5 & E6 & E7).
  { rewrite Lt. apply nth_error_Some. congruence. }
  { exact Rec. }
  rewrite EI in E1. injection E1 as <-. exists a, v. auto 8.
Qed.
End C57.

(** Lags that are those of a plane wave up to [e] (half a sample, say): the wave reported leaves residuals whose
    mean square is at most the square of [e]. *)
Theorem C57_rounded (v u : Q * Q) ps lags e k : (0 <= e)%Q ->
  (forall u k k', misfit v ps lags k -> misfit u ps lags k' -> k <= k')%Q ->
  neighbours (fun x y t => Qabs (arrival_time u x - arrival_time u y - t) <= e)%Q ps lags ->
  misfit v ps lags k -> (k <= inject_Z (Z.of_nat (length lags)) * (e * e))%Q.
Proof.
  intros E LS Nb K. assert (G : exists k', misfit u ps lags k' /\ (k' <= inject_Z (Z.of_nat (length lags)) * (e * e))%Q).
  { clear - Nb E. induction Nb as [|x|x y r t l H N (k' & M & B)].
    - exists 0%Q. split; [exact (mf_nil u)|change (inject_Z (Z.of_nat (length (@nil Q)))) with 0%Q; lra].
    - exists 0%Q. split; [exact (mf_one u x)|change (inject_Z (Z.of_nat (length (@nil Q)))) with 0%Q; lra].
    - eexists. split; [exact (mf_cons u _ _ _ _ _ _ M)|]. set (z := (arrival_time u x - arrival_time u y - t)%Q) in *.
      assert (Zb : (z * z <= e * e)%Q).
      { apply Qabs_Qle_condition in H as [H1 H2]. assert (0 <= (e - z) * (e + z))%Q by (apply Qmult_le_0_compat; lra). lra. }
      cbn [length]. rewrite Nat2Z.inj_succ. unfold Z.succ. rewrite inject_Z_plus. change (inject_Z 1) with 1%Q. lra. }
  destruct G as (k' & M & B). pose proof (LS u k k' K M). lra.
Qed.

(** ** A case *)
Definition case_trace (sta : string) (from : nat) (v : Z) : bytes * list (Q * Z) :=
  (b "XX." ++ b sta ++ b "..HDF", map (fun i => (inject_Z (Z.of_nat i), v)) (seq from (5 - from))).
Definition case_st := [case_trace "A" 0 0; case_trace "B" 0 3; case_trace "C" 0 9].
Definition case_correlate (x y : list Z) (m : Z) : Z * Q := (hd 0 x - hd 0 y, 1%Q).
Definition case_run := directions (fun d => d) (fun d => 1%Q) case_correlate 1 (Some 20%Q).
Example C57_case_result : exists tmid a1 a2, case_run case_st 2 0 (combine case_ids case_ps) = Some (tmid, [Some a1; Some a2]) /\
  (fst (toward a1) == -1)%Q /\ (snd (toward a1) == -2)%Q /\ (fst (toward a2) == -1)%Q /\ (snd (toward a2) == -2)%Q.
Proof. do 3 eexists. split; [vm_compute; reflexivity|]. repeat split; reflexivity. Qed.
Lemma case_station sta v : ~ In 46 (b sta) -> station_is (b "XX." ++ b sta ++ b ".") (case_trace sta 0 v).
Proof.
  intros N. exists (b "XX"), (b sta), [], (b "HDF"). split; [|split; [reflexivity|reflexivity]].
  intros p I H. cbn [In] in I. destruct I as [<-|[<-|[<-|[<-|[]]]]]; [|contradiction|destruct H|]; cbn in H; repeat (destruct H as [H|H]; [discriminate|]); exact H.
Qed.
Example C57_case : record case_st 0 4 /\ (2 + (1#1000000) * wanted_step 2 0 < 4 - 0)%Q /\
  Forall2 station_is case_ids case_st /\ NoDup case_ids /\ Forall plain case_ids /\ complete case_st 0 4 2 /\
  NoDup (map fst (combine case_ids case_ps)) /\ Forall2 (fun i p => In (i, p) (combine case_ids case_ps)) case_ids case_ps /\ ~ collinear case_ps.
Proof.
  split; [|split; [|split; [|split; [|split; [|split; [|split; [|split]]]]]]].
  - do 3 eexists. split; [reflexivity|]. split; [do 2 eexists; split; reflexivity|].
    exists (4%Q, 0), [(0%Q, 0); (1%Q, 0); (2%Q, 0); (3%Q, 0)]. split; reflexivity.
  - reflexivity.
  - constructor; [|constructor; [|constructor; [|constructor]]]; apply case_station; cbn; intros [H|[]]; discriminate.
  - repeat constructor; cbn; intros H; repeat (destruct H as [H|H]; [discriminate|]); exact H.
  - apply SlownessProps.C40_case.
  - assert (Mid : forall s, (0 <= s)%Q -> (s + 2 <= 4)%Q -> exists i, (i < 5)%nat /\ in_window 2 s (inject_Z (Z.of_nat i))).
    { intros s H1 H2. unfold in_window. destruct (Qlt_le_dec s (3#2)) as [G|G].
      - destruct (Qlt_le_dec s (1#2)) as [G'|G']; [exists 1%nat|exists 2%nat]; (split; [lia|]); cbn; unfold inject_Z; split; lra.
      - exists 3%nat. split; [lia|]. cbn. unfold inject_Z. split; lra. }
    intros id tr s I H1 H2. destruct (Mid s H1 H2) as (i & Li & Wi).
    assert (T : exists v, tr = map (fun i => (inject_Z (Z.of_nat i), v)) (seq 0 5)).
    { destruct I as [I|[I|[I|[]]]]; injection I as <- <-; [exists 0|exists 3|exists 9]; reflexivity. }
    destruct T as (v & ->). exists (inject_Z (Z.of_nat i), v). split; [|exact Wi].
    apply in_map_iff. exists i. split; [reflexivity|]. apply in_seq. lia.
  - repeat constructor; cbn; intros H; repeat (destruct H as [H|H]; [discriminate|]); exact H.
  - constructor; [|constructor; [|constructor; [|constructor]]]; cbn; auto.
  - apply SlownessProps.C40_case.
Qed.

(** Not true: that a sensor without data in the first window only spoils the directions of the windows it has no
    data in.  The columns are in order of first appearance, the lags the inversion then looks for have never
    been computed, and the inversion raises for all windows. *)
Theorem C57_missing_refuted : exists st, Forall2 station_is case_ids st /\
  (exists r, apply_function_windows (analyse (fun d => d) (fun d => 1%Q) case_correlate 1 (Some 20%Q)) st 2 0 = Some r) /\
  (forall w, cut (in_window 2 2) st w -> map fst w = map fst st) /\ case_run st 2 0 (combine case_ids case_ps) = None.
Proof.
  exists [case_trace "A" 0 0; case_trace "B" 3 3; case_trace "C" 0 9]. split; [|split; [|split]].
  - constructor; [|constructor; [|constructor; [|constructor]]]; try (apply case_station; cbn; intros [H|[]]; discriminate).
    destruct (case_station "B" 3) as (n & a & l & c & P & X & Y); [cbn; intros [H|[]]; discriminate|]. exists n, a, l, c. auto.
  - eexists. vm_compute. reflexivity.
  - intros w C. apply (complete_cut _ 2 2 w); [|exact C]. intros id tr I.
    destruct I as [I|[I|[I|[]]]]; injection I as <- <-; [exists (3%Q, 0)|exists (3%Q, 3)|exists (3%Q, 9)]; (split; [cbn; auto 6|]); split; cbn; lra.
  - vm_compute. reflexivity.
Qed.

Print Assumptions C57_directions.
Print Assumptions C57_rounded.
Print Assumptions C57_missing_refuted.
