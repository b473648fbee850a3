(** C63: the positions of the sensors of a stream. *)
From Coq Require Import String.
From Coq Require Import ZArith QArith List Bool Lia Lqa.
From Verif Require Import Base Stations StationsProofs InventorySpec Slowness Commands CommandsSpec StreamPlaces CommandsProps.
Import ListNotations.
Open Scope Z_scope.

(** ** What is meant *)
(** The sensor's place on earth is known. *)
Definition on_earth (p : placed) (lon lat el : Q) : Prop := p_lon p = Some lon /\ p_lat p = Some lat /\ p_elev p = Some el.
(** The sensor's place is known in kilometres. *)
Definition in_plane (p : placed) (x y el : Q) : Prop := p_x p = Some x /\ p_y p = Some y /\ p_elev p = Some el.
(** A row has the codes of the trace. *)
Definition codes_of (p : placed) (q : position) : Prop := q_net q = p_net p /\ q_sta q = p_sta p /\ q_loc q = p_loc p.
(** The trace and the channel are the same sensor at the same place. *)
Definition same_sensor (p : placed) (c : channel) : Prop :=
  on_earth p (c_lon c) (c_lat c) (c_elev c) /\
  exists cha, (forall s, In s [p_net p; p_sta p; p_loc p; cha] -> ~ In 46 s) /\
    c_code c = p_net p ++ b "." ++ p_sta p ++ b "." ++ p_loc p ++ b "." ++ cha.

(** ** Proofs *)
Lemma all2_impl {A B} (P R : A -> B -> Prop) l m : (forall x y, P x y -> R x y) -> Forall2 P l m -> Forall2 R l m.
Proof. intros H F. induction F; constructor; auto. Qed.
Lemma all_of_iff {A} (l : list (option A)) m : all_of l = Some m <-> l = map Some m.
Proof.
  revert m. induction l as [|[x|] l IH]; intros m; cbn [all_of].
  - split; [intros [= <-]; reflexivity|]. destruct m; [reflexivity|discriminate].
  - destruct (all_of l) as [r|].
    + split; [intros [= <-]; cbn; f_equal; apply IH; reflexivity|]. destruct m as [|y m]; [discriminate|]. cbn. intros [= <- E]. apply IH in E. injection E as ->. reflexivity.
    + split; [discriminate|]. destruct m as [|y m]; [discriminate|]. cbn. intros [= <- E]. apply IH in E. discriminate.
  - split; [discriminate|]. destruct m; discriminate.
Qed.
Lemma all_of_none {A B} (f : A -> option B) l x : In x l -> f x = None -> all_of (map f l) = None.
Proof.
  intros I E. destruct (all_of (map f l)) as [m|] eqn:A0; [|reflexivity]. apply all_of_iff in A0. exfalso.
  revert m A0. induction l as [|y l IH]; intros m A0; [destruct I|]. destruct m as [|z m]; [discriminate|]. cbn in A0. injection A0 as E1 E2.
  destruct I as [->|I]; [congruence|exact (IH I m E2)].
Qed.

Section rows.
Let row (p : placed) (g : Q * Q * Q) := mkpos (fst (fst g)) (snd (fst g)) (snd g) (p_net p) (p_sta p) (p_loc p).
Lemma rows_of (R : placed -> Q -> Q -> Q -> Prop) (f : Q * Q * Q -> Q * Q * Q) st (es : list (Q * Q * Q)) :
  Forall2 (fun p e => R p (fst (fst e)) (snd (fst e)) (snd e)) st es ->
  Forall2 (fun p q => exists a c d, R p a c d /\ q = row p (f (a, c, d))) st
    (map (fun p => mkpos (fst (fst (fst p))) (snd (fst (fst p))) (snd (fst p)) (p_net (snd p)) (p_sta (snd p)) (p_loc (snd p))) (combine (map f es) st)).
Proof. induction 1 as [|p [[a c] d] st es H F IH]; constructor; [exists a, c, d; split; [exact H|reflexivity]|exact IH]. Qed.
End rows.

Lemma combine_fields (l : list (Q * Q * Q)) : combine (combine (map (fun e => fst (fst e)) l) (map (fun e => snd (fst e)) l)) (map snd l) = l.
Proof. induction l as [|[[x y] z] l IH]; [reflexivity|]. cbn. f_equal. exact IH. Qed.

Lemma fields {B} (f : placed -> option B) (g : Q * Q * Q -> B) st es :
  Forall2 (fun p e => f p = Some (g e)) st es -> all_of (map f st) = Some (map g es).
Proof. intros F. apply all_of_iff. induction F as [|p e st es H F IH]; [reflexivity|]. cbn. f_equal; [exact H|exact IH]. Qed.
Lemma choose (R : placed -> Q -> Q -> Q -> Prop) st : (forall p, In p st -> exists a c d, R p a c d) ->
  exists es, Forall2 (fun p e => R p (fst (fst e)) (snd (fst e)) (snd e)) st es.
Proof.
  induction st as [|p st IH]; intros H; [exists []; constructor|]. destruct (H p (or_introl eq_refl)) as (a & c & d & X).
  destruct IH as (es & F); [intros q Q0; apply H; right; exact Q0|]. exists ((a, c, d) :: es). constructor; assumption.
Qed.
Lemma average_mean (l : list Q) : l <> [] -> average l (mean l).
Proof. intros N. unfold average, mean, qsum. field. intros X. destruct l; [congruence|]. discriminate X. Qed.
Lemma on_earth_fields st es : Forall2 (fun p e => on_earth p (fst (fst e)) (snd (fst e)) (snd e)) st es ->
  all_of (map p_lon st) = Some (map (fun e => fst (fst e)) es) /\ all_of (map p_lat st) = Some (map (fun e => snd (fst e)) es) /\
  all_of (map p_elev st) = Some (map snd es).
Proof. intros F. repeat split; apply fields; (eapply all2_impl; [|exact F]); intros p e (A & B & C); assumption. Qed.

(** ** C63 *)
(** When all places on earth are known: one row per trace, in order, with its codes, its kilometres from the average
    longitude and latitude, and its own elevation. *)
Theorem C63_stream_on_earth geo st : st <> [] -> (forall p, In p st -> exists lon lat el, on_earth p lon lat el) ->
  exists r lons lats lon0 lat0, stream_coordinates geo st = Some r /\
    map p_lon st = map Some lons /\ map p_lat st = map Some lats /\ average lons lon0 /\ average lats lat0 /\
    Forall2 (fun p q => codes_of p q /\ exists lon lat el, on_earth p lon lat el /\ (q_x q, q_y q) = geo lon0 lat0 lon lat /\ (q_z q == el)%Q) st r.
Proof.
  intros N H. destruct (choose on_earth st H) as (es & F). destruct (on_earth_fields st es F) as (E1 & E2 & E3).
  assert (NE : es <> []) by (intros ->; inversion F; subst; congruence).
  unfold stream_coordinates, stream_xyz, get_geometry. rewrite E1, E2, E3, combine_fields.
  exists (map (fun p => mkpos (fst (fst (fst p))) (snd (fst (fst p))) (snd (fst p)) (p_net (snd p)) (p_sta (snd p)) (p_loc (snd p)))
    (combine (map (fun p => (fst p, (snd p + mean (map snd es))%Q)) (map (fun p => (geo (mean (map (fun e => fst (fst e)) es)) (mean (map (fun e => snd (fst e)) es)) (fst (fst p)) (snd (fst p)), (snd p - mean (map snd es))%Q)) es)) st)).
  exists (map (fun e => fst (fst e)) es), (map (fun e => snd (fst e)) es), (mean (map (fun e => fst (fst e)) es)), (mean (map (fun e => snd (fst e)) es)).
  split; [reflexivity|]. split; [apply all_of_iff; exact E1|]. split; [apply all_of_iff; exact E2|].
  split; [apply average_mean; destruct es; [congruence|discriminate]|]. split; [apply average_mean; destruct es; [congruence|discriminate]|].
  rewrite map_map. eapply all2_impl; [|apply (rows_of on_earth); exact F].
  intros p q (a & c & d & O & ->). cbn [fst snd q_x q_y q_z]. split; [repeat split|]. exists a, c, d. split; [exact O|].
  split; [destruct (geo _ _ a c); reflexivity|]. ring.
Qed.

(** When a longitude or a latitude is missing, but all places in kilometres are known: these, unchanged. *)
Theorem C63_stream_in_plane geo st : (exists p, In p st /\ (p_lon p = None \/ p_lat p = None)) ->
  (forall p, In p st -> exists x y el, in_plane p x y el) ->
  exists r, stream_coordinates geo st = Some r /\
    Forall2 (fun p q => codes_of p q /\ in_plane p (q_x q) (q_y q) (q_z q)) st r.
Proof.
  intros (p0 & I0 & M) H. destruct (choose in_plane st H) as (es & F).
  assert (G : get_geometry geo st = None).
  { unfold get_geometry. destruct M as [M|M]; rewrite (all_of_none _ st p0 I0 M); [reflexivity|]. destruct (all_of (map p_lon st)); reflexivity. }
  assert (E : all_of (map p_x st) = Some (map (fun e => fst (fst e)) es) /\ all_of (map p_y st) = Some (map (fun e => snd (fst e)) es) /\ all_of (map p_elev st) = Some (map snd es)).
  { repeat split; apply fields; (eapply all2_impl; [|exact F]); intros p e (A & B & C); assumption. }
  destruct E as (E1 & E2 & E3). unfold stream_coordinates, stream_xyz. rewrite G, E1, E2, E3, combine_fields.
  eexists. split; [reflexivity|]. rewrite <- (map_id es). eapply all2_impl; [|apply (rows_of in_plane); exact F].
  intros p q (a & c & d & O & ->). split; [repeat split|exact O].
Qed.

(** No row is made up: a trace with neither kind of place, or without an elevation, is an error. *)
Theorem C63_stream_unknown geo st p : In p st ->
  p_elev p = None \/ ((p_lon p = None \/ p_lat p = None) /\ (p_x p = None \/ p_y p = None)) -> stream_coordinates geo st = None.
Proof.
  intros I0 M. unfold stream_coordinates, stream_xyz, get_geometry. destruct M as [M|[M1 M2]].
  - rewrite (all_of_none p_elev st p I0 M).
    destruct (all_of (map p_lon st)), (all_of (map p_lat st)), (all_of (map p_x st)), (all_of (map p_y st)); reflexivity.
  - replace (match all_of (map p_lon st) with Some _ => _ | None => None end) with (@None (list (Q * Q * Q) * (Q * Q * Q))).
    + destruct M2 as [M2|M2]; rewrite (all_of_none _ st p I0 M2); [reflexivity|]. destruct (all_of (map p_x st)); reflexivity.
    + destruct M1 as [M1|M1]; rewrite (all_of_none _ st p I0 M1); [reflexivity|]. destruct (all_of (map p_lon st)); reflexivity.
Qed.

(** Positions are found exactly when all traces have the same kind of place: a stream where some have one and some the other is an error. *)
Lemma all_of_each {A B} (f : A -> option B) l m x : all_of (map f l) = Some m -> In x l -> exists y, f x = Some y.
Proof. intros E I. destruct (f x) as [y|] eqn:F; [exists y; reflexivity|]. rewrite (all_of_none f l x I F) in E. discriminate. Qed.
Theorem C63_stream_iff geo st : (exists r, stream_coordinates geo st = Some r) <->
  (forall p, In p st -> exists lon lat el, on_earth p lon lat el) \/ (forall p, In p st -> exists x y el, in_plane p x y el).
Proof.
  split.
  - intros (r & E). unfold stream_coordinates, stream_xyz, get_geometry in E.
    destruct (all_of (map p_elev st)) as [els|] eqn:E3;
      [|destruct (all_of (map p_lon st)), (all_of (map p_lat st)), (all_of (map p_x st)), (all_of (map p_y st)); discriminate].
    destruct (all_of (map p_lon st)) as [lons|] eqn:E1; [destruct (all_of (map p_lat st)) as [lats|] eqn:E2|].
    1: { left. intros p I. destruct (all_of_each _ _ _ p E1 I) as (a & A), (all_of_each _ _ _ p E2 I) as (c & C), (all_of_each _ _ _ p E3 I) as (d & D).
      exists a, c, d. repeat split; assumption. }
    all: destruct (all_of (map p_x st)) as [xs|] eqn:E4; [|discriminate]; destruct (all_of (map p_y st)) as [ys|] eqn:E5; [|discriminate].
    all: right; intros p I; destruct (all_of_each _ _ _ p E4 I) as (a & A), (all_of_each _ _ _ p E5 I) as (c & C), (all_of_each _ _ _ p E3 I) as (d & D).
    all: exists a, c, d; repeat split; assumption.
  - intros [H|H].
    + destruct st as [|p st]; [eexists; reflexivity|].
      destruct (C63_stream_on_earth geo (p :: st) ltac:(discriminate) H) as (r & ? & ? & ? & ? & E & _). exists r. exact E.
    + unfold stream_coordinates, stream_xyz. destruct (get_geometry geo st) as [[g c]|]; [eexists; reflexivity|].
      destruct (choose in_plane st H) as (es & F).
      assert (E : all_of (map p_x st) = Some (map (fun e => fst (fst e)) es) /\ all_of (map p_y st) = Some (map (fun e => snd (fst e)) es) /\ all_of (map p_elev st) = Some (map snd es)).
      { repeat split; apply fields; (eapply all2_impl; [|exact F]); intros p e (A & B & C); assumption. }
      destruct E as (-> & -> & ->). eexists. reflexivity.
Qed.

(** A stream and an inventory with the same sensors give the same positions, so the same directions. *)
Theorem C63_stream_inventory geo st inv : NoDup (map c_code inv) -> Forall2 same_sensor st inv ->
  exists r, stream_coordinates geo st = Some r /\ get_coordinates geo inv = Some (map located r).
Proof.
  intros ND F.
  assert (FE : Forall2 (fun p e => on_earth p (fst (fst e)) (snd (fst e)) (snd e)) st (map (fun c => (c_lon c, c_lat c, c_elev c)) inv)).
  { clear ND. induction F as [|p c st inv [O _] F IH]; constructor; assumption. }
  destruct (on_earth_fields _ _ FE) as (E1 & E2 & E3). rewrite !map_map in E1, E2, E3. cbn [fst snd] in E1, E2, E3.
  change (map (fun c => c_lon c) inv) with (map c_lon inv) in E1. change (map (fun c => c_lat c) inv) with (map c_lat inv) in E2.
  change (map (fun c => c_elev c) inv) with (map c_elev inv) in E3.
  unfold stream_coordinates, stream_xyz, get_geometry, get_coordinates. rewrite E1, E2, E3.
  destruct (all_of_some (fun c => find_channel inv (c_code c)) eq inv) as (cs & -> & F1).
  { intros c I. exists c. split; [apply find_channel_in; assumption|reflexivity]. }
  assert (cs = inv) by (symmetry; clear - F1; induction F1; congruence). subst cs.
  assert (P : all_of (map (fun c => place (c_code c)) inv) = Some (map (fun p => p_net p ++ b "." ++ p_sta p ++ b "." ++ p_loc p) st)).
  { apply all_of_iff. clear - F. induction F as [|p c st inv [_ (cha & ND & E)] F IH]; [reflexivity|]. cbn [map]. f_equal; [|exact IH].
    unfold place. rewrite E. change (b ".") with [46]. rewrite !split_on_app by (apply ND; cbn; auto). reflexivity. }
  rewrite P. eexists. split; [reflexivity|]. f_equal.
  generalize (mean (map c_lon inv)) (mean (map c_lat inv)) (mean (map c_elev inv)). intros x y z. clear - F.
  induction F as [|p c st inv S F IH]; [reflexivity|]. cbn [map combine fst snd]. f_equal; [|exact IH].
  unfold located. cbn [q_x q_y q_net q_sta q_loc]. destruct (geo x y (c_lon c) (c_lat c)). reflexivity.
Qed.

(** Two arrays: the pairs in order, and only when there are as many of each. *)
Theorem C63_arrays x y r : array_coordinates x y = Some r <-> map fst r = x /\ map snd r = y.
Proof.
  unfold array_coordinates. destruct (Nat.eqb (length x) (length y)) eqn:E.
  - apply Nat.eqb_eq in E. split.
    + intros [= <-]. revert y E. induction x as [|a x IH]; intros [|c y] E; try discriminate; [split; reflexivity|].
      injection E as E. destruct (IH y E) as (A & B). cbn. rewrite A, B. split; reflexivity.
    + intros (<- & <-). f_equal. clear. induction r as [|[a c] r IH]; [reflexivity|]. cbn. f_equal. exact IH.
  - apply Nat.eqb_neq in E. split; [discriminate|]. intros (<- & <-). rewrite !map_length in E. congruence.
Qed.

(** ** Cases *)
Definition case_geo2 (lon0 lat0 lon lat : Q) : Q * Q := ((lon - lon0) * 80, (lat - lat0) * 111)%Q.
Definition case_st : list placed :=
  [mkpl (b "XP") (b "PAR1") (b "00") (Some (-116#1)) (Some (43#1)) (Some (800#1)) None None;
   mkpl (b "XP") (b "PAR2") (b "") (Some (-115#1)) (Some (44#1)) (Some (900#1)) None None].
Definition case_inv2 : list channel :=
  [mkch (b "XP.PAR1.00.HDF") (43#1) (-116#1) (800#1); mkch (b "XP.PAR2..HDF") (44#1) (-115#1) (900#1)].
Definition case_plane : list placed :=
  [mkpl (b "XP") (b "PAR1") (b "00") None None (Some (800#1)) (Some (1#10)) (Some (2#10));
   mkpl (b "XP") (b "PAR2") (b "") None None (Some (900#1)) (Some (3#10)) (Some (5#10))].
Example C63_stream_case :
  (case_st <> [] /\ (forall p, In p case_st -> exists lon lat el, on_earth p lon lat el)) /\
  (NoDup (map c_code case_inv2) /\ Forall2 same_sensor case_st case_inv2) /\
  get_coordinates case_geo2 case_inv2 <> None /\
  ((exists p, In p case_plane /\ (p_lon p = None \/ p_lat p = None)) /\ (forall p, In p case_plane -> exists x y el, in_plane p x y el)) /\
  stream_coordinates case_geo2 (mkpl (b "XP") (b "PAR3") (b "") None None (Some (1#1)) None None :: case_st) = None /\
  array_coordinates [1#1; 2#1] [3#1; 4#1] = Some [(1#1, 3#1); (2#1, 4#1)]%Q.
Proof.
  repeat split; try discriminate.
  - intros p [<-|[<-|[]]]; do 3 eexists; repeat split.
  - repeat constructor; cbn; intuition discriminate.
  - assert (HS : forall p c, on_earth p (c_lon c) (c_lat c) (c_elev c) -> forallb (forallb (fun x => negb (x =? 46))) [p_net p; p_sta p; p_loc p; b "HDF"] = true ->
      c_code c = p_net p ++ b "." ++ p_sta p ++ b "." ++ p_loc p ++ b "." ++ b "HDF" -> same_sensor p c).
    { intros p c O D E. split; [exact O|]. exists (b "HDF"). split; [|exact E]. intros s I J.
      rewrite forallb_forall in D. specialize (D s I). rewrite forallb_forall in D. specialize (D _ J). discriminate. }
    apply Forall2_cons; [apply HS; [repeat split|vm_compute; reflexivity|vm_compute; reflexivity]|].
    apply Forall2_cons; [apply HS; [repeat split|vm_compute; reflexivity|vm_compute; reflexivity]|]. apply Forall2_nil.
  - eexists. split; [left; reflexivity|left; reflexivity].
  - intros p [<-|[<-|[]]]; do 3 eexists; repeat split.
Qed.

Print Assumptions C63_stream_on_earth.
Print Assumptions C63_stream_in_plane.
Print Assumptions C63_stream_unknown.
Print Assumptions C63_stream_iff.
Print Assumptions C63_stream_inventory.
Print Assumptions C63_arrays.
