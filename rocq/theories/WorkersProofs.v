(** Lemmas about conversions that run at the same time. *)
From Coq Require Import String.
From Coq Require Import ZArith List Bool Lia.
From Verif Require Import Base CalendarSpec Names NamesSpec NamesProofs NamesProps Workers WorkersSpec.
Import ListNotations.
Open Scope Z_scope.

(** * Paths *)

Lemma last_slash (x y x' y' : bytes) : x ++ 47 :: y = x' ++ 47 :: y' -> ~ In 47 y -> ~ In 47 y' -> x = x' /\ y = y'.
Proof.
  revert x'. induction x as [|c x IH]; intros [|c' x'] E N N'; cbn in E.
  - injection E as ->. auto.
  - injection E as E1 E. subst c'. exfalso. apply N. rewrite E. apply in_or_app. right. left. reflexivity.
  - injection E as E1 E. subst c. exfalso. apply N'. rewrite <- E. apply in_or_app. right. left. reflexivity.
  - injection E as -> E. destruct (IH x' E N N') as [-> ->]. auto.
Qed.

Lemma pad_no w n c : 0 <= n -> ~ 48 <= c <= 57 -> ~ In c (pad w n).
Proof. intros Hn Hc I. pose proof (pad_digits w n Hn) as F. rewrite Forall_forall in F. apply F in I. unfold dig in I. lia. Qed.

Lemma lower_no c s : ~ 65 <= c <= 90 -> ~ 97 <= c <= 122 -> ~ In c s -> ~ In c (lower s).
Proof.
  intros H1 H2 N I. unfold lower in I. apply in_map_iff in I as (x & E & I). destruct ((65 <=? x) && (x <=? 90)) eqn:B.
  - apply andb_prop in B as [B1 B2]. apply Z.leb_le in B1, B2. lia.
  - subst. tauto.
Qed.

Lemma converted_no_slash t us id fmt : exists_in_calendar t -> ~ In 47 id -> ~ In 47 fmt -> ~ In 47 (converted_name t us id fmt).
Proof.
  intros Ht Ni Nf I. apply calendar_ranges in Ht as (T1 & T2 & T3 & T4 & T5 & T6).
  unfold converted_name in I. rewrite !in_app_iff in I. repeat (destruct I as [I|I]);
    try (revert I; apply pad_no; lia); try (revert I; apply lower_no; assumption || lia); try (cbn in I; lia); tauto.
Qed.

Lemma converted_fourth t us id fmt : exists_in_calendar t -> exists c, nth_error (converted_name t us id fmt) 3 = Some c /\ 48 <= c <= 57.
Proof.
  intros Ht. apply calendar_ranges in Ht as (T1 & _). unfold converted_name.
  assert (L : length (pad 4 (year t)) = 4%nat) by (apply pad_length; lia). pose proof (pad_digits 4 (year t) ltac:(lia)) as F.
  destruct (pad 4 (year t)) as [|a [|c [|d [|e [|]]]]]; try discriminate L. exists e. split; [reflexivity|].
  rewrite Forall_forall in F. apply F. right. right. right. left. reflexivity.
Qed.

Section Proofs.
  Context {D : Type}.
  Variables out format : bytes.
  Notation its_path := (its_path out format).
  Notation wave_file := (wave_file out format).
  Implicit Types (j k : job D) (t : tree D).

  Lemma gps_meta j k n m : gps_log j n <> meta_log k m.
  Proof. intros E. vm_compute in E. discriminate E. Qed.

  Lemma log_inj (pre suf x y : bytes) n m : length x = length y -> 0 <= n -> 0 <= m ->
    log_name (pre ++ x ++ suf) n = log_name (pre ++ y ++ suf) m -> x = y /\ n = m.
  Proof.
    intros L Hn Hm E. unfold log_name in E. rewrite <- !app_assoc in E. apply app_inv_head in E.
    apply app_eq_len in E as [-> E]; [|exact L]. split; [reflexivity|]. apply app_inv_head in E.
    apply (log_name_inj [] n m Hn Hm). exact E.
  Qed.
  Lemma gps_inj j k n m : length (j_sn j) = length (j_sn k) -> 0 <= n -> 0 <= m -> gps_log j n = gps_log k m -> j_sn j = j_sn k /\ n = m.
  Proof. intros L Hn Hm E. apply (log_inj (b "gps/") (b "gps")); assumption. Qed.
  Lemma meta_inj j k n m : length (j_sn j) = length (j_sn k) -> 0 <= n -> 0 <= m -> meta_log j n = meta_log k m -> j_sn j = j_sn k /\ n = m.
  Proof. intros L Hn Hm E. apply (log_inj (b "metadata/") (b "metadata")); assumption. Qed.

  Variable jobs : list (job D).
  Hypothesis F : fit out format jobs.

  Lemma rest_no_slash (sn typ : bytes) n : ~ In 47 sn -> ~ In 47 typ -> 0 <= n -> ~ In 47 (log_name (sn ++ typ) n).
  Proof.
    clear. intros H1 H2 Hn I. unfold log_name in I. rewrite !in_app_iff in I. repeat (destruct I as [I|I]); try tauto; try (cbn in I; lia).
    revert I. apply pad_no; lia.
  Qed.

  Lemma wave_log j k tm us d n : In j jobs -> In k jobs -> In (Wave tm us d) (j_later j) -> 0 <= n ->
    wave_file j tm us <> gps_log k n /\ wave_file j tm us <> meta_log k n.
  Proof.
    intros Ij Ik Iw Hn. destruct F as [_ _ FL FS FT [_ Ff] _]. pose proof (FT j tm us d Ij Iw) as Ht.
    destruct (FS j Ij) as [_ Si]. destruct (FS k Ik) as [Sk _]. pose proof (FL k Ik) as Lk.
    pose proof (converted_no_slash tm us (j_id j) format Ht Si Ff) as N. destruct (converted_fourth tm us (j_id j) format Ht) as (c & Ec & Hc).
    assert (G : forall (dir typ : bytes) (a : Z) (ty : bytes), typ = a :: ty -> ~ In 47 typ -> ~ 48 <= a <= 57 ->
      wave_file j tm us <> log_name (dir ++ b "/" ++ j_sn k ++ typ) n).
    { intros dir typ a ty -> Nt Ha E. unfold Workers.wave_file, log_name in E. rewrite <- !app_assoc in E.
      change (b "/" ++ converted_name tm us (j_id j) format) with (47 :: converted_name tm us (j_id j) format) in E.
      change (b "/" ++ j_sn k ++ (a :: ty) ++ b "_" ++ pad 3 n ++ b ".txt") with (47 :: j_sn k ++ (a :: ty) ++ b "_" ++ pad 3 n ++ b ".txt") in E.
      apply last_slash in E; [|exact N|].
      - destruct E as [_ E]. rewrite E in Ec. rewrite nth_error_app2, Lk in Ec by lia. cbn in Ec. injection Ec as ->. lia.
      - pose proof (rest_no_slash (j_sn k) (a :: ty) n Sk Nt Hn) as R. unfold log_name in R. rewrite <- app_assoc in R. exact R. }
    split; [apply (G gps_dir (b "gps") 103 (b "ps") eq_refl)|apply (G meta_dir (b "metadata") 109 (b "etadata") eq_refl)]; try lia; cbn; lia.
  Qed.

  Lemma wave_wave j k tm us d tm' us' d' : In j jobs -> In k jobs -> In (Wave tm us d) (j_later j) -> In (Wave tm' us' d') (j_later k) ->
    wave_file j tm us = wave_file k tm' us' -> j_id j = j_id k.
  Proof.
    intros Ij Ik Iw Iw' E. destruct F as [_ _ _ _ FT [Ff _] _]. unfold Workers.wave_file in E. apply app_inv_head in E. apply app_inv_head in E.
    exact (proj1 (proj2 (C24_injective _ _ _ _ _ _ _ _ (FT j tm us d Ij Iw) (FT k tm' us' d' Ik Iw') Ff Ff E))).
  Qed.

  Lemma nodup_map {A B} (f : A -> B) l x y : NoDup (map f l) -> In x l -> In y l -> f x = f y -> x = y.
  Proof.
    induction l as [|a l IH]; intros N Ix Iy E; [destruct Ix|]. cbn in N. apply NoDup_cons_iff in N as [Na N].
    destruct Ix as [->|Ix], Iy as [->|Iy]; [reflexivity| | |auto].
    - exfalso. apply Na. rewrite E. apply in_map. exact Iy.
    - exfalso. apply Na. rewrite <- E. apply in_map. exact Ix.
  Qed.

  Lemma disjoint j k q : In j jobs -> In k jobs -> its_path j q -> its_path k q -> j = k.
  Proof.
    intros Ij Ik. assert (L : length (j_sn j) = length (j_sn k)) by (rewrite !(fit_length _ _ _ _ F) by assumption; reflexivity).
    intros [(n & Hn & ->)|[(n & Hn & ->)|(tm & us & d & Iw & ->)]] [(m & Hm & E)|[(m & Hm & E)|(tm' & us' & d' & Iw' & E)]].
    - apply (nodup_map j_sn jobs); try assumption; [apply F|]. apply (gps_inj j k n m); assumption.
    - exfalso. exact (gps_meta _ _ _ _ E).
    - exfalso. exact (proj1 (wave_log k j tm' us' d' n Ik Ij Iw' Hn) (eq_sym E)).
    - exfalso. exact (gps_meta _ _ _ _ (eq_sym E)).
    - apply (nodup_map j_sn jobs); try assumption; [apply F|]. apply (meta_inj j k n m); assumption.
    - exfalso. exact (proj2 (wave_log k j tm' us' d' n Ik Ij Iw' Hn) (eq_sym E)).
    - exfalso. exact (proj1 (wave_log j k tm us d m Ij Ik Iw Hm) E).
    - exfalso. exact (proj2 (wave_log j k tm us d m Ij Ik Iw Hm) E).
    - apply (nodup_map j_id jobs); try assumption; [apply F|]. eapply wave_wave; eassumption.
  Qed.

  (** * One conversion *)

  Definition wrote_to t0 t1 j gn mn (done : list (output D)) : Prop :=
    first_free t0 (gps_log j) gn /\ first_free t0 (meta_log j) mn /\
    file t1 (gps_log j gn) = log_contents (gps_rows done) /\ file t1 (meta_log j mn) = log_contents (meta_rows done) /\
    (forall before tm us d after, done = before ++ Wave tm us d :: after ->
      (forall tm' us' d', In (Wave tm' us' d') after -> wave_file j tm' us' <> wave_file j tm us) ->
      file t1 (wave_file j tm us) = Some d) /\
    (forall q, its_path j q -> q <> gps_log j gn -> q <> meta_log j mn ->
      (forall tm us d, In (Wave tm us d) done -> q <> wave_file j tm us) -> file t1 q = file t0 q).

  Lemma its_gps j n : 0 <= n -> its_path j (gps_log j n).
  Proof. intros H. left. eauto. Qed.
  Lemma its_meta j n : 0 <= n -> its_path j (meta_log j n).
  Proof. intros H. right. left. eauto. Qed.
  Lemma its_wave j tm us d : In (Wave tm us d) (j_later j) -> its_path j (wave_file j tm us).
  Proof. intros H. right. right. eauto 6. Qed.
  Lemma outputs_wave j tm us d : In (Wave tm us d) (all_outputs j) -> In (Wave tm us d) (j_later j).
  Proof. unfold all_outputs. intros [H|H]; [discriminate|]. apply in_app_iff in H as [H|H]; [|exact H]. destruct (j_gps j); [destruct H as [H|[]]; discriminate|destruct H]. Qed.

  Definition not_owned_same j t t' : Prop := forall q, file t' q = file t q \/ its_path j q.

  Lemma set_same t p d : file (set_file t p d) p = Some d.
  Proof. cbn. destruct (eqb_bytes p p) eqn:E; [reflexivity|]. assert (eqb_bytes p p = true) by (apply eqb_bytes_iff; reflexivity). congruence. Qed.
  Lemma set_other t p d q : q <> p -> file (set_file t p d) q = file t q.
  Proof. intros N. cbn. destruct (eqb_bytes q p) eqn:E; [|reflexivity]. apply eqb_bytes_iff in E. contradiction. Qed.

  Lemma set_or t j p d : its_path j p -> not_owned_same j t (set_file t p d).
  Proof. intros H q. cbn. destruct (eqb_bytes q p) eqn:E; [apply eqb_bytes_iff in E; subst; auto|auto]. Qed.

  Lemma log_app (l : list (list D)) r : log_contents (l ++ [r]) = Some (match log_contents l with Some x => x | None => [] end ++ r).
  Proof. destruct l as [|a l]; cbn [app log_contents]; [cbn [concat]; rewrite app_nil_r; reflexivity|]. f_equal. change (a :: l ++ [r]) with ((a :: l) ++ [r]). rewrite concat_app. cbn. rewrite app_nil_r. reflexivity. Qed.

  Lemma write_gps t0 t j gn mn done r : In j jobs -> (forall o, In o done -> In o (all_outputs j)) -> wrote_to t0 t j gn mn done ->
    wrote_to t0 (set_file t (gps_log j gn) (match file t (gps_log j gn) with Some l => l | None => [] end ++ r)) j gn mn (done ++ [Gps r]).
  Proof.
    intros Ij Sub (G & M & Cg & Cm & W & R). pose proof (proj1 G) as G0. pose proof (proj1 M) as M0. unfold wrote_to. split; [exact G|]. split; [exact M|]. split; [|split; [|split]].
    - rewrite set_same, Cg. unfold gps_rows. rewrite flat_map_app. cbn [flat_map app]. rewrite log_app. reflexivity.
    - rewrite set_other by (intros E; exact (gps_meta _ _ _ _ (eq_sym E))). rewrite Cm. unfold meta_rows. rewrite flat_map_app. cbn [flat_map app]. rewrite app_nil_r. reflexivity.
    - intros before tm us d after E N. destruct (exists_last (l := Wave tm us d :: after)) as (a & z & Ea); [discriminate|].
      rewrite Ea, app_assoc in E. apply app_inj_tail in E as [E <-]. destruct a as [|x a].
      { cbn in Ea. injection Ea as Ea _. discriminate. }
      cbn in Ea. injection Ea as <- Ea. assert (Iw : In (Wave tm us d) (j_later j)).
      { apply outputs_wave, Sub. rewrite E. apply in_or_app. right. left. reflexivity. }
      rewrite set_other by (apply (wave_log j j tm us d); assumption). apply (W before tm us d a E).
      intros t' us' d' I. apply (N t' us' d'). rewrite Ea. apply in_or_app. left. exact I.
    - intros q Iq Ng Nm Nw. rewrite set_other by exact Ng. apply R; try assumption. intros tm us d I. apply (Nw tm us d). apply in_or_app. left. exact I.
  Qed.

  Lemma write_meta t0 t j gn mn done r : In j jobs -> (forall o, In o done -> In o (all_outputs j)) -> wrote_to t0 t j gn mn done ->
    wrote_to t0 (set_file t (meta_log j mn) (match file t (meta_log j mn) with Some l => l | None => [] end ++ r)) j gn mn (done ++ [Meta r]).
  Proof.
    intros Ij Sub (G & M & Cg & Cm & W & R). pose proof (proj1 G) as G0. pose proof (proj1 M) as M0. unfold wrote_to. split; [exact G|]. split; [exact M|]. split; [|split; [|split]].
    - rewrite set_other by apply gps_meta. rewrite Cg. unfold gps_rows. rewrite flat_map_app. cbn [flat_map app]. rewrite app_nil_r. reflexivity.
    - rewrite set_same, Cm. unfold meta_rows. rewrite flat_map_app. cbn [flat_map app]. rewrite log_app. reflexivity.
    - intros before tm us d after E N. destruct (exists_last (l := Wave tm us d :: after)) as (a & z & Ea); [discriminate|].
      rewrite Ea, app_assoc in E. apply app_inj_tail in E as [E <-]. destruct a as [|x a].
      { cbn in Ea. injection Ea as Ea _. discriminate. }
      cbn in Ea. injection Ea as <- Ea. assert (Iw : In (Wave tm us d) (j_later j)).
      { apply outputs_wave, Sub. rewrite E. apply in_or_app. right. left. reflexivity. }
      rewrite set_other by (apply (wave_log j j tm us d); assumption). apply (W before tm us d a E).
      intros t' us' d' I. apply (N t' us' d'). rewrite Ea. apply in_or_app. left. exact I.
    - intros q Iq Ng Nm Nw. rewrite set_other by exact Nm. apply R; try assumption. intros tm us d I. apply (Nw tm us d). apply in_or_app. left. exact I.
  Qed.

  Lemma write_wave t0 t j gn mn done tm us d : In j jobs -> (forall o, In o done -> In o (all_outputs j)) -> In (Wave tm us d) (j_later j) ->
    wrote_to t0 t j gn mn done ->
    wrote_to t0 (set_file t (wave_file j tm us) d) j gn mn (done ++ [Wave tm us d]).
  Proof.
    intros Ij Sub Iw (G & M & Cg & Cm & W & R). pose proof (proj1 G) as G0. pose proof (proj1 M) as M0. unfold wrote_to. split; [exact G|]. split; [exact M|].
    destruct (wave_log j j tm us d gn Ij Ij Iw G0) as [Lg _]. destruct (wave_log j j tm us d mn Ij Ij Iw M0) as [_ Lm].
    split; [|split; [|split]].
    - rewrite set_other by congruence. rewrite Cg. unfold gps_rows. rewrite flat_map_app. cbn [flat_map app]. rewrite app_nil_r. reflexivity.
    - rewrite set_other by congruence. rewrite Cm. unfold meta_rows. rewrite flat_map_app. cbn [flat_map app]. rewrite app_nil_r. reflexivity.
    - intros before tm1 us1 d1 after E N. destruct (exists_last (l := Wave tm1 us1 d1 :: after)) as (a & z & Ea); [discriminate|].
      rewrite Ea, app_assoc in E. apply app_inj_tail in E as [E <-]. destruct a as [|x a].
      { cbn in Ea. injection Ea as -> -> -> _. apply set_same. }
      cbn in Ea. injection Ea as <- Ea. rewrite set_other.
      + apply (W before tm1 us1 d1 a E). intros t' us' d' I. apply (N t' us' d'). rewrite Ea. apply in_or_app. left. exact I.
      + intros X. apply (N tm us d); [rewrite Ea; apply in_or_app; right; left; reflexivity|congruence].
    - intros q Iq Ng Nm Nw. rewrite set_other; [|apply (Nw tm us d); apply in_or_app; right; left; reflexivity].
      apply R; try assumption. intros tm1 us1 d1 I. apply (Nw tm1 us1 d1). apply in_or_app. left. exact I.
  Qed.

  (** What holds of a conversion at each place. *)
  Definition inv t0 t j (s : state D) : Prop :=
    match s with
    | AtGpsDir | AtGpsMake | Exited => untouched out format t0 t j
    | AtGpsName n => untouched out format t0 t j /\ 0 <= n /\ forall i, 0 <= i < n -> present t0 (gps_log j i) = true
    | AtMetaDir g | AtMetaMake g => untouched out format t0 t j /\ exists gn, g = gps_log j gn /\ first_free t0 (gps_log j) gn
    | AtMetaName g n => untouched out format t0 t j /\ (exists gn, g = gps_log j gn /\ first_free t0 (gps_log j) gn) /\
        0 <= n /\ forall i, 0 <= i < n -> present t0 (meta_log j i) = true
    | AtOutDir g m | AtOutMake g m | AtMeta g m => exists gn mn, g = gps_log j gn /\ m = meta_log j mn /\
        first_free t0 (gps_log j) gn /\ first_free t0 (meta_log j) mn /\ untouched out format t0 t j
    | AtGps g m => exists gn mn, g = gps_log j gn /\ m = meta_log j mn /\ j_gps j <> None /\ wrote_to t0 t j gn mn [Meta (j_meta j)]
    | AtLater g m l => exists gn mn done, g = gps_log j gn /\ m = meta_log j mn /\ all_outputs j = done ++ l /\ wrote_to t0 t j gn mn done
    end.

  Lemma free_none t name n : first_free t name n -> file t (name n) = None.
  Proof. intros (_ & H & _). unfold present in H. apply orb_false_iff in H as [_ H]. destruct (file t (name n)); [discriminate|reflexivity]. Qed.
  Lemma untouched_wrote t0 t j gn mn : first_free t0 (gps_log j) gn -> first_free t0 (meta_log j) mn -> untouched out format t0 t j -> wrote_to t0 t j gn mn [].
  Proof.
    intros G M U. split; [exact G|]. split; [exact M|].
    split; [rewrite U by (apply its_gps; apply G); apply (free_none _ _ _ G)|].
    split; [rewrite U by (apply its_meta; apply M); apply (free_none _ _ _ M)|].
    split; [intros before tm us d after E; destruct before; discriminate|]. intros q Iq _ _ _. apply U, Iq.
  Qed.

  Lemma inv_frame t0 t t' j s : (forall q, its_path j q -> file t' q = file t q) -> inv t0 t j s -> inv t0 t' j s.
  Proof.
    intros H. assert (U : untouched out format t0 t j -> untouched out format t0 t' j) by (intros U q Iq; rewrite H by exact Iq; apply U, Iq).
    assert (W : forall gn mn done, (forall o, In o done -> In o (all_outputs j)) -> wrote_to t0 t j gn mn done -> wrote_to t0 t' j gn mn done).
    { intros gn mn done Sub (G & M & Cg & Cm & W & R). split; [exact G|]. split; [exact M|]. split; [rewrite H by (apply its_gps; apply G); exact Cg|].
      split; [rewrite H by (apply its_meta; apply M); exact Cm|]. split.
      - intros before tm us d after E N. rewrite H; [exact (W _ _ _ _ _ E N)|]. apply (its_wave j tm us d), outputs_wave, Sub. rewrite E. apply in_or_app. right. left. reflexivity.
      - intros q Iq A B C. rewrite H by exact Iq. apply R; assumption. }
    destruct s; cbn [inv]; try tauto.
    - intros (gn & mn & A & B & C & E & X). exists gn, mn. auto 6.
    - intros (gn & mn & A & B & C & E & X). exists gn, mn. auto 6.
    - intros (gn & mn & A & B & C & E & X). exists gn, mn. auto 6.
    - intros (gn & mn & A & B & C & X). exists gn, mn. split; [exact A|]. split; [exact B|]. split; [exact C|]. apply W; [|exact X].
      intros o [<-|[]]. left. reflexivity.
    - intros (gn & mn & done & A & B & C & X). exists gn, mn, done. split; [exact A|]. split; [exact B|]. split; [exact C|]. apply W; [|exact X].
      intros o I. rewrite C. apply in_or_app. left. exact I.
  Qed.

  (** Folders. *)
  Definition folder (q : bytes) : Prop := q = gps_dir \/ q = meta_dir \/ q = out.
  Definition dirs_ok t0 t : Prop := forall q, is_dir t q = is_dir t0 q \/ folder q /\ is_dir t q = true.
  Lemma log_no_folder j n : In j jobs -> 0 <= n -> ~ folder (gps_log j n) /\ ~ folder (meta_log j n).
  Proof.
    intros Ij Hn. destruct (fit_out _ _ _ _ F j n Ij Hn) as [A B].
    split; intros [E|[E|E]]; try congruence; clear -E; vm_compute in E; discriminate E.
  Qed.
  Lemma present_same t0 t q : file t q = file t0 q -> is_dir t q = is_dir t0 q -> present t q = present t0 q.
  Proof. intros A B. unfold present. rewrite A, B. reflexivity. Qed.

  Lemma step_inv t0 t j s s' t' : In j jobs -> dirs_ok t0 t -> inv t0 t j s -> advance out format j s t = Some (s', t') ->
    inv t0 t' j s' /\ dirs_ok t0 t' /\ not_owned_same j t t'.
  Proof.
    intros Ij Hd I E. unfold advance in E. destruct (next out format j s) as [[o k]|] eqn:En; [|discriminate].
    assert (Pg : forall n, 0 <= n -> untouched out format t0 t j -> present t (gps_log j n) = present t0 (gps_log j n)).
    { intros n Hn U. apply present_same; [apply U, its_gps, Hn|]. destruct (Hd (gps_log j n)) as [X|[X _]]; [exact X|]. exfalso. exact (proj1 (log_no_folder j n Ij Hn) X). }
    assert (Pm : forall n, 0 <= n -> untouched out format t0 t j -> present t (meta_log j n) = present t0 (meta_log j n)).
    { intros n Hn U. apply present_same; [apply U, its_meta, Hn|]. destruct (Hd (meta_log j n)) as [X|[X _]]; [exact X|]. exfalso. exact (proj2 (log_no_folder j n Ij Hn) X). }
    assert (Mk : forall p, folder p -> dirs_ok t0 (set_dir t p)).
    { intros p Hp q. cbn. destruct (eqb_bytes q p) eqn:Q; [apply eqb_bytes_iff in Q; subst; auto|apply Hd]. }
    destruct s as [| |n|g|g|g n|g m|g m|g m|g m|g m l|]; cbn [next] in En.
    - injection En as <- <-. cbn [exec] in E. destruct (is_dir t gps_dir); injection E as <- <-; cbn [inv] in *.
      + split; [split; [exact I|split; [lia|intros k Hk; lia]]|]. split; [exact Hd|intros q; left; reflexivity].
      + split; [exact I|]. split; [exact Hd|intros q; left; reflexivity].
    - injection En as <- <-. cbn [exec] in E. destruct (present t gps_dir); injection E as <- <-; cbn [inv] in *.
      + split; [exact I|]. split; [exact Hd|intros q; left; reflexivity].
      + split; [split; [exact I|split; [lia|intros k Hk; lia]]|]. split; [apply Mk; left; reflexivity|intros q; left; reflexivity].
    - injection En as <- <-. cbn [exec] in E. destruct I as (U & Hn & A). destruct (present t (gps_log j n)) eqn:P; injection E as <- <-; cbn [inv]; rewrite Pg in P by assumption.
      + split; [|split; [exact Hd|intros q; left; reflexivity]]. split; [exact U|]. split; [lia|]. intros k Hk. destruct (Z.eq_dec k n) as [->|]; [exact P|apply A; lia].
      + split; [|split; [exact Hd|intros q; left; reflexivity]]. split; [exact U|]. exists n. split; [reflexivity|]. split; [exact Hn|]. split; [exact P|exact A].
    - injection En as <- <-. cbn [exec] in E. destruct I as (U & X). destruct (is_dir t meta_dir); injection E as <- <-; cbn [inv].
      + split; [split; [exact U|split; [exact X|split; [lia|intros k Hk; lia]]]|]. split; [exact Hd|intros q; left; reflexivity].
      + split; [split; [exact U|exact X]|]. split; [exact Hd|intros q; left; reflexivity].
    - injection En as <- <-. cbn [exec] in E. destruct I as (U & X). destruct (present t meta_dir); injection E as <- <-; cbn [inv].
      + split; [exact U|]. split; [exact Hd|intros q; left; reflexivity].
      + split; [split; [exact U|split; [exact X|split; [lia|intros k Hk; lia]]]|]. split; [apply Mk; right; left; reflexivity|intros q; left; reflexivity].
    - injection En as <- <-. cbn [exec] in E. destruct I as (U & X & Hn & A). destruct (present t (meta_log j n)) eqn:P; injection E as <- <-; cbn [inv]; rewrite Pm in P by assumption.
      + split; [|split; [exact Hd|intros q; left; reflexivity]]. split; [exact U|]. split; [exact X|]. split; [lia|]. intros k Hk. destruct (Z.eq_dec k n) as [->|]; [exact P|apply A; lia].
      + split; [|split; [exact Hd|intros q; left; reflexivity]]. destruct X as (gn & -> & G). exists gn, n. split; [reflexivity|]. split; [reflexivity|]. split; [exact G|]. split; [split; [exact Hn|split; [exact P|exact A]]|exact U].
    - injection En as <- <-. cbn [exec] in E. destruct (is_dir t out); injection E as <- <-; cbn [inv] in *; (split; [exact I|]; split; [exact Hd|intros q; left; reflexivity]).
    - injection En as <- <-. cbn [exec] in E. destruct (present t out); injection E as <- <-; cbn [inv] in *.
      + destruct I as (gn & mn & _ & _ & _ & _ & U). split; [exact U|]. split; [exact Hd|intros q; left; reflexivity].
      + split; [exact I|]. split; [apply Mk; right; right; reflexivity|intros q; left; reflexivity].
    - injection En as <- <-. cbn [exec] in E. injection E as <- <-. cbn [inv] in I. destruct I as (gn & mn & -> & -> & G & M & U).
      split; [|split; [exact Hd|apply set_or, its_meta, M]].
      pose proof (write_meta t0 t j gn mn [] (j_meta j) Ij ltac:(intros o []) (untouched_wrote t0 t j gn mn G M U)) as W.
      rewrite (U (meta_log j mn)), (free_none _ _ _ M) in W by (apply its_meta; apply M). cbn [app] in W.
      unfold after_meta. destruct (j_gps j) as [r|] eqn:Eg; cbn [inv].
      + exists gn, mn. split; [reflexivity|]. split; [reflexivity|]. split; [congruence|exact W].
      + exists gn, mn, [Meta (j_meta j)]. split; [reflexivity|]. split; [reflexivity|]. split; [unfold all_outputs; rewrite Eg; reflexivity|exact W].
    - cbn [inv] in I. destruct I as (gn & mn & -> & -> & Ng & W). destruct (j_gps j) as [r|] eqn:Eg; [|discriminate]. injection En as <- <-. cbn [exec] in E. injection E as <- <-.
      pose proof (proj1 (proj1 W)) as G0. split; [|split; [exact Hd|apply set_or, its_gps, G0]]. cbn [inv]. exists gn, mn, [Meta (j_meta j); Gps r]. split; [reflexivity|]. split; [reflexivity|].
      split; [unfold all_outputs; rewrite Eg; reflexivity|].
      pose proof (write_gps t0 t j gn mn [Meta (j_meta j)] r Ij) as X. rewrite (proj1 (proj2 (proj2 W))) in X. cbn in X. apply X; [|exact W]. intros o [<-|[]]. left. reflexivity.
    - cbn [inv] in I. destruct I as (gn & mn & done & -> & -> & Ea & W). destruct l as [|[r|r|tm us d] l]; [discriminate| | |]; injection En as <- <-; cbn [exec] in E; injection E as <- <-;
        pose proof (proj1 (proj1 W)) as G0; pose proof (proj1 (proj1 (proj2 W))) as M0;
        assert (Sub : forall o, In o done -> In o (all_outputs j)) by (intros o Io; rewrite Ea; apply in_or_app; left; exact Io).
      + split; [|split; [exact Hd|apply set_or, its_meta, M0]]. cbn [inv]. exists gn, mn, (done ++ [Meta r]). rewrite <- app_assoc. split; [reflexivity|]. split; [reflexivity|]. split; [exact Ea|]. apply write_meta; assumption.
      + split; [|split; [exact Hd|apply set_or, its_gps, G0]]. cbn [inv]. exists gn, mn, (done ++ [Gps r]). rewrite <- app_assoc. split; [reflexivity|]. split; [reflexivity|]. split; [exact Ea|]. apply write_gps; assumption.
      + assert (Iw : In (Wave tm us d) (j_later j)) by (apply outputs_wave; rewrite Ea; apply in_or_app; right; left; reflexivity).
        split; [|split; [exact Hd|apply set_or, (its_wave j tm us d), Iw]]. cbn [inv]. exists gn, mn, (done ++ [Wave tm us d]). rewrite <- app_assoc. split; [reflexivity|]. split; [reflexivity|]. split; [exact Ea|]. apply write_wave; assumption.
    - discriminate.
  Qed.

  (** * All conversions *)

  Lemma step_nth_iff i : forall (p p' : pool D) t t', step_nth out format i p t = Some (p', t') <->
    exists l j s s' r, p = l ++ (j, s) :: r /\ length l = i /\ advance out format j s t = Some (s', t') /\ p' = l ++ (j, s') :: r.
  Proof.
    clear. induction i as [|i IH]; intros [|[j s] p] p' t t'; cbn [step_nth].
    - split; [discriminate|]. intros (l & j & s & s' & r & E & _). destruct l; discriminate.
    - split.
      + destruct (advance out format j s t) as [[s' u]|] eqn:E; [|discriminate]. intros H. injection H as <- <-. exists [], j, s, s', p. auto.
      + intros (l & j1 & s1 & s' & r & E & L & A & ->). destruct l; [|discriminate L]. cbn in E. injection E as -> -> ->. rewrite A. reflexivity.
    - split; [discriminate|]. intros (l & j & s & s' & r & E & _). destruct l; discriminate.
    - split.
      + destruct (step_nth out format i p t) as [[q u]|] eqn:E; [|discriminate]. intros H. injection H as <- <-. apply IH in E as (l & j1 & s1 & s' & r & -> & L & A & ->).
        exists ((j, s) :: l), j1, s1, s', r. cbn. auto.
      + intros (l & j1 & s1 & s' & r & E & L & A & ->). destruct l as [|x l]; [discriminate|]. cbn in E. injection E as <- ->.
        assert (X : step_nth out format i (l ++ (j1, s1) :: r) t = Some (l ++ (j1, s') :: r, t')) by (apply IH; exists l, j1, s1, s', r; cbn in L; auto).
        rewrite X. reflexivity.
  Qed.

  Definition inv_all t0 (p : pool D) t : Prop :=
    map fst p = jobs /\ (forall j s, In (j, s) p -> inv t0 t j s) /\ dirs_ok t0 t /\
    (forall q, file t q = file t0 q \/ exists j, In j jobs /\ its_path j q).

  Lemma nodup_jobs : NoDup jobs.
  Proof. apply (NoDup_map_inv j_sn). apply F. Qed.

  Lemma inv_all_step t0 i p p' t t' : inv_all t0 p t -> step_nth out format i p t = Some (p', t') -> inv_all t0 p' t'.
  Proof.
    intros (M & I & Hd & Hq) E. apply step_nth_iff in E as (l & j & s & s' & r & -> & _ & A & ->).
    assert (Ij : In j jobs) by (rewrite <- M, map_app; apply in_or_app; right; left; reflexivity).
    destruct (step_inv t0 t j s s' t' Ij Hd (I j s (in_elt _ _ _)) A) as (I' & Hd' & O).
    pose proof nodup_jobs as N. rewrite <- M, map_app in N. cbn [map fst] in N. apply NoDup_remove_2 in N. rewrite <- map_app in N.
    split; [rewrite <- M, !map_app; reflexivity|]. split; [|split; [exact Hd'|]].
    - intros k sk Ik. apply in_elt_inv in Ik as [X|X]; [injection X as <- <-; exact I'|].
      apply (inv_frame t0 t); [|apply I; apply in_app_iff in X as [X|X]; apply in_or_app; [left|right; right]; exact X].
      intros q Iq. destruct (O q) as [Sq|Jq]; [exact Sq|]. exfalso. assert (k = j) as ->.
      { apply (disjoint k j q); try assumption. rewrite <- M, map_app. apply in_app_iff in X as [X|X]; apply (in_map fst) in X; apply in_or_app; [left|right; right]; exact X. }
      apply N. apply (in_map fst) in X. exact X.
    - intros q. destruct (O q) as [Sq|Jq]; [rewrite Sq; apply Hq|right; eauto].
  Qed.

  Lemma inv_all_run t0 sched : forall p p' t t', inv_all t0 p t -> run out format sched p t = Some (p', t') -> inv_all t0 p' t'.
  Proof.
    induction sched as [|i sched IH]; intros p p' t t' I E; cbn [run] in E; [injection E as <- <-; exact I|].
    destruct (step_nth out format i p t) as [[q u]|] eqn:S1; [|discriminate]. apply (IH q p' u t' (inv_all_step _ _ _ _ _ _ I S1) E).
  Qed.

  Lemma inv_all_begin t0 : inv_all t0 (begin jobs) t0.
  Proof.
    split; [unfold begin; rewrite map_map; apply map_id|]. split; [|split; [intros q; auto|auto]].
    intros j s I. unfold begin in I. apply in_map_iff in I as (k & E & _). injection E as -> <-. intros q _. reflexivity.
  Qed.

  Lemma idle_in (p : pool D) : idle out format p = true -> forall j s, In (j, s) p -> next out format j s = None.
  Proof.
    clear. intros H j s I. unfold idle in H. rewrite forallb_forall in H. apply H in I. cbn in I. destruct (next out format j s); [discriminate|reflexivity].
  Qed.

  (** * Folders *)

  Lemma folder_file t0 p t q : inv_all t0 p t -> folder q -> file t q = file t0 q.
  Proof.
    intros (_ & _ & _ & Hq) Fq. destruct (Hq q) as [E|(j & Ij & [(n & Hn & ->)|[(n & Hn & ->)|(tm & us & d & _ & E)]])]; [exact E| | |exfalso].
    - exfalso. exact (proj1 (log_no_folder j n Ij Hn) Fq).
    - exfalso. exact (proj2 (log_no_folder j n Ij Hn) Fq).
    - assert (X : In 47 (wave_file j tm us)) by (apply in_or_app; right; left; reflexivity). rewrite <- E in X.
      destruct Fq as [->|[->| ->]]; [vm_compute in X; lia|vm_compute in X; lia|]. apply (f_equal (@length Z)) in E.
      unfold Workers.wave_file in E. rewrite !app_length in E. change (length (b "/")) with 1%nat in E. lia.
  Qed.

  (** The folders that are known to be there. *)
  Definition seen t (s : state D) : Prop :=
    match s with
    | AtGpsDir | AtGpsMake | Exited => True
    | AtGpsName _ | AtMetaDir _ | AtMetaMake _ => is_dir t gps_dir = true
    | AtMetaName _ _ | AtOutDir _ _ | AtOutMake _ _ => is_dir t gps_dir = true /\ is_dir t meta_dir = true
    | AtMeta _ _ | AtGps _ _ | AtLater _ _ _ => folders_there out t
    end.
  Definition more_dirs t t' : Prop := forall q, is_dir t q = true -> is_dir t' q = true.
  Lemma seen_more t t' s : more_dirs t t' -> seen t s -> seen t' s.
  Proof. clear. intros M. unfold seen, folders_there. destruct s; intuition (auto using M). Qed.
  Lemma step_more j s s' t t' : advance out format j s t = Some (s', t') -> more_dirs t t'.
  Proof.
    clear. unfold advance. destruct (next out format j s) as [[o k]|]; [|discriminate]. destruct o; cbn [exec]; intros E q Hq.
    1-5: try (injection E as _ <-; exact Hq). destruct (present t p); injection E as _ <-; [exact Hq|]. cbn. destruct (eqb_bytes q p); [reflexivity|exact Hq].
  Qed.
  Lemma made t p : is_dir (set_dir t p) p = true.
  Proof. cbn. assert (eqb_bytes p p = true) as -> by (apply eqb_bytes_iff; reflexivity). reflexivity. Qed.
  Lemma made_other t p q : is_dir t q = true -> is_dir (set_dir t p) q = true.
  Proof. clear. cbn. intros H. destruct (eqb_bytes q p); auto. Qed.
  Lemma step_seen j s s' t t' : seen t s -> advance out format j s t = Some (s', t') -> seen t' s'.
  Proof.
    clear F. intros H E. unfold advance in E. destruct s as [| |n|g|g|g n|g m|g m|g m|g m|g m l|]; cbn [next exec] in E; try discriminate.
    - destruct (is_dir t gps_dir) eqn:Ed; injection E as <- <-; cbn; auto.
    - destruct (present t gps_dir); injection E as <- <-; [exact Logic.I|apply made].
    - destruct (present t (gps_log j n)); injection E as <- <-; exact H.
    - destruct (is_dir t meta_dir) eqn:Ed; injection E as <- <-; cbn in *; auto.
    - destruct (present t meta_dir); injection E as <- <-; [exact Logic.I|]. split; [apply made_other, H|apply made].
    - destruct (present t (meta_log j n)); injection E as <- <-; exact H.
    - destruct (is_dir t out) eqn:Ed; injection E as <- <-; cbn in *; unfold folders_there; tauto.
    - destruct (present t out); injection E as <- <-; [exact Logic.I|]. destruct H as [H1 H2]. split; [apply made_other, H1|]. split; [apply made_other, H2|apply made].
    - injection E as <- <-. unfold after_meta. destruct (j_gps j); exact H.
    - destruct (j_gps j); [|discriminate]. cbn [exec] in E. injection E as <- <-. exact H.
    - destruct l as [|[r|r|tm us d] l]; cbn [exec] in E; try discriminate; injection E as <- <-; exact H.
  Qed.
  Definition seen_all (p : pool D) t : Prop := forall j s, In (j, s) p -> seen t s.
  Lemma seen_step i p p' t t' : seen_all p t -> step_nth out format i p t = Some (p', t') -> seen_all p' t'.
  Proof.
    clear F. intros I E. apply step_nth_iff in E as (l & j & s & s' & r & -> & _ & A & ->). intros k sk Ik. apply in_elt_inv in Ik as [X|X].
    - injection X as E1 E2; subst k sk. apply (step_seen j s s' t t'); [apply (I j), in_elt|exact A].
    - apply (seen_more t); [exact (step_more _ _ _ _ _ A)|]. apply (I k). apply in_app_iff in X as [X|X]; apply in_or_app; [left|right; right]; exact X.
  Qed.
  Lemma seen_run sched : forall p p' t t', seen_all p t -> run out format sched p t = Some (p', t') -> seen_all p' t'.
  Proof.
    clear F. induction sched as [|i sched IH]; intros p p' t t' I E; cbn [run] in E; [injection E as <- <-; exact I|].
    destruct (step_nth out format i p t) as [[q u]|] eqn:S1; [|discriminate]. apply (IH q p' u t' (seen_step _ _ _ _ _ I S1) E).
  Qed.

  (** With the folders there at the beginning nobody makes one. *)
  Definition making (s : state D) : option bytes :=
    match s with AtGpsMake => Some gps_dir | AtMetaMake _ => Some meta_dir | AtOutMake _ _ => Some out | _ => None end.
  Definition calm (p : pool D) t : Prop := folders_there out t /\ forall j s, In (j, s) p -> s <> Exited /\ making s = None.
  Lemma step_calm j s s' t t' : folders_there out t -> s <> Exited -> making s = None -> advance out format j s t = Some (s', t') -> s' <> Exited /\ making s' = None.
  Proof.
    clear F. intros (D1 & D2 & D3) N M E. unfold advance in E. destruct s as [| |n|g|g|g n|g m|g m|g m|g m|g m l|]; cbn [next exec making] in *; try discriminate.
    - rewrite D1 in E. injection E as <- <-. split; [discriminate|reflexivity].
    - destruct (present t (gps_log j n)); injection E as <- <-; split; (discriminate || reflexivity).
    - rewrite D2 in E. injection E as <- <-. split; [discriminate|reflexivity].
    - destruct (present t (meta_log j n)); injection E as <- <-; split; (discriminate || reflexivity).
    - rewrite D3 in E. injection E as <- <-. split; [discriminate|reflexivity].
    - injection E as <- <-. unfold after_meta. destruct (j_gps j); split; (discriminate || reflexivity).
    - destruct (j_gps j); [|discriminate]. cbn [exec] in E. injection E as <- <-. split; [discriminate|reflexivity].
    - destruct l as [|[r|r|tm us d] l]; cbn [exec] in E; try discriminate; injection E as <- <-; (split; [discriminate|reflexivity]).
  Qed.
  Lemma calm_run sched : forall p p' t t', calm p t -> run out format sched p t = Some (p', t') -> calm p' t'.
  Proof.
    clear F. induction sched as [|i sched IH]; intros p p' t t' C E; cbn [run] in E; [injection E as <- <-; exact C|].
    destruct (step_nth out format i p t) as [[q u]|] eqn:S1; [|discriminate]. apply (IH q p' u t'); [|exact E]. clear IH E.
    apply step_nth_iff in S1 as (l & j & s & s' & r & -> & _ & A & ->). destruct C as [(D1 & D2 & D3) C]. pose proof (step_more _ _ _ _ _ A) as M.
    split; [split; [|split]; apply M; assumption|]. intros k sk Ik. apply in_elt_inv in Ik as [X|X].
    - injection X as E1 E2; subst k sk. destruct (C j s (in_elt _ _ _)) as [C1 C2]. apply (step_calm j s s' t u); try assumption. split; [|split]; assumption.
    - apply (C k). apply in_app_iff in X as [X|X]; apply in_or_app; [left|right; right]; exact X.
  Qed.

  (** * One after the other *)

  Lemma run_keeps sched i : ~ In i sched -> forall (p p' : pool D) t t', run out format sched p t = Some (p', t') -> nth_error p' i = nth_error p i.
  Proof.
    clear F. induction sched as [|c sched IH]; intros N p p' t t' E; cbn [run] in E; [injection E as <- <-; reflexivity|].
    destruct (step_nth out format c p t) as [[q u]|] eqn:S1; [|discriminate]. rewrite (IH ltac:(cbn in N; tauto) q p' u t' E).
    apply step_nth_iff in S1 as (l & j & s & s' & r & -> & L & _ & ->).
    destruct (Nat.lt_ge_cases i (length l)) as [H|H]; [rewrite !nth_error_app1 by exact H; reflexivity|rewrite !nth_error_app2 by exact H].
    destruct (i - length l)%nat eqn:Ed; [exfalso; apply N; left; lia|reflexivity].
  Qed.

  Definition one_by_one (c : nat) (p : pool D) t : Prop :=
    forall i j s, nth_error p i = Some (j, s) -> s <> Exited /\ forall d, making s = Some d -> i = c /\ present t d = false.

  Lemma step_one t0 p j s s' t t' : inv_all t0 p t -> folders_possible out t0 -> s <> Exited -> (forall d, making s = Some d -> present t d = false) ->
    advance out format j s t = Some (s', t') -> s' <> Exited /\ (forall d, making s' = Some d -> present t' d = false).
  Proof.
    intros V (P1 & P2 & P3) N M E.
    assert (X : forall q, folder q -> file t0 q = None -> is_dir t q = false -> present t q = false).
    { intros q Fq Z1 Z2. unfold present. rewrite Z2, (folder_file t0 p t q V Fq), Z1. reflexivity. }
    unfold advance in E. destruct s as [| |n|g|g|g n|g m|g m|g m|g m|g m l|]; cbn [next exec making] in *; try discriminate.
    - destruct (is_dir t gps_dir) eqn:Ed; injection E as <- <-; (split; [discriminate|]); intros d H; cbn in H; try discriminate. injection H as <-. apply X; [left; reflexivity|assumption|assumption].
    - rewrite (M _ eq_refl) in E. injection E as <- <-. split; [discriminate|]. intros d H. discriminate.
    - destruct (present t (gps_log j n)); injection E as <- <-; (split; [discriminate|]); intros d H; discriminate.
    - destruct (is_dir t meta_dir) eqn:Ed; injection E as <- <-; (split; [discriminate|]); intros d H; cbn in H; try discriminate. injection H as <-. apply X; [right; left; reflexivity|assumption|assumption].
    - rewrite (M _ eq_refl) in E. injection E as <- <-. split; [discriminate|]. intros d H. discriminate.
    - destruct (present t (meta_log j n)); injection E as <- <-; (split; [discriminate|]); intros d H; discriminate.
    - destruct (is_dir t out) eqn:Ed; injection E as <- <-; (split; [discriminate|]); intros d H; cbn in H; try discriminate. injection H as <-. apply X; [right; right; reflexivity|assumption|assumption].
    - rewrite (M _ eq_refl) in E. injection E as <- <-. split; [discriminate|]. intros d H. discriminate.
    - injection E as <- <-. unfold after_meta. destruct (j_gps j); (split; [discriminate|]); intros d H; discriminate.
    - destruct (j_gps j); [|discriminate]. cbn [exec] in E. injection E as <- <-. split; [discriminate|]. intros d H. discriminate.
    - destruct l as [|[r|r|tm us d] l]; cbn [exec] in E; try discriminate; injection E as <- <-; (split; [discriminate|]); intros d0 H; discriminate.
  Qed.

  Lemma one_by_one_run t0 sched : folders_possible out t0 -> forall c p p' t t', inv_all t0 p t -> one_by_one c p t -> (forall i, In i sched -> (c <= i)%nat) ->
    in_turn sched -> run out format sched p t = Some (p', t') -> idle out format p' = true -> forall j s, In (j, s) p' -> s <> Exited.
  Proof.
    intros FP. induction sched as [|i sched IH]; intros c p p' t t' V O A T E Id.
    - cbn in E. injection E as <- <-. intros j s I. apply In_nth_error in I as [x I]. exact (proj1 (O x j s I)).
    - pose proof E as E0. cbn [run] in E. destruct (step_nth out format i p t) as [[q u]|] eqn:S1; [|discriminate].
      assert (A' : forall k : nat, In k sched -> (i <= k)%nat).
      { intros k Ik. apply in_split in Ik as (x & y & ->). apply (T [] i x k y). reflexivity. }
      assert (Oi : one_by_one i p t).
      { intros x j s Ex. destruct (O x j s Ex) as [H1 H2]. split; [exact H1|]. intros d Hd. destruct (H2 d Hd) as [-> P]. split; [|exact P].
        destruct (Nat.eq_dec c i) as [->|Nc]; [reflexivity|exfalso]. specialize (A i (or_introl eq_refl)) as Lci.
        rewrite <- (run_keeps (i :: sched) c) with (p' := p') (t := t) (t' := t') in Ex; [| |exact E0].
        - apply nth_error_In in Ex. pose proof (idle_in p' Id j s Ex) as Nx. destruct s; discriminate.
        - intros [X|X]; [lia|]. apply A' in X. lia. }
      apply (IH i q p' u t'); [exact (inv_all_step _ _ _ _ _ _ V S1)| |exact A'| |exact E|exact Id].
      + apply step_nth_iff in S1 as (l & j & s & s' & r & -> & L & St & ->). intros x k sk Ex.
        destruct (Nat.eq_dec x i) as [->|Nx].
        * rewrite <- L in Ex. rewrite nth_error_app2, Nat.sub_diag in Ex by lia. cbn in Ex. injection Ex as E1 E2; subst k sk.
          assert (Ej : nth_error (l ++ (j, s) :: r) i = Some (j, s)) by (rewrite <- L, nth_error_app2, Nat.sub_diag by lia; reflexivity).
          destruct (Oi i j s Ej) as [H1 H2]. destruct (step_one t0 _ j s s' t u V FP H1 (fun d Hd => proj2 (H2 d Hd)) St) as [K1 K2].
          split; [exact K1|]. intros d Hd. split; [reflexivity|apply K2, Hd].
        * assert (Ek : nth_error (l ++ (j, s) :: r) x = Some (k, sk)).
          { rewrite <- Ex. destruct (Nat.lt_ge_cases x (length l)) as [H|H]; [rewrite !nth_error_app1 by exact H; reflexivity|rewrite !nth_error_app2 by exact H].
            destruct (x - length l)%nat eqn:Ed; [lia|reflexivity]. }
          destruct (Oi x k sk Ek) as [H1 H2]. split; [exact H1|]. intros d Hd. destruct (H2 d Hd) as [X _]. contradiction.
      + intros l x r k s Es. apply (T (i :: l) x r k s). rewrite Es. reflexivity.
  Qed.

  (** * Number of steps *)

  Definition left_to_do (N : Z) j (s : state D) : nat :=
    let K := length (j_later j) in let B := Z.to_nat N in
    match s with
    | AtGpsDir => K + 10 + B + B | AtGpsMake => K + 9 + B + B | AtGpsName n => K + 8 + B + Z.to_nat (N - n)
    | AtMetaDir _ => K + 7 + B | AtMetaMake _ => K + 6 + B | AtMetaName _ n => K + 5 + Z.to_nat (N - n)
    | AtOutDir _ _ => K + 4 | AtOutMake _ _ => K + 3 | AtMeta _ _ => K + 2 | AtGps _ _ => K + 1
    | AtLater _ _ l => length l | Exited => 0
    end%nat.
  Lemma step_less t0 N j s s' t t' : In j jobs -> dirs_ok t0 t ->
    (forall n, N <= n -> present t0 (gps_log j n) = false /\ present t0 (meta_log j n) = false) ->
    inv t0 t j s -> advance out format j s t = Some (s', t') -> (left_to_do N j s' < left_to_do N j s)%nat.
  Proof.
    intros Ij Hd B V E.
    assert (Pg : forall n, 0 <= n -> untouched out format t0 t j -> present t (gps_log j n) = present t0 (gps_log j n)).
    { intros n Hn U. apply present_same; [apply U, its_gps, Hn|]. destruct (Hd (gps_log j n)) as [X|[X _]]; [exact X|]. exfalso. exact (proj1 (log_no_folder j n Ij Hn) X). }
    assert (Pm : forall n, 0 <= n -> untouched out format t0 t j -> present t (meta_log j n) = present t0 (meta_log j n)).
    { intros n Hn U. apply present_same; [apply U, its_meta, Hn|]. destruct (Hd (meta_log j n)) as [X|[X _]]; [exact X|]. exfalso. exact (proj2 (log_no_folder j n Ij Hn) X). }
    unfold advance in E. destruct s as [| |n|g|g|g n|g m|g m|g m|g m|g m l|]; cbn [next exec inv] in *; try discriminate.
    - destruct (is_dir t gps_dir); injection E as <- <-; cbn [left_to_do]; lia.
    - destruct (present t gps_dir); injection E as <- <-; cbn [left_to_do]; lia.
    - destruct V as (U & Hn & _). destruct (present t (gps_log j n)) eqn:P; injection E as <- <-; cbn [left_to_do]; [|lia].
      rewrite Pg in P by assumption. destruct (Z_lt_ge_dec n N); [lia|]. destruct (B n ltac:(lia)) as [X _]. congruence.
    - destruct (is_dir t meta_dir); injection E as <- <-; cbn [left_to_do]; lia.
    - destruct (present t meta_dir); injection E as <- <-; cbn [left_to_do]; lia.
    - destruct V as (U & _ & Hn & _). destruct (present t (meta_log j n)) eqn:P; injection E as <- <-; cbn [left_to_do]; [|lia].
      rewrite Pm in P by assumption. destruct (Z_lt_ge_dec n N); [lia|]. destruct (B n ltac:(lia)) as [_ X]. congruence.
    - destruct (is_dir t out); injection E as <- <-; cbn [left_to_do]; lia.
    - destruct (present t out); injection E as <- <-; cbn [left_to_do]; lia.
    - injection E as <- <-. unfold after_meta. destruct (j_gps j); cbn [left_to_do]; lia.
    - destruct (j_gps j); [|discriminate]. cbn [exec] in E. injection E as <- <-. cbn [left_to_do]. lia.
    - destruct l as [|[r|r|tm us d] l]; cbn [exec] in E; try discriminate; injection E as <- <-; cbn [left_to_do length]; lia.
  Qed.
  Definition all_left (N : Z) (p : pool D) : nat := list_sum (map (fun js => left_to_do N (fst js) (snd js)) p).
  Lemma run_bound t0 N sched : (forall j n, In j jobs -> N <= n -> present t0 (gps_log j n) = false /\ present t0 (meta_log j n) = false) ->
    forall p p' t t', inv_all t0 p t -> run out format sched p t = Some (p', t') -> (length sched + all_left N p' <= all_left N p)%nat.
  Proof.
    intros B. induction sched as [|i sched IH]; intros p p' t t' V E; cbn [run] in E; [injection E as <- <-; cbn; lia|].
    destruct (step_nth out format i p t) as [[q u]|] eqn:S1; [|discriminate]. specialize (IH q p' u t' (inv_all_step _ _ _ _ _ _ V S1) E).
    apply step_nth_iff in S1 as (l & j & s & s' & r & -> & _ & A & ->). destruct V as (M & I & Hd & _).
    assert (Ij : In j jobs) by (rewrite <- M, map_app; apply in_or_app; right; left; reflexivity).
    pose proof (step_less t0 N j s s' t u Ij Hd (fun n => B j n Ij) (I j s (in_elt _ _ _)) A) as L.
    unfold all_left in *. rewrite !map_app, !list_sum_app in *. cbn [map fst snd list_sum fold_right] in *. cbn [length]. lia.
  Qed.

  (** A pool that is not idle can make a step. *)
  Lemma can_step (p : pool D) t : idle out format p = false -> exists i p' t', step_nth out format i p t = Some (p', t').
  Proof.
    clear F. induction p as [|[j s] p IH]; [discriminate|]. cbn [idle forallb fst snd]. intros H. destruct (next out format j s) as [[o k]|] eqn:En.
    - destruct (exec o t) as [r t'] eqn:Ex. exists 0%nat, ((j, k r) :: p), t'. cbn [step_nth]. unfold advance. rewrite En, Ex. reflexivity.
    - cbn in H. destruct (IH H) as (i & p' & t' & E). exists (Datatypes.S i), ((j, s) :: p'), t'. cbn [step_nth]. rewrite E. reflexivity.
  Qed.
  Lemma run_app l l' (p : pool D) t : run out format (l ++ l') p t = match run out format l p t with Some (q, u) => run out format l' q u | None => None end.
  Proof. clear F. revert p t. induction l as [|i l IH]; intros p t; [reflexivity|]. cbn [app run]. destruct (step_nth out format i p t) as [[q u]|]; [apply IH|reflexivity]. Qed.
  Lemma can_finish t0 N : (forall j n, In j jobs -> N <= n -> present t0 (gps_log j n) = false /\ present t0 (meta_log j n) = false) ->
    forall p t, inv_all t0 p t -> exists l p' t', run out format l p t = Some (p', t') /\ idle out format p' = true.
  Proof.
    intros B. assert (G : forall c p t, (all_left N p < c)%nat -> inv_all t0 p t -> exists l p' t', run out format l p t = Some (p', t') /\ idle out format p' = true).
    { induction c as [|c IH]; intros p t H V; [lia|]. destruct (idle out format p) eqn:Id; [exists [], p, t; split; [reflexivity|exact Id]|].
      destruct (can_step p t Id) as (i & q & u & E). assert (R : run out format [i] p t = Some (q, u)) by (cbn [run]; rewrite E; reflexivity).
      pose proof (run_bound t0 N [i] B p q t u V R) as L. cbn [length] in L. destruct (IH q u ltac:(lia) (inv_all_step _ _ _ _ _ _ V E)) as (l & p' & t' & X & Y).
      exists (i :: l), p', t'. split; [cbn [run]; rewrite E; exact X|exact Y]. }
    intros p t V. apply (G (Datatypes.S (all_left N p))); [lia|exact V].
  Qed.
End Proofs.
