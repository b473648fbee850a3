(** C55: joining the files of a day. *)
From Coq Require Import String.
From Coq Require Import ZArith List Bool Lia.
From Verif Require Import Base Names NamesProofs CalendarSpec WorkersProofs Stations StationsProofs Gps Stream StreamSpec StreamProofs Daily DailySpec DailyProofs.
Import ListNotations.
Open Scope Z_scope.

(** Files that can be read and have data. *)
Definition readable (dir : directory) : Prop :=
  forall f c, In (f, c) dir -> exists s, c = Some s /\ s <> [] /\ forall t, In t s -> gd t <> [].

(** One output file for each day and rest of the names, under its own name, with all traces of the files
    of that day and rest in it; no matter what other files there are. *)
Theorem C55_every_file dir infiles out : (forall n, In n infiles -> exists day rest, named day rest n) -> readable dir ->
  merge_files_day dir infiles = (out, true) ->
  NoDup (map fst out) /\
  (forall name r, In (name, r) out -> exists day rest n ts, name = day ++ b "T00_00_00." ++ rest /\ In n infiles /\ named day rest n /\
     joined ts r /\ (forall t, In t ts -> exists f s, In (f, Some s) dir /\ In t s)) /\
  (forall n day rest, In n infiles -> named day rest n -> exists r ts, In (day ++ b "T00_00_00." ++ rest, r) out /\ joined ts r /\
     (forall f s t, In (f, Some s) dir -> visible f -> named day rest f -> In t s -> In t ts)).
Proof.
  intros All Rd E. destruct (write_groups_spec _ _ _ E) as [F G].
  assert (J : forall g o, (exists s, read_group dir (fst g) (snd g) = Some s /\ merge_latest s = Some (snd o) /\ fst o = out_name (fst g) (snd g)) ->
    exists s, read_group dir (fst g) (snd g) = Some s /\ joined s (snd o)).
  { intros g o (s & R & M & _). exists s. split; [exact R|]. destruct s as [|t s]; [discriminate|].
    destruct (merge_latest_spec (t :: s)) as (r & M' & Jr); [discriminate| |rewrite M in M'; injection M' as ->; exact Jr].
    intros u I. apply (read_group_spec _ _ _ _ R) in I as (f & v & I1 & _ & I2). destruct (Rd _ _ I1) as (w & Ew & _ & H). injection Ew as <-. apply H, I2. }
  split; [|split].
  - rewrite F. pose proof (groups_nodup infiles All) as ND. pose proof (out_name_inj infiles All) as Inj.
    clear - ND Inj. induction (groups infiles) as [|[d s] gr IH]; [constructor|]. inversion ND as [|? ? N ND']; subst. cbn [map]. constructor.
    + intros I. apply in_map_iff in I as ([d' s'] & Eq & I). apply N. rewrite <- (Inj d' s' d s); [exact I|right; exact I|left; reflexivity|exact Eq].
    + apply IH; [exact ND'|]. intros. apply Inj; [right; assumption|right; assumption|assumption].
  - intros name r I. assert (X : exists g, In g (groups infiles) /\ exists s, read_group dir (fst g) (snd g) = Some s /\ merge_latest s = Some r /\ name = out_name (fst g) (snd g)).
    { clear - G I. induction G as [|g o gr out H G IH]; [destruct I|]. destruct I as [->|I].
      - exists g. split; [left; reflexivity|exact H].
      - destruct (IH I) as (g' & I' & H'). exists g'. split; [right; exact I'|exact H']. }
    destruct X as ([d s] & Ig & st & H). cbn [fst snd] in H. pose proof Ig as Ig'. apply (groups_in infiles All) in Ig' as (n & In_ & Nn).
    destruct (J (d, s) (name, r)) as (st' & R & Jr); [exists st; exact H|]. cbn [fst snd] in R, Jr.
    exists d, s, n, st'. split; [apply H|]. split; [exact In_|]. split; [exact Nn|]. split; [exact Jr|].
    intros t I'. apply (read_group_spec _ _ _ _ R) in I' as (f & u & I1 & _ & I2). exists f, u. auto.
  - intros n day rest In_ Nn. assert (Ig : In (day, rest) (groups infiles)) by (apply (groups_in infiles All); exists n; auto).
    assert (X : exists o, In o out /\ exists s, read_group dir day rest = Some s /\ merge_latest s = Some (snd o) /\ fst o = out_name day rest).
    { clear - G Ig. induction G as [|g o gr out H G IH]; [destruct Ig|]. destruct Ig as [->|I].
      - exists o. split; [left; reflexivity|exact H].
      - destruct (IH I) as (o' & I' & H'). exists o'. split; [right; exact I'|exact H']. }
    destruct X as ([name r] & Io & st & H). cbn [fst snd] in H. destruct (J (day, rest) (name, r)) as (st' & R & Jr); [exists st; exact H|]. cbn [fst snd] in R, Jr.
    exists r, st'. destruct H as (_ & _ & ->). split; [exact Io|]. split; [exact Jr|].
    intros f s t I1 V N I2. apply (read_group_spec _ _ _ _ R). exists f, s. split; [exact I1|]. split; [apply own_group; assumption|exact I2].
Qed.

(** With names of the same shape it does not fail, and each output has the traces of the files of its day and
    rest, and no others. *)
Theorem C55_exact dir infiles : same_shape (map fst dir) -> incl infiles (map fst dir) -> readable dir ->
  exists out, merge_files_day dir infiles = (out, true) /\
    forall n day rest, In n infiles -> named day rest n ->
      exists r ts, In (day ++ b "T00_00_00." ++ rest, r) out /\ joined ts r /\
        forall t, In t ts <-> exists f s, In (f, Some s) dir /\ named day rest f /\ In t s.
Proof.
  intros Sh Inc Rd. assert (All : forall n, In n infiles -> exists day rest, named day rest n).
  { destruct Sh as (d & m & c & Sh). intros n I. destruct (Sh n (Inc n I)) as (_ & day & rest & _ & N & _). eauto. }
  assert (Ex : forall f c day rest, In (f, c) dir -> (exists n, In n infiles /\ named day rest n) -> (in_glob day rest f = true <-> named day rest f)).
  { intros f c day rest I (n & In_ & Nn). apply (shape_exact (map fst dir)); [exact Sh|apply (in_map fst) in I; exact I|]. exists n. auto. }
  assert (Gr : forall d s, In (d, s) (groups infiles) -> exists st tr, read_group dir d s = Some st /\ merge_latest st = Some tr).
  { intros d s Ig. apply (groups_in infiles All) in Ig as (n & In_ & Nn). pose proof (Inc n In_) as Id. apply in_map_iff in Id as ([n' c] & En & Id). cbn in En. subst n'.
    assert (Gn : in_glob d s n = true) by (apply (Ex n c d s Id); [exists n; auto|exact Nn]).
    unfold read_group. set (l := filter (fun f => in_glob d s (fst f)) dir).
    assert (Il : In (n, c) l) by (apply filter_In; auto).
    destruct (read_all_some l) as (st & Es).
    { intros f c' I. apply filter_In in I as [I _]. destruct (Rd f c' I) as (u & -> & _). eauto. }
    exists st. assert (Hin : forall t, In t st <-> exists f u, In (f, Some u) l /\ In t u) by (apply read_all_spec; exact Es).
    destruct (merge_latest_spec st) as (r & M & _).
    - destruct (Rd n c Id) as (u & -> & Nu & _). destruct u as [|t u]; [congruence|]. intros C. assert (In t st) as X; [|rewrite C in X; destruct X].
      apply Hin. exists n, (t :: u). split; [exact Il|left; reflexivity].
    - intros t I. apply Hin in I as (f & u & I1 & I2). apply filter_In in I1 as [I1 _]. destruct (Rd f (Some u) I1) as (w & Ew & _ & H).
      injection Ew as <-. apply H, I2.
    - exists r. split; [destruct l; [destruct Il|exact Es]|exact M]. }
  destruct (write_groups_ok dir (groups infiles) Gr) as (out & E). exists out. split; [exact E|].
  destruct (write_groups_spec _ _ _ E) as [_ G]. intros n day rest In_ Nn.
  assert (Ig : In (day, rest) (groups infiles)) by (apply (groups_in infiles All); exists n; auto).
  assert (X : exists o, In o out /\ exists s, read_group dir day rest = Some s /\ merge_latest s = Some (snd o) /\ fst o = out_name day rest).
  { clear - G Ig. induction G as [|g o gr out H G IH]; [destruct Ig|]. destruct Ig as [->|I].
    - exists o. split; [left; reflexivity|exact H].
    - destruct (IH I) as (o' & I' & H'). exists o'. split; [right; exact I'|exact H']. }
  destruct X as ([name r] & Io & st & R & M & En). cbn [fst snd] in *. subst name. exists r, st. split; [exact Io|].
  assert (Hin : forall t, In t st <-> exists f s, In (f, Some s) dir /\ named day rest f /\ In t s).
  { intros t. rewrite (read_group_spec _ _ _ _ R). split; intros (f & s & I1 & I2 & I3); exists f, s; (split; [exact I1|]; split; [|exact I3]);
      apply (Ex f (Some s) day rest I1); [exists n; auto|exact I2|exists n; auto|exact I2]. }
  split; [|exact Hin]. destruct st as [|t0 st]; [discriminate|].
  destruct (merge_latest_spec (t0 :: st)) as (r' & M' & Jr); [discriminate| |rewrite M in M'; injection M' as ->; exact Jr].
  intros t I. apply Hin in I as (f & s & I1 & _ & I2). destruct (Rd f (Some s) I1) as (w & Ew & _ & H). injection Ew as <-. apply H, I2.
Qed.

(** The names of converted files have the same shape: joining puts together the files of one date and one
    serial number. *)
Definition two_digits (n : Z) : Prop := 0 <= n < 100.
Definition converted (fmt name : bytes) (t : datetime) (sn : bytes) : Prop :=
  exists us, name = converted_name t us (b "." ++ sn ++ b "..HDF") fmt /\ ~ In 46 sn /\ ~ In 44 sn /\
    0 <= year t < 10000 /\ two_digits (month t) /\ two_digits (day t) /\ two_digits (hour t) /\ two_digits (minute t) /\ two_digits (second t).
Definition date_text (t : datetime) : bytes := pad 4 (year t) ++ b "-" ++ pad 2 (month t) ++ b "-" ++ pad 2 (day t).

Lemma converted_named fmt name t sn : ~ In 44 fmt -> converted fmt name t sn ->
  named (date_text t) (b "." ++ sn ++ b "..HDF." ++ lower fmt) name /\ visible name /\ length (date_text t) = 10%nat.
Proof.
  intros Nf (us & -> & Ns & Nc & Y & M & D & H & Mi & S). unfold two_digits in *. set (clock := pad 2 (hour t) ++ b "_" ++ pad 2 (minute t) ++ b "_" ++ pad 2 (second t)).
  assert (E : converted_name t us (b "." ++ sn ++ b "..HDF") fmt = date_text t ++ (b "T" ++ clock) ++ b "." ++ b "." ++ sn ++ b "..HDF." ++ lower fmt).
  { unfold converted_name, date_text, clock. rewrite <- !app_assoc. change (b "..HDF.") with (b "..HDF" ++ b "."). rewrite <- !app_assoc. reflexivity. }
  assert (P : forall w n c, 0 <= n -> ~ 48 <= c <= 57 -> ~ In c (pad w n)) by (intros; apply pad_no; assumption).
  assert (Nd : forall c, ~ 48 <= c <= 57 -> c <> 45 -> ~ In c (date_text t)).
  { intros c C C' I. unfold date_text in I. rewrite !in_app_iff in I. change (b "-") with [45] in I. cbn [In] in I.
    destruct I as [I|[[I|[]]|[I|[[I|[]]|I]]]]; try congruence; revert I; apply P; lia. }
  assert (Nk : forall c, ~ 48 <= c <= 57 -> c <> 95 -> ~ In c clock).
  { intros c C C' I. unfold clock in I. rewrite !in_app_iff in I. change (b "_") with [95] in I. cbn [In] in I.
    destruct I as [I|[[I|[]]|[I|[[I|[]]|I]]]]; try congruence; revert I; apply P; lia. }
  assert (L : length (date_text t) = 10%nat).
  { unfold date_text. rewrite !app_length, !pad_length by (cbn; lia). reflexivity. }
  split; [|split; [|exact L]].
  - exists (b "T" ++ clock). split; [exact E|]. split; [right; exists clock; reflexivity|]. split; [|split].
    + intros I. apply in_app_or in I as [I|I]; [revert I; apply Nd; lia|]. destruct I as [I|I]; [discriminate|revert I; apply Nk; lia].
    + apply Nd; lia.
    + rewrite E. rewrite !in_app_iff. change (b "T") with [84]. change (b ".") with [46]. change (b "..HDF.") with [46;46;72;68;70;46]. cbn [In].
      intros I. destruct I as [I|[[[I|[]]|I]|[[I|[]]|[[I|[]]|[I|[I|I]]]]]]; try discriminate.
      * revert I. apply Nd; lia.
      * revert I. apply Nk; lia.
      * exact (Nc I).
      * repeat destruct I as [I|I]; try discriminate; exact I.
      * apply Nf. apply (lower_no 44); [lia|exact I].
  - intros r Er. assert (In 46 (date_text t)) as X; [|revert X; apply Nd; lia].
    rewrite E in Er. destruct (date_text t) as [|c l]; [discriminate|]. cbn in Er. injection Er as -> _. left. reflexivity.
Qed.

Theorem C55_converted_names fmt names : ~ In 44 fmt -> ~ In 46 fmt ->
  (forall name, In name names -> exists t sn, converted fmt name t sn) ->
  same_shape names /\
  (forall name name' t t' sn sn', converted fmt name t sn -> converted fmt name' t' sn' ->
     ((exists d r, named d r name /\ named d r name') <-> date_text t = date_text t' /\ sn = sn')).
Proof.
  intros Nf Nd All. split.
  - exists 10%nat, 4%nat, 0%nat. intros name I. destruct (All name I) as (t & sn & C). destruct (converted_named _ _ _ _ Nf C) as (N & V & L). split; [exact V|].
    exists (date_text t), (b "." ++ sn ++ b "..HDF." ++ lower fmt), []. split; [exact N|]. split; [exact L|]. split; [|split; [|reflexivity]].
    + destruct C as (_ & _ & Ns & _). rewrite !count_occ_app. rewrite (proj1 (count_occ_not_In Z.eq_dec sn 46) Ns).
      rewrite (proj1 (count_occ_not_In Z.eq_dec (lower fmt) 46)); [reflexivity|]. intros H. apply Nd. apply (lower_no 46); [lia|exact H].
    + exists (sn ++ b "..HDF." ++ lower fmt). split; [reflexivity|intros []].
  - intros name name' t t' sn sn' C C'. destruct (converted_named _ _ _ _ Nf C) as (N & _ & _). destruct (converted_named _ _ _ _ Nf C') as (N' & _ & _). split.
    + intros (d & r & X & X'). destruct (named_unique _ _ _ _ _ X N) as [-> ->]. destruct (named_unique _ _ _ _ _ X' N') as [E1 E2]. split; [exact E1|].
      destruct C as (_ & _ & Ns & _). destruct C' as (_ & _ & Ns' & _).
      apply app_inv_head in E2. change (b "..HDF.") with ([46] ++ b ".HDF.") in E2. rewrite <- !app_assoc in E2.
      pose proof (f_equal (Stations.split_on 46) E2) as S. rewrite !StationsProofs.split_on_app in S by assumption. congruence.
    + intros [E1 ->]. rewrite <- E1 in N'. eauto.
Qed.

(** Joining loses no sample: if the files agree where they overlap, each of their samples is in the result. *)
Theorem C55_nothing_lost ts r t k v : joined ts r -> In t ts -> value_at t k v ->
  (forall t1 t2 v1 v2, In t1 ts -> In t2 ts -> value_at t1 k v1 -> value_at t2 k v2 -> v1 = v2) -> value_at r k v.
Proof.
  intros (_ & _ & Ra & Fu & Va) I H Ag. pose proof (tsample_range _ _ _ H) as R. pose proof (Ra t I).
  destruct (Fu k) as (w & Hw); [lia|]. destruct (Va k w Hw) as (t' & (I' & Le & M) & Ht').
  rewrite Z.min_l in Ht' by (destruct (M t I); lia). rewrite (Ag t t' v w I I' H Ht'). exact Hw.
Qed.

(** Between the files the last value before the gap is repeated: the result has no gap. *)
Theorem C55_gaps_filled ts r k v : (forall t, In t ts -> gd t <> []) -> joined ts r -> value_at r k v -> (forall t w, In t ts -> ~ value_at t k w) ->
  exists t, In t ts /\ gend t < k /\ value_at t (gend t) v /\ forall t' j w, In t' ts -> gend t < j <= k -> ~ value_at t' j w.
Proof.
  intros N (_ & _ & Ra & Fu & Va) H Nk. destruct (Va k v H) as (t & (I & Le & M) & Ht). exists t. split; [exact I|].
  assert (C : gend t < k).
  { destruct (Z_lt_dec (gend t) k) as [C|C]; [exact C|exfalso]. rewrite Z.min_l in Ht by lia. exact (Nk t v I Ht). }
  rewrite Z.min_r in Ht by lia. split; [exact C|]. split; [exact Ht|]. intros t' j w I' Rj Hj.
  pose proof (tsample_range _ _ _ Hj) as Rt. destruct (M t' I'); lia.
Qed.

(** Where two files overlap, the one that ends later gives the values from its start on. *)
Theorem C55_overlap x y r : gd x <> [] -> gd y <> [] -> gs x <= gs y -> gs y <= gend x + 1 -> gend x < gend y ->
  merge_latest [x; y] = Some r -> forall k v, value_at r k v <-> (k < gs y /\ value_at x k v) \/ value_at y k v.
Proof.
  intros Nx Ny L1 L2 L3 M. destruct (merge_latest_spec [x; y]) as (r' & M' & J); [discriminate| |].
  { intros t [<-|[<-|[]]]; assumption. }
  rewrite M in M'. injection M' as <-. destruct J as ((ts & Is & Es) & (te & Ie & Ee) & Ra & Fu & Va). pose proof (gd_length_pos _ Nx). pose proof (gd_length_pos _ Ny).
  assert (P : forall k v, value_at r k v -> (k < gs y /\ value_at x k v) \/ value_at y k v).
  { intros k v H'. pose proof (tsample_range _ _ _ H') as R. destruct (Va k v H') as (t & (I & Le & Mx) & Ht).
    pose proof (Ra x (or_introl eq_refl)). pose proof (Ra y (or_intror (or_introl eq_refl))).
    assert (gend r <= gend y) by (destruct Ie as [<-|[<-|[]]]; lia).
    destruct (Z_lt_dec k (gs y)) as [C|C].
    - left. destruct I as [<-|[<-|[]]]; [|lia]. split; [exact C|]. rewrite Z.min_l in Ht by lia. exact Ht.
    - right. destruct I as [<-|[<-|[]]]; [destruct (Mx y) as [X|X]; [cbn; auto|lia|lia|lia]|]. rewrite Z.min_l in Ht by lia. exact Ht. }
  intros k v. split; [apply P|]. intros D.
  pose proof (Ra x (or_introl eq_refl)). pose proof (Ra y (or_intror (or_introl eq_refl))).
  assert (R : gs r <= k <= gend r) by (destruct D as [[_ D]|D]; apply tsample_range in D; lia).
  destruct (Fu k R) as (w & W). replace v with w; [exact W|].
  destruct D as [[C D]|D], (P k w W) as [[C' D']|D'].
  - exact (tsample_unique _ _ _ _ D' D).
  - apply tsample_range in D'. lia.
  - apply tsample_range in D. lia.
  - exact (tsample_unique _ _ _ _ D' D).
Qed.
Example C55_overlap_case : merge_latest [mkg 0 [1;2;3]; mkg 1 [9;8;7]] = Some (mkg 0 [1;9;8;7]).
Proof. reflexivity. Qed.

Definition day1 : bytes := b "2020-05-01T00_00_00..077..HDF.mseed".
Definition day1' : bytes := b "2020-05-01T01_00_00..077..HDF.mseed".
Definition other : bytes := b "2020-05-01T00_00_00..177..HDF.mseed".
Definition ex_dir : directory := [(day1, Some [mkg 0 [1;2;3]]); (other, Some [mkg 0 [7]]); (day1', Some [mkg 5 [4;5]])].
Example C55_case : merge_files_day ex_dir [day1; other; day1'] =
  ([(b "2020-05-01T00_00_00..077..HDF.mseed", mkg 0 [1;2;3;3;3;4;5]); (b "2020-05-01T00_00_00..177..HDF.mseed", mkg 0 [7])], true).
Proof. vm_compute. reflexivity. Qed.
Example C55_case_converted : converted (b "MSEED") day1' (mkdt 2020 5 1 1 0 0) (b "077").
Proof.
  exists 0. split; [vm_compute; reflexivity|]. split; [cbn; lia|]. split; [cbn; lia|]. unfold two_digits. cbn. lia.
Qed.

(** Network codes of different lengths: the files of network "XX" are also joined with those without a network
    code. *)
Theorem C55_networks_refuted : ~ forall dir infiles out, readable dir -> incl infiles (map fst dir) ->
  (forall n, In n infiles -> exists day rest, named day rest n) -> merge_files_day dir infiles = (out, true) ->
  forall day rest r, In (day ++ b "T00_00_00." ++ rest, r) out -> forall k v, value_at r k v ->
    exists f s t j, In (f, Some s) dir /\ named day rest f /\ In t s /\ value_at t j v.
Proof.
  intros H. set (n1 := b "2020-05-01T00_00_00..077..HDF.mseed"). set (n2 := b "2020-05-01T00_00_00.XX.077..HDF.mseed").
  assert (N1 : named (b "2020-05-01") (b ".077..HDF.mseed") n1) by (exists (b "T00_00_00"); split; [reflexivity|]; split; [right; exists (b "00_00_00"); reflexivity|cbn; lia]).
  assert (N2 : named (b "2020-05-01") (b "XX.077..HDF.mseed") n2) by (exists (b "T00_00_00"); split; [reflexivity|]; split; [right; exists (b "00_00_00"); reflexivity|cbn; lia]).
  set (dir := [(n1, Some [mkg 0 [1]]); (n2, Some [mkg 5 [9]])] : directory).
  specialize (H dir [n1; n2] [(b "2020-05-01T00_00_00..077..HDF.mseed", mkg 0 [1;1;1;1;1;9]); (b "2020-05-01T00_00_00.XX.077..HDF.mseed", mkg 5 [9])]).
  destruct H with (day := b "2020-05-01") (rest := b ".077..HDF.mseed") (r := mkg 0 [1;1;1;1;1;9]) (k := 5) (v := 9) as (f & s & t & j & I & N & It & V).
  - intros f c [I|[I|[]]]; injection I as <- <-; eexists; (split; [reflexivity|]; split; [discriminate|]); intros t [<-|[]]; discriminate.
  - intros n [<-|[<-|[]]]; cbn; auto.
  - intros n [<-|[<-|[]]]; eauto.
  - vm_compute. reflexivity.
  - left. reflexivity.
  - exists 5%nat. split; reflexivity.
  - destruct I as [I|[I|[]]]; injection I as <- <-.
    + destruct It as [<-|[]]. destruct V as (i & V & _). destruct i as [|[|i]]; discriminate.
    + destruct (named_unique _ _ _ _ _ N N2) as [_ E]. discriminate.
Qed.

(** A file within the time of another one is dropped, also if its values differ. *)
Theorem C55_contained_refuted : ~ forall ts r t k v, joined ts r -> In t ts -> value_at t k v -> value_at r k v.
Proof.
  intros H. assert (J : joined [mkg 0 [1;2;3]; mkg 1 [9]] (mkg 0 [1;2;3])).
  { destruct (merge_latest_spec [mkg 0 [1;2;3]; mkg 1 [9]]) as (r & M & J); [discriminate| |].
    - intros t [<-|[<-|[]]]; discriminate.
    - vm_compute in M. injection M as <-. exact J. }
  destruct (H _ _ (mkg 1 [9]) 1 9 J) as (i & V & E); [right; left; reflexivity|exists 0%nat; split; reflexivity|].
  cbn [gs gd] in V, E. assert (i = 1%nat) as -> by lia. discriminate.
Qed.

Print Assumptions C55_every_file.
Print Assumptions C55_exact.
Print Assumptions C55_converted_names.
Print Assumptions C55_nothing_lost.
Print Assumptions C55_gaps_filled.
Print Assumptions C55_overlap.
Print Assumptions C55_networks_refuted.
Print Assumptions C55_contained_refuted.
