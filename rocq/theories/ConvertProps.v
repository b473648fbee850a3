(** Properties C22, C25 and C47: what a conversion reads, writes and logs. *)
From Coq Require Import ZArith QArith Qround Lqa List Bool Lia.
From Verif Require Import Base Lib UnwrapSpec UnwrapProofs Stream StreamSpec StreamProofs Convert ConvertSpec ConvertProofs.
Import ListNotations.
Open Scope Z_scope.

Section Props.
  Variables M G P : Type.
  Variable gps_time : G -> Q.
  Variable read_gem : list Z -> outcome M G P.
  Variables (nums : list Z) (blockdays : Q) (f : Z) (t2 : Q) (blocks : list (list Z)).
  Notation data := (all_of read_gem data_of blocks).
  Notation run t1 fuel := (convert M G P gps_time read_gem nums blockdays (inject_Z f) t1 t2 fuel).

  Lemma upto_all {A} (g : outcome M G P -> list A) : upto M G P read_gem blocks g (length blocks) = all_of read_gem g blocks.
  Proof. unfold upto, all_of. rewrite firstn_all. reflexivity. Qed.

  Lemma default_core : forall T1, whole_conversion read_gem nums blockdays f t2 blocks ->
    first_second data T1 -> (exists k v, sample data k v /\ T1 <= k) ->
    exists n h, (forall fuel, (n <= fuel)%nat -> run None fuel = (h, Returns (all_of read_gem problems_of blocks))) /\
      metas h = all_of read_gem meta_of blocks /\
      (exists g gs, all_of read_gem gps_of blocks = g :: gs /\
        exists g', gpss h = g' :: gs /\ forall x, In x g' <-> In x g /\ (inject_Z T1 - 100 < gps_time x)%Q) /\
      in_order (written h) /\ Forall (in_window (inject_Z f)) (written h) /\
      forall k v, sample (written h) k v <-> T1 <= k /\ (sample data k v \/ fills (sample data) k v).
  Proof.
    intros T1 (Hb & Hf & Hd & HR & HO & Hs) ((q & Eq) & k0 & v0 & S0 & Min & B0) (k1 & v1 & S1 & L1).
    set (t1o := (inject_Z (qceil (inject_Z k0 / second)) * second)%Q).
    assert (E : (t1o == inject_Z T1)%Q).
    { assert (X : qceil (inject_Z k0 / second) = q).
      { assert (qceil (inject_Z k0 / second) <= q).
        { apply qceil_spec. unfold second. apply Qle_shift_div_r; [reflexivity|]. change 100%Q with (inject_Z 100). rewrite <- inject_Z_mult, <- Zle_Qle. lia. }
        assert (~ qceil (inject_Z k0 / second) <= q - 1); [|lia]. rewrite qceil_spec. unfold second. intros Y.
        assert (Z : (inject_Z k0 <= inject_Z (q - 1) * inject_Z 100)%Q).
        { apply (Qmult_le_compat_r _ _ 100) in Y; [|discriminate]. assert (W : (inject_Z k0 / 100 * 100 == inject_Z k0)%Q) by field. rewrite W in Y. exact Y. }
        rewrite <- inject_Z_mult, <- Zle_Qle in Z. lia. }
      unfold t1o. rewrite X. unfold second. change 100%Q with (inject_Z 100). rewrite <- inject_Z_mult, Eq, Z.mul_comm. reflexivity. }
    pose proof (convert_ok M G P gps_time read_gem nums blockdays f t2 blocks Hb Hf Hd HR) as K. rewrite !upto_all in K.
    destruct (K HO (fun k v H => proj1 (Hs k v H)) (fun k v H => proj2 (Hs k v H)) t1o) with (t1_arg := @None Q) as (n & h & C & Run & _ & Me & (g & gs & Eg & Gp) & Ow & Ww & HC & Sw).
    - exists k1, v1. split; [exact S1|]. rewrite E, <- Zle_Qle. exact L1.
    - intros X. rewrite X in S0. destruct (sample_nil _ _ S0).
    - intros k [[v V] A]. assert (k = k0) as -> by (pose proof (A _ _ S0); pose proof (Min _ _ V); lia). reflexivity.
    - exists n, h. split; [exact Run|]. split; [exact Me|]. split.
      { exists g, gs. split; [exact Eg|]. eexists. split; [exact Gp|]. intros x. rewrite filter_In, Qltb_lt.
        assert (X : (t1o - second == inject_Z T1 - 100)%Q) by (clear -E; clearbody t1o; unfold second; lra).
        clear -X. clearbody t1o. split; intros [A B]; (split; [exact A|]); lra. }
      split; [exact Ow|]. split; [exact Ww|]. intros k v. rewrite Sw, E, <- Zle_Qle. unfold record, fills, fills_if.
      assert (X : forall m, C m) by (apply HC; reflexivity).
      split; intros [A [B|(i & j & a & z & B)]]; (split; [exact A|]); auto; right; exists i, j, a, z; [tauto|split; [apply X|tauto]].
  Qed.

  (** With the default start time a conversion returns; the output files are in time order without overlap,
      each inside one window of the file length, and their samples are exactly the samples of the data, from
      the first whole second on, and the values that fill gaps of at most three samples. *)
  Theorem C22_default_start : forall T1, whole_conversion read_gem nums blockdays f t2 blocks ->
    first_second data T1 -> (exists k v, sample data k v /\ T1 <= k) ->
    exists n h, (forall fuel, (n <= fuel)%nat -> run None fuel = (h, Returns (all_of read_gem problems_of blocks))) /\
      in_order (written h) /\ Forall (in_window (inject_Z f)) (written h) /\
      forall k v, sample (written h) k v <-> T1 <= k /\ (sample data k v \/ fills (sample data) k v).
  Proof. intros T1 H1 H2 H3. destruct (default_core T1 H1 H2 H3) as (n & h & Run & _ & _ & R). exists n, h. exact (conj Run R). Qed.

  (** With a given start time not after the last sample: every sample from it on is written, and anything else
      written fills a gap of at most three samples. *)
  Theorem C22_given_start : forall t1, whole_conversion read_gem nums blockdays f t2 blocks ->
    (0 <= t1)%Q -> (t1 <= t2)%Q -> (exists k v, sample data k v /\ (t1 <= inject_Z k)%Q) ->
    exists n h, (forall fuel, (n <= fuel)%nat -> run (Some t1) fuel = (h, Returns (all_of read_gem problems_of blocks))) /\
      in_order (written h) /\ Forall (in_window (inject_Z f)) (written h) /\
      (forall k v, sample data k v -> (t1 <= inject_Z k)%Q -> sample (written h) k v) /\
      (forall k v, sample (written h) k v -> (t1 <= inject_Z k)%Q /\ (sample data k v \/ fills (sample data) k v)).
  Proof.
    intros t1 (Hb & Hf & Hd & HR & HO & Hs) H0 H2 (k1 & v1 & S1 & L1).
    pose proof (convert_ok M G P gps_time read_gem nums blockdays f t2 blocks Hb Hf Hd HR) as K. rewrite !upto_all in K.
    destruct (K HO (fun k v H => proj1 (Hs k v H)) (fun k v H => proj2 (Hs k v H)) t1) with (t1_arg := Some t1) as (n & h & C & Run & _ & _ & _ & Ow & Ww & _ & Sw).
    - exists k1, v1. auto.
    - intros X. rewrite X in S1. destruct (sample_nil _ _ S1).
    - auto.
    - exists n, h. split; [exact Run|]. split; [exact Ow|]. split; [exact Ww|]. split; intros k v.
      + intros A B. apply Sw. split; [exact B|left; exact A].
      + intros A. apply Sw in A as [A [B|(i & j & a & z & B)]]; (split; [exact A|]); auto. right. exists i, j, a, z. tauto.
  Qed.

  (** Every selected file is offered to the reader exactly once, in order: the blocks read are the division of
      the sorted numbers, whatever is in them (unreadable blocks included).  The start time may be given or not. *)
  Theorem C25_all_files_offered_once : forall t1, whole_conversion read_gem nums blockdays f t2 blocks ->
    match t1 with
    | Some t => (0 <= t)%Q /\ (t <= t2)%Q /\ exists k v, sample data k v /\ (t <= inject_Z k)%Q
    | None => exists k v T1, first_second data T1 /\ sample data k v /\ T1 <= k
    end ->
    exists n h r, (forall fuel, (n <= fuel)%nat -> run t1 fuel = (h, Returns r)) /\ reads h = blocks /\ concat (reads h) = nums.
  Proof.
    intros t1 (Hb & Hf & Hd & HR & HO & Hs) Ht.
    pose proof (convert_ok M G P gps_time read_gem nums blockdays f t2 blocks Hb Hf Hd HR) as K. rewrite !upto_all in K.
    assert (X : exists n h r, (forall fuel, (n <= fuel)%nat -> run t1 fuel = (h, Returns r)) /\ reads h = blocks).
    { destruct t1 as [t|].
      - destruct Ht as (H0 & H2 & k1 & v1 & S1 & L1).
        destruct (K HO (fun k v H => proj1 (Hs k v H)) (fun k v H => proj2 (Hs k v H)) t) with (t1_arg := Some t) as (n & h & C & Run & Rd & _); eauto.
        intros X. rewrite X in S1. destruct (sample_nil _ _ S1).
      - destruct Ht as (k1 & v1 & T1 & ((q & Eq) & k0 & v0 & S0 & Min & B0) & S1 & L1).
        set (t1o := (inject_Z (qceil (inject_Z k0 / second)) * second)%Q).
        assert (E : (t1o <= inject_Z T1)%Q).
        { assert (X : qceil (inject_Z k0 / second) <= q).
          { apply qceil_spec. unfold second. apply Qle_shift_div_r; [reflexivity|]. change 100%Q with (inject_Z 100). rewrite <- inject_Z_mult, <- Zle_Qle. lia. }
          unfold t1o. revert X. generalize (qceil (inject_Z k0 / second)). intros c X. unfold second. change 100%Q with (inject_Z 100). rewrite <- inject_Z_mult, <- Zle_Qle. lia. }
        destruct (K HO (fun k v H => proj1 (Hs k v H)) (fun k v H => proj2 (Hs k v H)) t1o) with (t1_arg := @None Q) as (n & h & C & Run & Rd & _); eauto.
        + exists k1, v1. split; [exact S1|]. apply (Qle_trans _ _ _ E). rewrite <- Zle_Qle. exact L1.
        + intros X. rewrite X in S0. destruct (sample_nil _ _ S0).
        + intros k [[v V] A]. assert (k = k0) as -> by (pose proof (A _ _ S0); pose proof (Min _ _ V); lia). reflexivity. }
    destruct X as (n & h & r & Run & Rd). exists n, h, r. split; [exact Run|]. split; [exact Rd|]. rewrite Rd. destruct Hd as (_ & E & _). exact E.
  Qed.

  (** In all circumstances (exceptions, end times, interruption at any point) the blocks read so far are the first
      blocks of the division: nothing is read twice or out of order. *)
  Theorem C25_reads_are_a_prefix : forall flen t1 fuel, (0 < blockdays)%Q -> divided nums (12 * blockdays) blocks ->
    exists i, reads (fst (convert M G P gps_time read_gem nums blockdays flen t1 t2 fuel)) = firstn i blocks.
  Proof. intros flen t1 fuel Hb Hd. apply convert_goes; assumption. Qed.

  (** The logs: metadata rows of all blocks with data, in order; GPS rows too, except that those of the first such
      block are kept only if later than one second before the start time; and the problems reported are those of
      all blocks. *)
  Theorem C47_logs : forall t1, whole_conversion read_gem nums blockdays f t2 blocks ->
    (0 <= t1)%Q -> (t1 <= t2)%Q -> (exists k v, sample data k v /\ (t1 <= inject_Z k)%Q) ->
    exists n h, (forall fuel, (n <= fuel)%nat -> run (Some t1) fuel = (h, Returns (all_of read_gem problems_of blocks))) /\
      metas h = all_of read_gem meta_of blocks /\
      exists g gs, all_of read_gem gps_of blocks = g :: gs /\
        exists g', gpss h = g' :: gs /\ forall x, In x g' <-> In x g /\ (t1 - 100 < gps_time x)%Q.
  Proof.
    intros t1 (Hb & Hf & Hd & HR & HO & Hs) H0 H2 (k1 & v1 & S1 & L1).
    pose proof (convert_ok M G P gps_time read_gem nums blockdays f t2 blocks Hb Hf Hd HR) as K. rewrite !upto_all in K.
    destruct (K HO (fun k v H => proj1 (Hs k v H)) (fun k v H => proj2 (Hs k v H)) t1) with (t1_arg := Some t1) as (n & h & C & Run & _ & Me & (g & gs & Eg & Gp) & _).
    - exists k1, v1. auto.
    - intros X. rewrite X in S1. destruct (sample_nil _ _ S1).
    - auto.
    - exists n, h. split; [exact Run|]. split; [exact Me|]. exists g, gs. split; [exact Eg|]. eexists. split; [exact Gp|].
      intros x. rewrite filter_In, Qltb_lt. reflexivity.
  Qed.

  Theorem C47_logs_default_start : forall T1, whole_conversion read_gem nums blockdays f t2 blocks ->
    first_second data T1 -> (exists k v, sample data k v /\ T1 <= k) ->
    exists n h, (forall fuel, (n <= fuel)%nat -> run None fuel = (h, Returns (all_of read_gem problems_of blocks))) /\
      metas h = all_of read_gem meta_of blocks /\
      exists g gs, all_of read_gem gps_of blocks = g :: gs /\
        exists g', gpss h = g' :: gs /\ forall x, In x g' <-> In x g /\ (inject_Z T1 - 100 < gps_time x)%Q.
  Proof. intros T1 H1 H2 H3. destruct (default_core T1 H1 H2 H3) as (n & h & Run & Me & Gp & _). exists n, h. exact (conj Run (conj Me Gp)). Qed.
End Props.

(** A sorted list of numbers can be divided, so the theorems apply to any selection of files. *)
Theorem C25_division_exists : forall nums blockdays, nums <> [] -> chain Z.le nums -> (0 < blockdays)%Q ->
  exists blocks, divided nums (12 * blockdays) blocks.
Proof. intros nums bd N S Hb. apply divided_exists; [lra|exact N|exact S]. Qed.

(** Files in order and without overlap: each time is in one file only. *)
Theorem C22_one_file_per_time : forall st, in_order st -> forall a b x y k,
  nth_error st a = Some x -> nth_error st b = Some y -> holds_time x k -> holds_time y k -> a = b.
Proof. intros st O a b x y k. unfold holds_time. intros. eapply order_one_file; eauto. Qed.

(** * Cases *)
Definition ex_nums : list Z := [3; 4; 5; 7].
Definition ex_blocks : list (list Z) := [[3]; [4]; [5]; []; [7]].
Definition ex_read (bl : list Z) : outcome Z Z Z :=
  match bl with
  | 3 :: _ => Block [mkg 719850 [1; 2; 3]; mkg 719855 [6; 7]; mkg 719890 (repeat 5 20)] [1] [0; 719890] [7]
  | 5 :: _ => Block [mkg 719911 [8; 9]; mkg 719999 [10; 11; 12]] [2] [720000] [8]
  | 7 :: _ => Block [mkg 720400 [13; 14]] [3] [] []
  | _ => Skipped
  end.

Lemma bounded_samples lo hi st : Forall (fun tr => lo <= gs tr /\ gend tr <= hi) st -> forall k v, sample st k v -> lo <= k <= hi.
Proof.
  intros F k v (tr & i & I & E & ->). rewrite Forall_forall in F. specialize (F tr I). assert (i < length (gd tr))%nat by (apply nth_error_Some; congruence).
  unfold gend in F. lia.
Qed.

Example C22_case :
  whole_conversion ex_read ex_nums (1 # 12) 100 (inject_Z 1500000) ex_blocks /\
  first_second (all_of ex_read data_of ex_blocks) 719900 /\
  convert Z Z Z inject_Z ex_read ex_nums (1 # 12) 100 None (inject_Z 1500000) 50 =
    ([Read [3]; Meta [1]; Gps [719890]; Read [4]; Read [5]; Meta [2]; Gps [720000]; Write (mkg 719900 [5;5;5;5;5;5;5;5;5;5;6;8;9]); Write (mkg 719999 [10]); Read []; Read [7]; Meta [3]; Gps [];
      Write (mkg 720000 [11; 12]); Write (mkg 720400 [13; 14])], Returns [7; 8]).
Proof.
  split; [|split].
  - split; [reflexivity|]. split; [reflexivity|]. split; [|split; [|split]].
    + split; [discriminate|]. split; [reflexivity|]. split; [discriminate|]. intros i bl n E I.
      do 5 (destruct i as [|i]; [injection E as <-; cbn in I; repeat (destruct I as [<-|I]; [split; [discriminate|reflexivity]|]); destruct I|]). destruct i; discriminate.
    + intros bl I. cbn in I. repeat (destruct I as [<-|I]; [discriminate|]). destruct I.
    + split; [repeat constructor; discriminate|]. cbn. repeat split; reflexivity.
    + intros k v H. apply (bounded_samples 719850 720401) in H.
      * split; [lia|]. assert (X : (inject_Z k <= inject_Z 720401)%Q) by (rewrite <- Zle_Qle; lia). unfold day. change (inject_Z 720401) with 720401%Q in X. change (inject_Z 100) with 100%Q. change (inject_Z 1500000) with 1500000%Q. lra.
      * repeat constructor; vm_compute; discriminate.
  - split; [exists 7199; reflexivity|]. exists 719850, 1. split; [exists (mkg 719850 [1; 2; 3]), 0%nat; cbn; auto|]. split; [|lia].
    intros l w H. apply (bounded_samples 719850 720401) in H; [lia|]. repeat constructor; vm_compute; discriminate.
  - vm_compute. reflexivity.
Qed.

(** * Limits *)

(** An end time inside the data is not honoured: data after it are written, and then the call fails. *)
Definition two_blocks (bl : list Z) : outcome Z Z Z :=
  match bl with 0 :: _ => Block [mkg 0 (repeat 1 250)] [] [] [] | _ => Block [mkg 300 (repeat 2 250)] [] [] [] end.
Theorem C22_end_time_refuted :
  exists k v h, convert Z Z Z inject_Z two_blocks [0; 12] 1 100 None 50 50 = (h, Exception_) /\ sample (written h) k v /\ 50 < k.
Proof.
  exists 99, 1. eexists. split; [vm_compute; reflexivity|]. split; [|reflexivity]. cbn [written flat_map app].
  match goal with |- sample [?t] _ _ => exists t, 99%nat end. split; [left; reflexivity|]. split; reflexivity.
Qed.

(** A start time after the last sample of several blocks makes the call fail (on one block it returns). *)
Theorem C22_late_start_refuted :
  exists h, convert Z Z Z inject_Z two_blocks [0; 1] (1 # 12) 100 (Some 800000%Q) (inject_Z 2000000) 50 = (h, Exception_) /\
  forall k v, sample (all_of two_blocks data_of [[0]; [1]]) k v -> k < 800000.
Proof.
  eexists. split; [vm_compute; reflexivity|]. intros k v H. apply (bounded_samples 0 549) in H; [lia|]. repeat constructor; vm_compute; discriminate.
Qed.

(** With a start time given, short gaps in the first block of data may stay unfilled. *)
Definition gap_block (bl : list Z) : outcome Z Z Z := Block [mkg 0 [1; 2]; mkg 3 [4; 5]] [] [] [].
Theorem C22_given_start_gap_refuted :
  fills (sample (all_of gap_block data_of [[0]])) 2 3 /\
  convert Z Z Z inject_Z gap_block [0] 1 100 (Some 0%Q) (inject_Z 1000) 50 =
    ([Read [0]; Meta []; Gps []; Write (mkg 0 [1; 2]); Write (mkg 3 [4; 5])], Returns []) /\
  convert Z Z Z inject_Z gap_block [0] 1 100 None (inject_Z 1000) 50 =
    ([Read [0]; Meta []; Gps []; Write (mkg 0 [1; 2; 3; 4; 5])], Returns []).
Proof.
  split; [|split; vm_compute; reflexivity].
  exists 1, 3, 2, 4. split; [exists (mkg 0 [1; 2]), 1%nat; cbn; auto|]. split; [exists (mkg 3 [4; 5]), 0%nat; cbn; auto|].
  split; [lia|]. split; [lia|]. split; [|reflexivity]. intros m w Hm (tr & i & I & E & ->). cbn in I. destruct I as [<-|[<-|[]]]; cbn [gs gd] in *.
  - destruct i as [|[|i]]; [lia|lia|]. destruct i; discriminate.
  - lia.
Qed.

(** A file length that is no multiple of the sampling interval (here 0.024 s): the same sample is written again
    and again, without end. *)
Definition one_block (bl : list Z) : outcome Z Z Z := Block [mkg 0 [1; 2; 3; 4]] [] [] [].
Theorem C22_uneven_length_refuted : forall fuel,
  exists h, convert Z Z Z inject_Z one_block [0] 1 (12 # 5) None (inject_Z 1000) fuel = (h, OutOfFuel).
Proof.
  assert (X : forall fuel, exists h, write_files Z Z (12 # 5) (inject_Z 1000) fuel true [mkg 2 [3; 4]] 2 = (h, OutOfFuel)).
  { induction fuel as [|fuel [h IH]]; [exists []; reflexivity|]. cbn [write_files].
    set (e := end_time [mkg 2 [3; 4]]). vm_compute in e. subst e. cbv iota.
    set (c := Qle_bool 2 3). vm_compute in c. subst c. cbv iota.
    set (w := write_hour (12 # 5) [mkg 2 [3; 4]] 2). vm_compute in w. subst w. cbv iota beta zeta.
    set (t := trim _ _ _). vm_compute in t. subst t. cbv iota beta zeta. cbn [start_time gs]. change (inject_Z 2) with 2%Q. rewrite IH. eexists. reflexivity. }
  intros fuel. destruct fuel as [|[|fuel]]; [exists []; reflexivity|vm_compute; eexists; reflexivity|].
  destruct (X (S fuel)) as [h Hh].
  unfold convert. set (fb := first_block _ _ _ _ _ _ _ _).
  assert (Efb : fb = ([Read [0]], Returns (12%Q, ([mkg 0 [1; 2; 3; 4]], [], [], [])))) by (unfold fb; cbn [first_block]; vm_compute; reflexivity).
  rewrite Efb. cbv iota beta zeta.
  set (p := merge_gaps _). vm_compute in p. subst p. cbn [start_time gs].
  set (t1 := (inject_Z _ * _)%Q). vm_compute in t1. subst t1. set (hr := Qmax2 _ _). vm_compute in hr. subst hr.
  cbn [main_loop]. set (m := negb _ || _). vm_compute in m. subst m. cbv iota.
  assert (Y : exists h', write_files Z Z (12 # 5) (inject_Z 1000) (S (S fuel)) true [mkg 0 [1; 2; 3; 4]] (0 # 1) = (h', OutOfFuel)).
  { remember (S fuel) as fu eqn:Ef. cbn [write_files].
    set (e := end_time _). vm_compute in e. subst e. cbv iota.
    set (c := Qle_bool _ _). vm_compute in c. subst c. cbv iota.
    set (w := write_hour _ _ _). vm_compute in w. subst w. cbv iota beta zeta.
    set (t := trim _ _ _). vm_compute in t. subst t. cbv iota beta zeta. cbn [start_time gs]. change (inject_Z 2) with 2%Q. rewrite Hh. eexists. reflexivity. }
  destruct Y as [h' Hh']. match goal with |- context [write_files _ _ _ _ _ _ _ ?x] => change x with (0 # 1)%Q end. rewrite Hh'. eexists. reflexivity.
Qed.

Print Assumptions C22_default_start.
Print Assumptions C22_given_start.
Print Assumptions C22_one_file_per_time.
Print Assumptions C25_all_files_offered_once.
Print Assumptions C25_reads_are_a_prefix.
Print Assumptions C25_division_exists.
Print Assumptions C47_logs.
Print Assumptions C47_logs_default_start.
