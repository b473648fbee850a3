(** Properties C26 and C27: which raw files a conversion and a reading use, and how they refuse. *)
From Coq Require Import String.
From Coq Require Import ZArith QArith List Bool Lia Permutation.
From Verif Require Import Base Scan Convert110 UnwrapSpec ConvertSpec ConvertProofs Select SelectSpec SelectProofs.
Import ListNotations.
Open Scope Z_scope.

(** * C26 *)

(** The numbers chosen are those of the wanted files: each wanted file gives one number, nothing else does, and
    they are sorted. *)
Theorem C26_selected_numbers : forall d sn nums ns, select (Some d) sn nums = inr ns ->
  ns <> [] /\ chain Z.le ns /\
  exists fs, Permutation ns (map snd fs) /\ (forall f n, In (f, n) fs <-> In f d /\ wanted sn nums f n) /\
             (NoDup d -> NoDup (map fst fs)).
Proof.
  intros d sn nums ns H.
  assert (Er : existsb is_raw d = true) by (unfold select in H; destruct (existsb is_raw d); [reflexivity|discriminate]).
  assert (L : integer_literal sn).
  { apply is_int_spec. unfold select in H. rewrite Er in H. cbn [negb] in H. destruct (is_int sn); [reflexivity|discriminate]. }
  assert (N : length sn = 3%nat).
  { pose proof L as L'. apply is_int_spec in L' as Ez. unfold select in H. rewrite Er, Ez in H. cbn [negb] in H.
    destruct (Nat.eqb (length sn) 3) eqn:E; [apply Nat.eqb_eq; exact E|discriminate]. }
  rewrite (select_eq d sn nums Er L N) in H. destruct (map num (chosen d sn nums)) as [|n0 r] eqn:E; [discriminate|]. rewrite <- E in H. injection H as <-.
  split.
  { intros X. pose proof (sort_perm Z.leb (map num (chosen d sn nums))) as P. rewrite X, E in P. apply Permutation_nil in P. discriminate. }
  split; [apply sort_Z_chain|]. exists (map (fun f => (f, num f)) (chosen d sn nums)). split; [|split].
  - rewrite map_map. cbn. apply sort_perm.
  - intros f n. rewrite in_map_iff. split.
    + intros (g & Eg & I). injection Eg as -> <-. apply chosen_in. exact I.
    + intros (I & W). pose proof (wanted_num _ _ _ _ W) as ->. exists f. split; [reflexivity|]. apply chosen_in. auto.
  - intros ND. rewrite map_map. cbn. rewrite map_id. unfold chosen. apply NoDup_filter. apply fns_nodup; [|exact ND].
    intros ->. exact (txt_not_int L).
Qed.

(** Refusals, in a folder with raw files: *)
Theorem C26_refusals : forall d sn nums, (exists f n x, In f d /\ named (e_name f) n x) ->
  (select (Some d) sn nums = inl Bad_serial <-> ~ (integer_literal sn /\ length sn = 3%nat)) /\
  (select (Some d) sn nums = inl Corrupted <->
     (integer_literal sn /\ length sn = 3%nat) /\ (forall f n, In f d -> ~ wanted sn nums f n) /\
     exists f, In f d /\ candidate sn f /\ e_sn f = None) /\
  (select (Some d) sn nums = inl Missing <->
     (integer_literal sn /\ length sn = 3%nat) /\ (forall f n, In f d -> ~ wanted sn nums f n) /\
     forall f, In f d -> candidate sn f -> e_sn f <> None).
Proof.
  intros d sn nums (f0 & n0 & x0 & I0 & N0).
  assert (Er : existsb is_raw d = true) by (apply existsb_exists; exists f0; split; [exact I0|apply is_raw_spec; eauto]).
  assert (Bad : ~ (integer_literal sn /\ length sn = 3%nat) -> select (Some d) sn nums = inl Bad_serial).
  { intros H. unfold select. rewrite Er. cbn [negb]. destruct (is_int sn) eqn:Ez; [|reflexivity].
    destruct (Nat.eqb (length sn) 3) eqn:E; [|reflexivity]. exfalso. apply H. split; [apply is_int_spec; exact Ez|apply Nat.eqb_eq; exact E]. }
  assert (Dec : (integer_literal sn /\ length sn = 3%nat) \/ ~ (integer_literal sn /\ length sn = 3%nat)).
  { destruct (is_int sn) eqn:Ez.
    - destruct (Nat.eq_dec (length sn) 3) as [E|E]; [left|right; tauto]. split; [apply is_int_spec; exact Ez|exact E].
    - right. intros [H _]. apply is_int_spec in H. congruence. }
  destruct Dec as [[L N]|B].
  2: { rewrite (Bad B). repeat split; try discriminate; try tauto. }
  rewrite (select_eq d sn nums Er L N).
  assert (Ch : (map num (chosen d sn nums) = []) <-> forall f n, In f d -> ~ wanted sn nums f n).
  { split.
    - intros E f n I W. pose proof (wanted_num _ _ _ _ W) as ->. assert (X : In f (chosen d sn nums)) by (apply chosen_in; auto).
      apply (in_map num) in X. rewrite E in X. exact X.
    - intros H. destruct (chosen d sn nums) as [|f r] eqn:E; [reflexivity|exfalso]. assert (X : In f (chosen d sn nums)) by (rewrite E; left; reflexivity).
      apply chosen_in in X as [X1 X2]. exact (H _ _ X1 X2). }
  assert (Un : existsb unreadable (fns d sn) = true <-> exists f, In f d /\ candidate sn f /\ e_sn f = None).
  { rewrite existsb_exists. split.
    - intros (f & I & U). apply fns_in in I as [I C]. exists f. split; [exact I|]. split; [exact C|]. unfold unreadable in U. destruct (e_sn f); [discriminate|reflexivity].
    - intros (f & I & C & U). exists f. split; [apply fns_in; auto|]. unfold unreadable. rewrite U. reflexivity. }
  destruct (map num (chosen d sn nums)) as [|m r] eqn:E.
  - assert (W : forall f n, In f d -> ~ wanted sn nums f n) by (apply Ch; reflexivity).
    destruct (existsb unreadable (fns d sn)) eqn:U.
    + destruct (proj1 Un eq_refl) as (f & If & Cf & Uf). split; [split; [discriminate|tauto]|]. split; [split; [eauto 8|reflexivity]|].
      split; [discriminate|]. intros (_ & _ & H). destruct (H f If Cf Uf).
    + split; [split; [discriminate|tauto]|]. split; [split; [discriminate|]|split; [|reflexivity]].
      * intros (_ & _ & H). apply Un in H. discriminate.
      * intros _. split; [auto|]. split; [exact W|]. intros f I C U'. assert (X : exists f, In f d /\ candidate sn f /\ e_sn f = None) by eauto. apply Un in X. discriminate.
  - assert (W : ~ forall f n, In f d -> ~ wanted sn nums f n) by (intros H; apply Ch in H; discriminate).
    split; [split; [discriminate|tauto]|]. split; (split; [discriminate|tauto]).
Qed.

(** A folder that does not exist or has no raw files. *)
Theorem C26_no_raw_files : forall sn nums, select None sn nums = inl Missing /\
  forall d, (forall f n x, In f d -> ~ named (e_name f) n x) -> select (Some d) sn nums = inl Missing.
Proof.
  intros sn nums. split; [reflexivity|]. intros d H. unfold select. destruct (existsb is_raw d) eqn:E; [exfalso|reflexivity].
  apply existsb_exists in E as (f & I & R). apply is_raw_spec in R as (n & x & N). exact (H _ _ _ I N).
Qed.

(** So whatever is chosen can be divided in blocks, as C22 and C25 suppose. *)
Theorem C26_selection_can_be_converted : forall d sn nums ns blockdays, select (Some d) sn nums = inr ns -> (0 < blockdays)%Q ->
  exists blocks, divided ns (12 * blockdays) blocks.
Proof.
  intros d sn nums ns bd H Hb. destruct (C26_selected_numbers _ _ _ _ H) as (N & C & _). apply divided_exists; [|exact N|exact C].
  apply Qmult_lt_0_compat; [reflexivity|exact Hb].
Qed.

Definition ex_dir : list entry :=
  [mke (b "FILE0012.014") (Some (b "014")) 5000 (Some (b "0.91"));
   mke (b "FILE0002.014") (Some (b "014")) 5000 (Some (b "0.91"));
   mke (b "FILE0002.TXT") (Some (b "014")) 700 None;
   mke (b "FILE0003.014") (Some (b "015")) 5000 (Some (b "0.91"));
   mke (b "FILE0004.014") None 3 None;
   mke (b "FILE0005.015") (Some (b "015")) 5000 (Some (b "0.91"));
   mke (b "notes.txt") None 5000 None].
Example C26_case :
  select (Some ex_dir) (b "014") None = inr [2; 2; 12] /\ select (Some ex_dir) (b "014") (Some [12; 3]) = inr [12] /\
  select (Some ex_dir) (b "014") (Some [5]) = inl Corrupted /\ select (Some ex_dir) (b "016") None = inl Missing /\
  select (Some ex_dir) (b "15") None = inl Bad_serial /\ select (Some ex_dir) (b "1x5") None = inl Bad_serial /\
  select (Some ex_dir) (b "0_1") None = inl Missing.
Proof. vm_compute. repeat split; reflexivity. Qed.

(** * C27 *)
Section C27.
  Variables J R : Type.
  Variable read_several : option bytes -> list entry -> option J.
  Variable has_data : J -> bool.
  Variable finish : J -> option R.
  Notation read := (read_gem J R read_several has_data finish).

  Theorem C27_missing_iff : forall d sn nums, sn <> b "TXT" ->
    (read d sn nums = NoFiles <-> forall f, In f d -> ~ readable sn nums f).
  Proof.
    intros d sn nums N. unfold read_gem. pose proof (find_in d sn nums) as F. split.
    - destruct (find_nonmissing d sn nums) as [|f0 r] eqn:E.
      + intros _ f I Rd. exact (proj2 (F f N) (conj I Rd)).
      + destruct (drop_unreadable (f0 :: r)) as [[v fl]|]; [|discriminate].
        destruct (existsb (eqb_bytes v) _); [|destruct (_ || _); [|discriminate]];
          (destruct (read_several _ fl); [|discriminate]; destruct (has_data _); [|discriminate]; destruct (finish _); discriminate).
    - intros H. destruct (find_nonmissing d sn nums) as [|f0 r] eqn:E; [reflexivity|exfalso].
      destruct (proj1 (F f0 N) (or_introl eq_refl)) as [I Rd]. exact (H _ I Rd).
  Qed.

  Theorem C27_corrupt_iff : forall d sn nums, sn <> b "TXT" ->
    (read d sn nums = AllCorrupt <->
       (exists f, In f d /\ readable sn nums f) /\ forall f, In f d -> readable sn nums f -> e_version f = None).
  Proof.
    intros d sn nums N. unfold read_gem. pose proof (find_in d sn nums) as F. pose proof (drop_spec (find_nonmissing d sn nums)) as Dr.
    destruct (find_nonmissing d sn nums) as [|f0 r] eqn:E.
    - split; [discriminate|]. intros [(f & I & Rd) _]. destruct (proj2 (F f N) (conj I Rd)).
    - destruct (drop_unreadable (f0 :: r)) as [[v fl]|].
      + split.
        * destruct (existsb (eqb_bytes v) _); [|destruct (_ || _); [|discriminate]];
            (destruct (read_several _ fl); [|discriminate]; destruct (has_data _); [|discriminate]; destruct (finish _); discriminate).
        * intros [_ H]. destruct Dr as (l1 & g & l2 & El & -> & _ & V).
          assert (I : In g (f0 :: r)) by (rewrite El; apply in_or_app; right; left; reflexivity). apply (F g N) in I as [I Rd]. rewrite (H g I Rd) in V. discriminate.
      + split; [|reflexivity]. intros _. rewrite Forall_forall in Dr. split.
        * exists f0. apply (F f0 N). left. reflexivity.
        * intros f I Rd. apply Dr. apply (F f N). auto.
  Qed.

  (** Otherwise the files read are the readable ones in increasing number order, without those before the first one
      with a readable format; that file decides how all are read. *)
  Theorem C27_files_read : forall d sn nums, sn <> b "TXT" ->
    (exists f, In f d /\ readable sn nums f /\ e_version f <> None) ->
    exists before f rest v,
      (forall g, In g (before ++ f :: rest) <-> In g d /\ readable sn nums g) /\ (NoDup d -> NoDup (before ++ f :: rest)) /\
      chain (fun g h => forall n m x y, named (e_name g) n x -> named (e_name h) m y -> n <= m) (before ++ f :: rest) /\
      (forall g, In g before -> e_version g = None) /\ e_version f = Some v /\
      let outcome arg :=
        match read_several arg (f :: rest) with
        | None => Fails
        | Some j => if has_data j then match finish j with Some r => Gives r | None => Fails end else NoUsableGPS
        end in
      (In v [b "0.85C"; b "0.9"; b "0.91"; b "1.10"] -> read d sn nums = outcome None) /\
      (In v [b "0.85"; b "0.8"] -> read d sn nums = outcome (Some v)) /\
      (~ In v [b "0.85C"; b "0.9"; b "0.91"; b "1.10"; b "0.85"; b "0.8"] -> read d sn nums = BadFormat).
  Proof.
    intros d sn nums N (f & I & Rd & V). pose proof (find_in d sn nums) as F. pose proof (drop_spec (find_nonmissing d sn nums)) as Dr.
    pose proof (find_sorted d sn nums) as So. pose proof (find_nodup d sn nums) as ND. unfold read_gem.
    destruct (find_nonmissing d sn nums) as [|f0 r] eqn:E; [destruct (proj2 (F f N) (conj I Rd))|].
    destruct (drop_unreadable (f0 :: r)) as [[v fl]|].
    2: { exfalso. rewrite Forall_forall in Dr. apply V. apply Dr. apply (F f N). auto. }
    destruct Dr as (l1 & g & l2 & El & -> & F1 & Vg). exists l1, g, l2, v. rewrite <- El.
    split; [intros h; apply (F h N)|]. split; [exact ND|]. split.
    { clear -So. revert So. generalize (f0 :: r). intros l. induction l as [|a l IH]; [auto|]. destruct l as [|c l]; [auto|]. intros [A C]. split; [|apply IH; exact C].
      intros n m x y Na Nc. exact (named_order _ _ _ _ _ _ Na Nc A). }
    split; [intros h Hh; rewrite Forall_forall in F1; apply F1; exact Hh|]. split; [exact Vg|]. cbv zeta.
    assert (Mem : forall l, existsb (eqb_bytes v) l = true <-> In v l).
    { intros l. rewrite existsb_exists. split; [intros (y & Iy & Ey); apply eqb_bytes_spec in Ey; subst y; exact Iy|]. intros Iv. exists v. split; [exact Iv|apply eqb_bytes_spec; reflexivity]. }
    split; [|split].
    - intros Hv. apply Mem in Hv. rewrite Hv. reflexivity.
    - intros Hv. destruct (existsb (eqb_bytes v) [b "0.85C"; b "0.9"; b "0.91"; b "1.10"]) eqn:X.
      { apply Mem in X. exfalso. cbn [In] in X, Hv. destruct Hv as [<-|[<-|[]]]; repeat (destruct X as [X|X]; [discriminate|]); exact X. }
      assert (Y : eqb_bytes v (b "0.85") || eqb_bytes v (b "0.8") = true).
      { apply orb_true_iff. rewrite !eqb_bytes_spec. destruct Hv as [<-|[<-|[]]]; auto. }
      rewrite Y. reflexivity.
    - intros Hv. destruct (existsb (eqb_bytes v) [b "0.85C"; b "0.9"; b "0.91"; b "1.10"]) eqn:X.
      { apply Mem in X. exfalso. apply Hv. cbn [In] in *. tauto. }
      destruct (eqb_bytes v (b "0.85") || eqb_bytes v (b "0.8")) eqn:Y; [|reflexivity]. apply orb_true_iff in Y. rewrite !eqb_bytes_spec in Y.
      exfalso. apply Hv. cbn [In]. intuition.
  Qed.
End C27.

(** Every file chosen by a conversion, if it has more than ten bytes, is read for the numbers chosen. *)
Theorem C27_chosen_files_are_read : forall d sn nums ns, select (Some d) sn nums = inr ns ->
  forall f n, In f d -> wanted sn nums f n -> 10 < e_size f -> In n ns /\ readable sn ns f.
Proof.
  intros d sn nums ns H f n I W S. destruct (C26_selected_numbers _ _ _ _ H) as (_ & _ & fs & P & Hfs & _).
  assert (In n ns). { apply (Permutation_in _ (Permutation_sym P)). apply in_map_iff. exists (f, n). split; [reflexivity|]. apply Hfs. auto. }
  split; [assumption|].
  assert (V : integer_literal sn /\ length sn = 3%nat).
  { destruct (proj1 (C26_refusals d sn nums ltac:(destruct W as ([N|N] & _); eauto))) as [_ B2].
    destruct (is_int sn) eqn:E1; [destruct (Nat.eq_dec (length sn) 3)|].
    - split; [apply is_int_spec; exact E1|assumption].
    - exfalso. rewrite B2 in H; [discriminate|tauto].
    - exfalso. rewrite B2 in H; [discriminate|]. intros [X _]. apply is_int_spec in X. congruence. }
  destruct V as [L N]. destruct W as ([W|W] & E & _).
  - exists n, sn. split; [exact W|]. split; [assumption|]. split; [exact S|]. left. split; [reflexivity|]. intros ->. exact (txt_not_int L).
  - exists n, (b "TXT"). split; [exact W|]. split; [assumption|]. split; [exact S|]. right. split; [reflexivity|]. exists sn. split; [exact E|].
    rewrite <- N. apply firstn_all.
Qed.

Definition count_read (v : option bytes) (l : list entry) : option nat := Some (length l).
Example C27_case :
  let read := read_gem nat nat count_read (fun n => negb (Nat.eqb n 0)) (fun n => Some n) in
  read ex_dir (b "014") [2; 3; 4; 5; 12] = Gives 4%nat /\    (* FILE0004 is empty *)
  map e_name (find_nonmissing ex_dir (b "014") [2; 3; 4; 5; 12]) =
    [b "FILE0002.014"; b "FILE0002.TXT"; b "FILE0003.014"; b "FILE0012.014"] /\
  read ex_dir (b "014") [4; 5] = NoFiles /\
  read_gem nat nat count_read (fun _ => false) (fun n => Some n) ex_dir (b "015") [5] = NoUsableGPS.
Proof. vm_compute. repeat split; reflexivity. Qed.

(** The two choices differ: a file whose serial number inside is another logger's is not chosen by a conversion, but
    it is read all the same if its number was chosen for another file. *)
Theorem C27_foreign_file_refuted :
  exists d ns, select (Some d) (b "014") None = inr ns /\
    exists f, In f (find_nonmissing d (b "014") ns) /\ e_sn f = Some (b "015").
Proof.
  exists [mke (b "FILE0001.014") (Some (b "015")) 5000 (Some (b "0.9")); mke (b "FILE0001.TXT") (Some (b "014")) 5000 (Some (b "0.8"))], [1].
  split; [vm_compute; reflexivity|]. eexists. split; [left; reflexivity|reflexivity].
Qed.

(** The serial number of a .TXT file counts only up to its third character. *)
Theorem C27_long_serial_refuted :
  exists d f, In f (find_nonmissing d (b "014") [1]) /\ e_sn f = Some (b "0145").
Proof.
  exists [mke (b "FILE0001.TXT") (Some (b "0145")) 5000 (Some (b "0.8"))]. eexists. split; [left; reflexivity|reflexivity].
Qed.

Print Assumptions C26_selected_numbers.
Print Assumptions C26_refusals.
Print Assumptions C26_no_raw_files.
Print Assumptions C26_selection_can_be_converted.
Print Assumptions C27_missing_iff.
Print Assumptions C27_corrupt_iff.
Print Assumptions C27_files_read.
Print Assumptions C27_chosen_files_are_read.
