From Coq Require Import String.
From Coq Require Import ZArith QArith Qround List Bool Lia Lqa.
From Verif Require Import Lib Base UnwrapSpec UnwrapProofs Scan Process ReadSeveral ReadSeveralProofs Drift Segments SegmentsSpec SegmentsProofs SegmentsProps Interp InterpSpec InterpProofs InterpProps
  Select Block BlockSpec BlockProofs Cli CliSpec CliProofs Single SingleSpec.
Import ListNotations.
Open Scope Z_scope.

Lemma base_from_spec p : forall cur, exists n, base_from cur p = n /\
  (~ In 47 p /\ n = rev cur ++ p \/ exists folder, p = folder ++ 47 :: n /\ ~ In 47 n).
Proof.
  induction p as [|c p IH]; intros cur; cbn [base_from].
  - exists (rev cur). split; [reflexivity|]. left. split; [intros []|now rewrite app_nil_r].
  - destruct (Z.eqb_spec c 47) as [->|Hc].
    + destruct (IH []) as (n & E & [[N ->]|(fo & -> & N)]).
      * exists p. cbn [rev app] in E. split; [exact E|]. right. exists []. auto.
      * exists n. split; [exact E|]. right. exists (47 :: fo). auto.
    + destruct (IH (c :: cur)) as (n & E & [[N ->]|(fo & -> & N)]).
      * exists (rev cur ++ c :: p). cbn [rev] in E. rewrite <- app_assoc in E. split; [exact E|]. left.
        split; [intros [K|K]; [lia|now apply N]|reflexivity].
      * exists n. split; [exact E|]. right. exists (c :: fo). auto.
Qed.

Lemma base_name_of p : file_name_of p (base_name p).
Proof.
  unfold base_name. destruct (base_from_spec p []) as (n & -> & [[N ->]|(fo & E & N)]); cbn [rev app].
  - split; [exact N|now left].
  - split; [exact N|right; now exists fo].
Qed.

Section One.
  Variable sc : scanner.
  Variable buf0 : bytes.
  Variable ear : bool.
  Variable fit3 : list point -> option cubic.
  Variable fit1 : list point -> option Drift.linear.
  Variable spline : list (Q * option Q) -> option (Q -> Q).
  Variable content : entry -> raw_file.
  Variable req : bool.
  Notation join := (join sc buf0 ear fit3 fit1 content req).

  Lemma join_one v e j : join v [e] = Some j -> exists row, jheader j = [row].
  Proof.
    unfold Block.join, ReadSeveral.read_several. cbn [loop].
    destruct (one_file _ _ _ _ _ _ _ _ _ _) as [h [L|f]].
    - intros E. injection E as <-. cbn [jheader app]. now exists h.
    - destruct f as [[]| |]; intros E; try discriminate; injection E as <-; cbn [jheader app]; now exists h.
  Qed.

  Lemma one_line_times {S} (row : hrow hinfo S) (D : list (Q * option Q)) :
    Forall (fun p => exists t, apply_segments [row] (fst p) = Some t) D ->
    timed [row] D = map (fun p => (Some (apply_fit (fst p) (line row)), snd p)) D.
  Proof.
    intros A. unfold timed. apply map_ext_in. intros p I. f_equal. rewrite Forall_forall in A. destruct (A p I) as (t & E).
    rewrite E. cbn in E. unfold apply_row in E. destruct (_ && _); [|discriminate]. now symmetry.
  Qed.

  Lemma join_times e j : join None [e] = Some j -> exists row, jheader j = [row] /\
    timed (jheader j) (jdata j) = map (fun p => (Some (apply_fit (fst p) (line row)), snd p)) (jdata j).
  Proof.
    intros E. destruct (join_one _ _ _ E) as (row & H). exists row. split; [exact H|]. rewrite H. apply one_line_times.
    rewrite <- H. exact (C19_every_sample_timed _ _ _ _ _ _ _ _ _ _ E).
  Qed.
End One.

Lemma single_getopt l : Forall single_known l -> forall fuel, (length (words l) <= fuel)%nat -> getopt single_options fuel (words l) = Some (map pair_of l).
Proof.
  induction 1 as [|g l K _ IH]; intros fuel Hf; [destruct fuel; reflexivity|]. destruct g as [c|c a].
  - change (words (Flag c :: l)) with ([45; c] :: words l) in *. cbn [length] in Hf. destruct fuel as [|fuel]; [lia|]. specialize (IH fuel ltac:(lia)). vm_compute in K.
    repeat (destruct K as [<-|K]; [match goal with |- getopt _ _ ([45; ?c] :: _) = _ =>
      cbn [getopt]; change (do_shorts single_options [c] (words l)) with (Some ([([45; c], @nil Z)], words l)) end; cbv iota beta; rewrite IH; reflexivity|]). destruct K.
  - change (words (Value c a :: l)) with ([45; c] :: a :: words l) in *. cbn [length] in Hf. destruct fuel as [|fuel]; [lia|]. specialize (IH fuel ltac:(lia)). vm_compute in K.
    repeat (destruct K as [<-|K]; [match goal with |- getopt _ _ ([45; ?c] :: _) = _ =>
      cbn [getopt]; change (do_shorts single_options [c] (a :: words l)) with (Some ([([45; c], a)], words l)) end; cbv iota beta; rewrite IH; reflexivity|]). destruct K.
Qed.

Lemma choose_app s l l' : choose_all s (l ++ l') = match choose_all s l with Some s' => choose_all s' l' | None => None end.
Proof. revert s. induction l as [|x l IH]; intros s; [reflexivity|]. cbn [app choose_all]. destruct (choose s x); [apply IH|reflexivity]. Qed.

Lemma choice_follows l : Forall single_known l -> exists s, choose_all (mkchoice [] None false) (map pair_of l) = Some s /\
  follows 105 (fun a => a) [] l (input_file s) /\ follows 111 Some None l (output_file s) /\ (force s = true <-> In (Flag 102) l).
Proof.
  induction l as [|x l IH] using rev_ind; intros K.
  - exists (mkchoice [] None false). split; [reflexivity|]. split; [|split; [|split; [discriminate|intros []]]];
      (split; [intros a (l1 & l2 & E & _); destruct l1; discriminate|reflexivity]).
  - apply Forall_app in K as [K Kx]. apply Forall_inv in Kx. destruct (IH K) as (s & E & F1 & F2 & F3). rewrite map_app, choose_app, E. cbn [map choose_all].
    destruct x as [y|y a]; vm_compute in Kx.
    + destruct Kx as [<-|[]]. exists (mkchoice (input_file s) (output_file s) true). split; [reflexivity|]. cbn [input_file output_file force].
      split; [apply follows_other; [discriminate|assumption]|]. split; [apply follows_other; [discriminate|assumption]|].
      rewrite in_app_iff. cbn. tauto.
    + destruct Kx as [<-|[<-|[]]].
      * exists (mkchoice a (output_file s) (force s)). split; [reflexivity|]. cbn [input_file output_file force]. split; [apply (follows_here 105 (fun a => a))|]. split; [apply follows_other; [discriminate|assumption]|].
        rewrite in_app_iff. cbn. rewrite F3. split; [auto|intros [H|[H|[]]]; [exact H|discriminate]].
      * exists (mkchoice (input_file s) (Some a) (force s)). split; [reflexivity|]. cbn [input_file output_file force].
        split; [apply follows_other; [discriminate|assumption]|]. split; [apply follows_here|].
        rewrite in_app_iff. cbn. rewrite F3. split; [auto|intros [H|[H|[]]]; [exact H|discriminate]].
Qed.

Lemma steady_continuous ts : discontinuous ts = false <-> steady ts.
Proof.
  unfold steady. induction ts as [|x ts IH]; [split; reflexivity || (intros; exact I)|].
  destruct ts as [|y ts]; [split; intros; exact I || reflexivity|].
  change (discontinuous (x :: y :: ts)) with (Qltb (y - x) 0 || Qltb 1000 (y - x) || discontinuous (y :: ts)).
  change (chain (fun x y => 0 <= y - x <= 1000)%Q (x :: y :: ts)) with ((0 <= y - x <= 1000)%Q /\ chain (fun x y => 0 <= y - x <= 1000)%Q (y :: ts)).
  rewrite <- IH, !orb_false_iff, !Qltb_ge. tauto.
Qed.
