(** Property C51: the fast reader and the reference reader of the source agree. *)
From Coq Require Import String.
From Coq Require Import ZArith QArith Qround List Bool Lia.
From Verif Require Import Lib Base Scan Parser ParserSpec ScanProofs ParserProps UnwrapSpec Process ProcessSpec Reference ReferenceSpec ReferenceProofs.
Import ListNotations.
Open Scope Z_scope.

(** C51.  For every file of complete lines of the formats before 1.10, with clock values in one rollover and no jump of
    exactly half a rollover, that fits the arrays of the reference and has samples and metadata: whatever the fallback
    readers do, [_read_single] returns tables only if the reference does, and they are the same ([same_tables]);
    [_read_single] refuses the file only if GPS data are required and the reference either refuses it too or has no fix
    with a date that exists. *)
Theorem C51_readers_agree :
  forall sc pf, reads_decimal sc -> reads_float pf ->
  forall buf0 ear pandas pandas08 rs rlast offset req version,
  let all := rs ++ [rlast] in
  Forall plain_record all -> Forall (fun r => ok_line (record_text r)) all ->
  Forall (in_period 8192) (clocks all) -> chain (fun x y => ~ y - x == 4096)%Q (clocks all) ->
  count is_D all <= 750000 -> count is_M all <= 15000 -> count is_G all <= 15000 ->
  existsb is_D all = true -> existsb is_M all = true ->
  difference_coded version ->
  let content := file (map record_text rs) (record_text rlast) in
  let fast := read_single sc buf0 ear pandas pandas08 (Some content) version offset req in
  let ref := read_reference pf (Some content) offset req in
  (forall tab, fast = inl tab -> exists T, ref = inl T /\ same_tables offset tab T) /\
  (forall e, fast = inr e -> req = true /\
     (ref = inr NoGPS \/ exists T, ref = inl T /\ rgps T <> [] /\ dated (rgps T) = [])).
Proof.
  intros sc pf Hsc Hpf buf0 ear pandas pandas08 rs rlast offset req version all P O Per Tie CD CM CG ED EM V content fast ref.
  exact (readers_agree sc pf Hsc Hpf buf0 ear pandas pandas08 rs rlast P O Per Tie CD CM CG ED EM offset req version V).
Qed.

(** Decimal literals are read by a reader of decimal numbers. *)
Lemma dec_float_field (f : bytes) v w : dec_scan_lf (f ++ []) = Some (v, []) -> (v == w)%Q -> exists u, dec_float f = Some u /\ (u == w)%Q.
Proof. rewrite app_nil_r. intros E H. unfold dec_float. rewrite E. exists v. auto. Qed.

Theorem C51_decimal_float : reads_float dec_float.
Proof.
  split.
  - intros i Hi.
    assert (Hd : dec_ok {| dneg := ineg i; dint := idig i; dfrac := None |}).
    { destruct Hi as (A & B & _). split; [exact A|]. split; [exact B|]. constructor. }
    destruct (dec_scan_lf_ok _ [] Hd (or_introl eq_refl)) as (v & E & H).
    unfold dec_text in E. cbn [dneg dint dfrac] in E. rewrite app_nil_r in E.
    assert (T : (dec_value {| dneg := ineg i; dint := idig i; dfrac := None |} == inject_Z (int_value i))%Q).
    { unfold dec_value, int_value, frac_digits. cbn [dneg dint dfrac length]. change (pos_value []) with 0.
      change (10 ^ Z.of_nat 0) with 1. rewrite inject_Z_mult. change (inject_Z 0 / inject_Z 1)%Q with 0%Q. ring. }
    apply (dec_float_field _ v); [|now rewrite H]. unfold int_text. now rewrite <- app_assoc.
  - intros d Hd. destruct (dec_scan_lf_ok d [] Hd (or_introl eq_refl)) as (v & E & H). now apply (dec_float_field _ v).
Qed.

Definition ex51_dec (neg : bool) i f : declit := {| dneg := neg; dint := i; dfrac := f |}.
Definition ex51_int (neg : bool) i : intlit := {| ineg := neg; idig := i |}.
Definition ex51_fix (day : list Z) (t : bytes) : record :=
  Full_G [FDec (ex51_dec false [8;1;9;1] (Some [2;5])); FDec (ex51_dec false [3] (Some [5])); FInt (ex51_int false [2;0;2;1]);
          FInt (ex51_int false [2]); FInt (ex51_int false day); FInt (ex51_int false [2;3]); FInt (ex51_int false [5;9]);
          FDec (ex51_dec false [5;8] None); FDec (ex51_dec false [4;3] (Some [5])); FDec (ex51_dec true [1;1;6] (Some [2;5]))] t.
Definition ex51_meta : record :=
  Full_M (FDec (ex51_dec false [8] None) :: map (fun i => FDec (ex51_dec false [i] (Some [5]))) [3; 2; 1; 0]
          ++ map (fun i => FInt (ex51_int false [i])) [1; 2; 3; 4; 5; 6; 7]) [].
Definition ex51_records : list record :=
  [Other (b "#GemCSV0.9"); Other (b "S,012"); Other [];
   Full_D (ex51_dec false [8;1;9;0] None) (ex51_int true [4;2]) [13];
   ex51_fix [2;8] []; ex51_fix [2;9] [13]; ex51_meta;
   Full_D (ex51_dec false [8] None) (ex51_int false [7]) []].

Example C51_case_hypotheses :
  let all := ex51_records ++ [Other []] in
  Forall plain_record all /\ Forall (fun r => ok_line (record_text r)) all /\
  Forall (in_period 8192) (clocks all) /\ chain (fun x y => ~ y - x == 4096)%Q (clocks all) /\
  count is_D all = 2 /\ count is_M all = 1 /\ count is_G all = 2 /\
  nth 3 (map record_text all) [] = b "D8190,-42" ++ [13] /\
  nth 4 (map record_text all) [] = b "G,8191.25,3.5,2021,2,28,23,59,58,43.5,-116.25".
Proof.
  cbv zeta. split; [|split; [|split; [|split; [|repeat split]]]].
  - unfold ex51_records, ex51_fix, ex51_meta. repeat apply Forall_cons; try apply Forall_nil; cbn [plain_record map app];
      repeat match goal with
      | |- _ /\ _ => split
      | |- plain_end [] => left; reflexivity
      | |- plain_end [13] => right; reflexivity
      | |- Forall2 _ _ _ => constructor
      | |- field_ok _ _ => simpl
      | |- dec_ok _ => unfold dec_ok; simpl
      | |- int_ok _ => unfold int_ok, int_value; simpl
      | |- all_digits _ => repeat constructor
      | |- Forall _ _ => repeat constructor
      | |- line_kind _ = None => reflexivity
      | |- _ <> [] => discriminate
      | |- ~ In _ _ => let H := fresh in intros H; repeat (destruct H as [H|H]; [discriminate|]); exact H
      | _ => simpl; lia
      end.
  - repeat constructor; simpl; try lia; intros H; repeat (destruct H as [H|H]; [discriminate|]); exact H.
  - repeat constructor; vm_compute; congruence.
  - vm_compute. repeat split; discriminate.
Qed.

Example C51_case : exists tab T,
  let content := file (map record_text ex51_records) [] in
  read_single dec_scanner [] true (fun _ => inr CorruptRaw) (fun _ => inr CorruptRaw) (Some content) "0.9" 20000 true = inl tab /\
  read_reference dec_float (Some content) 20000 true = inl T /\
  length (data tab) = 2%nat /\ map snd (rdata T) = [-(42); -(35)]%Q /\ length (metadata tab) = 1%nat /\
  length (gps tab) = 1%nat /\ length (rgps T) = 2%nat /\
  Forall2 Qeq (map fst (rdata T)) [-(2); 8]%Q /\ Forall2 Qeq (map fst (data tab)) [16382 + (893 # 100); 16392 + (893 # 100)]%Q.
Proof.
  eexists _, _. cbv zeta. split; [vm_compute; reflexivity|]. split; [vm_compute; reflexivity|].
  repeat split; repeat constructor.
Qed.

(** What the conditions exclude.  Without metadata lines the reference still reads a file that [_read_single] gives to
    its fallback reader ... *)
Theorem C51_no_metadata_refuted : exists content T,
  read_reference dec_float (Some content) 0 false = inl T /\
  read_single dec_scanner [] true (fun _ => inr CorruptRaw) (fun _ => inr CorruptRaw) (Some content) "0.9" 0 false = inr CorruptRaw.
Proof. exists (file [b "D10,1"; b "D20,2"] []). eexists. split; vm_compute; reflexivity. Qed.

(** ... in a sample line with one number, that number is also the time for the reference, and the fast reader takes the
    sample to be 10 ms after the previous one ... *)
Theorem C51_short_line_refuted : exists content T tab,
  read_reference dec_float (Some content) 0 false = inl T /\ rdata T = [(20, 1); (500, 501)]%Q /\
  read_single dec_scanner [] true (fun _ => inr CorruptRaw) (fun _ => inr CorruptRaw) (Some content) "0.9" 0 false = inl tab /\
  map snd (data tab) = [Some 1; Some 501]%Q /\ Forall2 Qeq (map fst (data tab)) [20 + (893 # 100); 30 + (893 # 100)]%Q.
Proof.
  exists (file [b "D20,1"; b "D500"; b "M,8,3.3,20.5,0,0,1,2,3,4,5,6,7"] []). eexists _, _.
  split; [vm_compute; reflexivity|]. split; [vm_compute; reflexivity|]. split; [vm_compute; reflexivity|].
  split; [reflexivity|]. repeat constructor.
Qed.

(** ... and the reference does not see the compact lines of format 1.10. *)
Theorem C51_compact_refuted : exists content tab,
  read_reference dec_float (Some content) 0 false = inr EmptyRawFile /\
  read_single dec_scanner [] true (fun _ => inr CorruptRaw) (fun _ => inr CorruptRaw) (Some content) "1.10" 0 false = inl tab.
Proof. exists (file [b "mn"; b "mp"; b "M,8,3.3,20.5,0,0,1,2,3,4,5,6,7"] []). eexists. split; vm_compute; reflexivity. Qed.

Print Assumptions C51_readers_agree.
Print Assumptions C51_decimal_float.
Print Assumptions C51_no_metadata_refuted.
Print Assumptions C51_short_line_refuted.
Print Assumptions C51_compact_refuted.
