(** A concrete case of property C62: two recordings that continue one another, and fits that find lines and cubics. *)
From Coq Require Import String.
From Coq Require Import ZArith QArith Qabs Qround List Bool Lia Lqa.
From Verif Require Import Base Lib UnwrapSpec UnwrapProofs Scan ScanProofs Parser ParserSpec ParserProps Process ProcessSpec ProcessProofs ReadSeveral ReadSeveralSpec ReadSeveralProofs Drift DriftSpec DriftProofs DriftProps
  Segments SegmentsSpec SegmentsProofs Interp InterpSpec InterpProofs InterpProps Stream StreamSpec Select SelectSpec SelectProofs Names NamesProofs Breaks Block BlockSpec BlockProofs BlockProps
  Convert ConvertSpec RecordingSpec RecordingProofs RecordingTotal RecordingProps RecordingWhole Polyfit PolyfitProps.
Import ListNotations.
Open Scope Q_scope.

(** Two files of one logger: 22 s with a sample every 20 ms and a GPS fix every second, the second file beginning where
    the first ends.  The counter shows milliseconds since 2021-01-01 00:00:00, delayed like the samples by 8.93 ms. *)
Definition rc_sample (n : Z) : RecordingSpec.event := Sample (inject_Z (20 * n)) (n mod 7 - 3).
Definition rc_fix (j : Z) : RecordingSpec.event := Fix (inject_Z (1000 * j) + (893 # 100)) (1609459200 + j).
Definition rc_range (a : Z) (n : nat) : list Z := map (fun i => a + Z.of_nat i)%Z (seq 0 n).
Definition rc_events (h : Z) : list RecordingSpec.event :=
  Health (inject_Z (11000 * h)) ::
  flat_map (fun j => rc_sample (50 * j) :: rc_fix j :: map rc_sample (rc_range (50 * j + 1) 49)) (rc_range (11 * h) 11).

Definition lit (z : Z) : intlit := {| ineg := (z <? 0)%Z; idig := map (fun c => c - 48)%Z (str_Z (Z.abs z)) |}.
Definition dlit (z : Z) (f : option (list Z)) : declit := {| dneg := false; dint := map (fun c => c - 48)%Z (str_Z z); dfrac := f |}.
Definition rc_G (j : Z) : record :=
  Full_G [FDec (dlit ((1000 * j + 8) mod 8192) (Some [9; 3]%Z)); FDec (dlit 0 None); FInt (lit 2021); FInt (lit 1); FInt (lit 1); FInt (lit 0); FInt (lit 0);
          FDec (dlit j None); FDec (dlit 43 (Some [5%Z])); FDec (dlit 116 None)] [].
Definition rc_M (h : Z) : record :=
  Full_M [FDec (dlit (11000 * h mod 8192) None); FDec (dlit 3 (Some [3%Z])); FDec (dlit 20 (Some [5%Z])); FDec (dlit 0 None); FDec (dlit 0 None);
          FInt (lit 1); FInt (lit 2); FInt (lit 3); FInt (lit 4); FInt (lit 5); FInt (lit 6); FInt (lit 7)] [].
Definition rc_letters (n : Z) : record := Compact2 10 (n mod 7 - 3) [].
Definition rc_D (n : Z) : record := Full_D (dlit (20 * n mod 8192) None) (lit (n mod 7 - 3)) [].
Definition rc_records (h : Z) : list record :=
  rc_M h ::
  flat_map (fun j => (if (j =? 11 * h)%Z then rc_D (50 * j) else rc_letters (50 * j)) :: rc_G j :: map rc_letters (rc_range (50 * j + 1) 49)) (rc_range (11 * h) 11).

(** Checks of the definitions by computation. *)
Fixpoint chainb {A} (R : A -> A -> bool) (l : list A) : bool :=
  match l with x :: ((y :: _) as t) => R x y && chainb R t | _ => true end.
Lemma chainb_chain {A} (Rb : A -> A -> bool) (R : A -> A -> Prop) l : (forall x y, Rb x y = true -> R x y) -> chainb Rb l = true -> chain R l.
Proof.
  intros H. induction l as [|x l IH]; [intros _; exact I|]. destruct l as [|y l]; [intros _; exact I|]. intros C.
  change (Rb x y && chainb Rb (y :: l) = true) in C. apply andb_true_iff in C as [C1 C2]. split; [exact (H x y C1)|exact (IH C2)].
Qed.
Definition reducedb (x y : Q) : bool := Qle_bool 0 y && Qltb y 8192 && Qeq_bool x (y + inject_Z (8192 * Qfloor ((x - y) / 8192))).
Lemma reducedb_ok x y : reducedb x y = true -> reduced x y.
Proof.
  intros H. apply andb_true_iff in H as [H H3]. apply andb_true_iff in H as [H1 H2]. apply Qle_bool_iff in H1. apply Qltb_lt in H2. apply Qeq_bool_iff in H3.
  split; [exact H1|]. split; [exact H2|]. eexists. exact H3.
Qed.
Definition digitsb (ds : list Z) : bool := forallb (fun d => (0 <=? d) && (d <=? 9))%Z ds.
Lemma digitsb_ok ds : digitsb ds = true -> all_digits ds.
Proof. intros H. apply Forall_forall. intros d Hd. unfold digitsb in H. rewrite forallb_forall in H. specialize (H d Hd). lia. Qed.
Definition int_okb (i : intlit) : bool :=
  match idig i with [] => false | _ => true end && digitsb (idig i) && ((- 2 ^ 31 <=? int_value i) && (int_value i <? 2 ^ 31))%Z.
Lemma int_okb_ok i : int_okb i = true -> int_ok i.
Proof.
  intros H. apply andb_true_iff in H as [H H3]. apply andb_true_iff in H as [H1 H2]. split; [destruct (idig i); discriminate|]. split; [apply digitsb_ok; exact H2|].
  apply andb_true_iff in H3 as [A B]. apply Z.leb_le in A. apply Z.ltb_lt in B. split; assumption.
Qed.
Definition dec_okb (d : declit) : bool := match dint d with [] => false | _ => true end && digitsb (dint d) && digitsb (frac_digits d).
Lemma dec_okb_ok d : dec_okb d = true -> dec_ok d.
Proof.
  intros H. apply andb_true_iff in H as [H H3]. apply andb_true_iff in H as [H1 H2]. split; [destruct (dint d); discriminate|]. split; apply digitsb_ok; assumption.
Qed.
Definition field_okb (c : conv) (f : ParserSpec.field) : bool := match c, f with Cd, FInt i => int_okb i | Clf, FDec d => dec_okb d | _, _ => false end.
Lemma field_okb_ok c f : field_okb c f = true -> field_ok c f.
Proof. destruct c, f; cbn; try discriminate; [apply int_okb_ok|apply dec_okb_ok]. Qed.
Fixpoint forall2b {A B} (R : A -> B -> bool) (l : list A) (m : list B) : bool :=
  match l, m with [], [] => true | x :: l', y :: m' => R x y && forall2b R l' m' | _, _ => false end.
Lemma forall2b_ok {A B} (Rb : A -> B -> bool) (R : A -> B -> Prop) l m : (forall x y, Rb x y = true -> R x y) -> forall2b Rb l m = true -> Forall2 R l m.
Proof.
  intros H. revert m. induction l as [|x l IH]; intros [|y m] C; try discriminate; constructor; apply andb_true_iff in C as [C1 C2]; auto.
Qed.
Definition nilb {A} (l : list A) : bool := match l with [] => true | _ => false end.
Definition record_okb (r : record) : bool :=
  match r with
  | Full_D ms a t => dec_okb ms && int_okb a && nilb t
  | Full_G fs t => forall2b field_okb [Clf; Clf; Cd; Cd; Cd; Cd; Cd; Clf; Clf; Clf] fs && nilb t
  | Full_M fs t => forall2b field_okb [Clf; Clf; Clf; Clf; Clf; Cd; Cd; Cd; Cd; Cd; Cd; Cd] fs && nilb t
  | Compact2 dev diff t => (-12 <=? dev)%Z && (dev <=? 13)%Z && (-12 <=? diff)%Z && (diff <=? 13)%Z
  | _ => false
  end.
Lemma record_okb_ok r : record_okb r = true -> record_ok r.
Proof.
  destruct r as [ms a t|fs t|fs t|dev diff t|diff t|l]; cbn [record_okb record_ok]; try discriminate; intros H.
  - apply andb_true_iff in H as [H H3]. apply andb_true_iff in H as [H1 H2]. split; [apply dec_okb_ok; exact H1|]. split; [apply int_okb_ok; exact H2|]. left. destruct t; [reflexivity|discriminate].
  - apply andb_true_iff in H as [H1 H2]. split; [|left; destruct t; [reflexivity|discriminate]]. revert H1. apply forall2b_ok, field_okb_ok.
  - apply andb_true_iff in H as [H1 H2]. split; [|left; destruct t; [reflexivity|discriminate]]. revert H1. apply forall2b_ok, field_okb_ok.
  - unfold letter. lia.
Qed.
Definition line_okb (l : bytes) : bool := forallb (fun c => negb (c =? 10)%Z) l && (length l <=? 254)%nat.
Lemma line_okb_ok l : line_okb l = true -> ok_line l.
Proof.
  intros H. apply andb_true_iff in H as [H1 H2]. split; [|apply Nat.leb_le; exact H2]. intros Hi. rewrite forallb_forall in H1. specialize (H1 _ Hi). discriminate.
Qed.
Definition says_fixb (fs : list ParserSpec.field) (t : Z) : bool :=
  match fs with
  | [lag; y; mo; d; h; mi; s; la; lo] =>
      let g := mkfix 0 (Some (field_value lag)) (Some (field_value y)) (Some (field_value mo)) (Some (field_value d))
                 (Some (field_value h)) (Some (field_value mi)) (Some (field_value s)) (Some (field_value la)) (Some (field_value lo)) in
      gps_in_bounds g && match make_gps_time g with Some t' => (t' =? t)%Z | None => false end
  | _ => false
  end.
Lemma says_fixb_ok fs t : says_fixb fs t = true -> says_fix fs t.
Proof.
  destruct fs as [|lag [|y [|mo [|d [|h [|mi [|s [|la [|lo [|]]]]]]]]]]; cbn [says_fixb]; try discriminate. intros H. apply andb_true_iff in H as [H1 H2].
  exists lag, y, mo, d, h, mi, s, la, lo. split; [reflexivity|]. apply plausible_iff. split; [exact H1|].
  destruct (make_gps_time _) as [t'|]; [|discriminate]. apply Z.eqb_eq in H2. congruence.
Qed.
Fixpoint writesb (p : option Q) (evs : list RecordingSpec.event) (rs : list record) : bool :=
  match evs, rs with
  | [], [Other _] => true
  | Sample c d :: evs', Full_D ms a _ :: rs' => (d =? int_value a)%Z && reducedb c (dec_value ms) && writesb (Some c) evs' rs'
  | Sample c d :: evs', Compact2 dev diff _ :: rs' =>
      match p with Some p => (d =? diff)%Z && Qeq_bool c (p + 10 + inject_Z dev) | None => false end && writesb (Some c) evs' rs'
  | Fix c t :: evs', Full_G (f :: fs) _ :: rs' => reducedb c (field_value f) && says_fixb fs t && writesb p evs' rs'
  | Health c :: evs', Full_M (f :: fs) _ :: rs' => reducedb c (field_value f) && writesb p evs' rs'
  | _, _ => false
  end.
Lemma writesb_ok evs : forall p rs, writesb p evs rs = true -> writes p evs rs.
Proof.
  induction evs as [|e evs IH]; intros p rs H.
  - destruct rs as [|[] [|]]; try discriminate H. constructor. constructor.
  - destruct e as [c d|c t|c|c]; destruct rs as [|[ms a x|[|f fs] x|[|f fs] x|dev diff x|diff x|l] rs]; cbn [writesb] in H; try discriminate H.
    + apply andb_true_iff in H as [H H3]. apply andb_true_iff in H as [H1 H2]. apply Z.eqb_eq in H1. subst d. constructor; [apply reducedb_ok; exact H2|auto].
    + apply andb_true_iff in H as [H H3]. destruct p as [p|]; [|discriminate]. apply andb_true_iff in H as [H1 H2]. apply Z.eqb_eq in H1. subst d. constructor; [apply Qeq_bool_iff; exact H2|auto].
    + apply andb_true_iff in H as [H H3]. apply andb_true_iff in H as [H1 H2]. constructor; [apply reducedb_ok; exact H1|apply says_fixb_ok; exact H2|auto].
    + apply andb_true_iff in H as [H H3]. constructor; [apply reducedb_ok; exact H|auto].
Qed.

Definition rc_bytes (h : Z) : bytes := file (map record_text (rc_records h)) [].
Lemma rc_written h : h = 0%Z \/ h = 1%Z -> raw_text (rc_events h) (rc_bytes h).
Proof.
  intros Hh. exists (rc_records h), (Other []). split; [reflexivity|].
  assert (A : forallb (fun r => record_okb r && line_okb (record_text r)) (rc_records h) = true) by (destruct Hh as [->| ->]; vm_compute; reflexivity).
  rewrite forallb_forall in A.
  split; [|split; [|split]].
  - apply Forall_app. split; [|repeat constructor]. apply Forall_forall. intros r Hr. apply A in Hr. apply andb_true_iff in Hr as [Hr _]. apply record_okb_ok. exact Hr.
  - apply Forall_app. split; [|constructor; [|constructor]]. { apply Forall_forall. intros r Hr. apply A in Hr. apply andb_true_iff in Hr as [_ Hr]. apply line_okb_ok. exact Hr. }
    apply line_okb_ok. reflexivity.
  - apply writesb_ok. destruct Hh as [->| ->]; vm_compute; reflexivity.
  - destruct Hh as [->| ->]; apply Z.leb_le; vm_compute; reflexivity.
Qed.

Definition rc_clock : cubic := mkcubic ((1609459200 # 1) - (893 # 100000)) (1 # 1000) 0 0.
Definition lastof {A} (l : list A) (d : A) : A := last l d.
Lemma no_others tau evs : exact_fixes tau (fixes_of evs) -> forall before c t after, fixes_of evs = before ++ (c, t) :: after -> ~ inject_Z t == cubic_at tau c ->
  span_half evs (before ++ after).
Proof. intros X before c t after E W. contradiction W. apply X. rewrite E. apply in_elt. Qed.
Lemma rc_exact h : h = 0%Z \/ h = 1%Z -> exact_fixes rc_clock (fixes_of (rc_events h)).
Proof.
  intros Hh. assert (A : forallb (fun p => Qeq_bool (inject_Z (snd p)) (cubic_at rc_clock (fst p))) (fixes_of (rc_events h)) = true) by (destruct Hh as [->| ->]; vm_compute; reflexivity).
  rewrite forallb_forall in A. intros c t Hi. apply A in Hi. apply Qeq_bool_iff in Hi. exact Hi.
Qed.
Lemma rc_true h : h = 0%Z \/ h = 1%Z -> true_clock rc_clock (rc_events h).
Proof.
  intros Hh. constructor.
  - apply (chainb_chain (fun x y => Qltb (-4096) (y - x) && Qltb (y - x) 4096)).
    + intros x y H. apply andb_true_iff in H as [H1 H2]. apply Qltb_lt in H1, H2. split; assumption.
    + destruct Hh as [->| ->]; vm_compute; reflexivity.
  - exists [Health (inject_Z (11000 * h))], (inject_Z (11000 * h)), ((550 * h) mod 7 - 3)%Z, (tl (tl (rc_events h))).
    split; [destruct Hh as [->| ->]; vm_compute; reflexivity|]. split; [reflexivity|]. split; [apply Qle_refl|exact I].
  - eexists. left. reflexivity.
  - apply (chainb_chain Qltb); [intros x y; apply Qltb_lt|]. destruct Hh as [->| ->]; vm_compute; reflexivity.
  - left. exact (rc_exact h Hh).
Qed.

Lemma begins_hd l x : begins l x -> hd 0 l = x.
Proof. destruct l; cbn; [discriminate|]. intros [= ->]. reflexivity. Qed.
Lemma finishes_last l x : finishes l x -> last l 0 = x.
Proof. intros (l' & ->). apply last_last. Qed.

Lemma rc_steady h : h = 0%Z \/ h = 1%Z -> steady rc_clock (rc_events h).
Proof.
  intros Hh. constructor.
  - repeat split; vm_compute; reflexivity || discriminate.
  - destruct Hh as [->| ->]; apply Nat.leb_le; vm_compute; reflexivity.
  - apply (chainb_chain (fun x y => Qltb 0 (y - x) && Qle_bool (y - x) 25)).
    + intros x y H. apply andb_true_iff in H as [H1 H2]. apply Qltb_lt in H1. apply Qle_bool_iff in H2. split; assumption.
    + destruct Hh as [->| ->]; vm_compute; reflexivity.
  - intros a z c t mid c' t' Ba Fz E. apply begins_hd in Ba. apply finishes_last in Fz. subst a z.
    assert (T : snd (hd (0, 0%Z) (fixes_of (rc_events h))) = t) by (rewrite E; reflexivity).
    assert (T' : snd (last (fixes_of (rc_events h)) (0, 0%Z)) = t').
    { rewrite E. change ((c, t) :: mid ++ [(c', t')]) with (((c, t) :: mid) ++ [(c', t')]). rewrite last_last. reflexivity. }
    clear E. subst t t'. apply Qltb_lt. destruct Hh as [->| ->]; vm_compute; reflexivity.
  - exact (no_others _ _ (rc_exact h Hh)).
Qed.

Definition rc_e (n : bytes) : entry := mke n (Some (b "059")) 5000 (Some (b "0.91")).
Definition rc_0 : entry := rc_e (b "FILE0000.059").
Definition rc_1 : entry := rc_e (b "FILE0001.059").
Definition rc_d : list entry := [rc_1; rc_0; rc_e (b "FILE0000.060")].
Definition rc_content (e : entry) : raw_file := mkraw (Some (rc_bytes (num e))) (fun _ => inr CorruptRaw) (fun _ => inr CorruptRaw).
Definition rc_evs (e : entry) : list RecordingSpec.event := rc_events (num e).
Definition rc_tau (_ : entry) : cubic := rc_clock.

Lemma rc_readable g : In g rc_d -> readable (b "059") [0; 1]%Z g -> g = rc_0 \/ g = rc_1.
Proof.
  intros Hi (n & x & (_ & Nm & _) & Hn & _ & D). destruct Hi as [<-|[<-|[<-|[]]]]; [right; reflexivity|left; reflexivity|]. exfalso.
  destruct D as [[-> _]|[-> _]]; destruct Hn as [<-|[<-|[]]]; vm_compute in Nm; discriminate.
Qed.
Lemma rc_files v fl : files_of rc_d (b "059") [0; 1]%Z v fl -> fl = [rc_0; rc_1] /\ v = b "0.91".
Proof.
  intros (before & f & rest & E & A & Nd & Ch & Nv & V).
  assert (X : forall g, In g (before ++ fl) -> g = rc_0 \/ g = rc_1) by (intros g Hg; apply A in Hg as [H1 H2]; exact (rc_readable g H1 H2)).
  assert (R0 : In rc_0 (before ++ fl)).
  { apply A. split; [right; left; reflexivity|]. exists 0%Z, (b "059"). split; [split; [lia|]; split; reflexivity|]. split; [left; reflexivity|]. split; [cbn; lia|]. left. split; [reflexivity|discriminate]. }
  assert (R1 : In rc_1 (before ++ fl)).
  { apply A. split; [left; reflexivity|]. exists 1%Z, (b "059"). split; [split; [lia|]; split; reflexivity|]. split; [right; left; reflexivity|]. split; [cbn; lia|]. left. split; [reflexivity|discriminate]. }
  assert (Z : NoDup (before ++ fl)).
  { apply Nd. unfold rc_d. repeat constructor; cbn; intros K; repeat (destruct K as [K|K]; [vm_compute in K; discriminate|]); exact K. }
  assert (Bn : before = []).
  { destruct before as [|g before]; [reflexivity|]. exfalso. specialize (Nv g (or_introl eq_refl)). destruct (X g (or_introl eq_refl)) as [->| ->]; discriminate Nv. }
  subst before. cbn [app] in *.
  assert (L : fl = [rc_0; rc_1]).
  { destruct fl as [|g [|g' [|g2 l]]]; [destruct R0| | |exfalso].
    - exfalso. destruct R0 as [->|[]], R1 as [R1|[]]. discriminate.
    - inversion Z as [|? ? Z1 Z2]; subst. destruct (X g (or_introl eq_refl)) as [->| ->], (X g' (or_intror (or_introl eq_refl))) as [->| ->]; try reflexivity; try (exfalso; apply Z1; left; reflexivity).
      exfalso. destruct Ch as [C _]. specialize (C 1%Z 0%Z (b "059") (b "059")). lapply C; [intros C1; lapply C1; [lia|]|]; (split; [lia|]; split; reflexivity).
    - inversion Z as [|? ? Z1 Z2]; subst. inversion Z2 as [|? ? Z3 Z4]; subst.
      destruct (X g (or_introl eq_refl)) as [->| ->], (X g' (or_intror (or_introl eq_refl))) as [->| ->], (X g2 (or_intror (or_intror (or_introl eq_refl)))) as [->| ->]; cbn in *; tauto. }
  split; [exact L|]. rewrite L in E. injection E as E _. rewrite <- E in V. injection V as <-. reflexivity.
Qed.

Lemma rc_continues : continues (rc_events 0) (rc_events 1).
Proof.
  intros l a s Fl Ba Bs. apply finishes_last in Fl. apply begins_hd in Ba. apply begins_hd in Bs. subst l a s.
  repeat split; first [apply Qltb_lt; vm_compute; reflexivity|apply Qle_bool_iff; vm_compute; reflexivity].
Qed.
Lemma rc_apart : apart (rc_events 0) (rc_events 1).
Proof.
  intros c c' Fc Bc. apply finishes_last in Fc. apply begins_hd in Bc.
  assert (E1 : c = 10980) by (rewrite <- Fc; vm_compute; reflexivity). assert (E2 : c' = 11000) by (rewrite <- Bc; vm_compute; reflexivity). subst c c'. clear.
  intros (k & K). assert (Y : inject_Z 10980 == inject_Z (11000 + 8192 * k)) by (rewrite inject_Z_plus, inject_Z_mult; exact K).
  unfold Qeq in Y. cbn [Qnum Qden inject_Z] in Y. lia.
Qed.
Lemma rc_continuous : continuous rc_evs rc_tau [rc_0; rc_1].
Proof.
  split; [|split; [|split; [|split; [|split]]]].
  - constructor; [|constructor; [|constructor]]; (split; [|discriminate]); [exact (rc_steady 0 (or_introl eq_refl))|exact (rc_steady 1 (or_intror eq_refl))].
  - split; [exact rc_continues|exact I].
  - apply (chainb_chain Z.ltb); [intros x y; apply Z.ltb_lt|vm_compute; reflexivity].
  - apply Nat.leb_le. vm_compute. reflexivity.
  - apply (chainb_chain (fun x y => Qltb 0 (y - x) && Qle_bool (y - x) (25 # 1000))).
    + intros x y H. apply andb_true_iff in H as [H1 H2]. apply Qltb_lt in H1. apply Qle_bool_iff in H2. split; assumption.
    + vm_compute. reflexivity.
  - intros s e Bs Fe. apply begins_hd in Bs. apply finishes_last in Fe. subst s e. apply Qle_bool_iff. vm_compute. reflexivity.
Qed.
Lemma rc_recordings : recordings rc_content rc_evs rc_tau rc_d (b "059") [0; 1]%Z.
Proof.
  split.
  - intros f Hf R. destruct (rc_readable f Hf R) as [->| ->]; (eexists; split; [reflexivity|]); split;
      [exact (rc_written 0 (or_introl eq_refl))|exact (rc_true 0 (or_introl eq_refl))|exact (rc_written 1 (or_intror eq_refl))|exact (rc_true 1 (or_intror eq_refl))].
  - intros v fl Fo. destruct (rc_files v fl Fo) as [-> ->]. split; [right; right; left; reflexivity|]. split; [exact rc_apart|exact I].
Qed.

(** The hypotheses of the theorems hold of these two files. *)
Example C62_case_hypotheses :
  b "059" <> b "TXT" /\ (exists f, In f rc_d /\ readable (b "059") [0; 1]%Z f /\ e_version f <> None) /\
  (3 <= val_digits (map (fun c => c - 48) (b "059")))%Z /\
  reads_decimal dec_scanner /\ fits_cubics polyfit3 /\ fits_lines polyfit1 /\ spline_contract linear /\
  recordings rc_content rc_evs rc_tau rc_d (b "059") [0; 1]%Z /\
  (forall v fl, files_of rc_d (b "059") [0; 1]%Z v fl -> continuous rc_evs rc_tau fl).
Proof.
  split; [discriminate|]. split.
  { exists rc_0. split; [right; left; reflexivity|]. split; [|discriminate]. exists 0%Z, (b "059"). split; [split; [lia|]; split; reflexivity|]. split; [left; reflexivity|]. split; [cbn; lia|].
    left. split; [reflexivity|discriminate]. }
  split; [vm_compute; discriminate|]. split; [exact dec_scanner_reads|]. split; [exact (proj1 C81_fits)|]. split; [exact (proj2 C81_fits)|]. split; [exact linear_contract|].
  split; [exact rc_recordings|]. intros v fl Fo. destruct (rc_files v fl Fo) as [-> _]. exact rc_continuous.
Qed.

(** What comes out: a value for every hundredth of the 22 s, and the recorded ones at the even hundredths. *)
Example C62_case : exists g,
  read_files dec_scanner [] true polyfit3 polyfit1 linear rc_content (fun _ => 0%Z) 1700000000 true rc_d (b "059") [0; 1]%Z = Gives (inl g) /\ g_problems g = [] /\
  (forall k, (160945920001 <= k <= 160945922195)%Z -> exists x, sample (map to_grid (a_data (g_times g))) k x) /\
  sample (map to_grid (a_data (g_times g))) 160945922100 (3)%Z.
Proof.
  destruct C62_case_hypotheses as (H1 & H2 & H3 & H4 & H5 & H6 & H7 & H8 & H9).
  destruct (C62_continuous dec_scanner [] true polyfit3 polyfit1 linear rc_content (fun _ => 0%Z) 1700000000 rc_evs rc_tau rc_d (b "059") [0; 1]%Z H1 H2 H3 (fun _ _ _ => or_introl eq_refl) H4 H5 H6 H7 H8 H9)
    as (g & v & fl & E & P & Fo & K). destruct (rc_files v fl Fo) as [-> _].
  exists g. split; [exact E|]. split; [exact P|].
  assert (Bs : begins (map fst (record_of rc_evs rc_tau [rc_0; rc_1])) (hd 0 (map fst (record_of rc_evs rc_tau [rc_0; rc_1])))) by (apply hd_begins; intros X; vm_compute in X; discriminate X).
  assert (Fe : finishes (map fst (record_of rc_evs rc_tau [rc_0; rc_1])) (last (map fst (record_of rc_evs rc_tau [rc_0; rc_1])) 0)) by (apply last_finishes; intros X; vm_compute in X; discriminate X).
  specialize (K _ _ Bs Fe).
  assert (S0 : hd 0 (map fst (record_of rc_evs rc_tau [rc_0; rc_1])) == 1609459200) by (apply Qeq_bool_iff; vm_compute; reflexivity).
  assert (E0 : last (map fst (record_of rc_evs rc_tau [rc_0; rc_1])) 0 == 1609459221 + (980 # 1000)) by (apply Qeq_bool_iff; vm_compute; reflexivity).
  assert (R : forall k, (160945920001 <= k <= 160945922195)%Z -> hd 0 (map fst (record_of rc_evs rc_tau [rc_0; rc_1])) + (1 # 200) <= inject_Z k * (1 # 100) <= last (map fst (record_of rc_evs rc_tau [rc_0; rc_1])) 0 - (25 # 1000)).
  { intros k Hk. rewrite S0, E0. assert (X1 : inject_Z 160945920001 <= inject_Z k) by (rewrite <- Zle_Qle; lia). assert (X2 : inject_Z k <= inject_Z 160945922195) by (rewrite <- Zle_Qle; lia).
    change (inject_Z 160945920001) with (160945920001 # 1) in X1. change (inject_Z 160945922195) with (160945922195 # 1) in X2. clear - X1 X2. generalize dependent (inject_Z k). intros q X1 X2. split; lra. }
  split; [intros k Hk; exact (proj1 (K k (R k Hk)))|].
  destruct (K 160945922100%Z (R 160945922100%Z ltac:(lia))) as [(x & Sx) U].
  assert (N : nth_error (record_of rc_evs rc_tau [rc_0; rc_1]) 1050 <> None) by (vm_compute; discriminate).
  destruct (nth_error (record_of rc_evs rc_tau [rc_0; rc_1]) 1050) as [[t y]|] eqn:En; [|contradiction]. clear N.
  assert (Et : option_map (fun p => (Qred (fst p), snd p)) (nth_error (record_of rc_evs rc_tau [rc_0; rc_1]) 1050) = Some (1609459221, (3)%Z)) by (vm_compute; reflexivity).
  rewrite En in Et. cbn [option_map fst snd] in Et. injection Et as Et ->. apply nth_error_In in En.
  assert (x = (3)%Z) as ->; [|exact Sx]. apply (U t (3)%Z); [|exact En| |exact Sx].
  - intros m X. rewrite S0 in X. assert (Y : inject_Z (2 * 160945920000) == inject_Z (2 * m + 1)) by (rewrite inject_Z_plus, !inject_Z_mult; change (inject_Z 160945920000) with (1609459200 * 100); change (inject_Z 2) with 2; change (inject_Z 1) with 1; lra).
    unfold Qeq in Y. cbn [Qnum Qden inject_Z] in Y. lia.
  - rewrite <- (Qred_correct t), Et. vm_compute. reflexivity.
Qed.

(** The same files converted in blocks of one. *)
Definition rc_file (h : Z) : entry := if (h =? 0)%Z then rc_0 else rc_1.
Definition rc_block (bl : list Z) : list entry := map rc_file bl.
Lemma rc_readable1 h g : h = 0%Z \/ h = 1%Z -> (In g rc_d /\ readable (b "059") [h] g <-> g = rc_file h).
Proof.
  intros Hh. split.
  - intros [Hi (n & x & (_ & Nm & _) & [<-|[]] & _ & D)]. destruct Hh as [->| ->]; destruct Hi as [<-|[<-|[<-|[]]]]; try reflexivity; exfalso; destruct D as [[-> _]|[-> _]]; vm_compute in Nm; discriminate.
  - intros ->. split; [destruct Hh as [->| ->]; [right; left; reflexivity|left; reflexivity]|].
    exists h, (b "059"). split; [destruct Hh as [->| ->]; (split; [lia|]; split; reflexivity)|]. split; [left; reflexivity|]. split; [destruct Hh as [->| ->]; cbn; lia|]. left. split; [reflexivity|discriminate].
Qed.
Lemma rc_files1 h v fl : h = 0%Z \/ h = 1%Z -> files_of rc_d (b "059") [h] v fl -> fl = [rc_file h] /\ v = b "0.91".
Proof.
  intros Hh (before & f & rest & E & A & Nd & _ & _ & V).
  assert (X : forall g, In g (before ++ fl) -> g = rc_file h) by (intros g Hg; apply (rc_readable1 h g Hh); apply A; exact Hg).
  assert (Z : NoDup (before ++ fl)).
  { apply Nd. unfold rc_d. repeat constructor; cbn; intros K; repeat (destruct K as [K|K]; [vm_compute in K; discriminate|]); exact K. }
  assert (Y : In f (before ++ fl)) by (rewrite E; apply in_elt).
  assert (L : before ++ fl = [rc_file h]).
  { destruct (before ++ fl) as [|g l] eqn:El; [destruct Y|]. rewrite (X g (or_introl eq_refl)) in *. f_equal.
    destruct l as [|g' l]; [reflexivity|]. exfalso. inversion Z as [|? ? K _]. apply K. rewrite (X g' (or_intror (or_introl eq_refl))). left. reflexivity. }
  assert (Ef : f = rc_file h) by (apply X; exact Y). split.
  - destruct before as [|g before]; [exact L|]. injection L as _ L. apply app_eq_nil in L as [_ L]. rewrite L in E. discriminate.
  - rewrite Ef in V. destruct Hh as [->| ->]; injection V as <-; reflexivity.
Qed.
Lemma rc_continuous1 h : h = 0%Z \/ h = 1%Z -> continuous rc_evs rc_tau [rc_file h].
Proof.
  intros Hh. split; [|split; [|split; [|split; [|split]]]].
  - constructor; [|constructor]. split; [destruct Hh as [->| ->]; [exact (rc_steady 0 (or_introl eq_refl))|exact (rc_steady 1 (or_intror eq_refl))]|destruct Hh as [->| ->]; discriminate].
  - exact I.
  - apply (chainb_chain Z.ltb); [intros x y; apply Z.ltb_lt|]. destruct Hh as [->| ->]; vm_compute; reflexivity.
  - apply Nat.leb_le. destruct Hh as [->| ->]; vm_compute; reflexivity.
  - apply (chainb_chain (fun x y => Qltb 0 (y - x) && Qle_bool (y - x) (25 # 1000))).
    + intros x y H. apply andb_true_iff in H as [H1 H2]. apply Qltb_lt in H1. apply Qle_bool_iff in H2. split; assumption.
    + destruct Hh as [->| ->]; vm_compute; reflexivity.
  - intros s e Bs Fe. apply begins_hd in Bs. apply finishes_last in Fe. subst s e. apply Qle_bool_iff. destruct Hh as [->| ->]; vm_compute; reflexivity.
Qed.
Lemma rc_recorded_block h : h = 0%Z \/ h = 1%Z -> recorded_block rc_content (fun _ => 0%Z) rc_evs rc_tau rc_d (b "059") rc_block [h].
Proof.
  intros Hh. split; [|split; [|split; [|split]]].
  - intros f Hf R. rewrite (proj1 (rc_readable1 h f Hh) (conj Hf R)). split; [destruct Hh as [->| ->]; discriminate|left; reflexivity].
  - intros f. rewrite (rc_readable1 h f Hh). split; [intros [H|[]]; congruence|intros ->; left; reflexivity].
  - intros v fl Fo. exact (proj1 (rc_files1 h v fl Hh Fo)).
  - split.
    + intros f Hf R. rewrite (proj1 (rc_readable1 h f Hh) (conj Hf R)). destruct Hh as [->| ->]; (eexists; split; [reflexivity|]); split;
        [exact (rc_written 0 (or_introl eq_refl))|exact (rc_true 0 (or_introl eq_refl))|exact (rc_written 1 (or_intror eq_refl))|exact (rc_true 1 (or_intror eq_refl))].
    + intros v fl Fo. destruct (rc_files1 h v fl Hh Fo) as [-> ->]. split; [right; right; left; reflexivity|exact I].
  - intros _. exact (rc_continuous1 h Hh).
Qed.
Lemma rc_whole : map fst (flat_map (fun bl => record_of rc_evs rc_tau (rc_block bl)) [[0]; [1]]%Z) = map fst (record_of rc_evs rc_tau [rc_0; rc_1]).
Proof. unfold record_of, rc_block. cbn [flat_map map]. rewrite !app_nil_r. reflexivity. Qed.

(** The hypotheses of [C62_conversion] hold of them. *)
Example C62_case_conversion :
  b "059" <> b "TXT" /\ (3 <= val_digits (map (fun c => c - 48) (b "059")))%Z /\ libraries dec_scanner polyfit3 polyfit1 linear /\
  divided [0; 1]%Z (12 * (1 # 12)) [[0]; [1]]%Z /\ Forall (recorded_block rc_content (fun _ => 0%Z) rc_evs rc_tau rc_d (b "059") rc_block) [[0]; [1]]%Z /\
  chain Qlt (map fst (flat_map (fun bl => record_of rc_evs rc_tau (rc_block bl)) [[0]; [1]]%Z)) /\
  (forall t x, In (t, x) (flat_map (fun bl => record_of rc_evs rc_tau (rc_block bl)) [[0]; [1]]%Z) ->
     1 # 200 <= t /\ t * 100 + day * (1 # 12) + inject_Z 360000 + 200 <= ex_t2) /\
  exists s1 e1, begins (map fst (record_of rc_evs rc_tau (rc_block [0%Z]))) s1 /\ finishes (map fst (record_of rc_evs rc_tau (rc_block [0%Z]))) e1 /\ 11 # 10 <= e1 - s1.
Proof.
  split; [discriminate|]. split; [vm_compute; discriminate|]. split.
  { split; [exact dec_scanner_reads|]. split; [exact (proj1 C81_fits)|]. split; [exact (proj2 C81_fits)|exact linear_contract]. }
  split; [exact ex_divided|]. split.
  { constructor; [exact (rc_recorded_block 0 (or_introl eq_refl))|]. constructor; [exact (rc_recorded_block 1 (or_intror eq_refl))|constructor]. }
  split.
  { rewrite rc_whole. eapply chain_weaken; [|exact (proj1 (proj2 (proj2 (proj2 (proj2 rc_continuous)))))]. intros x y [A _]. lra. }
  split.
  { assert (A : forallb (fun t => Qle_bool (1 # 200) t && Qle_bool (t * 100 + day * (1 # 12) + inject_Z 360000 + 200) ex_t2) (map fst (record_of rc_evs rc_tau [rc_0; rc_1])) = true) by (vm_compute; reflexivity).
    intros t x Hi. apply (in_map fst) in Hi. rewrite rc_whole in Hi. rewrite forallb_forall in A. apply A in Hi. cbn [fst] in Hi. apply andb_true_iff in Hi as [H1 H2]. apply Qle_bool_iff in H1, H2. split; assumption. }
  exists (hd 0 (map fst (record_of rc_evs rc_tau (rc_block [0%Z])))), (last (map fst (record_of rc_evs rc_tau (rc_block [0%Z]))) 0).
  split; [apply hd_begins; intros X; vm_compute in X; discriminate X|]. split; [apply last_finishes; intros X; vm_compute in X; discriminate X|].
  apply Qle_bool_iff. vm_compute. reflexivity.
Qed.

Print Assumptions C62_true_times.
Print Assumptions C62_continuous_read.
Print Assumptions C62_continuous.
Print Assumptions C62_conversion.
