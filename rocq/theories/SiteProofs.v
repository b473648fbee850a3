(** Proofs for C73: the summary of a logger that stays where it is. *)
From Coq Require Import String.
From Coq Require Import ZArith QArith Qabs List Bool Lia Lqa Permutation.
From Verif Require Import Lib Base Scan ParserSpec Convert110 Convert110Proofs Names NamesSpec NamesProofs NamesProps UnwrapSpec Select SelectProofs
  Outliers OutliersSpec OutliersProofs Stations StationsSpec StationsProofs StationsProps
  Inventory InventorySpec InventoryProofs InventoryProps CardSpec Gps GpsSpec GpsProofs GpsProps Breaks Site SiteSpec.
Import ListNotations.
Open Scope Z_scope.

Local Arguments b : simpl never.

(** * Averages and medians of narrow lists *)
Lemma mean_within lo hi l : l <> [] -> Forall (between lo hi) l -> between lo hi (mean l).
Proof.
  intros N F. assert (C : (0 < count l)%Q).
  { unfold count. change 0%Q with (inject_Z 0). rewrite <- Zlt_Qlt. destruct l; [contradiction|]. cbn [length]. lia. }
  assert (S : (lo * count l <= sumQ l /\ sumQ l <= hi * count l)%Q).
  { clear C N. induction F as [|x l [A B] F [I J]]; [change (count []) with 0%Q; cbn [sumQ]; split; lra|].
    assert (E : (count (x :: l) == 1 + count l)%Q).
    { unfold count. cbn [length]. rewrite Nat2Z.inj_succ, <- Z.add_1_l, inject_Z_plus. reflexivity. }
    cbn [sumQ]. rewrite E. split; lra. }
  unfold between, mean. split; [apply Qle_shift_div_l|apply Qle_shift_div_r]; tauto.
Qed.
Lemma median_within lo hi l : l <> [] -> Forall (between lo hi) l -> between lo hi (median l).
Proof.
  intros N F. destruct (median_is l N) as (s & a & c & s' & P & _ & _ & H). rewrite Forall_forall in F.
  assert (G : forall x, In x (s ++ a ++ s') -> between lo hi x) by (intros x X; apply F, (Permutation_in _ (Permutation_sym P)), X).
  unfold between in *. destruct H as [(-> & E)|(c' & -> & E)].
  - specialize (G c ltac:(apply in_or_app; right; left; reflexivity)). rewrite E. exact G.
  - pose proof (G c ltac:(apply in_or_app; right; left; reflexivity)). pose proof (G c' ltac:(apply in_or_app; right; right; left; reflexivity)). lra.
Qed.
Lemma close_within lo hi l x : narrow lo hi -> Forall (between lo hi) l -> In x l -> close 5 l x = true.
Proof.
  intros [Le W] F I. unfold close. apply orb_true_intro. left. assert (N : l <> []) by (intros ->; destruct I).
  pose proof (median_within lo hi l N F) as [M1 M2]. rewrite Forall_forall in F. destruct (F x I) as [X1 X2].
  assert (A : (Qabs (x - median l) < 5 # 100000)%Q) by (apply Qabs_Qlt_condition; split; lra).
  unfold Qltb. apply negb_true_iff. destruct (Qle_bool 0 (Qabs (x - median l) / 5 - (1 # 100000))) eqn:E; [|reflexivity].
  apply Qle_bool_iff in E. exfalso. assert (X : (Qabs (x - median l) / 5 < 1 # 100000)%Q) by (apply Qlt_shift_div_r; lra). lra.
Qed.
Lemma filter_true {A} (p : A -> bool) l : (forall x, In x l -> p x = true) -> filter p l = l.
Proof. induction l as [|x l IH]; intros H; [reflexivity|]. cbn [filter]. rewrite (H x (or_introl eq_refl)), IH; [reflexivity|]. intros; apply H; right; assumption. Qed.
Lemma rows_kept la0 la1 lo0 lo1 fuel all : narrow la0 la1 -> narrow lo0 lo1 ->
  Forall (fun f => between la0 la1 (f_lat f) /\ between lo0 lo1 (f_lon f)) all -> remove_rows fuel all = all.
Proof.
  intros N1 N2 F. assert (P : pass_rows all = all).
  { unfold pass_rows. apply filter_true. intros f I. apply andb_true_intro. split.
    - apply (close_within la0 la1); [exact N1| |apply in_map, I]. apply Forall_map. eapply Forall_impl; [|exact F]. cbn. tauto.
    - apply (close_within lo0 lo1); [exact N2| |apply in_map, I]. apply Forall_map. eapply Forall_impl; [|exact F]. cbn. tauto. }
  destruct fuel; cbn [remove_rows]; rewrite P, Nat.ltb_irrefl; reflexivity.
Qed.

(** * Serial numbers and names of logs *)
Lemma serial_shape sn : serial_number sn -> exists x y z, sn = [48 + x; 48 + y; 48 + z] /\ 0 <= x <= 9 /\ 0 <= y <= 9 /\ 0 <= z <= 9.
Proof.
  intros (x & y & z & -> & F & _). inversion F as [|? ? X F1]; subst. inversion F1 as [|? ? Y F2]; subst. inversion F2 as [|? ? Z' _]; subst.
  exists x, y, z. auto.
Qed.
Lemma serial_int sn : serial_number sn -> exists x y z, sn = [48 + x; 48 + y; 48 + z] /\ 0 <= x <= 9 /\ 0 <= y <= 9 /\ 0 <= z <= 9 /\
  py_int sn = Some (100 * x + 10 * y + z).
Proof.
  intros H. destruct (serial_shape sn H) as (x & y & z & -> & X & Y & Z'). exists x, y, z. split; [reflexivity|]. split; [exact X|]. split; [exact Y|]. split; [exact Z'|].
  assert (D : all_digits [x; y; z]) by (repeat constructor; lia).
  pose proof (py_int_text false [x; y; z] [] ltac:(discriminate) D Logic.I) as P. rewrite app_nil_r in P. cbn [sign_text app digit_text map skip_space] in P.
  etransitivity; [exact P|]. f_equal. cbn [pos_value length]. change (10 ^ Z.of_nat 2) with 100. change (10 ^ Z.of_nat 1) with 10. change (10 ^ Z.of_nat 0) with 1. lia.
Qed.
Lemma serial_int_inj sn sn' : serial_number sn -> serial_number sn' -> py_int sn = py_int sn' -> sn = sn'.
Proof.
  intros H H' E. destruct (serial_int sn H) as (x & y & z & -> & X & Y & Z' & P). destruct (serial_int sn' H') as (x' & y' & z' & -> & X' & Y' & Z'' & P').
  rewrite P, P' in E. assert (G : 100 * x + 10 * y + z = 100 * x' + 10 * y' + z') by congruence. clear - G X Y Z' X' Y' Z''. assert (x = x') by lia. assert (y = y') by lia. assert (z = z') by lia. subst. reflexivity.
Qed.
Lemma log_name_log sn k n : serial_number sn -> log_name sn k n -> log_of sn n.
Proof.
  intros H (s & _ & _ & ->). destruct (serial_shape sn H) as (x & y & z & -> & X & Y & Z'). split; [split|split].
  - eexists. reflexivity.
  - intros a r E. destruct a as [|a1 [|a2 [|a3 a]]]; [exfalso..|cbn [length]; lia].
    + apply (f_equal (fun l => nth 0 l 0)) in E. change (48 + x = 103) in E. lia.
    + apply (f_equal (fun l => nth 1 l 0)) in E. change (48 + y = 103) in E. lia.
    + apply (f_equal (fun l => nth 2 l 0)) in E. change (48 + z = 103) in E. lia.
  - intros (r & E). apply (f_equal (fun l => nth 0 l 0)) in E. change (48 + x = 46) in E. lia.
  - exists (b "_" ++ s ++ b "."). rewrite <- !app_assoc. reflexivity.
Qed.
Lemma log_of_name sn sn' k n : serial_number sn' -> log_name sn' k n -> log_of sn n -> sn = sn'.
Proof.
  intros H L ((( r & E) & Fst) & _). pose proof (log_name_log sn' k n H L) as (((r' & E') & Fst') & _).
  pose proof (Fst sn' r' E') as L1. pose proof (Fst' sn r E) as L2. rewrite E in E'. 
  apply (f_equal (firstn (length sn))) in E'. rewrite firstn_app, firstn_all, Nat.sub_diag, firstn_O, app_nil_r in E'.
  rewrite firstn_app in E'. replace (length sn - length sn')%nat with 0%nat in E' by lia. rewrite firstn_O, app_nil_r in E'. rewrite E'. apply firstn_all2. lia.
Qed.

(** * The summary *)
Lemma summarize_all_in items t1 t2 sns : forall l, summarize_all items t1 t2 sns = Some l ->
  forall s, In s l <-> In (s_sn s) sns /\ summarize_one items t1 t2 (s_sn s) = Some (Some s).
Proof.
  assert (Sn : forall sn s, summarize_one items t1 t2 sn = Some (Some s) -> s_sn s = sn).
  { intros sn s. unfold summarize_one. destruct (read_gps sn items); [|discriminate]. cbv zeta. destruct (minZ _); [|discriminate]. destruct (maxZ _); [|discriminate].
    intros E. injection E as <-. reflexivity. }
  induction sns as [|sn sns IH]; intros l E s; cbn [summarize_all] in E.
  - injection E as <-. cbn. tauto.
  - destruct (summarize_one items t1 t2 sn) as [[s0|]|] eqn:O; [| |discriminate]; (destruct (summarize_all items t1 t2 sns) as [m|] eqn:A; [|discriminate]);
      injection E as <-; specialize (IH m eq_refl s); pose proof (Sn sn) as Sn'.
    + split.
      * intros [<-|I]; [rewrite (Sn' _ O); split; [left; reflexivity|exact O]|]. apply IH in I. split; [right|]; tauto.
      * intros [[<-|I] Q]; [left; congruence|right; apply IH; auto].
    + split; [intros I; apply IH in I; split; [right|]; tauto|]. intros [[<-|I] Q]; [congruence|apply IH; auto].
Qed.
Lemma minZ_earliest l : l <> [] -> exists m, minZ l = Some m /\ In m l /\ Forall (fun t => m <= t) l.
Proof.
  destruct l as [|x l]; [contradiction|]. intros _. cbn [minZ]. exists (fold_left Z.min l x). split; [reflexivity|].
  revert x. induction l as [|y l IH]; intros x; cbn [fold_left]; [split; [left; reflexivity|repeat constructor; lia]|].
  destruct (IH (Z.min x y)) as [I F]. inversion F as [|? ? F1 F2]; subst. split; [|constructor; [lia|constructor; [lia|exact F2]]].
  destruct I as [I|I]; [|right; right; exact I]. rewrite <- I. destruct (Z.min_spec x y) as [[_ ->]|[_ ->]]; [left|right; left]; reflexivity.
Qed.
Lemma maxZ_latest l : l <> [] -> exists m, maxZ l = Some m /\ In m l /\ Forall (fun t => t <= m) l.
Proof.
  destruct l as [|x l]; [contradiction|]. intros _. cbn [maxZ]. exists (fold_left Z.max l x). split; [reflexivity|].
  revert x. induction l as [|y l IH]; intros x; cbn [fold_left]; [split; [left; reflexivity|repeat constructor; lia]|].
  destruct (IH (Z.max x y)) as [I F]. inversion F as [|? ? F1 F2]; subst. split; [|constructor; [lia|constructor; [lia|exact F2]]].
  destruct I as [I|I]; [|right; right; exact I]. rewrite <- I. destruct (Z.max_spec x y) as [[_ ->]|[_ ->]]; [right; left|left]; reflexivity.
Qed.

(** The line of a logger whose log is in a folder of logs. *)
Lemma folder_left sn es fixes homes la0 la1 lo0 lo1 : serial_number sn -> log_folder sn fixes es -> remove_rows (length fixes) fixes = homes -> homes <> [] ->
  Forall (fun f => 0 <= f_t f <= 253402214400 * 1000000000) homes ->
  Forall (fun f => between la0 la1 (f_lat f) /\ between lo0 lo1 (f_lon f)) homes ->
  exists l s, summarize_gps false [Folder es] None None None None = Some l /\ In s l /\ s_sn s = sn /\ (forall s', In s' l -> s_sn s' = sn -> s' = s) /\
    (forall s', In s' l -> serial_number (s_sn s')) /\
    s_count s = length homes /\ between la0 la1 (s_lat s) /\ between lo0 lo1 (s_lon s) /\
    (In (s_start s) (map f_t homes) /\ Forall (fun t => s_start s <= t) (map f_t homes)) /\ latest (map f_t homes) (s_end s).
Proof.
  intros Hsn (ND & Rd & Nm & n & k & Ln & I & Nw) Hr Ne Tm Bx.
  assert (R : read_gps sn [Folder es] = Some fixes).
  { destruct Ln as (s & D & K & E). apply (C44_newest_log sn es k s (n, Some fixes)); [exact I|exact E|exact D|exact K|exact ND| |].
    - intros e' Ie (r & Er). destruct (Nm e' Ie) as (sn' & m & S' & (s' & _ & _ & E')). destruct (serial_shape sn' S') as (x & y & z & -> & X & _).
      unfold bytes in *. rewrite E' in Er. apply (f_equal (fun l => nth 0 l 0)) in Er. change (48 + x = 46) in Er. lia.
    - intros e' Ie (r & Er). left. destruct (Nm e' Ie) as (sn' & m & S' & L'). pose proof L' as (s' & D' & K' & E').
      assert (sn' = sn) as ->.
      { destruct (serial_shape sn' S') as (x & y & z & -> & _). destruct (serial_shape sn Hsn) as (x' & y' & z' & -> & _). unfold bytes in *. rewrite E' in Er.
        apply (f_equal (firstn 3)) in Er. exact Er. }
      exists m, s'. split; [exact D'|]. split; [|exact E']. split; [lia|]. exact (Nw e' m Ie L'). }
  assert (Rb : Forall readable [Folder es]) by (constructor; [exact Rd|constructor]).
  destruct (C44_total false [Folder es] None None None None Rb) as (l & E).
  destruct (minZ_earliest (map f_t homes)) as (a & Ea & A); [destruct homes; [contradiction|discriminate]|].
  destruct (maxZ_latest (map f_t homes)) as (e & Ee & Z'); [destruct homes; [contradiction|discriminate]|].
  set (s := mksum sn (mean (map f_lat homes)) (mean (map f_lon homes)) (se2 (map f_lat homes)) (se2 (map f_lon homes)) a e (length homes)).
  assert (O : summarize_one [Folder es] 0 (253402214400 * 1000000000) sn = Some (Some s)).
  { unfold summarize_one. rewrite R, Hr. cbv zeta. rewrite filter_true, Ea, Ee; [reflexivity|].
    intros f If. rewrite Forall_forall in Tm. specialize (Tm f If). apply andb_true_intro. split; apply Z.leb_le; lia. }
  pose proof (summarize_all_in _ _ _ _ _ E) as M.
  destruct (sn_list_spec false [Folder es] None None) as [_ Sl].
  exists l, s. split; [exact E|]. split; [|split; [reflexivity|split; [|split; [|split; [reflexivity|split; [|split; [|split; [exact A|exact Z']]]]]]]].
  - apply M. split; [|exact O]. apply Sl. split; [discriminate|]. split; [discriminate|]. left. exists es, (n, Some fixes). split; [left; reflexivity|]. split; [exact I|].
    exact (log_name_log sn k n Hsn Ln).
  - intros s' Is Es. apply M in Is as [_ Is]. rewrite Es, O in Is. congruence.
  - intros s' Is. apply M in Is as [Is _]. apply Sl in Is as (_ & _ & [(es' & e' & [Q|[]] & Ie & L)|(Q & _)]); [|discriminate]. injection Q as <-.
    destruct (Nm e' Ie) as (sn' & m & S' & L'). rewrite (log_of_name _ sn' m (fst e') S' L' L). exact S'.
  - apply mean_within; [destruct homes; [contradiction|discriminate]|]. apply Forall_map. eapply Forall_impl; [|exact Bx]. cbn. tauto.
  - apply mean_within; [destruct homes; [contradiction|discriminate]|]. apply Forall_map. eapply Forall_impl; [|exact Bx]. cbn. tauto.
Qed.

Lemma folder_summary sn es fixes la0 la1 lo0 lo1 : serial_number sn -> log_folder sn fixes es -> fixes <> [] ->
  Forall (fun f => 0 <= f_t f <= 253402214400 * 1000000000) fixes -> narrow la0 la1 -> narrow lo0 lo1 ->
  Forall (fun f => between la0 la1 (f_lat f) /\ between lo0 lo1 (f_lon f)) fixes ->
  exists l s, summarize_gps false [Folder es] None None None None = Some l /\ In s l /\ s_sn s = sn /\ (forall s', In s' l -> s_sn s' = sn -> s' = s) /\
    (forall s', In s' l -> serial_number (s_sn s')) /\
    s_count s = length fixes /\ between la0 la1 (s_lat s) /\ between lo0 lo1 (s_lon s) /\
    (In (s_start s) (map f_t fixes) /\ Forall (fun t => s_start s <= t) (map f_t fixes)) /\ latest (map f_t fixes) (s_end s).
Proof.
  intros Hsn L Ne Tm N1 N2 Bx. exact (folder_left sn es fixes fixes la0 la1 lo0 lo1 Hsn L (rows_kept la0 la1 lo0 lo1 _ _ N1 N2 Bx) Ne Tm Bx).
Qed.

(** The line of that logger is the first that matches. *)
Lemma line_matches l sn s n st lc : serial_number sn ->
  In s l -> s_sn s = sn -> (forall s', In s' l -> s_sn s' = sn -> s' = s) -> (forall s', In s' l -> serial_number (s_sn s')) ->
  first_with (matches (coords_of l) sn n st lc) (map cline_of l) (cline_of s).
Proof.
  intros Hsn Is Es U Sn.
  assert (M : forall s', In s' l -> (matches (coords_of l) sn n st lc (cline_of s') <-> s' = s)).
  { intros s' I'. cbn [matches coords_of has_codes cline_of c_sn]. split.
    - intros (k & E1 & E2). apply U; [exact I'|]. apply serial_int_inj; [exact (Sn s' I')|exact Hsn|congruence].
    - intros ->. rewrite Es. destruct (serial_int sn Hsn) as (x & y & z & _ & _ & _ & _ & E). rewrite E. eauto. }
  assert (X : forall m, incl m l -> In s m -> first_with (matches (coords_of l) sn n st lc) (map cline_of m) (cline_of s)).
  { induction m as [|s' m IH]; intros Hm J; [destruct J|]. cbn [map].
    assert (Dec : matches (coords_of l) sn n st lc (cline_of s') \/ ~ matches (coords_of l) sn n st lc (cline_of s')).
    { cbn [matches coords_of has_codes cline_of c_sn]. destruct (py_int (s_sn s')) as [k1|]; [|right; intros (k & A & _); discriminate].
      destruct (py_int sn) as [k2|]; [|right; intros (k & _ & A); discriminate]. destruct (Z.eq_dec k1 k2) as [->|D]; [left; eauto|right; intros (k & A & B); congruence]. }
    destruct Dec as [D|D].
    - rewrite (proj1 (M s' (Hm s' (or_introl eq_refl))) D) in D |- *. apply fw_here. exact D.
    - apply fw_next; [exact D|]. apply IH; [intros q Q; apply Hm; right; exact Q|]. destruct J as [->|J]; [|exact J]. destruct D. apply M; [exact Is|reflexivity]. }
  apply X; [apply incl_refl|exact Is].
Qed.
Lemma folder_tables l rows : (forall s', In s' l -> serial_number (s_sn s')) -> Forall (fun r => py_int (r_sn r) <> None) rows -> good_tables (coords_of l) rows.
Proof.
  intros Sn Ri. split; [reflexivity|]. split; [right; reflexivity|]. intros _. split; [|exact Ri]. cbn [coords_of lines]. apply Forall_map, Forall_forall. intros x Ix. cbn [cline_of c_sn].
  destruct (serial_int _ (Sn x Ix)) as (? & ? & ? & _ & _ & _ & _ & ->). discriminate.
Qed.
Lemma first_row n st lc : forall rows, (exists r, In r rows /\ with_codes n st lc r) -> exists r, In r rows /\ first_with (with_codes n st lc) rows r.
Proof.
  induction rows as [|r rows IH]; intros (r0 & I & W); [destruct I|].
  assert (Dec : forall x y : bytes, x = y \/ x <> y) by (intros x y; destruct (list_eq_dec Z.eq_dec x y); auto).
  assert (D : with_codes n st lc r \/ ~ with_codes n st lc r).
  { unfold with_codes. destruct (Dec (r_net r) n); [|right; tauto]. destruct (Dec (r_sta r) st); [|right; tauto]. destruct (Dec (r_loc r) lc); [left; auto|right; tauto]. }
  destruct D as [D|D]; [exists r; split; [left; reflexivity|apply fw_here; exact D]|].
  destruct I as [->|I]; [contradiction|]. destruct (IH (ex_intro _ r0 (conj I W))) as (r1 & I1 & F). exists r1. split; [right; exact I1|apply fw_next; assumption].
Qed.
Lemma folder_made {R} (response : R) l rows sn s : serial_number sn ->
  In s l -> s_sn s = sn -> (forall s', In s' l -> s_sn s' = sn -> s' = s) -> (forall s', In s' l -> serial_number (s_sn s')) ->
  Forall (fun r => r_sn r = sn) rows -> exists inv, make_inventory response (coords_of l) rows = Some inv.
Proof.
  intros Hsn Is Es U Sn Rs. assert (Ri : Forall (fun r => py_int (r_sn r) <> None) rows).
  { eapply Forall_impl; [|exact Rs]. cbn beta. intros r ->. destruct (serial_int sn Hsn) as (? & ? & ? & _ & _ & _ & _ & ->). discriminate. }
  apply (proj1 (C35_made_iff R response (coords_of l) rows (folder_tables l rows Sn Ri))).
  intros r Hr. exists (r_sta r), (r_loc r). destruct (first_row (r_net r) (r_sta r) (r_loc r) rows) as (r1 & I1 & F); [exists r; repeat split; exact Hr|].
  exists r1, (cline_of s). split; [exact F|]. rewrite Forall_forall in Rs. rewrite (Rs r1 I1). exact (line_matches l sn s _ _ _ Hsn Is Es U Sn).
Qed.

(** The channels of that logger in the inventory. *)
Lemma folder_inventory {R} (response : R) l rows inv sn s : serial_number sn ->
  In s l -> s_sn s = sn -> (forall s', In s' l -> s_sn s' = sn -> s' = s) -> (forall s', In s' l -> serial_number (s_sn s')) ->
  Forall (fun r => py_int (r_sn r) <> None) rows -> make_inventory response (coords_of l) rows = Some inv ->
  forall n st lc r, first_with (with_codes n st lc) rows r -> r_sn r = sn ->
  exists ch, In (n, st, ch) (entries inv) /\ ch_loc ch = lc /\ ch_sn ch = sn /\ ch_lat ch = s_lat s /\ ch_lon ch = s_lon s /\
    ch_start ch = s_start s - hour_ns /\ ch_end ch = s_end s + hour_ns.
Proof.
  intros Hsn Is Es U Sn Ri Mk n st lc r Fw Er.
  pose proof (folder_tables l rows Sn Ri) as G.
  destruct (C35_channels R response (coords_of l) rows inv G Mk) as (_ & Lo & Ch).
  pose proof (line_matches l sn s n st lc Hsn Is Es U Sn) as F.
  assert (Lc : located (coords_of l) rows n st lc) by (exists r, (cline_of s); split; [exact Fw|rewrite Er; exact F]).
  apply Lo in Lc as (ch & Ie & El). exists ch. split; [exact Ie|]. split; [exact El|].
  destruct (Ch n st ch Ie) as (r' & x & [F1 F2] & Q1 & Q2 & Q3 & _ & _ & Q4 & _). rewrite El in F1, F2.
  assert (Ur : r' = r).
  { clear - F1 Fw. revert F1. induction Fw as [r l P|y l r N Fw IH]; intros F1; inversion F1; subst; try contradiction; auto. }
  subst r'. rewrite Er in F2.
  assert (Ux : x = cline_of s).
  { clear - F F2. cbn [lines coords_of] in F2. revert F2. induction F as [x0 l0 P|y l0 x0 N Fw IH]; intros F1; inversion F1; subst; try contradiction; auto. }
  subst x. destruct (Q4 eq_refl) as [Q5 Q6]. cbn [cline_of c_lat c_lon c_start c_end] in *. repeat split; congruence.
Qed.
