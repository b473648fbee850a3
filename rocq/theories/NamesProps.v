(** Properties C23, C24 and C36: names of output files. *)
From Coq Require Import String.
From Coq Require Import ZArith List Bool Lia.
From Verif Require Import Base CalendarSpec CalendarProofs Names NamesSpec NamesProofs.
Import ListNotations.
Open Scope Z_scope.

(** * C23 *)

(** The name chosen has the smallest index that is not in use. *)
Theorem C23_log_name : forall taken pre,
  exists n s, 0 <= n /\ decimal 3 n s /\ make_filename taken pre = Some (pre ++ b "_" ++ s ++ b ".txt") /\
    ~ In (pre ++ b "_" ++ s ++ b ".txt") taken /\
    forall m s', 0 <= m < n -> decimal 3 m s' -> In (pre ++ b "_" ++ s' ++ b ".txt") taken.
Proof.
  intros taken pre. destruct (make_filename_some taken pre) as (p & E). destruct (next_log_some _ _ _ _ _ (Z.le_refl 0) E) as (n & Hn & -> & N & A).
  exists n, (pad 3 n). split; [exact Hn|]. split; [apply pad_decimal; exact Hn|]. split; [exact E|]. split; [exact N|].
  intros m s' Hm D. rewrite (decimal_pad 3 m s' ltac:(lia) ltac:(lia) D). apply A. lia.
Qed.

(** A folder over time: conversions write their log, other programs may add other files. *)
Inductive history (pre : bytes) : list bytes -> list bytes -> Prop :=
| no_more : forall d, history pre d []
| other : forall d p names, (forall n s, decimal 3 n s -> p <> pre ++ b "_" ++ s ++ b ".txt") ->
    history pre (p :: d) names -> history pre d names
| conversion : forall d name names, make_filename d pre = Some name -> history pre (name :: d) names -> history pre d (name :: names).

(** With logs 0 to n-1 in the folder, further conversions write n, n+1, ...: a later log has a higher index. *)
Theorem C23_consecutive : forall pre d names n, 0 <= n -> history pre d names ->
  (forall m s, 0 <= m -> decimal 3 m s -> (In (pre ++ b "_" ++ s ++ b ".txt") d <-> m < n)) ->
  forall i name, nth_error names i = Some name ->
  exists s, decimal 3 (n + Z.of_nat i) s /\ name = pre ++ b "_" ++ s ++ b ".txt".
Proof.
  intros pre d names n Hn H. revert n Hn. induction H as [d|d p names Hp H IH|d name names E H IH]; intros n Hn Hd i nm Hi.
  - destruct i; discriminate.
  - apply (IH n Hn); [|exact Hi]. intros m s Hm D. cbn [In]. rewrite <- (Hd m s Hm D). split; [|auto]. intros [X|X]; [destruct (Hp m s D X)|exact X].
  - destruct (next_log_some _ _ _ _ _ (Z.le_refl 0) E) as (k & Hk & -> & N & A).
    assert (k = n).
    { pose proof (Hd k (pad 3 k) Hk (pad_decimal 3 k Hk)) as X. destruct (Z.lt_trichotomy k n) as [L|[Y|L]]; [|exact Y|].
      - destruct N. apply X. exact L.
      - pose proof (A n ltac:(lia)) as Y. apply (Hd n (pad 3 n) Hn (pad_decimal 3 n Hn)) in Y. lia. }
    subst k. destruct i as [|i].
    + injection Hi as <-. rewrite Z.add_0_r. exists (pad 3 n). split; [apply pad_decimal; exact Hn|reflexivity].
    + cbn [nth_error] in Hi. replace (n + Z.of_nat (S i)) with (n + 1 + Z.of_nat i) by lia. apply (IH (n + 1) ltac:(lia)); [|exact Hi].
      intros m s Hm D. cbn [In]. rewrite (Hd m s Hm D). rewrite (decimal_pad 3 m s ltac:(lia) Hm D). split.
      * intros [X|X]; [|lia]. change (log_name pre n = log_name pre m) in X. apply log_name_inj in X; lia.
      * intros X. destruct (Z.eq_dec m n) as [->|]; [left; reflexivity|right; lia].
Qed.

Example C23_case :
  make_filename [b "gps/014gps_000.txt"; b "gps/014gps_001.txt"; b "gps/014gps_003.txt"; b "gps/015gps_000.txt"] (b "gps/014gps") = Some (b "gps/014gps_002.txt") /\
  history (b "gps/014gps") [b "gps/015gps_000.txt"] [b "gps/014gps_000.txt"; b "gps/014gps_001.txt"; b "gps/014gps_002.txt"].
Proof. split; [vm_compute; reflexivity|]. repeat (apply conversion; [vm_compute; reflexivity|]). apply no_more. Qed.

(** If a log was deleted, the next one takes its index: the highest index is not the most recent. *)
Theorem C23_after_deletion_refuted : exists d, In (b "x/014gps_001.txt") d /\ make_filename d (b "x/014gps") = Some (b "x/014gps_000.txt").
Proof. exists [b "x/014gps_001.txt"]. split; [left; reflexivity|vm_compute; reflexivity]. Qed.

(** After a thousand logs the order of names is not the order of indices. *)
Theorem C23_name_order_refuted : before (log_name (b "x/014gps") 1000) (log_name (b "x/014gps") 999).
Proof. vm_compute. repeat (apply before_later). apply before_here. reflexivity. Qed.
(** Up to then it is. *)
Theorem C23_name_order : forall pre n m s s', 0 <= n < m -> m < 1000 -> decimal 3 n s -> decimal 3 m s' ->
  before (pre ++ b "_" ++ s ++ b ".txt") (pre ++ b "_" ++ s' ++ b ".txt").
Proof.
  intros pre n m s s' H Hm D D'. rewrite (decimal_pad 3 n s ltac:(lia) ltac:(lia) D), (decimal_pad 3 m s' ltac:(lia) ltac:(lia) D').
  do 2 apply before_app. apply before_digits; try (apply pad_digits; lia); [|rewrite !pad_value by lia; lia].
  rewrite !pad_length by (cbn; lia). reflexivity.
Qed.

(** * C24 *)

Lemma calendar_ranges t : exists_in_calendar t ->
  0 <= year t < 10 ^ 4 /\ 0 <= month t < 10 ^ 2 /\ 0 <= day t < 10 ^ 2 /\ 0 <= hour t < 10 ^ 2 /\ 0 <= minute t < 10 ^ 2 /\ 0 <= second t < 10 ^ 2.
Proof.
  intros (Y & (n & M & D) & H & Mi & S). assert (1 <= month t <= 12 /\ n <= 31).
  { destruct M as [y m I|y m I|y L|y L]; cbn [In] in *; lia. }
  cbn. lia.
Qed.

(** Two names agree only if the start second, the id and the format (in lower case) do. *)
Theorem C24_injective : forall t u us us' id id' fmt fmt',
  exists_in_calendar t -> exists_in_calendar u -> ~ In 46 fmt -> ~ In 46 fmt' ->
  converted_name t us id fmt = converted_name u us' id' fmt' -> t = u /\ id = id' /\ lower fmt = lower fmt'.
Proof.
  intros t u us us' id id' fmt fmt' Ht Hu Nf Nf' E.
  apply calendar_ranges in Ht as (T1 & T2 & T3 & T4 & T5 & T6). apply calendar_ranges in Hu as (U1 & U2 & U3 & U4 & U5 & U6).
  unfold converted_name in E.
  assert (Step : forall w n m r r', (0 < w)%nat -> 0 <= n < 10 ^ Z.of_nat w -> 0 <= m < 10 ^ Z.of_nat w -> pad w n ++ r = pad w m ++ r' -> n = m /\ r = r').
  { intros w n m r r' Hw Hn Hm X. apply app_eq_len in X as [X Y]; [|rewrite !pad_length by assumption; reflexivity]. split; [apply (pad_inj w); lia || exact X|exact Y]. }
  apply Step in E as [E1 E]; [|lia|exact T1|exact U1]. apply app_inv_head in E.
  apply Step in E as [E2 E]; [|lia|exact T2|exact U2]. apply app_inv_head in E.
  apply Step in E as [E3 E]; [|lia|exact T3|exact U3]. apply app_inv_head in E.
  apply Step in E as [E4 E]; [|lia|exact T4|exact U4]. apply app_inv_head in E.
  apply Step in E as [E5 E]; [|lia|exact T5|exact U5]. apply app_inv_head in E.
  apply Step in E as [E6 E]; [|lia|exact T6|exact U6]. apply app_inv_head in E.
  split; [destruct t, u; cbn in *; congruence|].
  assert (NL : forall s, ~ In 46 s -> ~ In 46 (lower s)).
  { intros s N X. unfold lower in X. apply in_map_iff in X as (c & Ec & I). destruct ((65 <=? c) && (c <=? 90)) eqn:B; [|subst; tauto].
    apply andb_prop in B as [B1 B2]. apply Z.leb_le in B1, B2. lia. }
  apply NL in Nf, Nf'. revert Nf Nf' E. generalize (lower fmt) (lower fmt'). intros f f' Nf Nf' E. clear -Nf Nf' E.
  assert (F : forall l l' : bytes, id ++ b "." ++ l = id' ++ b "." ++ l' -> ~ In 46 l -> ~ In 46 l' -> id = id' /\ l = l').
  { clear. revert id'. induction id as [|c id IH]; intros [|c' id'] l l' E N N'.
    - injection E as ->. auto.
    - cbn in E. injection E as <- E. exfalso. apply N. rewrite E. apply in_or_app. right. left. reflexivity.
    - cbn in E. injection E as -> E. exfalso. apply N'. rewrite <- E. apply in_or_app. right. left. reflexivity.
    - cbn [app] in E. injection E as -> E. destruct (IH id' l l' E N N') as [-> ->]. auto. }
  exact (F _ _ E Nf Nf').
Qed.

(** Names of one channel sort chronologically. *)
Theorem C24_sorted : forall t u us us' id fmt, exists_in_calendar t -> exists_in_calendar u -> earlier t u ->
  before (converted_name t us id fmt) (converted_name u us' id fmt).
Proof.
  intros t u us us' id fmt Ht Hu H.
  apply calendar_ranges in Ht as (T1 & T2 & T3 & T4 & T5 & T6). apply calendar_ranges in Hu as (U1 & U2 & U3 & U4 & U5 & U6).
  unfold converted_name.
  assert (Lt : forall w n m r r', (0 < w)%nat -> 0 <= n < 10 ^ Z.of_nat w -> 0 <= m < 10 ^ Z.of_nat w -> n < m -> before (pad w n ++ r) (pad w m ++ r')).
  { intros w n m r r' Hw Hn Hm L. apply before_digits; [rewrite !pad_length by assumption; reflexivity|apply pad_digits; lia|apply pad_digits; lia|rewrite !pad_value by lia; exact L]. }
  destruct H as [H|[-> H]]; [apply Lt; (lia || assumption)|]. do 2 apply before_app.
  destruct H as [H|[-> H]]; [apply Lt; (lia || assumption)|]. do 2 apply before_app.
  destruct H as [H|[-> H]]; [apply Lt; (lia || assumption)|]. do 2 apply before_app.
  destruct H as [H|[-> H]]; [apply Lt; (lia || assumption)|]. do 2 apply before_app.
  destruct H as [H|[-> H]]; [apply Lt; (lia || assumption)|]. do 2 apply before_app. apply Lt; (lia || assumption).
Qed.

(** Files of one channel with different (whole) start times have different names; [n] and [k] are POSIX times. *)
Theorem C24_distinct_times : forall t u us us' id fmt n k, stamp t = Some n -> stamp u = Some k -> n <> k -> ~ In 46 fmt ->
  converted_name t us id fmt <> converted_name u us' id fmt.
Proof.
  intros t u us us' id fmt n k St Su D N E.
  assert (t = u) as ->; [|congruence]. apply (C24_injective t u us us' id id fmt fmt); try assumption; apply stamp_defined; eauto.
Qed.

Example C24_case :
  converted_name (mkdt 2021 3 4 5 6 7) 250000 (b ".014..HDF") (b "MSEED") = b "2021-03-04T05_06_07..014..HDF.mseed" /\
  exists_in_calendar (mkdt 2021 3 4 5 6 7) /\ exists_in_calendar (mkdt 2021 3 4 5 6 8) /\ earlier (mkdt 2021 3 4 5 6 7) (mkdt 2021 3 4 5 6 8) /\
  stamp (mkdt 2021 3 4 5 6 7) = Some 1614834367 /\ ~ In 46 (b "MSEED").
Proof.
  split; [vm_compute; reflexivity|].
  assert (D : forall s, 0 <= s <= 59 -> exists_in_calendar (mkdt 2021 3 4 5 6 s)).
  { intros s Hs. split; [cbn; lia|]. split; [exists 31; split; [apply ml_31; cbn; tauto|cbn; lia]|cbn; lia]. }
  split; [apply D; lia|]. split; [apply D; lia|]. split; [cbv [earlier year month day hour minute second]; lia|]. split; [vm_compute; reflexivity|].
  intros H. vm_compute in H. repeat (destruct H as [H|H]; [discriminate|]). exact H.
Qed.

(** Two pieces of a channel that start within the same second get the same name: the second file replaces the
    first. *)
Theorem C24_same_second_refuted : forall t us us' id fmt, converted_name t us id fmt = converted_name t us' id fmt.
Proof. reflexivity. Qed.

(** * C36 *)

(** Making a pattern canonical twice changes nothing more, for any string at all. *)
Theorem C36_idempotent : forall s, fix_file_name_digits (fix_file_name_digits s) = fix_file_name_digits s.
Proof. exact fix_idem. Qed.

(** Names made from a pattern of text and fields have every date and time field padded with zeros. *)
Theorem C36_fields_filled : forall l outs t jd net sta loc fmt,
  Forall good l -> exists_in_calendar t -> 1 <= jd -> Forall2 (filled t jd net sta loc fmt) l outs ->
  renamed (pattern l) t jd net sta loc fmt = Some (concat outs).
Proof.
  intros l outs t jd net sta loc fmt G Ht Hj F. unfold renamed. destruct (fix_pattern l G) as [-> G']. rewrite format_pattern by exact G'.
  clear G G'. apply calendar_ranges in Ht as (T1 & T2 & T3 & T4 & T5 & T6).
  induction F as [|p o l outs H _ IH]; [reflexivity|]. cbn [map fills concat]. rewrite IH.
  assert (E : fill (rename_env t jd net sta loc fmt) (fix_piece p) = Some o); [|rewrite E; reflexivity].
  destruct H as [s|s D|s D|s D|s D|s D|s D|s D| | | | |]; try reflexivity;
    (apply decimal_pad in D; [subst s|lia|lia]); cbv [fill fix_piece expand lookup rename_env]; vm_compute (fix_field _); vm_compute (split_at _ _).
  all: cbv iota beta; repeat (match goal with |- context [eqb_bytes ?x ?y] => let v := eval vm_compute in (eqb_bytes x y) in change (eqb_bytes x y) with v end; cbv iota).
  all: unfold show; match goal with |- context [0 <=? ?n] => destruct (Z.leb_spec 0 n); [|lia] end; reflexivity.
Qed.

(** The whole run uses the same pattern for each file. *)
Theorem C36_every_file : forall p files, renamed_all p files =
  map (fun f => match f with (t, jd, net, sta, loc, fmt) => renamed p t jd net sta loc fmt end) files.
Proof.
  intros p files. assert (K : forall q, fix_file_name_digits q = fix_file_name_digits p -> renamed_all q files =
    map (fun f => match f with (t, jd, net, sta, loc, fmt) => renamed p t jd net sta loc fmt end) files); [|apply K; reflexivity].
  induction files as [|[[[[[t jd] net] sta] loc] fmt] files IH]; intros q E; [reflexivity|]. cbn [renamed_all map]. rewrite E.
  f_equal. apply IH. rewrite fix_idem. reflexivity.
Qed.

(** With the default pattern the new name is the one a conversion with those codes would have given. *)
Theorem C36_default_pattern : forall t us jd net sta loc fmt, exists_in_calendar t -> 1 <= jd -> lower fmt = fmt ->
  renamed default_pattern t jd net sta loc fmt =
  Some (converted_name t us (net ++ b "." ++ sta ++ b "." ++ loc ++ b "." ++ b "HDF") fmt).
Proof.
  intros t us jd net sta loc fmt Ht Hj Hl.
  set (l := [Field (b "year"); Text (b "-"); Field (b "mon"); Text (b "-"); Field (b "day"); Text (b "T"); Field (b "hour"); Text (b "_");
             Field (b "min"); Text (b "_"); Field (b "sec"); Text (b "."); Field (b "net"); Text (b "."); Field (b "sta"); Text (b ".");
             Field (b "loc"); Text (b "."); Field (b "chan"); Text (b "."); Field (b "fmt")]).
  assert (E : default_pattern = pattern l) by (vm_compute; reflexivity). rewrite E.
  pose proof (calendar_ranges t Ht) as (T1 & T2 & T3 & T4 & T5 & T6).
  rewrite (C36_fields_filled l [pad 4 (year t); b "-"; pad 2 (month t); b "-"; pad 2 (day t); b "T"; pad 2 (hour t); b "_"; pad 2 (minute t); b "_";
             pad 2 (second t); b "."; net; b "."; sta; b "."; loc; b "."; b "HDF"; b "."; fmt]).
  - unfold converted_name. rewrite Hl. cbn [concat]. rewrite app_nil_r. f_equal. rewrite <- !app_assoc. reflexivity.
  - unfold l. repeat (apply Forall_cons; [bf|]). apply Forall_nil.
  - exact Ht.
  - exact Hj.
  - unfold l. repeat (apply Forall2_cons; [constructor; apply pad_decimal; lia || (constructor; fail)|]). 
    repeat (apply Forall2_cons; [first [apply fill_text | apply fill_mon, pad_decimal; lia | apply fill_day, pad_decimal; lia | apply fill_hour, pad_decimal; lia
      | apply fill_min, pad_decimal; lia | apply fill_sec, pad_decimal; lia | apply fill_net | apply fill_sta | apply fill_loc | apply fill_chan | apply fill_fmt]|]).
    apply Forall2_nil.
Qed.

Example C36_case :
  fix_file_name_digits (b "{{mon}}_{mon{day}_{hour:02d}") = b "{{mon:02d}}_{mon{day:02d}_{hour:02d}" /\
  renamed (b "{year}.{jd}/{sta}_{hour}{min}") (mkdt 2021 3 4 5 6 7) 63 (b "XX") (b "GEM1") (b "00") (b "mseed") = Some (b "2021.063/GEM1_0506") /\
  renamed default_pattern (mkdt 2021 3 4 5 6 7) 63 (b "XX") (b "GEM1") (b "") (b "mseed") = Some (b "2021-03-04T05_06_07.XX.GEM1..HDF.mseed").
Proof. vm_compute. repeat split; reflexivity. Qed.

Print Assumptions C23_log_name.
Print Assumptions C23_consecutive.
Print Assumptions C23_name_order.
Print Assumptions C24_injective.
Print Assumptions C24_sorted.
Print Assumptions C24_distinct_times.
Print Assumptions C36_idempotent.
Print Assumptions C36_fields_filled.
Print Assumptions C36_every_file.
Print Assumptions C36_default_pattern.
