(** C42: the serial numbers that the command hands on are accepted. *)
From Coq Require Import String.
From Coq Require Import ZArith List Bool Lia.
From Verif Require Import Lib Base NamesSpec Select SelectSpec SelectProofs Cli CliSpec CliProofs CliProps.
Import ListNotations.
Open Scope Z_scope.

Definition three_digits (sn : bytes) : Prop := exists x y z, sn = [x; y; z] /\ 48 <= x <= 57 /\ 48 <= y <= 57 /\ 48 <= z <= 57.

Lemma three_is_int sn : three_digits sn -> is_int sn = true.
Proof.
  intros (x & y & z & -> & X & Y & Z).
  assert (D : forall c, 48 <= c <= 57 -> is_digit c = true) by (intros c H; unfold is_digit; apply andb_true_iff; split; apply Z.leb_le; lia).
  assert (B : is_blank x = false).
  { unfold is_blank. apply not_true_iff_false. intros H. rewrite !orb_true_iff, !andb_true_iff, !Z.leb_le, Z.eqb_eq in H. lia. }
  assert (S : (x =? 43) || (x =? 45) = false) by (apply not_true_iff_false; intros H; rewrite orb_true_iff, !Z.eqb_eq in H; lia).
  unfold is_int. cbn [drop_blanks]. rewrite B, S. cbn [int_tail]. rewrite (D x X), (D y Y), (D z Z). reflexivity.
Qed.

(** C42.  [convert] takes the integers of three characters as serial numbers.  If every file of the folder has a name of nine characters
    and a serial number of three digits, as the loggers write them, and so have the serial numbers asked for, no conversion of the plan
    is refused for its serial number. *)
Theorem C42_accepted : (forall sn, accepted sn = true <-> length sn = 3%nat /\ exists n, reads_as sn n) /\
  forall list_dir read_codes argv jobs s out names,
  main list_dir read_codes argv = Plan jobs s out -> list_dir (inputdir s) = Some names ->
  (forall name, In name names -> exists front sn, name = front ++ sn /\ length front = 9%nat /\ three_digits sn) ->
  (forall sn, In sn (sns s) -> three_digits sn) ->
  forall sn codes, In (sn, codes) jobs -> accepted sn = true.
Proof.
  assert (A : forall sn, accepted sn = true <-> length sn = 3%nat /\ exists n, reads_as sn n).
  { intros sn. unfold accepted. rewrite andb_true_iff, Nat.eqb_eq, is_int_iff. tauto. }
  split; [exact A|]. intros ld rc argv jobs s out names M N F G sn codes I. destruct (C42_plan ld rc argv jobs s out M) as (_ & names' & N' & P).
  rewrite N in N'. injection N' as <-. apply P in I as ([(_ & name & In1 & AN)|In1] & _).
  - destruct (F name In1) as (front & t & E & L9 & T).
    assert (ST : sn = t).
    { assert (LT : length t = 3%nat) by (destruct T as (x & y & z & -> & _); reflexivity).
      destruct AN as [(fr & bk & E' & L' & K)|[K _]].
      - rewrite E in E'. apply app_eq_app in E' as (l & [[U V]|[U V]]).
        + assert (l = []) by (apply length_zero_iff_nil; apply (f_equal (@length Z)) in U; rewrite app_length in U; lia). subst l. cbn in V.
          destruct K as [K|[_ ->]]; [apply (f_equal (@length Z)) in V; rewrite app_length in V; lia|rewrite app_nil_r in V; exact V].
        + assert (l = []) by (apply length_zero_iff_nil; apply (f_equal (@length Z)) in U; rewrite app_length in U; lia). subst l. cbn in V.
          destruct K as [K|[_ ->]]; [apply (f_equal (@length Z)) in V; rewrite app_length in V; lia|rewrite app_nil_r in V; symmetry; exact V].
      - rewrite E, app_length in K. lia. }
    subst t. unfold accepted. rewrite (three_is_int sn T). destruct T as (x & y & z & -> & _). reflexivity.
  - pose proof (G sn In1) as T. unfold accepted. rewrite (three_is_int sn T). destruct T as (x & y & z & -> & _). reflexivity.
Qed.
Example C42_accepted_case : exists read_codes jobs s out, main (fun _ => Some [b "FILE0000.014"; b "FILE0001.077"]) read_codes [] = Plan jobs s out /\ map fst jobs = [b "014"; b "077"] /\
  (forall name, In name [b "FILE0000.014"; b "FILE0001.077"] -> exists front sn, name = front ++ sn /\ length front = 9%nat /\ three_digits sn) /\
  (forall sn, In sn (sns s) -> three_digits sn).
Proof.
  exists case_codes. eexists _, _, _. split; [vm_compute; reflexivity|]. split; [reflexivity|]. split; [|intros sn []].
  intros name [<-|[<-|[]]].
  - exists (b "FILE0000."), (b "014"). split; [reflexivity|]. split; [reflexivity|]. exists 48, 49, 52. split; [reflexivity|lia].
  - exists (b "FILE0001."), (b "077"). split; [reflexivity|]. split; [reflexivity|]. exists 48, 55, 55. split; [reflexivity|lia].
Qed.

Print Assumptions C42_accepted.
