(** Proofs about the conversion of a card. *)
From Coq Require Import String.
From Coq Require Import ZArith QArith Qabs Qround List Bool Lia Lqa Permutation.
From Verif Require Import Base Lib UnwrapSpec UnwrapProofs Scan Parser ParserSpec Process ReadSeveral ReadSeveralSpec ReadSeveralProofs Drift DriftSpec
  Segments SegmentsSpec Interp InterpSpec InterpProofs Stream StreamSpec StreamProofs
  Convert ConvertSpec ConvertProofs ConvertProps Select SelectSpec SelectProofs CliSpec CliProofs NamesProofs Header HeaderSpec HeaderProofs HeaderProps Block BlockSpec BlockProofs BlockProps
  RecordingSpec RecordingProofs RecordingTotal RecordingProps RecordingWhole Card CardSpec.
Import ListNotations.

(** * Lists in strict order *)
Lemma chain_all {A} (R : A -> A -> Prop) : (forall x y z, R x y -> R y z -> R x z) -> forall l x, chain R (x :: l) -> Forall (R x) l.
Proof.
  intros T. induction l as [|y l IH]; intros x C; [constructor|]. destruct C as [C D]. constructor; [exact C|].
  apply IH. destruct l as [|z l]; [exact I|]. destruct D as [D E]. split; [exact (T _ _ _ C D)|exact E].
Qed.
Lemma strict_unique {A} (R : A -> A -> Prop) : (forall x y z, R x y -> R y z -> R x z) -> (forall x, ~ R x x) ->
  forall l m, chain R l -> chain R m -> (forall x, In x l <-> In x m) -> l = m.
Proof.
  intros T N. induction l as [|x l IH]; intros [|y m] Cl Cm H.
  - reflexivity.
  - exfalso. apply (H y). left. reflexivity.
  - exfalso. apply (proj1 (H x)). left. reflexivity.
  - pose proof (chain_all R T l x Cl) as Fl. pose proof (chain_all R T m y Cm) as Fm. rewrite Forall_forall in Fl, Fm.
    assert (E : x = y).
    { destruct (proj1 (H x) (or_introl eq_refl)) as [E|E]; [congruence|]. destruct (proj2 (H y) (or_introl eq_refl)) as [E'|E']; [congruence|].
      exfalso. apply (N x). exact (T _ _ _ (Fl _ E') (Fm _ E)). }
    subst y. f_equal. apply IH; [exact (ReadSeveralProofs.chain_tail _ _ _ Cl)|exact (ReadSeveralProofs.chain_tail _ _ _ Cm)|].
    intros z. split; intros Hz.
    + destruct (proj1 (H z) (or_intror Hz)) as [E|E]; [|exact E]. subst z. exfalso. exact (N x (Fl _ Hz)).
    + destruct (proj2 (H z) (or_intror Hz)) as [E|E]; [|exact E]. subst z. exfalso. exact (N x (Fm _ Hz)).
Qed.
Lemma chain_map {A B} (f : A -> B) (R : B -> B -> Prop) l : chain R (map f l) <-> chain (fun x y => R (f x) (f y)) l.
Proof. induction l as [|x l IH]; [cbn; tauto|]. destruct l as [|y l]; [cbn; tauto|]. cbn [map] in *. cbn [chain]. cbn [chain] in IH. rewrite IH. tauto. Qed.
Lemma chain_strict {A} (f : A -> Z) l : NoDup (map f l) -> chain (fun x y => f x <= f y)%Z l -> chain (fun x y => f x < f y)%Z l.
Proof.
  induction l as [|x l IH]; [auto|]. destruct l as [|y l]; [intros _ _; exact I|]. intros N [L C]. cbn [map] in N. inversion N as [|? ? N1 N2]; subst. split; [|apply IH; assumption].
  assert (f x <> f y) by (intros E; apply N1; rewrite E; left; reflexivity). lia.
Qed.
Lemma chain_nodup {A} (f : A -> Z) l : chain (fun x y => f x < f y)%Z l -> NoDup (map f l).
Proof.
  induction l as [|x l IH]; intros C; [constructor|]. cbn [map]. constructor; [|apply IH; exact (ReadSeveralProofs.chain_tail _ _ _ C)].
  intros H. apply in_map_iff in H as (y & E & Iy). pose proof (chain_all (fun x y => f x < f y)%Z (fun x y z P Q => Z.lt_trans _ _ _ P Q) _ _ C) as F. rewrite Forall_forall in F. specialize (F y Iy). cbn in F. lia.
Qed.
Lemma chain_app_r {A} (R : A -> A -> Prop) l m : chain R (l ++ m) -> chain R m.
Proof. induction l as [|x l IH]; intros C; [exact C|]. apply IH. exact (ReadSeveralProofs.chain_tail _ _ _ C). Qed.
Lemma chain_sub {A} (R : A -> A -> Prop) l m r : chain R (l ++ m ++ r) -> chain R m.
Proof. intros C. apply chain_app_r in C. exact (chain_app_l _ _ _ C). Qed.

Lemma NoDup_app_disj {A} (l m : list A) : NoDup (l ++ m) -> forall x, In x l -> ~ In x m.
Proof.
  induction l as [|y l IH]; intros N x Hx; [destruct Hx|]. cbn [app] in N. inversion N as [|? ? N1 N2]; subst. destruct Hx as [->|Hx]; [|exact (IH N2 x Hx)].
  intros H. apply N1. apply in_or_app. right. exact H.
Qed.
Lemma NoDup_app_r {A} (l m : list A) : NoDup (l ++ m) -> NoDup m.
Proof. induction l as [|y l IH]; intros N; [exact N|]. inversion N. auto. Qed.

(** A list in strict order, divided by a function of its elements: each part is what a filter gives. *)
Lemma filter_part {A} (f : A -> Z) (l : list A) (pre bl post : list Z) : map f l = pre ++ bl ++ post -> NoDup (map f l) ->
  exists l1 l3, l = l1 ++ filter (fun x => existsb (Z.eqb (f x)) bl) l ++ l3 /\ map f (filter (fun x => existsb (Z.eqb (f x)) bl) l) = bl /\ map f l1 = pre /\ map f l3 = post.
Proof.
  intros E N.
  destruct (map_eq_app _ _ _ _ E) as (l1 & l' & -> & E1 & E'). destruct (map_eq_app _ _ _ _ E') as (l2 & l3 & -> & E2 & E3).
  exists l1, l3.
  assert (F : filter (fun x => existsb (Z.eqb (f x)) bl) (l1 ++ l2 ++ l3) = l2).
  { assert (No : forall m, (forall x, In x m -> ~ In (f x) bl) -> filter (fun x => existsb (Z.eqb (f x)) bl) m = []).
    { induction m as [|x m IH]; intros H; [reflexivity|]. cbn [filter]. destruct (existsb (Z.eqb (f x)) bl) eqn:X; [|apply IH; intros y Hy; apply H; right; exact Hy].
      exfalso. apply existsb_exists in X as (y & Iy & Ey). apply Z.eqb_eq in Ey. subst y. exact (H x (or_introl eq_refl) Iy). }
    assert (Ye : forall m, (forall x, In x m -> In (f x) bl) -> filter (fun x => existsb (Z.eqb (f x)) bl) m = m).
    { induction m as [|x m IH]; intros H; [reflexivity|]. cbn [filter]. assert (existsb (Z.eqb (f x)) bl = true) as ->.
      { apply existsb_exists. exists (f x). split; [apply H; left; reflexivity|apply Z.eqb_refl]. }
      f_equal. apply IH. intros y Hy. apply H. right. exact Hy. }
    rewrite E in N. rewrite !filter_app, (No l1), (Ye l2), (No l3).
    - rewrite app_nil_r. reflexivity.
    - intros x Hx Hb. apply (in_map f) in Hx. rewrite E3 in Hx. apply NoDup_app_r in N. exact (NoDup_app_disj _ _ N _ Hb Hx).
    - intros x Hx. apply (in_map f) in Hx. rewrite E2 in Hx. exact Hx.
    - intros x Hx Hb. apply (in_map f) in Hx. rewrite E1 in Hx. apply (NoDup_app_disj _ _ N _ Hx). apply in_or_app. left. exact Hb. }
  rewrite F. auto.
Qed.

(** * Serial numbers *)
Lemma serial_value sn : serial_number sn -> (3 <= val_digits (map (fun c => c - 48) sn))%Z /\ length sn = 3%nat /\ integer_literal sn /\ sn <> b "TXT" /\ na_words sn = false.
Proof.
  intros (x & y & z & -> & F & V). inversion F as [|? ? X F1]; subst. inversion F1 as [|? ? Y F2]; subst. inversion F2 as [|? ? Z' _]; subst.
  assert (L : integer_literal (map (fun k => 48 + k)%Z [x; y; z])).
  { exists [], [], (map (fun k => 48 + k)%Z [x; y; z]), []. cbn [map app]. split; [reflexivity|]. split; [constructor|]. split; [constructor|]. split; [|left; reflexivity].
    apply next_digit; [unfold digit; lia|]. apply next_digit; [unfold digit; lia|]. apply last_digit. unfold digit; lia. }
  split; [|split; [reflexivity|split; [exact L|split]]].
  - unfold val_digits. cbn [map fold_left]. lia.
  - intros E. apply (f_equal (fun l => hd 0%Z l)) in E. change (b "TXT") with [84; 88; 84]%Z in E. cbn [map hd] in E. cbn beta in X. lia.
  - apply is_int_spec in L. apply is_int_iff in L as (n & R). destruct plain_na_words as (_ & _ & P). exact (P _ _ R).
Qed.

Section Card.
  Variable oddS : list bytes -> option (option bytes).
  Variable oddV : list bytes -> option bytes.
  Variable oddC : list bytes -> option config.
  Variables reader9 reader8 : bytes -> bool -> res (list drow).
  Variable sn : bytes.
  Variable recs : list recording.
  Variable c : card.
  Hypothesis Hsn : serial_number sn.
  Hypothesis Hc : card_of sn recs c.
  Notation d := (entries oddS oddV c).

  Definition name_of (n : Z) : bytes := b "FILE" ++ pad 4 n ++ b "." ++ sn.
  Definition entry_for (r : recording) : entry := entry_of na_words oddS oddV (name_of (r_number r)) (r_bytes r).

  Lemma rec_named r : In r recs -> named (name_of (r_number r)) (r_number r) sn /\ In (name_of (r_number r), r_bytes r) c.
  Proof.
    intros Hr. destruct Hc as (_ & _ & _ & P & _). destruct (P r Hr) as (name & N & Hi). pose proof N as (_ & E & _). fold (name_of (r_number r)) in E. subst name. auto.
  Qed.
  Lemma entry_num r : In r recs -> num (entry_for r) = r_number r.
  Proof. intros Hr. destruct (rec_named r Hr) as [N _]. exact (proj1 (named_num (entry_for r) _ _ N)). Qed.
  Lemma entry_in r : In r recs -> In (entry_for r) d.
  Proof. intros Hr. destruct (rec_named r Hr) as [_ Hi]. apply in_map_iff. exists (name_of (r_number r), r_bytes r). auto. Qed.
  Lemma bytes_of_in name bs : In (name, bs) c -> bytes_of c name = Some bs.
  Proof.
    destruct Hc as (N & _). clear - N. induction c as [|[n x] l IH]; intros Hi; [destruct Hi|]. cbn [map fst] in N. inversion N as [|? ? N1 N2]; subst. cbn [bytes_of].
    destruct Hi as [Hi|Hi].
    - injection Hi as -> ->. assert (eqb_bytes name name = true) as -> by (apply eqb_bytes_iff; reflexivity). reflexivity.
    - destruct (eqb_bytes n name) eqn:E; [|exact (IH N2 Hi)]. apply eqb_bytes_iff in E. subst n. exfalso. apply N1. apply in_map_iff. exists (name, bs). auto.
  Qed.
  Lemma numbers_distinct r r' : In r recs -> In r' recs -> r_number r = r_number r' -> r = r'.
  Proof.
    destruct Hc as (_ & C & _). apply (proj1 (chain_map r_number Z.lt recs)), (chain_nodup r_number) in C. clear - C. induction recs as [|x l IH]; intros H H' E; [destruct H|].
    cbn [map] in C. inversion C as [|? ? C1 C2]; subst. destruct H as [->|H], H' as [->|H'].
    - reflexivity.
    - exfalso. apply C1. rewrite E. apply in_map. exact H'.
    - exfalso. apply C1. rewrite <- E. apply in_map. exact H.
    - exact (IH C2 H H' E).
  Qed.

  (** What is read of the heads. *)
  Lemma entry_facts r : In r recs ->
    e_sn (entry_for r) = Some sn /\ (exists v, e_version (entry_for r) = Some v /\ In v [b "0.85C"; b "0.9"; b "0.91"; b "1.10"]) /\ (10 < e_size (entry_for r))%Z /\
    (range_of oddC c (entry_for r) = 0%Z \/ range_of oddC c (entry_for r) = 1%Z) /\
    f_content (content_of reader9 reader8 c (entry_for r)) = Some (r_bytes r).
  Proof.
    intros Hr. destruct (rec_named r Hr) as [N Hi]. pose proof (bytes_of_in _ _ Hi) as Eb. destruct (serial_value sn Hsn) as (_ & _ & _ & _ & Na).
    destruct Hc as (_ & _ & W & _). rewrite Forall_forall in W. destruct (W r Hr) as (Hh & Hg & _).
    unfold range_of, content_of. change (e_name (entry_for r)) with (name_of (r_number r)). rewrite Eb. cbn [f_content].
    destruct Hh as (v & e1 & l2 & l3 & notes & l0 & rest & E & L & V & No & Se).
    split; [|split; [|split; [|split; [|reflexivity]]]].
    - assert (X : read_SN na_words oddS (r_bytes r) = Some (Some sn)) by (rewrite E; exact (C52_serial na_words oddS _ _ _ _ _ sn rest L No Se eq_refl Na)). unfold entry_for, entry_of. cbn [e_sn]. rewrite X. reflexivity.
    - exists v. split; [|exact V]. unfold entry_for, entry_of. cbn [e_version]. rewrite E.
      assert (X : read_version na_words oddV (lines_text ([] ++ [(b "#GemCSV" ++ v, e1)]) ++ (lines_text (l2 :: l3 :: notes ++ [l0]) ++ rest)) = Some v).
      2: { rewrite app_assoc in X. unfold lines_text in X. rewrite <- concat_app, <- map_app in X. exact X. }
      apply (C52_version na_words oddV [] v e1).
      + inversion L; subst. constructor; [assumption|constructor].
      + constructor.
      + destruct V as [<-|[<-|[<-|[<-|[]]]]]; cbn; intuition discriminate.
      + destruct V as [<-|[<-|[<-|[<-|[]]]]]; reflexivity.
    - unfold entry_for, entry_of. cbn [e_size]. rewrite E. unfold lines_text. cbn [map concat fst snd]. rewrite !app_length.
      assert (10 <= length (b "#GemCSV") + length v)%nat by (destruct V as [<-|[<-|[<-|[<-|[]]]]]; cbn; lia).
      inversion L as [|? ? (_ & _ & _ & Le) _]; subst. cbn [snd] in Le. assert (1 <= length e1)%nat by (destruct Le as [->| ->]; cbn; lia).
      rewrite ?app_length in *. lia.
    - destruct Hg as [(l1 & pre & l & cf & rs & E' & L' & Le & F & Cl & G)|(l1 & pre & l & rs & E' & L' & Le & F & Ne)]; rewrite E'.
      + rewrite (C52_config na_words oddC l1 pre l cf rs plain_na_words L' Le F Cl). exact G.
      + rewrite (C52_no_config na_words oddC l1 pre l rs L' Le F Ne). left. reflexivity.
  Qed.

  (** The files that are read are those of the recordings. *)
  Lemma readable_entry bl f : In f d /\ readable sn bl f <-> exists r, In r recs /\ In (r_number r) bl /\ f = entry_for r.
  Proof.
    split.
    - intros [Hf (n & x & N & Hn & _ & Hx)]. apply in_map_iff in Hf as ([name bs] & <- & Hi). cbn [fst snd entry_of e_name] in N.
      pose proof Hc as (_ & _ & _ & _ & P). destruct (P name bs n x Hi N) as (-> & r & Hr & En & Eb); [tauto|]. exists r. split; [exact Hr|]. split; [rewrite En; exact Hn|].
      unfold entry_for. rewrite En, Eb. cbn [fst snd]. destruct N as (_ & -> & _). reflexivity.
    - intros (r & Hr & Hn & ->). split; [exact (entry_in r Hr)|]. destruct (rec_named r Hr) as [N _]. exists (r_number r), sn. split; [exact N|]. split; [exact Hn|].
      split; [exact (proj1 (proj2 (proj2 (entry_facts r Hr))))|]. left. split; [reflexivity|]. destruct (serial_value sn Hsn) as (_ & _ & _ & T & _). exact T.
  Qed.
  Lemma entries_distinct : NoDup d.
  Proof.
    destruct Hc as (N & _). apply (NoDup_map_inv e_name). unfold entries. rewrite map_map. cbn [entry_of e_name]. exact N.
  Qed.

  Definition in_block (bl : list Z) (r : recording) : bool := existsb (Z.eqb (r_number r)) bl.
  Lemma in_block_iff bl r : in_block bl r = true <-> In (r_number r) bl.
  Proof.
    unfold in_block. rewrite existsb_exists. split; [intros (n & Hn & E); apply Z.eqb_eq in E; congruence|].
    intros H. exists (r_number r). split; [exact H|apply Z.eqb_refl].
  Qed.
  Definition files (bl : list Z) : list entry := map entry_for (filter (in_block bl) recs).

  (** What was recorded in a file, by its number. *)
  Definition events_in (f : entry) : list RecordingSpec.event := match find (fun r => (r_number r =? num f)%Z) recs with Some r => r_events r | None => [] end.
  Definition clock_in (f : entry) : cubic := match find (fun r => (r_number r =? num f)%Z) recs with Some r => r_clock r | None => mkcubic 0 0 0 0 end.
  Lemma found r : In r recs -> find (fun x => (r_number x =? num (entry_for r))%Z) recs = Some r.
  Proof.
    intros Hr. rewrite (entry_num r Hr). destruct (find _ recs) as [x|] eqn:E.
    - apply find_some in E as [Hx Ex]. apply Z.eqb_eq in Ex. rewrite (numbers_distinct x r Hx Hr Ex). reflexivity.
    - exfalso. pose proof (find_none _ _ E r Hr) as X. cbn beta in X. apply Z.eqb_neq in X. congruence.
  Qed.
  Lemma found_events r : In r recs -> events_in (entry_for r) = r_events r.
  Proof. intros Hr. unfold events_in. rewrite (found r Hr). reflexivity. Qed.
  Lemma found_clock r : In r recs -> clock_in (entry_for r) = r_clock r.
  Proof. intros Hr. unfold clock_in. rewrite (found r Hr). reflexivity. Qed.
  Lemma found_record l : (forall r, In r l -> In r recs) -> record_of events_in clock_in (map entry_for l) = record l.
  Proof.
    induction l as [|r l IH]; intros H; [reflexivity|]. unfold record_of, record in *. cbn [map flat_map]. rewrite IH by (intros x Hx; apply H; right; exact Hx).
    unfold wave. rewrite (found_events r), (found_clock r) by (apply H; left; reflexivity). reflexivity.
  Qed.
  Lemma files_record bl : record_of events_in clock_in (files bl) = record (filter (in_block bl) recs).
  Proof. apply found_record. intros r Hr. apply filter_In in Hr. exact (proj1 Hr). Qed.

  Lemma files_ordered bl : chain (fun f g => num f < num g)%Z (files bl).
  Proof.
    apply chain_map. destruct Hc as (_ & C & _). apply (proj1 (chain_map r_number Z.lt recs)) in C. apply (chain_filter _ (in_block bl)) in C; [|intros x y z; lia].
    assert (H : forall r, In r (filter (in_block bl) recs) -> In r recs) by (intros r Hr; apply filter_In in Hr; exact (proj1 Hr)).
    induction (filter (in_block bl) recs) as [|r l IH]; [exact I|]. destruct l as [|r' l]; [exact I|]. destruct C as [A C]. split.
    - rewrite !entry_num by (apply H; cbn; auto). exact A.
    - apply IH; [exact C|]. intros x Hx. apply H. right. exact Hx.
  Qed.
  Lemma files_in bl f : In f (files bl) <-> In f d /\ readable sn bl f.
  Proof.
    rewrite readable_entry. unfold files. rewrite in_map_iff. split.
    - intros (r & <- & Hr). apply filter_In in Hr as [Hr Hn]. apply in_block_iff in Hn. eauto.
    - intros (r & Hr & Hn & ->). exists r. split; [reflexivity|]. apply filter_In. split; [exact Hr|apply in_block_iff; exact Hn].
  Qed.

  Lemma files_unique bl v fl : files_of d sn bl v fl -> fl = files bl /\ In v [b "0.85C"; b "0.9"; b "0.91"; b "1.10"].
  Proof.
    intros (before & f & rest & E & A & N & C & B & V).
    assert (R : forall g, In g (before ++ fl) -> exists r, In r recs /\ g = entry_for r).
    { intros g Hg. apply A, readable_entry in Hg as (r & Hr & _ & ->). eauto. }
    assert (before = []).
    { destruct before as [|g l]; [reflexivity|]. exfalso. destruct (R g (or_introl eq_refl)) as (r & Hr & ->). destruct (entry_facts r Hr) as (_ & (w & W & _) & _).
      rewrite (B _ (or_introl eq_refl)) in W. discriminate. }
    subst before. cbn [app] in *. split.
    - apply (strict_unique (fun f g => num f < num g)%Z); [intros x y z; lia|intros x; lia| |apply files_ordered|].
      + specialize (N entries_distinct). apply (chain_strict num).
        * clear - N R Hc. revert R. induction fl as [|g l IH]; intros R; [constructor|]. inversion N as [|? ? N1 N2]; subst. cbn [map]. constructor; [|apply IH; [exact N2|intros x Hx; apply R; right; exact Hx]].
          intros H. apply in_map_iff in H as (g' & E & Hg'). destruct (R g (or_introl eq_refl)) as (r & Hr & ->). destruct (R g' (or_intror Hg')) as (r' & Hr' & ->).
          rewrite !entry_num in E by assumption. rewrite (numbers_distinct r' r Hr' Hr E) in Hg'. exact (N1 Hg').
        * clear - C R Hc. revert R. induction fl as [|g l IH]; intros R; [exact I|]. destruct l as [|g' l]; [exact I|]. destruct C as [C1 C2]. split; [|apply IH; [exact C2|intros x Hx; apply R; right; exact Hx]].
          destruct (R g (or_introl eq_refl)) as (r & Hr & ->). destruct (R g' (or_intror (or_introl eq_refl))) as (r' & Hr' & ->). rewrite !entry_num by assumption.
          destruct (rec_named r Hr) as [N1 _]. destruct (rec_named r' Hr') as [N2 _]. exact (C1 _ _ _ _ N1 N2).
      + intros g. rewrite files_in. apply A.
    - assert (Hf : In f fl) by (rewrite E; left; reflexivity). destruct (R f Hf) as (r & Hr & ->). destruct (entry_facts r Hr) as (_ & (w & W & X) & _). congruence.
  Qed.

  (** The numbers chosen. *)
  Definition wanted_recs (nums : option (list Z)) : list recording := filter (fun r => asked nums (r_number r)) recs.
  Lemma selected nums : wanted_recs nums <> [] -> select (Some d) sn nums = inr (map r_number (wanted_recs nums)).
  Proof.
    intros Ne. destruct (serial_value sn Hsn) as (_ & L3 & L & T & _).
    assert (Cin : forall f, In f (chosen d sn nums) <-> In f (map entry_for (wanted_recs nums))).
    { intros f. rewrite chosen_in, in_map_iff. split.
      - intros [Hf (Hn & _ & Ha)]. apply in_map_iff in Hf as ([name bs] & Ef & Hi). subst f. cbn [fst snd entry_of e_name] in *. set (f := entry_of na_words oddS oddV name bs) in *.
        pose proof Hc as (_ & _ & _ & _ & P).
        assert (X : exists x, named name (num f) x /\ (x = sn \/ x = b "TXT")) by (destruct Hn; eauto). destruct X as (x & Nx & Hx).
        destruct (P name bs _ x Hi Nx Hx) as (-> & r & Hr & En & Eb). exists r. split.
        + unfold entry_for. rewrite En, Eb. unfold f. destruct Nx as (_ & E & _). fold (name_of (num f)) in E. unfold f in E |- *. rewrite <- E. reflexivity.
        + apply filter_In. split; [exact Hr|]. apply asked_spec. rewrite En. exact Ha.
      - intros (r & <- & Hr). apply filter_In in Hr as [Hr Ha]. apply asked_spec in Ha. split; [exact (entry_in r Hr)|].
        destruct (rec_named r Hr) as [N _]. rewrite (entry_num r Hr). split; [left; exact N|]. split; [exact (proj1 (entry_facts r Hr))|exact Ha]. }
    assert (Er : existsb is_raw d = true).
    { destruct (wanted_recs nums) as [|r l] eqn:E; [contradiction|]. assert (Hr : In r recs) by (assert (H : In r (wanted_recs nums)) by (rewrite E; left; reflexivity); apply filter_In in H; exact (proj1 H)).
      apply existsb_exists. exists (entry_for r). split; [exact (entry_in r Hr)|]. apply is_raw_spec. destruct (rec_named r Hr) as [N _]. eauto. }
    rewrite (select_eq d sn nums Er L L3).
    assert (Nd : NoDup (map num (chosen d sn nums))).
    { assert (D : NoDup (chosen d sn nums)) by (apply NoDup_filter, fns_nodup; [exact T|exact entries_distinct]).
      assert (R : forall f, In f (chosen d sn nums) -> exists r, In r recs /\ f = entry_for r).
      { intros f Hf. apply Cin, in_map_iff in Hf as (r & <- & Hr). apply filter_In in Hr. exists r. tauto. }
      revert D R. clear - Hc. induction (chosen d sn nums) as [|g l IH]; intros N R; [constructor|]. inversion N as [|? ? N1 N2]; subst. cbn [map].
      constructor; [|apply IH; [exact N2|intros x Hx; apply R; right; exact Hx]].
      intros H. apply in_map_iff in H as (g' & E & Hg'). destruct (R g (or_introl eq_refl)) as (r & Hr & ->). destruct (R g' (or_intror Hg')) as (r' & Hr' & ->).
      rewrite !entry_num in E by assumption. rewrite (numbers_distinct r' r Hr' Hr E) in Hg'. exact (N1 Hg'). }
    assert (So : sort_by Z.leb (map num (chosen d sn nums)) = map r_number (wanted_recs nums)).
    { pose proof (sort_perm Z.leb (map num (chosen d sn nums))) as P. pose proof (sort_Z_chain (map num (chosen d sn nums))) as S.
      apply (strict_unique Z.lt); [intros; lia|intros; lia| | |].
      - apply (chain_strict (fun x => x)); [|exact S]. rewrite map_id. apply (Permutation_NoDup (Permutation_sym P)). exact Nd.
      - apply chain_map. destruct Hc as (_ & C & _). apply (proj1 (chain_map r_number Z.lt recs)) in C. apply (chain_filter _ (fun r => asked nums (r_number r))) in C; [exact C|intros x y z; lia].
      - intros n. split.
        + intros Hn. apply (Permutation_in _ P) in Hn. apply in_map_iff in Hn as (f & <- & Hf). apply Cin, in_map_iff in Hf as (r & <- & Hr). pose proof Hr as Hr'. apply filter_In in Hr' as [Hr' _].
          rewrite (entry_num r Hr'). apply in_map. exact Hr.
        + intros Hn. apply in_map_iff in Hn as (r & <- & Hr). apply (Permutation_in _ (Permutation_sym P)). pose proof Hr as Hr'. apply filter_In in Hr' as [Hr' _].
          rewrite <- (entry_num r Hr'). apply in_map. apply Cin. apply in_map. exact Hr. }
    rewrite <- So. destruct (map num (chosen d sn nums)) as [|n l] eqn:E; [|rewrite <- E; reflexivity].
    exfalso. cbn in So. destruct (wanted_recs nums); [apply Ne; reflexivity|discriminate].
  Qed.
End Card.
