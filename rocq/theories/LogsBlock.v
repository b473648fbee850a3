(** From recordings to the logs of a conversion. *)
From Coq Require Import String.
From Coq Require Import ZArith QArith Qabs Qround List Bool Lia Lqa.
From Verif Require Import Base Lib UnwrapSpec UnwrapProofs Scan Parser ParserSpec Process ReadSeveral ReadSeveralSpec ReadSeveralProofs Drift DriftSpec
  Segments SegmentsSpec SegmentsProofs Interp InterpSpec InterpProofs InterpProps Stream StreamSpec StreamProofs StreamProps
  Convert ConvertSpec ConvertProofs ConvertProps Select SelectSpec SelectProofs Fields Breaks BreaksSpec Block BlockSpec BlockProofs BlockProps
  RecordingSpec RecordingProofs RecordingTotal RecordingProps RecordingWhole CardSpec CardProps PausesSpec PausesProofs PausesBlock PausesWhole LogsSpec LogsProofs.
Import ListNotations.
Open Scope Q_scope.

Section Logs.
  Variable sc : scanner.
  Variable buf0 : bytes.
  Variable ear : bool.
  Variable fit3 : list point -> option cubic.
  Variable fit1 : list point -> option Drift.linear.
  Variable spline : list (Q * option Q) -> option (Q -> Q).
  Variable content : entry -> raw_file.
  Variable adc_range : entry -> Z.
  Variable now : Q.
  Notation read := (read_files sc buf0 ear fit3 fit1 spline content adc_range now true).
  Variable evs : entry -> list RecordingSpec.event.
  Variable tau : entry -> cubic.
  Notation record_of := (record_of evs tau).
  Variable d : list entry.
  Variable sn : bytes.
  Notation outcome_of := (fun bl => block_outcome (read d sn bl)).
  Notation libraries := (libraries sc fit3 fit1 spline).
  Notation turn := (turn content now evs tau).
  Notation paused_block := (paused_block content adc_range now evs tau d sn).
  Notation noted_file := (noted_file entry content evs tau).
  Notation healths := (healths entry).

  Definition health_line (q : entry * health) (row : option Q * list (option Q)) : Prop :=
    let (f, h) := q in
    Forall2 value_is (snd h) (snd row) /\
    forall a z, begins (samples (evs f)) a -> finishes (samples (evs f)) z -> a + (893 # 100) <= fst h <= z + (893 # 100) ->
      exists t, fst row = Some t /\ t == cubic_at (tau f) (fst h).

  Lemma block_logs files bl ns g : sn <> b "TXT" -> libraries -> paused_block files bl -> files bl <> [] -> Forall2 noted_file (files bl) ns ->
    read d sn bl = Gives (inl g) -> g_problems g = [] ->
    Forall2 place_row (flat_map fst ns) (a_gps (g_times g)) /\ Forall2 health_line (healths (files bl) ns) (a_meta (g_times g)).
  Proof.
    intros N (Hs & H3 & H1 & Sp) (Hv & Hf & Hu & Rc & Ct) Nf No Eg Pb.
    destruct (C50_block _ _ _ _ _ _ _ _ _ _ _ _ _ _ Eg N) as (out & pts & runs & Jo & _ & _ & _ & Mt & Lo & Pr).
    destruct Jo as (v & arg & fl & Fo & V & J & Nd). destruct (proj2 Rc v fl Fo) as [Vm Ap]. rewrite (modern_argument _ _ Vm V) in J.
    pose proof (files_recorded _ _ _ _ _ _ _ _ Rc Fo) as Fr. pose proof (Hu v fl Fo) as Efl. subst fl.
    destruct (Ct Nf) as (Sd & _).
    unfold Block.join, read_several in J. cbn [as_version] in J.
    assert (Pj : jproblems out = []) by congruence.
    destruct (loop_noted entry bytes sc buf0 ear content e_sn fit3 fit1 evs tau Hs (files bl) ns No _ _ _ J Pj) as (parts & La & Np & E1 & E2 & E3).
    cbn [jheader jmeta jgps lines map app] in E1, E2, E3.
    assert (Ng : jgps out <> []).
    { rewrite E3. destruct (files bl) as [|f rest]; [contradiction|]. inversion La as [|? ? ? k L h parts' Tr]; subst. cbn [map concat fst].
      pose proof (st_fixes _ _ (al_steady f (Forall_inv Sd))) as L10. destruct Tr as [_ B]. destruct (gps L); [|discriminate]. inversion B as [X|]. rewrite <- X in L10. cbn in L10. lia. }
    assert (Df : filled (jgps out) = jgps out) by (destruct (jgps out); [contradiction|reflexivity]).
    rewrite Df in Lo. split.
    - pose proof (noted_places entry evs _ _ _ Np) as Pl. rewrite <- E3 in Pl. clear - Pl Lo. revert Lo. generalize (a_gps (g_times g)).
      induction Pl as [|p e l m (A & (la & B1 & B2) & (lo & C1 & C2)) Pl IH]; intros R Lo; inversion Lo as [|? row ? R' (D1 & D2 & D3 & t0 & D4 & D5 & D6) Lo']; subst; constructor; [|apply IH; exact Lo'].
      split; [congruence|]. split; [exists la; split; [congruence|exact B2]|]. split; [exists lo; split; [congruence|exact C2]|]. exists t0. rewrite <- A. auto.
    - pose proof (noted_times entry content fit3 fit1 evs tau 0 _ ns parts H3 La Np Fr Ap []) as Ti. cbn [app] in Ti. rewrite <- E1, <- E2 in Ti.
      unfold meta_timed in Mt. clear - Ti Mt. revert Mt. generalize (a_meta (g_times g)). revert Ti. generalize (lines (jheader out)). intros hl Ti.
      induction Ti as [|[f q] m l l' (A & B) Ti IH]; intros R Mt; inversion Mt as [|? row ? R' (D1 & D2) Mt']; subst; constructor; [|apply IH; exact Mt'].
      split; [rewrite D1; exact A|]. intros a z Ba Fz K. destruct (B a z Ba Fz K) as (h & Lh & Eh). destruct (fst row) as [t|].
      + destruct D2 as (h' & Lh' & Et). exists t. split; [reflexivity|]. rewrite (last_containing_unique _ _ _ _ Lh' Lh) in Et. rewrite Et. exact Eh.
      + exfalso. destruct (last_containing_in _ _ _ Lh) as [Ih Ch]. rewrite Forall_forall in D2. exact (D2 h Ih Ch).
  Qed.

  (** A block of recordings: what the loops of the conversion see. *)
  Lemma block_noted files bl ns : sn <> b "TXT" -> (3 <= val_digits (map (fun c => c - 48) sn))%Z -> libraries -> paused_block files bl -> Forall2 noted_file (files bl) ns ->
    (files bl = [] -> gps_of (outcome_of bl) = [] /\ meta_of (outcome_of bl) = []) /\
    (files bl <> [] -> exists rows, gps_of (outcome_of bl) = [rows] /\ Forall2 place_row (flat_map fst ns) rows) /\
    Forall2 health_line (healths (files bl) ns) (meta_of (outcome_of bl)).
  Proof.
    intros N N3 Li Pb No. destruct (paused_read sc buf0 ear fit3 fit1 spline content adc_range now evs tau d sn files bl N N3 Li Pb) as [(Ef & Er)|(Nf & g & Er & Ep & Cv & _)]; cbn beta; rewrite Er.
    - rewrite Ef in *. inversion No; subst. split; [split; reflexivity|]. split; [contradiction|constructor].
    - destruct (block_logs files bl ns g N Li Pb Nf No Er Ep) as [A B].
      assert (Nd : map to_grid (a_data (g_times g)) <> []).
      { destruct Pb as (_ & _ & _ & _ & Ct). destruct (Ct Nf) as (Sd & _). destruct (files bl) as [|f rest] eqn:E; [contradiction|]. pose proof (Forall_inv Sd) as Af.
        destruct (alone_begins f Af) as (w & l & Ew & Nw & Cw & Lw).
        destruct (begins_exists _ Nw) as (s & Bs). destruct (finishes_exists _ Nw) as (e & Fe). pose proof (Lw s e Bs Fe) as Ls.
        destruct (Cv [] w (l ++ map fst (record_of rest)) s e (Qceiling (s * 100 + (1 # 2)))) as (x & Sx); [|exact Cw|exact Bs|exact Fe| |].
        - unfold RecordingProps.record_of. cbn [flat_map app]. rewrite map_app. cbn beta in Ew. rewrite Ew, <- app_assoc. reflexivity.
        - pose proof (Qle_ceiling (s * 100 + (1 # 2))) as A1. pose proof (Qceiling_lt (s * 100 + (1 # 2))) as A2. unfold Z.sub in A2. rewrite inject_Z_plus in A2. change (inject_Z (-(1))) with (-1) in A2.
          set (z := inject_Z (Qceiling (s * 100 + (1 # 2)))) in *. split; lra.
        - intros X. rewrite X in Sx. destruct Sx as (tr & i & [] & _). }
      cbn [block_outcome gps_of meta_of]. destruct (map to_grid (a_data (g_times g))) as [|tr st]; [contradiction|].
      split; [intros X; contradiction|]. split; [intros _; eexists; split; [reflexivity|exact A]|exact B].
  Qed.
End Logs.
