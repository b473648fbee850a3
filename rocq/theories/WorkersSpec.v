(** What a user may expect of conversions that run at the same time. *)
From Coq Require Import String.
From Coq Require Import ZArith List Bool.
From Verif Require Import Base CalendarSpec Names Workers.
Import ListNotations.
Open Scope Z_scope.

Section Spec.
  Variable D : Type.
  Variables out format : bytes.

  (** Everything a conversion writes, in order. *)
  Definition all_outputs (j : job D) : list (output D) :=
    Meta (j_meta j) :: match j_gps j with Some rows => [Gps rows] | None => [] end ++ j_later j.
  Definition meta_rows (l : list (output D)) : list (list D) := flat_map (fun o => match o with Meta r => [r] | _ => [] end) l.
  Definition gps_rows (l : list (output D)) : list (list D) := flat_map (fun o => match o with Gps r => [r] | _ => [] end) l.
  (** A log has all its rows in order; it is not there if nothing was written to it. *)
  Definition log_contents (l : list (list D)) : option (list D) := match l with [] => None | _ => Some (concat l) end.

  (** [n] is the first number such that there is nothing called [name n] yet. *)
  Definition first_free (t : tree D) (name : Z -> bytes) (n : Z) : Prop :=
    0 <= n /\ present t (name n) = false /\ forall k, 0 <= k < n -> present t (name k) = true.

  (** The paths that a conversion may write to. *)
  Definition its_path (j : job D) (q : bytes) : Prop :=
    (exists n, 0 <= n /\ q = gps_log j n) \/ (exists n, 0 <= n /\ q = meta_log j n) \/
    (exists t us d, In (Wave t us d) (j_later j) /\ q = wave_file out format j t us).

  (** From [t0] to [t1], the conversion [j] wrote exactly [done]: the rows to new logs, each with the next number of
      its serial number, and the waveforms to their files (a later one with the same name replaces an earlier
      one). *)
  Definition wrote (t0 t1 : tree D) (j : job D) (done : list (output D)) : Prop :=
    exists g m, first_free t0 (gps_log j) g /\ first_free t0 (meta_log j) m /\
      file t1 (gps_log j g) = log_contents (gps_rows done) /\ file t1 (meta_log j m) = log_contents (meta_rows done) /\
      (forall before t us d after, done = before ++ Wave t us d :: after ->
        (forall t' us' d', In (Wave t' us' d') after -> wave_file out format j t' us' <> wave_file out format j t us) ->
        file t1 (wave_file out format j t us) = Some d) /\
      (forall q, its_path j q -> q <> gps_log j g -> q <> meta_log j m ->
        (forall t us d, In (Wave t us d) done -> q <> wave_file out format j t us) -> file t1 q = file t0 q).
  Definition untouched (t0 t1 : tree D) (j : job D) : Prop := forall q, its_path j q -> file t1 q = file t0 q.

  (** The conversions of one run: serial numbers of three characters, all different, and channel codes, all
      different; the folder of the waveforms is not one of the logs. *)
  Record fit (jobs : list (job D)) : Prop := {
    fit_sn : NoDup (map j_sn jobs);
    fit_id : NoDup (map j_id jobs);
    fit_length : forall j, In j jobs -> length (j_sn j) = 3%nat;
    fit_slash : forall j, In j jobs -> ~ In 47 (j_sn j) /\ ~ In 47 (j_id j);
    fit_time : forall j t us d, In j jobs -> In (Wave t us d) (j_later j) -> exists_in_calendar t;
    fit_format : ~ In 46 format /\ ~ In 47 format;
    fit_out : forall j n, In j jobs -> 0 <= n -> out <> gps_log j n /\ out <> meta_log j n }.

  Definition begin (jobs : list (job D)) : pool D := map (fun j => (j, AtGpsDir)) jobs.
  Definition folders_there (t : tree D) : Prop := is_dir t gps_dir = true /\ is_dir t meta_dir = true /\ is_dir t out = true.
  (** Nothing but a folder has the name of one of the folders. *)
  Definition folders_possible (t : tree D) : Prop := file t gps_dir = None /\ file t meta_dir = None /\ file t out = None.
  (** One process: the conversions run one after the other. *)
  Definition in_turn (schedule : list nat) : Prop := forall l i r k s, schedule = l ++ i :: r ++ k :: s -> (i <= k)%nat.
  (** There are only finitely many logs. *)
  Definition finite_logs (t : tree D) (jobs : list (job D)) : Prop :=
    exists N, forall j n, In j jobs -> N <= n -> present t (gps_log j n) = false /\ present t (meta_log j n) = false.
End Spec.
Arguments all_outputs {D}. Arguments meta_rows {D}. Arguments gps_rows {D}. Arguments log_contents {D}. Arguments first_free {D}.
Arguments its_path {D}. Arguments wrote {D}. Arguments untouched {D}. Arguments fit {D}. Arguments begin {D}.
Arguments folders_there {D}. Arguments folders_possible {D}. Arguments finite_logs {D}.
