(** Conversions that run at the same time in one folder: what gemlog/core.py [convert] (224-334) does to the file
    system, step by step, and the pool of gemlog/gemconvert.py (24-48, 222-226).

    The conversion itself is a list of outputs (see Convert.v); the raw files are only read.  Simplifications: a
    folder is made without its parents (233); writing or adding to one file is one step (no other job touches
    that file).  A worker that fails to make a folder ends by [sys.exit] (236, 246, 255), which [except Exception]
    (gemconvert.py 38) does not catch: the rest of its serial number is not converted. *)
From Coq Require Import String.
From Coq Require Import ZArith List Bool.
From Verif Require Import Base CalendarSpec Names.
Import ListNotations.
Open Scope Z_scope.

Section Workers.
  Variable D : Type.                                        (* lines or samples in files *)
  Variables out format : bytes.                             (* folder (-o) and format (-f) of the waveforms *)

  Record tree := mktree { is_dir : bytes -> bool; file : bytes -> option (list D) }.
  Inductive op :=
  | IsDir (p : bytes) | MakeDirs (p : bytes) | Exists (p : bytes)
  | Put (p : bytes) (d : list D)                            (* write a file *)
  | Add (p : bytes) (d : list D).                           (* add to a file; mode='a' *)
  Definition set_file (t : tree) (p : bytes) (d : list D) : tree :=
    mktree (is_dir t) (fun q => if eqb_bytes q p then Some d else file t q).
  Definition set_dir (t : tree) (p : bytes) : tree :=
    mktree (fun q => if eqb_bytes q p then true else is_dir t q) (file t).
  Definition present (t : tree) (p : bytes) : bool := is_dir t p || match file t p with Some _ => true | None => false end.
  (** The answer, and the tree after it.  [MakeDirs]: false if there is something of that name. *)
  Definition exec (o : op) (t : tree) : bool * tree :=
    match o with
    | IsDir p => (is_dir t p, t)
    | MakeDirs p => if present t p then (false, t) else (true, set_dir t p)
    | Exists p => (present t p, t)
    | Put p d => (true, set_file t p d)
    | Add p d => (true, set_file t p (match file t p with Some l => l | None => [] end ++ d))
    end.

  (** What a conversion writes after its first block. *)
  Inductive output :=
  | Meta (rows : list D) | Gps (rows : list D)              (* 306, 310 *)
  | Wave (t : datetime) (microsecond : Z) (d : list D).     (* 348, 354: a piece that begins at t *)
  Record job := mkjob {
    j_sn : bytes; j_id : bytes;                             (* serial number; network.station.location.channel *)
    j_meta : list D; j_gps : option (list D);               (* first block (261, 265) *)
    j_later : list output }.

  Definition gps_dir : bytes := b "gps".
  Definition meta_dir : bytes := b "metadata".
  Definition gps_log (j : job) : Z -> bytes := log_name (gps_dir ++ b "/" ++ j_sn j ++ b "gps").
  Definition meta_log (j : job) : Z -> bytes := log_name (meta_dir ++ b "/" ++ j_sn j ++ b "metadata").
  Definition wave_file (j : job) (t : datetime) (us : Z) : bytes := out ++ b "/" ++ converted_name t us (j_id j) format.

  (** Where a conversion is, from line 229 on; one that fails before has written nothing and is left out.  One that
      fails later (an exception while reading, 270-334) has a shorter [j_later]. *)
  Inductive state :=
  | AtGpsDir | AtGpsMake | AtGpsName (n : Z)                (* 231, 233, 237 *)
  | AtMetaDir (g : bytes) | AtMetaMake (g : bytes) | AtMetaName (g : bytes) (n : Z)   (* 241, 243, 247 *)
  | AtOutDir (g m : bytes) | AtOutMake (g m : bytes)        (* 250, 252 *)
  | AtMeta (g m : bytes) | AtGps (g m : bytes)              (* 261, 265 *)
  | AtLater (g m : bytes) (l : list output)                 (* 270-334 *)
  | Exited.
  Definition after_meta (j : job) (g m : bytes) : state := match j_gps j with Some _ => AtGps g m | None => AtLater g m (j_later j) end.
  Definition next (j : job) (s : state) : option (op * (bool -> state)) :=
    match s with
    | Exited => None
    | AtGpsDir => Some (IsDir gps_dir, fun r : bool => if r then AtGpsName 0 else AtGpsMake)
    | AtGpsMake => Some (MakeDirs gps_dir, fun r : bool => if r then AtGpsName 0 else Exited)
    | AtGpsName n => Some (Exists (gps_log j n), fun r : bool => if r then AtGpsName (n + 1) else AtMetaDir (gps_log j n))
    | AtMetaDir g => Some (IsDir meta_dir, fun r : bool => if r then AtMetaName g 0 else AtMetaMake g)
    | AtMetaMake g => Some (MakeDirs meta_dir, fun r : bool => if r then AtMetaName g 0 else Exited)
    | AtMetaName g n => Some (Exists (meta_log j n), fun r : bool => if r then AtMetaName g (n + 1) else AtOutDir g (meta_log j n))
    | AtOutDir g m => Some (IsDir (out), fun r : bool => if r then AtMeta g m else AtOutMake g m)
    | AtOutMake g m => Some (MakeDirs (out), fun r : bool => if r then AtMeta g m else Exited)
    | AtMeta g m => Some (Put m (j_meta j), fun _ => after_meta j g m)
    | AtGps g m => match j_gps j with Some d => Some (Put g d, fun _ => AtLater g m (j_later j)) | None => None end
    | AtLater g m [] => None
    | AtLater g m (Meta d :: l) => Some (Add m d, fun _ => AtLater g m l)
    | AtLater g m (Gps d :: l) => Some (Add g d, fun _ => AtLater g m l)
    | AtLater g m (Wave t us d :: l) => Some (Put (wave_file j t us) d, fun _ => AtLater g m l)
    end.

  (** One step of one conversion. *)
  Definition advance (j : job) (s : state) (t : tree) : option (state * tree) :=
    match next j s with None => None | Some (o, k) => let (r, t') := exec o t in Some (k r, t') end.

  (** All the conversions of a run: each with its place; a schedule names the one that makes the next step. *)
  Definition pool := list (job * state).
  Fixpoint step_nth (i : nat) (p : pool) (t : tree) : option (pool * tree) :=
    match p, i with
    | [], _ => None
    | (j, s) :: r, O => match advance j s t with Some (s', t') => Some ((j, s') :: r, t') | None => None end
    | js :: r, S k => match step_nth k r t with Some (r', t') => Some (js :: r', t') | None => None end
    end.
  Fixpoint run (schedule : list nat) (p : pool) (t : tree) : option (pool * tree) :=
    match schedule with
    | [] => Some (p, t)
    | i :: r => match step_nth i p t with Some (p', t') => run r p' t' | None => None end
    end.
  (** Nobody has anything left to do. *)
  Definition idle (p : pool) : bool := forallb (fun js => match next (fst js) (snd js) with None => true | Some _ => false end) p.
End Workers.

Arguments is_dir {D}. Arguments file {D}. Arguments mktree {D}. Arguments set_file {D}. Arguments set_dir {D}. Arguments present {D}.
Arguments IsDir {D}. Arguments MakeDirs {D}. Arguments Exists {D}. Arguments Put {D}. Arguments Add {D}. Arguments exec {D}.
Arguments Meta {D}. Arguments Gps {D}. Arguments Wave {D}.
Arguments mkjob {D}. Arguments j_sn {D}. Arguments j_id {D}. Arguments j_meta {D}. Arguments j_gps {D}. Arguments j_later {D}.
Arguments gps_log {D}. Arguments meta_log {D}. Arguments wave_file {D}.
Arguments AtGpsDir {D}. Arguments AtGpsMake {D}. Arguments AtGpsName {D}. Arguments AtMetaDir {D}. Arguments AtMetaMake {D}.
Arguments AtMetaName {D}. Arguments AtOutDir {D}. Arguments AtOutMake {D}. Arguments AtMeta {D}. Arguments AtGps {D}. Arguments AtLater {D}.
Arguments Exited {D}. Arguments after_meta {D}. Arguments next {D}. Arguments advance {D}. Arguments step_nth {D}. Arguments run {D}. Arguments idle {D}.
