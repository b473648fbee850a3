(** Model of the conversion of one logger, gemlog/core.py [convert] (184-335) with [_write_hourlong_mseed]
    (338-356) and [_trunc_UTCDateTime] (393-394): which files are read, and what is written.
    Times are counted in sampling intervals of 0.01 s, like in Stream.v, so a day is 8640000.
    [read_gem] on a list of file numbers is a parameter.  Not modelled here: the choice of files (128-182),
    the bit weight (206-212), directories and names (224-255), the format of the output files. *)
From Coq Require Import ZArith QArith Qround List Bool.
From Verif Require Import Base Stream.
Import ListNotations.
Open Scope Q_scope.

(** [int(float(x)/n)*n]: truncation towards zero (394). *)
Definition trunc (x n : Q) : Q := inject_Z (let y := x / n in if Qle_bool 0 y then Qfloor y else Z.opp (Qfloor (- y))) * n.

Definition Qmax2 (x y : Q) : Q := if Qle_bool y x then x else y.
Definition Qmin2 (x y : Q) : Q := if Qle_bool x y then x else y.
Definition day : Q := 8640000.
Definition eps : Q := 1 # 10000.                       (* 1e-6 s (339) *)
Definition second : Q := 100.

(** Start of the first and end of the last trace ([p[0].stats.starttime], [p[-1].stats.endtime]); [None] is
    the IndexError on an empty stream. *)
Definition start_time (p : stream) : option Q := match p with [] => None | tr :: _ => Some (inject_Z (gs tr)) end.
Definition end_time (p : stream) : option Q :=
  match p with [] => None | tr :: r => Some (inject_Z (gend (last r tr))) end.

Section Convert.
  Variables M G P : Type.                              (* rows of the metadata and GPS tables, messages *)
  Variable gps_time : G -> Q.

  (** What [read_gem] does with a block: MissingRawFiles or CorruptRawFile, another exception, or data. *)
  Inductive outcome := Skipped | Raises | Block (st : stream) (meta : list M) (gps : list G) (problems : list P).

  (** The observable actions, in order. *)
  Inductive event :=
  | Read (nums : list Z)                               (* a block of files offered to [read_gem] *)
  | Meta (rows : list M) | Gps (rows : list G)         (* rows added to the two logs *)
  | Write (tr : gtrace).                               (* one output file *)

  Variable read_gem : list Z -> outcome.
  Variable nums : list Z.                              (* sorted, see 185 *)
  Variables blockdays flen : Q.                        (* [blockdays], [file_length_sec] *)
  Variable t1_arg : option Q.                          (* [None]: -inf, the default *)
  Variable t2 : Q.                                     (* the default is the end of the year 9999 (222) *)

  Definition per_block : Q := 12 * blockdays.
  Definition more (n1 : Q) : bool := existsb (fun n => Qle_bool n1 (inject_Z n)) nums.      (* n1 <= max(nums) *)
  Definition block (n1 : Q) : list Z :=
    filter (fun n => Qle_bool n1 (inject_Z n) && Qltb (inject_Z n) (n1 + per_block)) nums.

  (** Ways to end: return, an exception, or, for the model only, the recursion bound. *)
  Inductive ending {A} := Returns (a : A) | Exception_ | OutOfFuel.
  Arguments ending : clear implicits.

  (** Loop 190-202: blocks are read until one has data.  Returns events, [n1] and the block. *)
  Fixpoint first_block (fuel : nat) (n1 : Q) : list event * ending (Q * (stream * list M * list G * list P)) :=
    match fuel with
    | O => ([], OutOfFuel)
    | S fuel' =>
        if more n1 then
          let n1' := n1 + per_block in
          let (ev, r) :=
            match read_gem (block n1) with
            | Skipped | Block [] _ _ _ => first_block fuel' n1'
            | Raises => ([], Exception_)
            | Block st m g pb => ([], Returns (n1', (st, m, g, pb)))
            end in
          (Read (block n1) :: ev, r)
        else ([], Exception_)                          (* MissingRawFiles (202) *)
    end.

  (** Loop 278-311: more blocks until [p] reaches [tt2]. *)
  Fixpoint read_more (fuel : nat) (n1 tt2 : Q) (p : stream) (pbs : list P) : list event * ending (Q * stream * list P) :=
    match fuel with
    | O => ([], OutOfFuel)
    | S fuel' =>
        match end_time p with
        | None => ([], Exception_)
        | Some e =>
            if Qltb e tt2 && more n1 then
              let n1' := n1 + per_block in
              let (ev, r) :=
                match read_gem (block n1) with
                | Skipped | Block [] _ _ _ => read_more fuel' n1' tt2 p pbs
                | Raises => ([], Exception_)
                | Block st m g pb =>
                    let (ev, r) := read_more fuel' n1' tt2 (merge_gaps (p ++ st)) (pbs ++ pb) in
                    (Meta m :: Gps g :: ev, r)         (* the selection of GPS rows is not used here (307-310) *)
                end in
              (Read (block n1) :: ev, r)
            else ([], Returns (n1, p, pbs))
        end
    end.

  (** [_write_hourlong_mseed] (338-356): the traces written, and the next [hour_to_write]. *)
  Definition write_hour (p : stream) (hour : Q) : stream * Q :=
    let hour_end := trunc hour flen + flen in
    (slice p hour (hour_end - eps), hour_end).

  (** Loops 313-321 ([final = false]) and 327-334 ([final = true]). *)
  Fixpoint write_files (fuel : nat) (final : bool) (p : stream) (hour : Q) : list event * ending (stream * Q) :=
    match fuel with
    | O => ([], OutOfFuel)
    | S fuel' =>
        match end_time p with
        | None => ([], Exception_)
        | Some e =>
            if Qle_bool (if final then hour else hour + flen) e then
              let (out, hour_end) := write_hour p hour in
              let (ev, r) :=
                match trim p hour_end t2 with
                | None => ([], Exception_)
                | Some p' =>
                    match start_time p' with
                    | None => ([], Returns (p', hour_end))
                    | Some s => write_files fuel' final p' s
                    end
                end in
              (map Write out ++ ev, r)
            else ([], Returns (p, hour))
        end
    end.

  (** Loop 270-325, then 327-335. *)
  Fixpoint main_loop (fuel fuel2 : nat) (n1 t1 : Q) (p : stream) (hour : Q) (pbs : list P) : list event * ending (list P) :=
    match fuel with
    | O => ([], OutOfFuel)
    | S fuel' =>
        if negb (more n1) || Qltb t2 t1 then
          match write_files fuel2 true p hour with
          | (ev, Returns _) => (ev, Returns pbs)
          | (ev, Exception_) => (ev, Exception_)
          | (ev, OutOfFuel) => (ev, OutOfFuel)
          end
        else
          let tt2 := Qmin2 t2 (trunc t1 (day * blockdays) + day * blockdays) in
          match read_more fuel2 n1 tt2 p pbs with
          | (ev, Exception_) => (ev, Exception_)
          | (ev, OutOfFuel) => (ev, OutOfFuel)
          | (ev, Returns (n1', p', pbs')) =>
              match write_files fuel2 false p' hour with
              | (ev', Exception_) => (ev ++ ev', Exception_)
              | (ev', OutOfFuel) => (ev ++ ev', OutOfFuel)
              | (ev', Returns (p'', hour')) =>
                  match trim p'' hour' t2 with
                  | None => (ev ++ ev', Exception_)
                  | Some p''' =>
                      let t1' := trunc (tt2 + day * blockdays + second) (day * blockdays) in
                      let (ev'', r) := main_loop fuel' fuel2 n1' t1' p''' hour' pbs' in
                      (ev ++ ev' ++ ev'', r)
                  end
              end
          end
    end.

  (** [convert] from 184 on. *)
  Definition convert (fuel : nat) : list event * ending (list P) :=
    match nums with
    | [] => ([], Exception_)
    | n :: _ =>
        match first_block fuel (inject_Z n) with
        | (ev, Exception_) => (ev, Exception_)
        | (ev, OutOfFuel) => (ev, OutOfFuel)
        | (ev, Returns (n1, (st, m, g, pb))) =>
            let p := match t1_arg with None => merge_gaps st | Some _ => st end in           (* 203, 217 *)
            match start_time p with
            | None => (ev, Exception_)
            | Some s =>
                let t1 := match t1_arg with None => inject_Z (qceil (s / second)) * second | Some t => t end in
                let (ev', r) := main_loop fuel fuel n1 t1 p (Qmax2 t1 s) pb in
                (ev ++ Meta m :: Gps (filter (fun x => Qltb (t1 - second) (gps_time x)) g) :: ev', r)
            end
        end
    end.
End Convert.

Arguments Skipped {M G P}.
Arguments Raises {M G P}.
Arguments Block {M G P} _ _ _ _.
Arguments Read {M G} _.
Arguments Meta {M G} _.
Arguments Gps {M G} _.
Arguments Write {M G} _.
Arguments Returns {A} _.
Arguments Exception_ {A}.
Arguments OutOfFuel {A}.
