(** How the commands end: gemlog/gemconvert.py [convert_single_SN] (24-49), [parse_error] (65-72) and the pool of
    processes in [main] (222-226); gemlog/gem_cat.py [main] (171-208); gemlog/huddle_test.py [main] (863-891).

    The conversion of one serial number (core.py [convert]) is seen here only by its end; what it writes is in
    Workers.v.  Of the log, the lines written by [convert_single_SN] are modelled, as values instead of texts; not
    modelled: time stamps, tracebacks, what [main] logs before, what is printed, and an interruption of the parent.
    The processes are taken to inherit the log of the parent (the start method "fork"). *)
From Coq Require Import String.
From Coq Require Import ZArith List Bool.
From Verif Require Import Base Names Stations Select Cli.
Import ListNotations.
Open Scope Z_scope.

(** * [parse_error] *)

(** 67, 69: Python's [s.find(sub)]; [None] is -1. *)
Fixpoint py_find (sub s : bytes) : option Z :=
  if starts_with sub s then Some 0
  else match s with [] => None | _ :: r => match py_find sub r with Some k => Some (k + 1) | None => None end end.
(** 67, 69: [e.find(..) > 0]. *)
Definition found_at_positive (sub s : bytes) : bool := match py_find sub s with Some k => 0 <? k | None => false end.
Definition too_large : bytes := b "Tried to allocate very large data array, probably due to large time gap between adjacent files".
Definition malformed : bytes := b "Suspected malformed file".
(** 65-72. *)
Definition parse_error (e : bytes) : bytes :=
  if found_at_positive (b "Unable to allocate") e then too_large
  else if found_at_positive (b "NULLType") e then malformed
  else e.

(** * [convert_single_SN] *)

(** How [gemlog.convert] ends (30): it returns a list of problems, raises, or is interrupted from the keyboard. *)
Inductive result := Converted (problems : list bytes) | Failed (message : bytes) | Stopped.
Inductive line := Beginning (sn : bytes) | Problems (l : list bytes) | Error (message : bytes) | Fatal (sn : bytes) | Interrupt | Completed (sn : bytes).
(** 24-49: the lines logged, in order. *)
Definition log_of (sn : bytes) (r : result) : list line :=
  Beginning sn ::
  match r with
  | Converted [] => [Completed sn]
  | Converted l => [Problems l; Completed sn]
  | Failed e => [Error (parse_error e); Fatal sn; Completed sn]
  | Stopped => [Interrupt]                                                 (* 34-37: [sys.exit] *)
  end.

(** * The pool (222-226) *)

(** [ProcessPoolExecutor(max_workers = n)]: tasks are begun in order, at most [n] at a time; each process logs its lines
    in order.  A worker process that dies (killed, out of memory) breaks the pool: nothing more is begun, and the
    processes that still run are ended.  (A worker that dies before all tasks are submitted is not modelled.) *)
Record pool := mkpool { waiting : list (list line); running : list (list line); logged : list line; broken : bool }.
Inductive action := Begin | Log (i : nat) | End_task (i : nat) | Die.
Fixpoint without_nth {A} (i : nat) (l : list A) : list A :=
  match l, i with [], _ => [] | _ :: r, O => r | x :: r, S j => x :: without_nth j r end.
Fixpoint set_nth {A} (i : nat) (x : A) (l : list A) : list A :=
  match l, i with [], _ => [] | _ :: r, O => x :: r | y :: r, S j => y :: set_nth j x r end.
Definition act (n : nat) (p : pool) (a : action) : option pool :=
  if broken p then None
  else match a with
  | Begin => match waiting p with
             | t :: w => if Nat.ltb (length (running p)) n then Some (mkpool w (running p ++ [t]) (logged p) false) else None
             | [] => None
             end
  | Log i => match nth_error (running p) i with
             | Some (x :: t) => Some (mkpool (waiting p) (set_nth i t (running p)) (logged p ++ [x]) false)
             | _ => None
             end
  | End_task i => match nth_error (running p) i with
             | Some [] => Some (mkpool (waiting p) (without_nth i (running p)) (logged p) false)
             | _ => None
             end
  | Die => match running p with [] => None | _ => Some (mkpool (waiting p) [] (logged p) true) end
  end.
Fixpoint acts (n : nat) (p : pool) (l : list action) : option pool :=
  match l with [] => Some p | a :: r => match act n p a with Some p' => acts n p' r | None => None end end.
Definition start (tasks : list (list line)) : pool := mkpool tasks [] [] false.
(** The [with] block is left when every task has ended, or the pool is broken. *)
Definition over (p : pool) : bool := broken p || match waiting p, running p with [], [] => true | _, _ => false end.

(** * The commands *)

(** [main] of gemconvert: status and tasks.  94, 100, 147, 159, 171: [sys.exit]; an exception that is not caught gives
    status 1; [ProcessPoolExecutor] raises ValueError if the number of processes is not positive.  The results of the
    tasks are never asked for (226), so whatever happens to them, the command ends with status 0. *)
Definition gemconvert (list_dir : bytes -> option (list bytes)) (read_codes : bytes -> option (list row))
    (convert : settings -> bytes -> bytes * (bytes * bytes * bytes) -> result) (argv : list bytes) : Z * option (nat * list (list line)) :=
  match main list_dir read_codes argv with
  | Usage => (2, None)
  | Help | NoFolder | NothingToDo | BadCodes => (0, None)
  | Crash => (1, None)
  | Plan jobs s out =>
      if test s then (0, None)
      else if processes s <=? 0 then (1, None)
      else (0, Some (Z.to_nat (processes s), map (fun j => log_of (fst j) (convert s out j)) jobs))
  end.

(** gem_cat.py 178: "hi:o:e:". *)
Definition gem_cat_options : options := mkoptions (b "h") (b "ioe") [].
(** 182-191. *)
Record cat_choice := mkcat { cat_in : bytes; cat_out : bytes; cat_ext : bytes }.
Definition cat_option (s : cat_choice) (oa : bytes * bytes) : option cat_choice :=
  let (o, a) := oa in
  if is_opt o [b "-h"; b "--help"] then None
  else Some (
    if is_opt o [b "-i"; b "--inputdir"] then mkcat a (cat_out s) (cat_ext s)
    else if is_opt o [b "-o"; b "--outputdir"] then mkcat (cat_in s) a (cat_ext s)
    else if is_opt o [b "-e"; b "--ext"] then mkcat (cat_in s) (cat_out s) a
    else s).
Fixpoint cat_options (s : cat_choice) (l : list (bytes * bytes)) : option cat_choice :=
  match l with [] => Some s | oa :: r => match cat_option s oa with Some s' => cat_options s' r | None => None end end.
(** 171-208: status, and what [gem_cat] is called with (input, output, ext, cat_all), if it is.  [None] of [list_dir]:
    an exception. *)
Definition gem_cat_main (list_dir : bytes -> option (list bytes)) (succeeds : bytes * bytes * bytes * bool -> bool) (argv : list bytes)
  : Z * option (bytes * bytes * bytes * bool) :=
  match getopt gem_cat_options (length argv) argv with
  | None => (2, None)
  | Some opts =>
      match cat_options (mkcat (b "raw") (b "raw_merged") []) opts with
      | None => (0, None)
      | Some s =>
          match list_dir (cat_in s) with
          | None => (0, None)                                              (* 194-198 *)
          | Some [] => (0, None)                                           (* 199-201 *)
          | Some _ =>
              let call := (cat_in s, cat_out s, cat_ext s, false) in
              if succeeds call then (0, Some call)                         (* 208 *)
              else (0, Some call)                                          (* 204-206: [sys.exit()] *)
          end
      end
  end.

(** huddle_test.py 872: "hdti:s:x:o:f:l:p:", ["inputdir=","serialnumber="]. *)
Definition huddle_options : options := mkoptions (b "hdt") (b "isxoflp") [b "inputdir="; b "serialnumber="].
Record huddle_choice := mkhc { hc_in : bytes; hc_sns : list bytes; hc_exclude : list bytes }.
(** 876-889. *)
Definition huddle_option (s : huddle_choice) (oa : bytes * bytes) : option huddle_choice :=
  let (o, a) := oa in
  if is_opt o [b "-h"; b "--help"] then None
  else Some (
    if is_opt o [b "-d"; b "--debug"] then s
    else if is_opt o [b "-i"; b "--inputdir"] then mkhc a (hc_sns s) (hc_exclude s)
    else if is_opt o [b "-s"; b "--serialnumbers"] then mkhc (hc_in s) (split_on 44 a) (hc_exclude s)
    else if is_opt o [b "-x"; b "--exclude_serialnumbers"] then mkhc (hc_in s) (hc_sns s) (split_on 44 a)
    else s).
Fixpoint huddle_choices (s : huddle_choice) (l : list (bytes * bytes)) : option huddle_choice :=
  match l with [] => Some s | oa :: r => match huddle_option s oa with Some s' => huddle_choices s' r | None => None end end.
(** 863-891: status, and what [verify_huddle_test] is called with, if it is.  An exception there gives status 1. *)
Definition huddle_main (succeeds : huddle_choice -> bool) (argv : list bytes) : Z * option huddle_choice :=
  match getopt huddle_options (length argv) argv with
  | None => (2, None)
  | Some opts =>
      match huddle_choices (mkhc (b ".") [] []) opts with
      | None => (0, None)
      | Some s => (if succeeds s then 0 else 1, Some s)
      end
  end.
