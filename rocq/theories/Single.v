(** Model of converting one raw file: gemlog/core.py [_convert_one_file] (1528-1561) and the command
    gemlog/gemconvert_single.py [main] (25-59).
    What is on disk is the argument [disk]; an [entry] stands for a file as in Select.v.  Printing is left out, and so is
    what obspy does when a file is written (1561): the stream and the name are the result. *)
From Coq Require Import String.
From Coq Require Import ZArith QArith Qround List Bool.
From Verif Require Import Base Scan Process ReadSeveral Drift Segments Interp Select Block Cli.
Import ListNotations.
Open Scope Z_scope.

(** [os.path.split(p)[-1]] (1560): what follows the last '/'. *)
Fixpoint base_from (cur : bytes) (p : bytes) : bytes :=
  match p with [] => rev cur | c :: r => if c =? 47 then base_from [] r else base_from (c :: cur) r end.
Definition base_name (p : bytes) : bytes := base_from [] p.

(** MissingRawFiles (1531), CorruptRawFileNoGPS (1542, or 1549, 1551), another exception, an interruption; or a
    stream to write and its name.  CorruptRawFile (1553-1557) is not raised by the functions called. *)
Inductive converted := Not_found | Refused | Broken | Interrupted | Writes (name : bytes) (st : list trace).

Section Single.
  Variable sc : scanner.
  Variable buf0 : bytes.
  Variable ear : bool.
  Variable fit3 : list point -> option cubic.
  Variable fit1 : list point -> option linear.
  Variable spline : list (Q * option Q) -> option (Q -> Q).
  Variable content : entry -> raw_file.
  Variable disk : bytes -> option entry.

  (** 1528-1561.  [L['header'].iloc[0,:]] (1533) is the line of the file; its fit is applied to all samples (1545). *)
  Definition convert_one (input : bytes) (output : option bytes) (require_gps : bool) : converted :=
    match disk input with
    | None => Not_found
    | Some e =>
        match join sc buf0 ear fit3 fit1 content require_gps None [e] with
        | None => Interrupted
        | Some j =>
            match jdata j, jheader j with
            | [], _ => Refused
            | _, [] => Broken
            | D, row :: _ =>
                match interp spline (map (fun p => (Some (apply_fit (fst p) (line row)), snd p)) D) with
                | None => Broken
                | Some st => Writes (match output with Some o => o | None => base_name input ++ b ".mseed" end) st
                end
            end
        end
    end.

  (** gemconvert_single.py 31: "hfi:o:". *)
  Definition single_options : options := mkoptions (b "hf") (b "io") [].
  (** 28-30 and 36-45; [None]: help. *)
  Record choice := mkchoice { input_file : bytes; output_file : option bytes; force : bool }.
  Definition choose (s : choice) (oa : bytes * bytes) : option choice :=
    let (o, a) := oa in
    if is_opt o [b "-h"; b "--help"] then None
    else Some (
      if is_opt o [b "-i"; b "--input_file"] then mkchoice a (output_file s) (force s)
      else if is_opt o [b "-o"; b "--output_file"] then mkchoice (input_file s) (Some a) (force s)
      else if is_opt o [b "-f"; b "--force_conversion"] then mkchoice (input_file s) (output_file s) true
      else s).
  Fixpoint choose_all (s : choice) (l : list (bytes * bytes)) : option choice :=
    match l with [] => Some s | oa :: r => match choose s oa with Some s' => choose_all s' r | None => None end end.

  Inductive ran := Bad_usage | Helped | Ran (c : converted).
  (** 25-59; exceptions are printed (58-59). *)
  Definition single_main (argv : list bytes) : ran :=
    match getopt single_options (length argv) argv with
    | None => Bad_usage
    | Some opts =>
        match choose_all (mkchoice [] None false) opts with
        | None => Helped
        | Some s => Ran (convert_one (input_file s) (output_file s) (negb (force s)))
        end
    end.
End Single.
