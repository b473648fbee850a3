(** Model of gemlog/core.py [read_gem] (430-547) as [convert] calls it (195, 279): the choice of the files
    (Select.v), joining them (ReadSeveral.v with Process.v and Drift.v), times and resampling (Breaks.v) and bit
    weights (Specs.v) put together.
    polyfit, CubicSpline, sscanf and the pandas readers are parameters; station, network and location codes, the
    printed messages and the debugging output are left out. *)
From Coq Require Import String.
From Coq Require Import ZArith QArith Qround List Bool.
From Verif Require Import Base Scan Process ReadSeveral Drift Segments Interp Stream Convert Select Specs Fields Breaks.
Import ListNotations.
Open Scope Z_scope.

(** What [read_gem] returns: stream and tables of [_assign_times], the problems, and the bit weights (536-543). *)
Record gem := mkgem { g_times : assigned; g_problems : list (message entry); g_specs : specs }.

(** A trace on the sampling grid: [Interp] rounds the start to 0.01 s (1308). *)
Definition to_grid (tr : trace) : gtrace := mkg (Qfloor (tr_start tr * 100)) (tr_data tr).

Section ReadGem.
  Variable sc : scanner.
  Variable buf0 : bytes.
  Variable ear : bool.
  Variable fit3 : list point -> option cubic.
  Variable fit1 : list point -> option linear.
  Variable spline : list (Q * option Q) -> option (Q -> Q).
  Variable content : entry -> raw_file.                 (* what reading the file gives *)
  Variable adc_range : entry -> Z.                      (* from [_read_config] (601-618) *)
  Variable now : Q.
  Variable require_gps : bool.                          (* [convert] leaves it at its default, True *)

  (** Lines 508-511: [None] is the default format 0.9. *)
  Definition as_version (v : option bytes) : string :=
    match v with None => "0.9" | Some v => if eqb_bytes v (b "0.85") then "0.85" else "0.8" end.

  Definition joined_files := joined entry hinfo bytes.

  Definition join (v : option bytes) (fl : list entry) : option joined_files :=
    ReadSeveral.read_several entry hinfo bytes (fun e => read_raw sc buf0 ear (content e)) (fun L _ r => calculate_drift fit3 fit1 L r) e_sn
      (as_version v) require_gps fl.

  (** Lines 519-543; [sn] is the argument and [first] the first file with a readable format line.  [int(SN)] (1379) is
      modelled for a serial number of digits. *)
  Definition finish_block (sn : bytes) (first : option entry) (j : joined_files) : option (gem + trouble) :=
    match assign_times spline entry bytes now (mkj (jdata j) (jmeta j) (filled (jgps j)) (jheader j) (jproblems j)) with
    | inr t => Some (inr t)
    | inl a =>
        match first with
        | None => None
        | Some f =>
            match get_bitweight_info (val_digits (map (fun c => c - 48) sn)) (adc_range f) (b "Pa") with
            | None => None
            | Some (s, _) => Some (inl (mkgem a (jproblems j) s))
            end
        end
    end.

  (** [read_gem] (430-547). *)
  Definition read_files (d : list entry) (sn : bytes) (nums : list Z) : result (gem + trouble) :=
    Select.read_gem (joined_files * option entry) (gem + trouble)
      (fun v fl => match join v fl with Some j => Some (j, hd_error fl) | None => None end)
      (fun j => match jdata (fst j) with [] => false | _ => true end)
      (fun j => finish_block sn (snd j) (fst j)) d sn nums.

  (** What the loops of [convert] make of it (194-200, 278-286): MissingRawFiles and CorruptRawFile (with its
      subclasses, exceptions.py 11-29) skip the block, everything else ends the conversion. *)
  Definition block_outcome (r : result (gem + trouble)) : outcome (option Q * list (option Q)) position (message entry) :=
    match r with
    | NoFiles | AllCorrupt | NoUsableGPS | Gives (inr Corrupt_block) => Skipped
    | BadFormat | Fails | Gives (inr Other_trouble) => Raises
    | Gives (inl g) => Block (map to_grid (a_data (g_times g))) (a_meta (g_times g)) (a_gps (g_times g)) (g_problems g)
    end.
End ReadGem.

(** Time of a GPS row (263), in sampling intervals. *)
Definition position_time (p : position) : Q := inject_Z (p_t p * 100).
