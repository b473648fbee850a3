(** Model of the instrument constants and of WAV export: gemlog/core.py [__AVCC__], [__gain__] (1347-1357),
    [get_gem_specs] (1359-1385), [get_bitweight_info] (1389-1408), the bit weight chosen by [convert] (206-212), and
    [write_wav] (358-390).  Doubles are rationals; NaN is [None]. *)
From Coq Require Import String.
From Coq Require Import ZArith QArith Qabs Qround List Bool.
From Verif Require Import Base Names.
Import ListNotations.
Open Scope Q_scope.

(** 1347-1351 *)
Definition avcc (version : Q) : Q := if Qle_bool (90 # 100) version then 31 # 10 else 3373 # 1000.
(** 1353-1357 *)
Definition gain (version : Q) : Q := if Qle_bool (98 # 100) version then 1 + 50 / (470 # 1000) else 1 + (494 # 10) / (470 # 1000).

(** 1375-1378: version, first and last serial number ([None]: infinity). *)
Definition version_table : list (Q * Z * option Z) :=
  [(5#10, 3%Z, Some 7%Z); (7#10, 8%Z, Some 14%Z); (8#10, 15%Z, Some 19%Z); (82#100, 20%Z, Some 37%Z);
   (9#10, 38%Z, Some 40%Z); (91#100, 41%Z, Some 43%Z); (92#100, 44%Z, Some 46%Z); (98#100, 47%Z, Some 49%Z);
   (99#100, 50%Z, Some 51%Z); (991#1000, 52%Z, Some 54%Z); (992#1000, 55%Z, Some 57%Z); (1, 58%Z, Some 107%Z);
   (101#100, 108%Z, None)].
Definition row_applies (sn : Z) (r : Q * Z * option Z) : bool :=
  match r with (_, lo, hi) => (lo <=? sn)%Z && match hi with Some h => (sn <=? h)%Z | None => true end end.

Record specs := mkspecs { s_version : Q; s_bw_V : Q; s_bw_Pa : Q }.

(** 1379-1385.  [sn] is [int(SN)]; the first matching row; [None] is the IndexError of [[0]] on an empty array. *)
Definition get_gem_specs (sn : Z) : option specs :=
  match filter (row_applies sn) version_table with
  | [] => None
  | (v, _, _) :: _ =>
      let bw := (256 # 1000) / inject_Z (2 ^ 15) / gain v in
      let sensitivity := avcc v / 7 * (4513 # 100000000) in
      Some (mkspecs v bw (bw / sensitivity))
  end.

Definition upper (s : bytes) : bytes := map (fun c => if (97 <=? c)%Z && (c <=? 122)%Z then (c - 32)%Z else c) s.

(** 1389-1408.  [None] is an exception. *)
Definition get_bitweight_info (sn adc_range : Z) (units : bytes) : option (specs * Q) :=
  match (if (adc_range =? 0)%Z then Some 1 else if (adc_range =? 1)%Z then Some 2 else None) with
  | None => None
  | Some m =>
      match get_gem_specs sn with
      | None => None
      | Some s =>
          let s' := mkspecs (s_version s) (s_bw_V s * m) (s_bw_Pa s * m) in
          if eqb_bytes (upper units) (b "PA") then Some (s', s_bw_Pa s')
          else if eqb_bytes (upper units) (b "V") then Some (s', s_bw_V s')
          else if eqb_bytes (lower units) (b "counts") then Some (s', 1)
          else None
      end
  end.

(** [convert] 206-212: [given] is the argument (NaN by default), [info] the header of the first block read, which
    comes from [get_bitweight_info(SN, config)] (536).  [None] is NaN. *)
Definition convert_bitweight (given : option Q) (units : bytes) (info : specs) : option Q :=
  match given with
  | Some w => Some w
  | None =>
      if eqb_bytes units (b "Pa") then Some (s_bw_Pa info)
      else if eqb_bytes units (b "V") then Some (s_bw_V info)
      else if eqb_bytes units (b "Counts") || eqb_bytes units (b "counts") then Some 1
      else None
  end.

(** * WAV export *)
Definition sumQ (l : list Q) : Q := fold_right Qplus 0 l.
Definition meanQ (l : list Q) : Q := sumQ l / inject_Z (Z.of_nat (length l)).
(** [np.abs(x).max()]; the caller checks that [x] is not empty. *)
Definition max_abs (l : list Q) : Q := fold_right (fun x m => if Qle_bool m (Qabs x) then Qabs x else m) 0 l.

(** Division of doubles: [None] is NaN or an infinity. *)
Definition qdiv (x y : Q) : option Q := if Qeq_bool y 0 then None else Some (x / y).

(** 381-390: the samples left in the trace, and the file written (rate and samples), [None] if an exception was
    raised: an empty trace (the maximum fails) or a sampling rate that is not an integer. *)
Definition write_wav (rate : Q) (x : list Q) : list (option Q) * option (Z * list (option Q)) :=
  match x with
  | [] => ([], None)
  | _ =>
      let c := map (fun v => v - meanQ x) x in
      let ref := max_abs c in
      let y := if Qltb 0 ref then map (fun v => qdiv v ref) c else map Some c in
      let n := if Qle_bool 0 rate then Qfloor rate else Qceiling rate in       (* int(): towards zero *)
      (y, if Qeq_bool (inject_Z n) rate then Some (n, y) else None)
  end.
