(** The huddle test: gemlog/huddle_test.py [verify_huddle_test] (146-829), [unique] (72-74),
    [_metadata_status] (36-57).

    What is kept of a run is what its report lists: the table of results, the errors, warnings and
    notes, and those of the group.  A message is kept as what it is about, without its wording.  Not
    modelled: plots, the pdf, the table of statistics, the texts of information and troubleshooting;
    whether reading positions and waveforms, making the plots and writing the pdf succeeds is an
    argument.  Numbers are exact; a missing value (NaN) is [None]. *)
From Coq Require Import String.
From Coq Require Import ZArith QArith Qround Qabs List Bool.
From Verif Require Import Base Names Process Outliers Windows Stations Select Cli.
Import ListNotations.
Open Scope Z_scope.

Notation cell := (option Q) (only parsing).

(** A row of the file of state-of-health data; the columns that are not used are left out. *)
Record health := mkhealth {
  h_t : cell; h_batt : cell; h_temp : cell; h_a2 : cell; h_a3 : cell; h_fifo : cell; h_over : cell;
  h_gps : cell; h_stack1 : cell; h_idle : cell }.

(** 18-34. *)
Definition fifo_soft_limit : Q := 5.
Definition fifo_hard_limit : Q := 50.
Definition batt_min : Q := 17 # 10.
Definition batt_max : Q := 15.
Definition batt_diff_warning : Q := 1 # 2.
Definition temp_min : Q := - (20).
Definition temp_max : Q := 60.
Definition temp_diff_warning : Q := 5.
Definition group_temp_diff_max : Q := 3 # 2.
Definition A_min : Q := 0.
Definition A_max : Q := 31 # 10.

(** Python's [min] and [max] on a column: the first value, replaced by each later one that compares
    below (above) it.  [None]: the column is empty (ValueError). *)
Definition py_min (l : list cell) : option cell :=
  match l with [] => None | x :: r => Some (fold_left (fun m y => if lt_nan y m then y else m) r x) end.
Definition py_max (l : list cell) : option cell :=
  match l with [] => None | x :: r => Some (fold_left (fun m y => if lt_nan m y then y else m) r x) end.
(** [np.diff]. *)
Definition minus (x y : cell) : cell := match x, y with Some u, Some v => Some (u - v)%Q | _, _ => None end.
Fixpoint diffs (l : list cell) : list cell :=
  match l with x :: (y :: _) as r => minus y x :: diffs r | _ => [] end.
Definition is_zero (x : cell) : bool := match x with Some v => Qeq_bool v 0 | None => false end.
(** The numbers of a column, without the missing values. *)
Definition numbers (l : list cell) : list Q := flat_map (fun x => match x with Some v => [v] | None => [] end) l.
(** How many satisfy a test, over how many there are. *)
Definition share (f : cell -> bool) (l : list cell) (n : Z) : Q := inject_Z (Z.of_nat (length (filter f l))) / inject_Z n.

Inductive check :=
| BatteryMin | BatteryMax | TemperatureMin | TemperatureMax | A2Flat | A2Range | A3Flat | A3Range
| UnusualFifo | ExcessiveFifo | MaxOverruns | UnusedStack | GpsRunTime.
Inductive status := ERROR | WARNING | NOTE | OKAY.

(** 308-315 and 343-350: a lower limit. *)
Definition check_low (limit margin : Q) (v : cell) : status :=
  if lt_nan v (Some limit) then ERROR else if lt_nan v (Some (limit + margin)%Q) then WARNING else OKAY.
(** 318-325 and 352-359: an upper limit. *)
Definition check_high (limit margin : Q) (v : cell) : status :=
  if lt_nan (Some limit) v then ERROR else if lt_nan (Some (limit - margin)%Q) v then WARNING else OKAY.
(** 392-407 and 420-433: the share of differences that are exactly zero. *)
Definition check_flat (l : list cell) : status :=
  let p := share is_zero (diffs l) (Z.of_nat (length l) - 1) in
  if Qltb (99 # 100) p then ERROR else if Qltb (95 # 100) p then WARNING else OKAY.
(** 396, 410-415 and 424, 436-440. *)
Definition check_range (l : list cell) : status :=
  if forallb (fun v => le_nan (Some A_min) v) l && forallb (fun v => le_nan v (Some A_max)) l then OKAY else ERROR.
(** 454-460. *)
Definition check_fifo_soft (l : list cell) : status :=
  if Qltb (1 # 100) (share (fun v => lt_nan (Some fifo_soft_limit) v) l (Z.of_nat (length l))) then NOTE else OKAY.
(** 462-466. *)
Definition check_fifo_hard (l : list cell) : status :=
  if existsb (fun v => lt_nan (Some fifo_hard_limit) v) l then NOTE else OKAY.
(** 471: [any(column)] is true if some value is not zero; NaN is not. *)
Definition check_overruns (l : list cell) : status :=
  if existsb (fun v => negb (is_zero v)) l then WARNING else OKAY.
(** 479-483. *)
Definition check_stack (l m : list cell) : status :=
  if existsb (fun v => le_nan v (Some 30%Q)) l || existsb (fun v => le_nan v (Some 30%Q)) m then WARNING else OKAY.
(** 488-495. *)
Definition gps_lengths (rows : list health) : list cell :=
  filter (fun d => lt_nan (Some 11%Q) d)
    (skipn 10 (diffs (map h_t (filter (fun r => is_zero (h_gps r)) rows)))).
Definition check_gps (rows : list health) : status :=
  if existsb (fun d => lt_nan (Some 180%Q) d) (gps_lengths rows) then WARNING else OKAY.

(** 280-495 for one logger, in the order in which the columns are filled.  [None]: no rows. *)
Definition results (rows : list health) : option (list (check * status)) :=
  match py_min (map h_batt rows), py_max (map h_batt rows), py_min (map h_temp rows), py_max (map h_temp rows) with
  | Some b1, Some b2, Some t1, Some t2 =>
      Some [(BatteryMin, check_low batt_min batt_diff_warning b1);
            (BatteryMax, check_high batt_max batt_diff_warning b2);
            (TemperatureMin, check_low temp_min temp_diff_warning t1);
            (TemperatureMax, check_high temp_max temp_diff_warning t2);
            (A2Flat, check_flat (map h_a2 rows)); (A2Range, check_range (map h_a2 rows));
            (A3Flat, check_flat (map h_a3 rows)); (A3Range, check_range (map h_a3 rows));
            (UnusualFifo, check_fifo_soft (map h_fifo rows)); (ExcessiveFifo, check_fifo_hard (map h_fifo rows));
            (MaxOverruns, check_overruns (map h_over rows));
            (UnusedStack, check_stack (map h_stack1 rows) (map h_idle rows));
            (GpsRunTime, check_gps rows)]
  | _, _, _, _ => None
  end.

(** A message names its logger, except that about the unused stack (480). *)
Record message := mkmessage { about : option bytes; subject : check }.
Definition message_of (sn : bytes) (c : check) : message :=
  mkmessage (match c with UnusedStack => None | _ => Some sn end) c.

(** What is being built: the table of results and the three lists. *)
Record state := mkstate { table : list (bytes * check * status); errors : list message; warnings : list message; notes : list message }.
(** 36-57, and the assignments of "OKAY". *)
Definition put (sn : bytes) (s : state) (cs : check * status) : state :=
  let (c, st) := cs in
  let '(mkstate t e w n) := s in
  let m := message_of sn c in
  match st with
  | ERROR => mkstate (t ++ [(sn, c, st)]) (e ++ [m]) w n
  | WARNING => mkstate (t ++ [(sn, c, st)]) e (w ++ [m]) n
  | NOTE => mkstate (t ++ [(sn, c, st)]) e w (n ++ [m])
  | OKAY => mkstate (t ++ [(sn, c, st)]) e w n
  end.

(** 295: the mean interval between rows, [np.nanmean(np.diff(t))]. *)
Definition interval (rows : list health) : cell :=
  match numbers (diffs (map h_t rows)) with [] => None | l => Some (mean l) end.
(** 285-293: with less than a day's rows (at one per second) the time of the second row is written
    out as a date: IndexError with less than two rows, ValueError if that time is missing. *)
Definition dated (rows : list health) : bool :=
  if Z.of_nat (length rows) <? 86400 then match rows with _ :: r :: _ => match h_t r with Some _ => true | None => false end | _ => false end
  else true.

(** 279-582.  [None]: an exception.  The serial number is written as an integer into the legend (374). *)
Fixpoint individual (read : bytes -> option (list health)) (rest_ok : bytes -> bool) (sns : list bytes) (s : state)
  : option (state * list (bytes * list health)) :=
  match sns with
  | [] => Some (s, [])
  | sn :: r =>
      match read sn with
      | Some rows =>
          if dated rows && is_int sn && rest_ok sn then
            match results rows with
            | Some l =>
                match individual read rest_ok r (fold_left (put sn) l s) with
                | Some (s', m) => Some (s', (sn, rows) :: m)
                | None => None
                end
            | None => None
            end
          else None
      | None => None
      end
  end.

Inductive group_message :=
| OneLogger | StartsLate (sn : bytes) | StopsEarly (sn : bytes) | TimesAgree
| Temperatures (sns : list bytes) (column : Z) | LagsNonzero | LagsZero.

(** [Series.min], [Series.max]: missing values are passed over; NaN if there are no others. *)
Definition series_min (l : list cell) : cell :=
  match numbers l with [] => None | x :: r => Some (fold_left (fun m y => if Qltb y m then y else m) r x) end.
Definition series_max (l : list cell) : cell :=
  match numbers l with [] => None | x :: r => Some (fold_left (fun m y => if Qltb m y then y else m) r x) end.
Definition plus (x : cell) (q : Q) : cell := match x with Some v => Some (v + q)%Q | None => None end.

(** 626-640; [None]: a logger without rows. *)
Fixpoint spans (loggers : list (bytes * list health)) : option (list (bytes * cell * cell)) :=
  match loggers with
  | [] => Some []
  | (sn, rows) :: r =>
      match py_min (map h_t rows), py_max (map h_t rows), spans r with
      | Some a, Some e, Some l => Some ((sn, a, e) :: l)
      | _, _, _ => None
      end
  end.
Definition max_secs : Q := 1200.
(** 648-655. *)
Definition times_messages (lo hi : cell) (l : list (bytes * cell * cell)) : list group_message :=
  flat_map (fun x : bytes * cell * cell => let '(sn, a, e) := x in
    (if le_nan a (plus lo max_secs) then [] else [StartsLate sn]) ++
    (if le_nan (plus hi (- max_secs)) e then [] else [StopsEarly sn])) l.

(** [np.argmin]: the place of the first missing value, or of the first smallest. *)
Fixpoint argmin_from (l : list cell) (k best : Z) (v : cell) : Z :=
  match l with
  | [] => best
  | x :: r =>
      match v, x with
      | None, _ => best
      | Some _, None => k
      | Some q, Some u => if Qltb u q then argmin_from r (k + 1) k x else argmin_from r (k + 1) best v
      end
  end.
Definition argmin (l : list cell) : option Z := match l with [] => None | x :: r => Some (argmin_from r 1 0 x) end.
(** 680-686: the place nearest to a time. *)
Definition nearest (rows : list health) (t : Q) : option Z :=
  argmin (map (fun r => match h_t r with Some u => Some (Qabs (t - u)) | None => None end) rows).

(** [np.arange(a, e, step)] has this many elements, [a + k * step]. *)
Definition arange_len (a e step : Q) : Z := Z.max 0 (Qceiling ((e - a) / step)).
Definition range (n : Z) : list Z := map Z.of_nat (seq 0 (Z.to_nat n)).
(** [series[q]] for a column with labels 0, 1, ...; [None]: KeyError. *)
Definition label (l : list cell) (q : Q) : option cell :=
  if Qeq_bool q (inject_Z (Qfloor q)) && (0 <=? Qfloor q) then nth_error l (Z.to_nat (Qfloor q)) else None.
Fixpoint all_some {A} (l : list (option A)) : option (list A) :=
  match l with
  | [] => Some []
  | Some x :: r => match all_some r with Some m => Some (x :: m) | None => None end
  | None :: _ => None
  end.
Definition check_interval : Q := 60.
(** [check_interval / int(x)]: ValueError for NaN, ZeroDivisionError for 0. *)
Definition width (x : cell) : option Q :=
  match x with
  | Some v => if py_trunc v =? 0 then None else Some (check_interval / inject_Z (py_trunc v))%Q
  | None => None
  end.
(** 676-698: the temperatures of a logger that are compared; [columns] is the number of columns of
    the table (IndexError if there are more temperatures). *)
Definition sampled (t1 t2 : Q) (columns : Z) (rows : list health) : option (list cell) :=
  match width (interval rows), nearest rows t1, nearest rows t2 with
  | Some step, Some i, Some j =>
      let n := arange_len (inject_Z i) (inject_Z j) step in
      if columns <? n then None
      else all_some (map (fun k => label (map h_temp rows) (inject_Z i + inject_Z k * step)) (range n))
  | _, _, _ => None
  end.

(** [np.round(x, 2)]: to the nearest hundredth, halves to the even one. *)
Definition rint (x : Q) : Z :=
  let f := Qfloor x in
  let d := (x - inject_Z f)%Q in
  if Qltb d (1 # 2) then f else if Qltb (1 # 2) d then f + 1 else if Z.even f then f else f + 1.
Definition round2 (x : Q) : Q := inject_Z (rint (x * 100)) / 100.
(** 703, 707: who is far from the rounded median of a column (of which missing values are no part). *)
Definition far_from_median (c : Z) (temps : list (bytes * list cell)) : list bytes :=
  let at_c := map (fun x : bytes * list cell => (fst x, nth (Z.to_nat c) (snd x) None)) temps in
  match numbers (map snd at_c) with
  | [] => []
  | l => map fst (filter (fun x : bytes * cell => match snd x with Some v => Qltb group_temp_diff_max (Qabs (v - round2 (median l))) | None => false end) at_c)
  end.
(** 701-714; [times]: how many times there are to look up (711; IndexError). *)
Fixpoint temperature_messages (times : Z) (temps : list (bytes * list cell)) (columns : list Z) : option (list group_message) :=
  match columns with
  | [] => Some []
  | c :: r =>
      match far_from_median c temps, temperature_messages times temps r with
      | [], m => m
      | x, Some m => if times <=? c then None else Some (Temperatures x c :: m)
      | _, None => None
      end
  end.

(** 660-673: when the comparison begins and ends, and in how many columns; [None]: an exception (674:
    [max] of no columns). *)
Definition comparison (lo hi : cell) (loggers : list (bytes * list health)) : option (Q * Q * Z) :=
  match py_min (map (fun x => interval (snd x)) loggers) with
  | Some least =>
      match width least, lo, hi with
      | Some w, Some a, Some e =>
          let t1 := (a - Qmod a w)%Q in
          let t2 := (e - Qmod e w - check_interval * 10)%Q in
          let n := py_trunc ((t2 - t1) / w) in
          if n <=? 0 then None else Some (t1, t2, n)
      | _, _, _ => None
      end
  | None => None
  end.
(** 658-714. *)
Definition temperatures (lo hi : cell) (loggers : list (bytes * list health)) : option (list group_message) :=
  match comparison lo hi loggers with
  | None => None
  | Some (t1, t2, n) =>
      match all_some (map (fun x : bytes * list health => sampled t1 t2 n (snd x)) loggers), width (interval (snd (last loggers ([], [])))) with
      | Some temps, Some step => temperature_messages (arange_len t1 t2 step) (combine (map fst loggers) temps) (range n)
      | _, _ => None
      end
  end.

(** One window of [check_lags]: its consistency, and the correlations and lags of the pairs. *)
Record window := mkwindow { w_consistency : cell; w_coef : list Q; w_lag : list cell }.
(** 726-738.  Without coherent windows the quotient is NaN, which is not below 0.8. *)
Definition coherent (w : window) : bool := is_zero (w_consistency w) && Qltb (8 # 10) (median (w_coef w)).
Definition lag_message (ws : list window) : group_message :=
  let c := filter coherent ws in
  match c with
  | [] => LagsZero
  | _ => if Qltb (inject_Z (Z.of_nat (length (filter (fun w => forallb is_zero (w_lag w)) c))) / inject_Z (Z.of_nat (length c))) (8 # 10)
         then LagsNonzero else LagsZero
  end.

Record report := mkreport { individual_part : state; group_errors : list group_message; group_warnings : list group_message; group_notes : list group_message }.

(** 604-738; [lags] is [None] if the cross-correlations are not asked for, and gives [None] for an
    exception.  That only individual tests were asked for adds a warning and changes nothing else
    (618-621). *)
Definition group (individual_only : bool) (lags : option (option (list window))) (s : state) (loggers : list (bytes * list health)) : option report :=
  match spans loggers with
  | None => None
  | Some sp =>
      let lo := series_min (map (fun x => snd (fst x)) sp) in
      let hi := series_max (map snd sp) in
      let times := times_messages lo hi sp in
      let note := match times with [] => [TimesAgree] | _ => [] end in
      let warn := if (length loggers =? 1)%nat || individual_only then [OneLogger] else [] in
      match temperatures lo hi loggers with
      | None => None
      | Some temps =>
          match lags with
          | None => Some (mkreport s (times ++ temps) warn note)
          | Some None => None
          | Some (Some ws) =>
              match lag_message ws with
              | LagsZero => Some (mkreport s (times ++ temps) warn (note ++ [LagsZero]))
              | m => Some (mkreport s (times ++ temps ++ [m]) warn note)
              end
          end
      end
  end.

(** [filename[-14:-11]] (236). *)
Definition serial_of (filename : bytes) : bytes :=
  let n := length filename in skipn (n - 14) (firstn (n - 11) filename).
Fixpoint distinct (l : list bytes) : bool :=
  match l with [] => true | x :: r => negb (existsb (eqb_bytes x) r) && distinct r end.
(** 235-237.  [glob(path + '/gps/*')] passes over names that begin with a dot. *)
Definition loggers_of (path : bytes) (gps_names sns exclude : list bytes) : list bytes :=
  filter (fun sn => negb (existsb (eqb_bytes sn) exclude))
    (match sns with
     | [] => unique_sorted (map (fun n => serial_of (path ++ b "/gps/" ++ n)) (filter (fun n => negb (starts_with (b ".") n)) gps_names))
     | _ => sns
     end).

(** 146-829.  [folders]: the three folders are there (227-232).  Without loggers no plot can be made
    (266), and a logger given twice makes the first comparison fail (308). *)
Definition verify (read_file : bytes -> option (list health)) (rest_ok : bytes -> bool) (find_lags : list bytes -> option (list window))
    (folders : bool) (path : bytes) (gps_names sns exclude : list bytes) (individual_only run_xc : bool) : option report :=
  let l := loggers_of path gps_names sns exclude in
  if folders && negb (match l with [] => true | _ => false end) && distinct l then
    match individual (fun sn => read_file (path ++ b "/metadata/" ++ sn ++ b "metadata_000.txt")) rest_ok l (mkstate [] [] [] []) with
    | Some (s, loggers) => group individual_only (if run_xc then Some (find_lags l) else None) s loggers
    | None => None
    end
  else None.
