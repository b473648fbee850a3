(** Model of the names of output files: gemlog/core.py [_make_filename] (396-402), [_make_filename_converted]
    (405-408), and gemlog/gem_network.py [_fix_file_name_digits] (365-373) with the names made by [rename_files]
    (322-336). *)
From Coq Require Import String.
From Coq Require Import ZArith List Bool.
From Verif Require Import Base Scan CalendarSpec.
Import ListNotations.
Open Scope Z_scope.

(** core.py 398, 401: [dir + '/' + SN + dirtype + '_' + f'{n:03}' + '.txt']; [pre] is [dir + '/' + SN + dirtype]. *)
Definition log_name (pre : bytes) (n : Z) : bytes := pre ++ b "_" ++ pad 3 n ++ b ".txt".

(** core.py 399-402.  [taken] lists the existing paths; the fuel, one more than their number, suffices
    (C23_log_name). *)
Definition exists_path (taken : list bytes) (p : bytes) : bool := existsb (eqb_bytes p) taken.
Fixpoint next_log (fuel : nat) (taken : list bytes) (pre : bytes) (n : Z) : option bytes :=
  match fuel with
  | O => None
  | S k => if exists_path taken (log_name pre n) then next_log k taken pre (n + 1) else Some (log_name pre n)
  end.
Definition make_filename (taken : list bytes) (pre : bytes) : option bytes := next_log (S (length taken)) taken pre 0.

(** [str.lower] (ASCII). *)
Definition lower (s : bytes) : bytes := map (fun c => if (65 <=? c) && (c <=? 90) then c + 32 else c) s.

(** core.py 405-408.  The start time of the trace is a date-time and microseconds; [id] is obspy's
    network.station.location.channel. *)
Definition converted_name (t : datetime) (microsecond : Z) (id format : bytes) : bytes :=
  pad 4 (year t) ++ b "-" ++ pad 2 (month t) ++ b "-" ++ pad 2 (day t) ++ b "T" ++ pad 2 (hour t) ++ b "_" ++
  pad 2 (minute t) ++ b "_" ++ pad 2 (second t) ++ b "." ++ id ++ b "." ++ lower format.

(** [str.replace(old, new)] for non-empty [old]: leftmost occurrences, not overlapping.  [skip] counts the characters
    of an occurrence still to be passed over. *)
Fixpoint starts_with (old s : bytes) : bool :=
  match old, s with
  | [], _ => true
  | _ :: _, [] => false
  | a :: o, c :: r => (a =? c) && starts_with o r
  end.
Fixpoint replace_aux (old new : bytes) (skip : nat) (s : bytes) : bytes :=
  match s with
  | [] => []
  | c :: r =>
      match skip with
      | S k => replace_aux old new k r
      | O => if starts_with old s then new ++ replace_aux old new (length old - 1) r else c :: replace_aux old new 0 r
      end
  end.
Definition replace (old new s : bytes) : bytes := replace_aux old new 0 s.

(** gem_network.py 365-373. *)
Definition fix_file_name_digits (fn : bytes) : bytes :=
  let fn := replace (b "{year}") (b "{year:04d}") fn in
  let fn := replace (b "{mon}") (b "{mon:02d}") fn in
  let fn := replace (b "{day}") (b "{day:02d}") fn in
  let fn := replace (b "{hour}") (b "{hour:02d}") fn in
  let fn := replace (b "{min}") (b "{min:02d}") fn in
  let fn := replace (b "{sec}") (b "{sec:02d}") fn in
  replace (b "{jd}") (b "{jd:03d}") fn.

(** [str.format(...)] with keyword arguments, as used in 331-336.  Fields are [{name}] or [{name:0wd}] with one digit
    w; everything else Python may accept between braces, and doubled braces, are not modelled ([None]).
    [field] holds, reversed, what was read since an open brace. *)
Inductive value := Num (n : Z) | Str (s : bytes).
Definition show (v : value) (spec : bytes) : option bytes :=
  match v, spec with
  | Num n, [] => if 0 <=? n then Some (str_Z n) else None
  | Num n, [z; w; d] => if (z =? 48) && is_digit w && (d =? 100) && (0 <=? n) then Some (pad (Z.to_nat (w - 48)) n) else None
  | Str s, [] => Some s
  | _, _ => None
  end.
Fixpoint split_at (c : Z) (s : bytes) : bytes * option bytes :=
  match s with
  | [] => ([], None)
  | x :: r => if x =? c then ([], Some r) else let (h, t) := split_at c r in (x :: h, t)
  end.
Fixpoint lookup (env : list (bytes * value)) (k : bytes) : option value :=
  match env with
  | [] => None
  | (k', v) :: r => if eqb_bytes k k' then Some v else lookup r k
  end.
Definition expand (env : list (bytes * value)) (field : bytes) : option bytes :=
  let (name, spec) := split_at 58 field in
  match lookup env name with
  | None => None
  | Some v => match spec with None => show v [] | Some [] => None | Some sp => show v sp end
  end.
Fixpoint format_aux (env : list (bytes * value)) (field : option bytes) (s : bytes) : option bytes :=
  match s, field with
  | [], None => Some []
  | [], Some _ => None
  | c :: r, None =>
      if c =? 123 then format_aux env (Some []) r
      else if c =? 125 then None
      else match format_aux env None r with Some o => Some (c :: o) | None => None end
  | c :: r, Some f =>
      if c =? 123 then None
      else if c =? 125 then
        match expand env (rev f), format_aux env None r with Some v, Some o => Some (v ++ o) | _, _ => None end
      else format_aux env (Some (c :: f)) r
  end.
Definition format (env : list (bytes * value)) (s : bytes) : option bytes := format_aux env None s.

(** gem_network.py 331-336, with [t] the earliest start time, [jd] its day of the year, and the codes from the
    station table. *)
Definition rename_env (t : datetime) (jd : Z) (net sta loc fmt : bytes) : list (bytes * value) :=
  [(b "year", Num (year t)); (b "mon", Num (month t)); (b "day", Num (day t)); (b "jd", Num jd);
   (b "hour", Num (hour t)); (b "min", Num (minute t)); (b "sec", Num (second t));
   (b "net", Str net); (b "sta", Str sta); (b "loc", Str loc); (b "chan", Str (b "HDF")); (b "fmt", Str fmt)].
Definition renamed (pattern : bytes) (t : datetime) (jd : Z) (net sta loc fmt : bytes) : option bytes :=
  format (rename_env t jd net sta loc fmt) (fix_file_name_digits pattern).
(** gem_network.py 281-282. *)
Definition default_pattern : bytes := b "{year}-{mon}-{day}T{hour}_{min}_{sec}.{net}.{sta}.{loc}.{chan}.{fmt}".
(** The loop 314-338 passes the fixed pattern on to the next file. *)
Fixpoint renamed_all (pattern : bytes) (files : list (datetime * Z * bytes * bytes * bytes * bytes)) : list (option bytes) :=
  match files with
  | [] => []
  | (t, jd, net, sta, loc, fmt) :: r =>
      let pattern' := fix_file_name_digits pattern in
      format (rename_env t jd net sta loc fmt) pattern' :: renamed_all pattern' r
  end.
