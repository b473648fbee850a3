(** Summaries of converted files: gemlog/gemlog_aux.py [make_db] (102-148), [calc_channel_stats] (154-203) and
    [check_lags] (32-68).

    What obspy and numpy compute from samples (detrending, high-pass and standard deviation; correlation and its maximum;
    slicing) are parameters.  Times are whole nanoseconds, as in UTCDateTime.  Not modelled: progress messages, the index
    of the table, saving it. *)
From Coq Require Import String.
From Coq Require Import ZArith QArith List Bool.
From Verif Require Import Base Names Select Stations.
Import ListNotations.
Open Scope Z_scope.

(** A trace of a converted file. *)
Record trace := mktrace { tr_station : bytes; tr_location : bytes; tr_start : Z; tr_end : Z; tr_data : list Q }.
(** A row of the database (140). *)
Record row := mkrow { r_file : bytes; r_station : bytes; r_location : bytes; r_amp : Q; r_max : Q; r_min : Q; r_t1 : Z; r_t2 : Z }.

(** numpy's [max] and [min]; [None]: ValueError for no samples. *)
Definition np_max (l : list Q) : option Q :=
  match l with [] => None | x :: r => Some (fold_left (fun a y => if Qle_bool a y then y else a) r x) end.
Definition np_min (l : list Q) : option Q :=
  match l with [] => None | x :: r => Some (fold_left (fun a y => if Qle_bool y a then y else a) r x) end.

Section Make.
  (** [detrend('linear')], [filter('highpass', freq = 0.5)], [std()] (137-139); [None]: an exception. *)
  Variable amp : list Q -> option Q.

  (** The loop 128-144.  A file: its name and the traces that [obspy.read] finds, [None] if it raises.  Only the first
      trace counts (130); no traces: IndexError, also skipped (131-133).  [None]: an exception outside the [try]. *)
  Fixpoint rows_of (files : list (bytes * option (list trace))) : option (list row) :=
    match files with
    | [] => Some []
    | (fn, Some (tr :: _)) :: r =>
        match np_max (tr_data tr), np_min (tr_data tr), amp (tr_data tr), rows_of r with
        | Some hi, Some lo, Some a, Some l => Some (mkrow fn (tr_station tr) (tr_location tr) a hi lo (tr_start tr) (tr_end tr) :: l)
        | _, _, _, _ => None
        end
    | (fn, _) :: r => rows_of r
    end.
  (** 124-125, 145: [files] is what the pattern matches; [pd.concat] of an empty list raises. *)
  Definition make_db (files : list (bytes * option (list trace))) : option (list row) :=
    match rows_of (sort_by (fun f g => le_bytes (fst f) (fst g)) files) with
    | Some [] => None
    | x => x
    end.
End Make.

(** [calc_channel_stats]. *)
Section Stats.
  (** [np.quantile] (198-199). *)
  Variable quantile : list Q -> Q -> Q.
  Record stats := mkstats { st_station : bytes; st_good : Q; st_any : Q; st_q1 : Q; st_q3 : Q }.
  (** What the list or the tables given to [pd.concat] may contain; it raises TypeError if one of them is a list, and
      ValueError if there are none. *)
  Inductive pyobject := Frame (l : list stats) | PyList (l : list stats).
  Definition concat_objects (l : list pyobject) : option (list stats) :=
    match l with
    | [] => None
    | _ => fold_right (fun o acc => match o, acc with Frame f, Some r => Some (f ++ r) | _, _ => None end) (Some []) l
    end.
  (** 187-188. *)
  Definition good_data (r : row) : bool :=
    negb (Qle_bool (r_amp r) (1 # 2)) && negb (Qle_bool 20000 (r_amp r)) &&
    (3598 * 10 ^ 9 <? r_t2 r - r_t1 r) && (r_t2 r - r_t1 r <? 3602 * 10 ^ 9).
  Definition any_data (r : row) : bool := negb (Qle_bool (r_amp r) 0).
  Definition count (f : row -> bool) (l : list row) : Q := inject_Z (Z.of_nat (length (filter f l))).
  (** 192-201: [out] begins as the empty list [] (189), not as a table. *)
  Fixpoint stations_loop (DB : list row) (t1 t2 : Z) (numHour : Q) (stations : list bytes) (out : pyobject) : option pyobject :=
    match stations with
    | [] => Some out
    | sta :: r =>
        match filter (fun x => eqb_bytes (r_station x) sta && (t1 <? r_t1 x) && (r_t2 x <? t2)) DB with
        | [] => stations_loop DB t1 t2 numHour r out
        | w =>
            let amps := map r_amp w in
            match concat_objects [out; Frame [mkstats sta (count good_data w / numHour) (count any_data w / numHour) (quantile amps (1 # 4)) (quantile amps (3 # 4))]] with
            | None => None
            | Some f => stations_loop DB t1 t2 numHour r (Frame f)
            end
        end
    end.
  (** 202: [pd.concat(out)]; of the list: its elements; of a table: TypeError. *)
  Definition calc_channel_stats (DB : list row) (t1 t2 : Z) : option (list stats) :=
    let numHour := (inject_Z (t2 - t1) / inject_Z (3600 * 10 ^ 9))%Q in
    match stations_loop DB t1 t2 numHour (unique eqb_bytes (map r_station DB)) (PyList []) with
    | Some (PyList l) => concat_objects (map (fun s => Frame [s]) l)
    | Some (Frame _) | None => None
    end.
End Stats.

(** [check_lags]. *)
Section Lags.
  (** A filter of one trace (38), a trace between two times with [None] if it has no samples there (54),
      and shift and value of the best correlation (56; [None]: an exception). *)
  Variable bandpass : Q -> Q -> trace -> trace.
  Variable slice1 : trace -> Z -> Z -> option trace.
  Variable correlate : trace -> trace -> Z -> option (Z * Q).

  Definition slice (st : list trace) (a e : Z) : list trace :=
    flat_map (fun tr => match slice1 tr a e with Some x => [x] | None => [] end) st.
  (** 55-58: all [nsta] pairs around the ring; [None]: an exception (IndexError if there are too few traces). *)
  Fixpoint pairs (st : list trace) (nsta maxshift : Z) (i : Z) (todo : nat) : option (list Z * list Q) :=
    match todo with
    | O => Some ([], [])
    | S todo =>
        match nth_error st (Z.to_nat i), nth_error st (Z.to_nat ((i + 1) mod nsta)) with
        | Some a, Some c =>
            match correlate a c maxshift, pairs st nsta maxshift (i + 1) todo with
            | Some (s, v), Some (ls, vs) => Some (s :: ls, v :: vs)
            | _, _ => None
            end
        | _, _ => None
        end
    end.
  Definition sum_z (l : list Z) : Z := fold_right Z.add 0 l.
  (** The columns so far: [t], [lag] and [xc_coef] (with their first column of zeros), [consistency]. *)
  Record found := mkfound { f_t : list Z; f_lag : list (list Z); f_coef : list (list Q); f_sum : list Z }.
  (** 49-67; [None]: more than [fuel] rounds. *)
  Fixpoint lag_loop (fuel : nat) (st : list trace) (nsta maxshift win tmax t1 : Z) (acc : found) : option found :=
    if t1 <? tmax then
      match fuel with
      | O => None
      | S fuel =>
          let t1 := t1 + win in
          let acc := match pairs (slice st t1 (t1 + win)) nsta maxshift 0 (Z.to_nat nsta) with
                     | Some (ls, vs) => mkfound (f_t acc ++ [t1]) (f_lag acc ++ [ls]) (f_coef acc ++ [vs]) (f_sum acc ++ [sum_z ls])
                     | None => acc
                     end in
          lag_loop fuel st nsta maxshift win tmax t1 acc
      end
    else Some acc.
  (** [min(DB.t1)], [max(DB.t2)] (41, 48). *)
  Definition minimum (l : list Z) : option Z := match l with [] => None | x :: r => Some (fold_left Z.min r x) end.
  Definition maximum (l : list Z) : option Z := match l with [] => None | x :: r => Some (fold_left Z.max r x) end.
  Definition hour_ns : Z := 3600 * 10 ^ 9.
  (** [+=] of what is in the files (39-40); [None]: [obspy.read] raises. *)
  Fixpoint read_all (read : bytes -> option (list trace)) (DB : list row) : option (list trace) :=
    match DB with
    | [] => Some []
    | r :: DB => match read (r_file r), read_all read DB with Some l, Some m => Some (l ++ m) | _, _ => None end
    end.
  (** 32-68.  The stream is filtered (38) while it is still empty. *)
  Definition check_lags (read : bytes -> option (list trace)) (fuel : nat) (DB : list row) (win maxshift : Z) (fl fh : Q) : option found :=
    let stations := unique eqb_bytes (map r_station DB) in
    let nsta := Z.of_nat (length stations) in
    let st := map (bandpass fl fh) [] in
    match read_all read DB, minimum (map r_t1 DB), maximum (map r_t2 DB) with
    | Some l, Some first, Some tmax =>
        let st := st ++ l in
        let t0 := first / hour_ns * hour_ns in
        let zeros := repeat 0 (length stations) in
        match lag_loop fuel st nsta maxshift win tmax (t0 + 1000) (mkfound [] [zeros] [map inject_Z zeros] []) with
        | Some f => Some (mkfound (f_t f) (tl (f_lag f)) (tl (f_coef f)) (f_sum f))
        | None => None
        end
    | _, _, _ => None
    end.
End Lags.
