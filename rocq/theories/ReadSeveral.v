(** Model of gemlog/core.py [_read_several] (1032-1094): the loop that joins several raw files of one
    logger.  What is done with one file is given by parameters: [read_v] is [_read_single] on the file
    (Process.v), [drift] is [_calculate_drift], [sn] is [_read_SN] ([None]: it raises). *)
From Coq Require Import String.
From Coq Require Import ZArith QArith List Bool.
From Verif Require Import Base Process.
Import ListNotations.
Open Scope Z_scope.

(** Exceptions that reach the [except] clauses 1074-1084: those of [_read_single], and the two that
    only [_calculate_drift] raises (exceptions.py 20-28). *)
Inductive failure := Exn (e : exn) | InadequateGPS | DiscontinuousGPS.

(** Lines 1054-1057: 2**13 added to the three clock columns. *)
Definition shift_fix (c : Q) (g : fix_) : fix_ :=
  mkfix (msPPS g + c)%Q (msLag g) (gyear g) (gmonth g) (gday g) (ghour g) (gminute g) (gsecond g) (glat g) (glon g).
Definition shift (c : Q) (L : tables) : tables :=
  mktab (map (fun p => (fst p + c, snd p))%Q (data L))
        (map (fun p => (fst p + c, snd p))%Q (metadata L))
        (map (fun p => (shift_fix c (fst p), snd p)) (gps L)).

(** Lines 1053-1057; [None] is the IndexError of [L['data'][0,0]] on an empty table. *)
Definition align (start : Q) (L : tables) : option tables :=
  match data L with
  | [] => None
  | (t, _) :: _ => Some (if Qltb t start then shift 8192 L else L)
  end.

(** Lines 1059-1060: [np.diff] has an element < 0 or > 1000. *)
Fixpoint discontinuous (ts : list Q) : bool :=
  match ts with
  | x :: ((y :: _) as r) => Qltb (y - x) 0 || Qltb 1000 (y - x) || discontinuous r
  | _ => false
  end.

(** Last element of a column ([D[-1,0]], line 1072), [d] when there is none. *)
Fixpoint last_of (d : Q) (l : list (Q * option Q)) : Q :=
  match l with [] => d | (t, _) :: r => last_of t r end.

Section Loop.
  Variables F H S : Type.                 (* files, header information, serial numbers *)
  Variable read_v : F -> string -> Q -> bool -> res tables.
  Variable drift : tables -> F -> bool -> H + failure.
  Variable sn : F -> option S.
  Variable version : string.
  Variable require_gps : bool.

  (** Lines 1045-1051: which call of [_read_single] is made. *)
  Definition read (fn : F) (start : Q) : res tables :=
    if existsb (String.eqb version) ["1.10"; "0.91"; "0.9"; "0.85C"]%string
    then read_v fn "0.9" start require_gps
    else if existsb (String.eqb version) ["0.8"; "0.85"]%string
    then read_v fn version start require_gps
    else inr CorruptRaw.

  (** One line of the header table; [None]: the cells still hold the zeros and the empty serial number
      of [_make_empty_header] (1490-1508). *)
  Record hrow := mkh { h_info : option H; h_num : option nat; h_sn : option S }.
  Definition empty_hrow : hrow := mkh None None None.

  (** What one iteration does (1044-1084): the header line it leaves behind, and either the tables to
      append or the failure to report. *)
  Definition one_file (fn : F) (start : Q) : hrow * (tables + failure) :=
    match read fn start with
    | inr e => (empty_hrow, inr (Exn e))
    | inl L0 =>
        match align start L0 with
        | None => (empty_hrow, inr (Exn OtherExn))
        | Some L =>
            if discontinuous (map fst (data L)) then (empty_hrow, inr (Exn CorruptRaw))
            else match drift L fn require_gps with
                 | inr f => (empty_hrow, inr f)
                 | inl h =>
                     let info := if negb require_gps || negb (Nat.eqb (length (gps L)) 0) then Some h else None in
                     let num := Some (length (data L)) in
                     match sn fn with
                     | None => (mkh info num None, inr (Exn CorruptRaw))
                     | Some s => (mkh info num (Some s), inl L)
                     end
                 end
        end
    end.

  (** The message appended to [problems] (1076-1083), by kind and file. *)
  Inductive message := Insufficient (fn : F) | No_gps (fn : F) | Corrupt (fn : F) | Failed (fn : F).
  Definition message_for (fn : F) (f : failure) : message :=
    match f with
    | InadequateGPS => Insufficient fn
    | Exn NoGPS => No_gps fn
    | Exn CorruptRaw | DiscontinuousGPS => Corrupt fn
    | Exn _ => Failed fn
    end.

  Record joined := mkj { jdata : list (Q * option Q); jmeta : list (Q * list (option Q)); jgps : list (fix_ * Z);
                         jheader : list hrow; jproblems : list message }.

  (** The loop (1041-1092); [None]: a KeyboardInterrupt ends it. *)
  Fixpoint loop (start : Q) (acc : joined) (fns : list F) : option joined :=
    match fns with
    | [] => Some acc
    | fn :: rest =>
        match one_file fn start with
        | (_, inr (Exn Interrupt)) => None
        | (h, inr f) =>
            loop start (mkj (jdata acc) (jmeta acc) (jgps acc) (jheader acc ++ [h]) (jproblems acc ++ [message_for fn f])) rest
        | (h, inl L) =>
            let D := jdata acc ++ data L in
            loop (last_of start D)
                 (mkj D (jmeta acc ++ metadata L) (jgps acc ++ gps L) (jheader acc ++ [h]) (jproblems acc)) rest
        end
    end.

  Definition read_several (fns : list F) : option joined := loop 0 (mkj [] [] [] [] []) fns.
End Loop.

Arguments mkh {H S} _ _ _.
Arguments h_info {H S} _.
Arguments h_num {H S} _.
Arguments h_sn {H S} _.
Arguments empty_hrow {H S}.
Arguments Insufficient {F} _.
Arguments No_gps {F} _.
Arguments Corrupt {F} _.
Arguments Failed {F} _.
Arguments mkj {F H S} _ _ _ _ _.
Arguments jdata {F H S} _.
Arguments jmeta {F H S} _.
Arguments jgps {F H S} _.
Arguments jheader {F H S} _.
Arguments jproblems {F H S} _.

(** [_read_single] (784-841) on one file on disk: its content, and what the pandas readers make of it. *)
Record raw_file := mkraw { f_content : option bytes; f_pandas : bool -> res (list drow); f_pandas08 : bool -> res (list drow) }.
Definition read_raw (sc : Scan.scanner) (buf0 : bytes) (ear : bool) (f : raw_file) (version : string) (start : Q) (require_gps : bool)
  : res tables := read_single sc buf0 ear (f_pandas f) (f_pandas08 f) (f_content f) version start require_gps.
