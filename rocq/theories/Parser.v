(** Model of the Cython raw-file reader, gemlog/parsers.pyx [parse_gemfile] (lines 9-155). *)
From Coq Require Import ZArith QArith List Bool.
From Verif Require Import Base Scan.
Import ListNotations.
Open Scope Z_scope.

(** [fgets(line, 256, cfile)] (parsers.pyx 38, 75): up to 255 bytes, stopping after a newline. *)
Fixpoint take_line (n : nat) (bs : bytes) : bytes * bytes :=
  match n, bs with
  | O, _ => ([], bs)
  | _, [] => ([], [])
  | S n', c :: r =>
      if c =? 10 then ([c], r) else let (l, r') := take_line n' r in (c :: l, r')
  end.

(** The successive results of [fgets] until it returns NULL (loop of parsers.pyx 74-78).
    The fuel is the file size; every call consumes at least one byte
    ([concat_chunks] in ParserProofs shows nothing is left over). *)
Fixpoint chunks_fuel (fuel : nat) (bs : bytes) : list bytes :=
  match fuel with
  | O => []
  | S f => match bs with
           | [] => []
           | _ => let (c, r) := take_line 255 bs in c :: chunks_fuel f r
           end
  end.

Definition chunks (bs : bytes) : list bytes := chunks_fuel (length bs) bs.

(** A C string: everything before the first NUL. *)
Fixpoint cstr (s : bytes) : bytes :=
  match s with
  | c :: r => if c =? 0 then [] else c :: cstr r
  | [] => []
  end.

Inductive kind := KD | KG | KM.

(** One row of the three aligned result arrays (parsers.pyx 57-70, 151-155):
    line type, millisecond value, and the columns that the branch writes.
    Simplification: the remaining columns of the 11-column array, which stay 0, are not listed. *)
Record row := mkrow { rkind : kind; rmillis : Q; rvals : list Q }.

(** The C variables that survive from one line to the next (parsers.pyx 42-52, 61) and the line
    buffer (38), whose bytes after the terminator are those of earlier, longer lines. *)
Record pstate := mkst {
  prev : Q;           (* prev_dD_millis *)
  dms : Q;            (* DmsSamp *)
  adc : Q;            (* ADC, an int *)
  gvars : list Q;     (* msPPS, msLag, yr, mo, day, hr, mn, sec, lat, lon *)
  mvars : list Q;     (* ms, batt, temp, A2, A3, maxLag, ..., freeStackIdle *)
  buf : bytes         (* line[256] *)
}.

Definition init (buf0 : bytes) : pstate :=
  mkst 0 0 0 (repeat 0%Q 10) (repeat 0%Q 12) buf0.

(** [sscanf] assigns a prefix of its targets and leaves the others as they were. *)
Definition assign (new old : list Q) : list Q := new ++ skipn (length new) old.

Definition fmt_D : list conv := [Clf; Cd].
Definition fmt_G : list conv := [Clf; Clf; Cd; Cd; Cd; Cd; Cd; Clf; Clf; Clf].
Definition fmt_M : list conv := [Clf; Clf; Clf; Clf; Clf; Cd; Cd; Cd; Cd; Cd; Cd; Cd].

Definition is_lower (c : Z) : bool := (97 <=? c) && (c <=? 122).

Definition roll : Q := 8192.

(** Loop body of parsers.pyx 80-147 applied to one [fgets] result.
    Bytes are taken unsigned; a negative signed char behaves like a byte above 122 in every test. *)
Definition step (sc : scanner) (s : pstate) (chunk : bytes) : pstate * option row :=
  let buf' := chunk ++ 0 :: skipn (S (length chunk)) (buf s) in
  let c0 := nth 0 buf' 0 in
  let c1 := nth 1 buf' 0 in
  let s := mkst (prev s) (dms s) (adc s) (gvars s) (mvars s) buf' in
  if is_lower c0 then
    (* 81-90 *)
    if negb (is_lower c1) then
      let cur := Qmod (prev s + 10) roll in
      (mkst cur (dms s) (adc s) (gvars s) (mvars s) buf', Some (mkrow KD cur [inject_Z (c0 - 109)]))
    else
      let cur := Qmod (prev s + 10 + inject_Z (c0 - 109)) roll in
      (mkst cur (dms s) (adc s) (gvars s) (mvars s) buf', Some (mkrow KD cur [inject_Z (c1 - 109)]))
  else if c0 =? 68 then
    (* 92-102 *)
    match sscanf sc fmt_D (cstr (skipn 1 buf')) with
    | [v] =>
        let d := Qmod (prev s + 10) roll in
        (mkst d d (adc s) (gvars s) (mvars s) buf', Some (mkrow KD d [v]))
    | v :: a :: _ => (mkst v v a (gvars s) (mvars s) buf', Some (mkrow KD v [a]))
    | [] => (mkst (dms s) (dms s) (adc s) (gvars s) (mvars s) buf', Some (mkrow KD (dms s) [adc s]))
    end
  else if c0 =? 71 then
    (* 104-120 *)
    let g := assign (sscanf sc fmt_G (cstr (skipn 2 buf'))) (gvars s) in
    (mkst (prev s) (dms s) (adc s) g (mvars s) buf', Some (mkrow KG (hd 0%Q g) (tl g)))
  else if c0 =? 77 then
    (* 122-142 *)
    let m := assign (sscanf sc fmt_M (cstr (skipn 2 buf'))) (mvars s) in
    (mkst (prev s) (dms s) (adc s) (gvars s) m buf', Some (mkrow KM (hd 0%Q m) (tl m)))
  else
    (* 143-144 *)
    (s, None).

Fixpoint run (sc : scanner) (s : pstate) (cs : list bytes) : list row :=
  match cs with
  | [] => []
  | c :: cs' => let (s', r) := step sc s c in
                match r with Some x => x :: run sc s' cs' | None => run sc s' cs' end
  end.

(** [parse_gemfile] (9-155) on the file content [bs]; [buf0] is the uninitialised line buffer;
    [None] is the IndexError raised by the bounds-checked memoryview when there are more than
    [n_row] rows. *)
Definition parse_gemfile (sc : scanner) (buf0 : bytes) (n_row : Z) (bs : bytes) : option (list row) :=
  let rows := run sc (init buf0) (chunks bs) in
  if Z.of_nat (length rows) <=? n_row then Some rows else None.

(** core.py 704-707 ([_read_with_cython]): retry with a buffer 42 times larger. *)
Definition parse_retry (sc : scanner) (buf0 : bytes) (bs : bytes) : option (list row) :=
  match parse_gemfile sc buf0 1560000 bs with
  | Some rows => Some rows
  | None => parse_gemfile sc buf0 (1560000 * 6 * 7) bs
  end.
