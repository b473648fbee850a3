(** Model of the raw-format converter, gemlog/gemlog_aux.py [_convert_raw_091_110] (413-455). *)
From Coq Require Import String.
From Coq Require Import ZArith QArith List Bool.
From Verif Require Import Base Scan Parser.
Import ListNotations.
Open Scope Z_scope.

(** Iterating over a text file (432-433): the lines including their newline.
    Simplification: universal-newline translation of CR and decoding errors are not modelled
    (the theorems assume files without CR; an undecodable byte makes Python raise). *)
Fixpoint py_lines_from (cur : bytes) (bs : bytes) : list bytes :=
  match bs with
  | [] => match cur with [] => [] | _ => [rev cur] end
  | c :: r => if c =? 10 then rev (c :: cur) :: py_lines_from [] r else py_lines_from (c :: cur) r
  end.
Definition py_lines (bs : bytes) : list bytes := py_lines_from [] bs.

(** [line.split(',')] (435). *)
Fixpoint split_comma (s : bytes) : list bytes :=
  match s with
  | [] => [[]]
  | c :: r => if c =? 44 then [] :: split_comma r
              else match split_comma r with
                   | w :: ws => (c :: w) :: ws
                   | [] => [[c]]
                   end
  end.

(** Python's [int(str)]: blanks around, optional sign, decimal digits; [None] is ValueError.
    Simplification: underscores between digits and non-ASCII digits are not accepted. *)
Definition py_int (s : bytes) : option Z :=
  let (neg, r) := take_sign (skip_space s) in
  let (ds, r') := take_digits r in
  match ds with
  | [] => None
  | _ => match skip_space r' with
         | [] => Some (if neg then - val_digits ds else val_digits ds)
         | _ => None
         end
  end.

(** Loop body 434-455.  [first] is [i == 0], [cur] is [millis_current].
    [None] is an exception (IndexError, ValueError or 'Corrupt input file head'). *)
Definition conv_line (first : bool) (cur : Z) (line : bytes) : option (Z * bytes) :=
  if nth 0 line 0 =? 68 then
    let l := split_comma line in
    match l with
    | l0 :: l1 :: _ =>
        match py_int l1, py_int (skipn 1 l0) with
        | Some p, Some ms =>
            let diff := (ms - cur) mod 2 ^ 13 in
            if (Z.abs p <=? 12) && (Z.abs (diff - 10) <=? 12) && negb first
            then Some (ms, [diff - 10 + 109; p + 109; 10])
            else Some (ms, line)
        | _, _ => None
        end
    | _ => None
    end
  else if first then
    if eqb_bytes (firstn 7 line) (b "#GemCSV")
    then Some (cur, b "#GemCSV1.1" ++ [10] ++ b "#adcMSSAMP" ++ [10])
    else None
  else Some (cur, line).

(** The loop 433-455; the result is the text written to the output file. *)
Fixpoint conv_lines (first : bool) (cur : Z) (ls : list bytes) : option bytes :=
  match ls with
  | [] => Some []
  | l :: r => match conv_line first cur l with
              | None => None
              | Some (cur', o) => match conv_lines false cur' r with
                                  | None => None
                                  | Some os => Some (o ++ os)
                                  end
              end
  end.

(** The function (413-455); [fmt] is what [_read_format_version] returned for the input (428). *)
Definition convert_110 (fmt : bytes) (bs : bytes) : option bytes :=
  if existsb (eqb_bytes fmt) [b "0.85C"; b "0.9"; b "0.91"]
  then conv_lines true 0 (py_lines bs)
  else None.
