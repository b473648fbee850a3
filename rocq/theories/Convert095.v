(** Model of the raw-format converter, gemlog/gemlog_aux.py [_convert_raw_091_095] (380-410). *)
From Coq Require Import String.
From Coq Require Import ZArith List Bool.
From Verif Require Import Base Scan Parser Convert110.
Import ListNotations.
Open Scope Z_scope.

(** One digit of [hex(..)[2:].upper()] (399). *)
Definition hex_digit (d : Z) : Z := if d <? 10 then 48 + d else 55 + d.

(** [hex(n)[2:].upper()] (399) for 0 <= n < 4096, the only numbers it is used for: no leading zeros. *)
Definition hex_upper (n : Z) : bytes :=
  if n <? 16 then [hex_digit n]
  else if n <? 256 then [hex_digit (n / 16); hex_digit (n mod 16)]
  else [hex_digit (n / 256); hex_digit ((n / 16) mod 16); hex_digit (n mod 16)].

(** Loop body 390-410; [first] is [i == 0].  [None] is an exception (IndexError, ValueError or
    'Corrupt input file head').  The clock is converted to a number only when the pressure is small. *)
Definition conv095_line (first : bool) (line : bytes) : option bytes :=
  if nth 0 line 0 =? 68 then
    match split_comma line with
    | l0 :: l1 :: _ =>
        match py_int l1 with
        | Some p =>
            if Z.abs p <=? 12
            then match py_int (skipn 1 l0) with
                 | Some ms => Some ((p + 109) :: hex_upper (ms mod 2 ^ 12) ++ [10])
                 | None => None
                 end
            else Some line
        | None => None
        end
    | _ => None
    end
  else if first then
    if eqb_bytes (firstn 7 line) (b "#GemCSV")
    then Some (b "#GemCSV0.95" ++ [10] ++ b "#adcMSSAMP" ++ [10])
    else None
  else Some line.

(** The loop 390-410; the result is the text written to the output file. *)
Fixpoint conv095_lines (first : bool) (ls : list bytes) : option bytes :=
  match ls with
  | [] => Some []
  | l :: r => match conv095_line first l with
              | None => None
              | Some o => match conv095_lines false r with
                          | None => None
                          | Some os => Some (o ++ os)
                          end
              end
  end.

(** The function (380-410); [fmt] is what [_read_format_version] returned for the input (386). *)
Definition convert_095 (fmt : bytes) (bs : bytes) : option bytes :=
  if existsb (eqb_bytes fmt) [b "0.85C"; b "0.9"; b "0.91"]
  then conv095_lines true (py_lines bs)
  else None.
