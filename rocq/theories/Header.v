(** Model of reading the head of a raw file: gemlog/core.py [_read_SN] (581-587), [_read_format_version] (589-599),
    [_read_config] (601-618), all by [pd.read_csv] with [names], so that no line serves as header.
    Which cells pandas takes for missing is the argument [na].  If the first row read has more cells than there are
    names, pandas makes an index of the leading cells; what the label 0 then finds is the argument [odd].
    Simplifications: double quotes are ordinary characters; of the characters beyond ASCII none is kept
    ([encoding_errors = 'ignore'] drops only bytes that are not UTF-8). *)
From Coq Require Import String.
From Coq Require Import ZArith List Bool.
From Verif Require Import Base Scan Convert110 Process GemCat Select Cli.
Import ListNotations.
Open Scope Z_scope.

Definition head_lines (bs : bytes) : list bytes := map fst (text_lines (filter (fun c => c <? 128) bs)).

(** Lines without content are no rows. *)
Definition no_row (l : bytes) : bool := forallb (fun c => (c =? 32) || (c =? 9)) l.
(** With [comment = '#'] a line that begins with '#' is no row either, and the rest of a line from '#' on is ignored. *)
Fixpoint before_hash (l : bytes) : bytes := match l with [] => [] | c :: r => if c =? 35 then [] else c :: before_hash r end.

Section Pandas.
  Variable na : bytes -> bool.

  (** 583-584: the result is the cell of the row labelled 0 of the rows of type 'S'; [Some None] is nan.
      [None]: CorruptRawFile (586). *)
  Definition read_SN (odd : list bytes -> option (option bytes)) (bs : bytes) : option (option bytes) :=
    match filter (fun l => negb (no_row l) && negb (starts 35 l)) (skipn 3 (head_lines bs)) with
    | [] => None
    | l :: _ =>
        match split_comma (before_hash l) with
        | [t; sn] => if eqb_bytes t (b "S") && negb (na t) then Some (if na sn then None else Some sn) else None
        | [t] => if eqb_bytes t (b "S") && negb (na t) then Some None else None
        | row => odd row
        end
    end.

  (** 597-598; [None]: an exception (no line, or nan cannot be sliced). *)
  Definition read_version (odd : list bytes -> option bytes) (bs : bytes) : option bytes :=
    match filter (fun l => negb (no_row l)) (head_lines bs) with
    | [] => None
    | l :: _ => match split_comma l with [s] => if na s then None else Some (skipn 7 s) | row => odd row end
    end.

  Record config := mkconf { gps_mode : Z; gps_cycle : Z; gps_quota : Z; adc_range : Z; led_shutoff : Z; serial_output : Z }.
  Definition default_config : config := mkconf 1 15 20 0 0 0.                                    (* 602-607 *)

  (** One pass of the loop 610-617; [None]: the loop goes on.  A missing cell is nan, which [int] refuses. *)
  Definition cell (row : list bytes) (i : nat) : option Z :=
    match nth_error row i with Some s => if na s then None else int_of s | None => None end.
  Definition config_of (odd : list bytes -> option config) (ls : list bytes) : option config :=
    match filter (fun l => negb (no_row l)) ls with
    | [] => None
    | l :: _ =>
        let row := split_comma l in
        let k := (length row - 7)%nat in
        match nth_error row k with
        | Some t =>
            if eqb_bytes t (b "C") && negb (na t) then
              if Nat.eqb k 0 then
                match cell row 1, cell row 2, cell row 3, cell row 4, cell row 5, cell row 6 with
                | Some a, Some b, Some c, Some d, Some e, Some f => Some (mkconf a b c d e f)
                | _, _, _, _, _, _ => None
                end
              else odd row
            else None
        | None => None
        end
    end.
  (** 610-618; [n] passes from [skiprows = j] on. *)
  Fixpoint config_from (odd : list bytes -> option config) (n : nat) (ls : list bytes) : config :=
    match n with
    | O => default_config
    | S n' => match config_of odd ls with Some c => c | None => config_from odd n' (tl ls) end
    end.
  Definition read_config (odd : list bytes -> option config) (bs : bytes) : config :=
    config_from odd 10 (tl (head_lines bs)).
End Pandas.

(** What [Select] needs to know of a file: 161, 633 and 503.  A serial number nan is equal to none. *)
Definition entry_of (na : bytes -> bool) (oddS : list bytes -> option (option bytes)) (oddV : list bytes -> option bytes)
    (name content : bytes) : entry :=
  mke name (match read_SN na oddS content with Some (Some s) => Some s | Some None => Some (b "nan") | None => None end)
    (Z.of_nat (length content)) (read_version na oddV content).

(** The default missing values of pandas. *)
Definition na_words (s : bytes) : bool :=
  existsb (eqb_bytes s) (map b [""; "#N/A"; "#N/A N/A"; "#NA"; "-1.#IND"; "-1.#QNAN"; "-NaN"; "-nan"; "1.#IND"; "1.#QNAN";
    "<NA>"; "N/A"; "NA"; "NULL"; "NaN"; "None"; "n/a"; "nan"; "null"]%string).
