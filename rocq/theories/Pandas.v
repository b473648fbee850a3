(** Model of the two readers that go through [pd.read_csv]: gemlog/core.py [_read_0_8_pd] (720-754), the only reader of
    the formats 0.8 and 0.85, and [_read_with_pandas] (756-782), the fallback of the later formats.

    Arguments: [na] tells which cells pandas takes for missing; [pf] reads the other cells as numbers ([None]: text);
    [none_raises] tells whether [read_csv] raises when no row is left; [odd] is what comes out of [read_csv], as rows of
    cells, for a file with a double quote, a NUL, a byte beyond ASCII or a row with more cells than there are names
    ([None]: both engines raise).
    Simplifications: a column all of whose cells are "True" or "False" is text here; numbers are exact and finite. *)
From Coq Require Import String.
From Coq Require Import ZArith QArith Qround List Bool.
From Verif Require Import Base Scan Parser Convert110 Process GemCat Select Cli Header.
Import ListNotations.
Open Scope Z_scope.

Section ReadCsv.
  Variables (na : bytes -> bool) (pf : bytes -> option Q) (none_raises : bool).
  Variable odd : nat -> bytes -> option (list (list bytes)).

  (** [pd.read_csv(filename, names=range(n), skiprows=6)] (726 and 760, backups 729 and 764): six physical lines are
      skipped, then lines without content; the others are cut at the commas. *)
  Definition csv_rows (bs : bytes) : list (list bytes) :=
    map split_comma (filter (fun l => negb (no_row l)) (skipn 6 (head_lines bs))).
  Definition regular (n : nat) (bs : bytes) : bool :=
    forallb (fun c => (0 <? c) && (c <? 128) && negb (c =? 34)) bs
    && forallb (fun row => (length row <=? n)%nat) (csv_rows bs).
  Definition read_csv (n : nat) (bs : bytes) : option (list (list bytes)) :=
    if regular n bs then Some (csv_rows bs) else odd n bs.

  (** The cell in column [i] of a row; rows with fewer cells than names are filled up with NaN.  A column with text in it
      keeps its numbers as texts, which [astype(float)] and [pd.to_numeric] read like [read_csv] does. *)
  Definition column (row : list bytes) (i : nat) : Process.cell :=
    match nth_error row i with
    | Some s => if na s then NaN else match pf s with Some v => Num v | None => Text end
    | None => NaN
    end.

  Definition letter_kind (c : Z) : option kind :=
    if c =? 68 then Some KD else if c =? 77 then Some KM else if c =? 71 then Some KG else None.

  (** 741: rows whose first cell is exactly 'D', 'M' or 'G'. *)
  Definition exact_kind (row : list bytes) : option kind :=
    match row with s :: _ => if na s then None else match s with [c] => letter_kind c | _ => None end | [] => None end.

  (** The rows 741-744 with their kind and clock value: rows of other kinds and rows without clock value are dropped, a
      clock value that is no number raises ([None]). *)
  Fixpoint clocked (rows : list (list bytes)) : option (list (kind * Q * list bytes)) :=
    match rows with
    | [] => Some []
    | row :: rest =>
        match exact_kind row with
        | None => clocked rest
        | Some k =>
            match column row 1, clocked rest with
            | Num v, Some l => Some ((k, v, row) :: l)
            | NaN, Some l => Some l
            | _, _ => None
            end
        end
    end.

  (** Columns [i], [i+1], ... *)
  Definition columns (row : list bytes) (i n : nat) : list Process.cell := map (column row) (seq i n).

  (** [_read_0_8_pd] (720-754); the samples are in column 2 (888-889).  A missing file is CorruptRawFile (734). *)
  Definition read_0_8 (content : option bytes) (require_gps : bool) : res (list drow) :=
    match content with
    | None => inr CorruptRaw
    | Some bs =>
        match read_csv 15 bs with
        | None => inr CorruptRaw                                                     (* 734 *)
        | Some [] => inr (if none_raises then CorruptRaw else EmptyRawFile)          (* 736 *)
        | Some rows =>
            match clocked rows with
            | None => inr OtherExn                                                   (* 742 *)
            | Some l =>
                if negb (existsb (fun e => kind_eqb (fst (fst e)) KG) l) && require_gps then inr NoGPS   (* 747 *)
                else inl (map (fun e => match e with (k, v, row) => mkd k (inject_Z (py_trunc v)) (columns row 2 13) end) l)
            end
        end
    end.

  (** 772: the first character of the first cell; [None]: the exception of 773. *)
  Definition linetype (row : list bytes) : option Z :=
    match row with s :: _ => if na s then None else hd_error s | [] => None end.
  Definition number (c : Process.cell) : bool := match c with Num _ => true | _ => false end.
  Definition text (c : Process.cell) : bool := match c with Text => true | _ => false end.

  (** 781: [int] of the text after the letter D, or of column 1: of a float if the column is one of numbers, else of a
      text; NaN raises ([None]). *)
  Definition sawtooth (texts : bool) (row : list bytes) (k : kind) : option Z :=
    match k with
    | KD => match row with s :: _ => int_of (tl s) | [] => None end
    | _ =>
        if texts then match nth_error row 1 with Some s => if na s then None else int_of s | None => None end
        else match column row 1 with Num v => Some (py_trunc v) | _ => None end
    end.

  Fixpoint lettered (texts : bool) (rows : list (list bytes)) : option (list drow) :=
    match rows with
    | [] => Some []
    | row :: rest =>
        match linetype row with
        | None => lettered texts rest
        | Some c =>
            match letter_kind c with
            | None => lettered texts rest                                            (* 778 *)
            | Some k =>
                match sawtooth texts row k, lettered texts rest with
                | Some ms, Some l => Some (mkd k (inject_Z ms) (columns row (match k with KD => 1 | _ => 2 end)
                                                          (match k with KD => 12 | _ => 11 end)) :: l)
                | _, _ => None
                end
            end
        end
    end.

  (** [_read_with_pandas] (756-782); the samples are in column 1 (887).  If all cells of column 0 are numbers, none of
      them is a string (772). *)
  Definition read_with_pandas (content : option bytes) (require_gps : bool) : res (list drow) :=
    match content with
    | None => inr CorruptRaw
    | Some bs =>
        match read_csv 13 bs with
        | None => inr CorruptRaw                                                     (* 767 *)
        | Some [] => inr (if none_raises then CorruptRaw else EmptyRawFile)          (* 769 *)
        | Some rows =>
            if existsb (fun row => match linetype row with None => true | Some _ => false end) rows
               || forallb (fun row => number (column row 0)) rows then inr CorruptRaw                    (* 774 *)
            else if negb (existsb (fun row => match linetype row with Some c => c =? 71 | None => false end) rows) && require_gps
            then inr NoGPS                                                           (* 776 *)
            else match lettered (existsb (fun row => text (column row 1)) rows) rows with
                 | Some df => inl df
                 | None => inr OtherExn                                              (* 781 *)
                 end
        end
    end.
End ReadCsv.
