(** Model of the reference reader, gemlog/core.py [_slow__read_single_v0_9] (961-1030).
    Python's [float] on text is the argument [pf] ([None] is ValueError).
    Simplifications: a text that [float] reads as NaN or infinity counts as an exception; the limit of csv.reader on
    the length of a field is not modelled. *)
From Coq Require Import ZArith QArith List Bool.
From Verif Require Import Base Scan Parser Unwrap Convert110 Process.
Import ListNotations.
Open Scope Z_scope.

(** 984: text mode with [newline = ''] and [errors = 'ignore']: bytes from 128 on vanish; a line ends at CR, LF or
    CR LF.  The empty line that appears here between CR and LF is skipped below (990-993) like every empty line. *)
Fixpoint ref_lines (cur : bytes) (bs : bytes) : list bytes :=
  match bs with
  | [] => [rev cur]
  | c :: r => if (c =? 10) || (c =? 13) then rev cur :: ref_lines [] r
              else if 128 <=? c then ref_lines cur r
              else ref_lines (c :: cur) r
  end.

(** 985: [csv.reader] with QUOTE_NONE. *)
Definition csv_row (l : bytes) : list bytes := match l with [] => [] | _ => split_comma l end.

(** 989-999: line type and numbers.  [None]: the line is skipped.  [Some (k, None)]: [float] or [line[0]] raises. *)
Definition ref_row (pf : bytes -> option Q) (row : list bytes) : option (kind * option (Q * list Q)) :=
  match row with
  | (c :: f) :: fs =>
      let numbers k l := Some (k, match traverse pf l with Some (x :: xs) => Some (x, xs) | _ => None end) in
      if c =? 68 then numbers KD (f :: fs)                       (* 'D' *)
      else if c =? 71 then numbers KG fs                         (* 'G' *)
      else if c =? 77 then numbers KM fs                         (* 'M' *)
      else None
  | _ => None
  end.

(** [A[i,:] = line] for an array with [w] columns: one number is spread over the row, any other count must fit. *)
Definition store (w : nat) (l : list Q) : option (list Q) :=
  if Nat.eqb (length l) w then Some l else match l with [x] => Some (repeat x w) | _ => None end.

Definition fix_of_line (l : list Q) : fix_ :=
  let f i := Some (nth i l 0%Q) in mkfix (nth 0 l 0%Q) (f 1%nat) (f 2%nat) (f 3%nat) (f 4%nat) (f 5%nat) (f 6%nat) (f 7%nat) (f 8%nat) (f 9%nat).

(** [_check_gps] (963-973) with its accesses [line[8]], [line[9]] first; [None] is IndexError. *)
Definition ref_check (l : list Q) : option bool :=
  match nth_error l 8 with
  | None => None
  | Some la =>
      if Qeq_bool la 0 || Qltb 90 la || Qltb la (-90) then Some false
      else match nth_error l 9 with None => None | Some _ => Some (check_gps (fix_of_line l)) end
  end.

(** Capacities, 976-978. *)
Definition cap_M : Z := 15000.
Definition cap_G : Z := 15000.
Definition cap_D : Z := 750000.

Record ref_tables := mkref { rdata : list (Q * Q); rmeta : list (list Q); rgps : list (fix_ * option Z) }.

(** The loop 987-1013; [None] is an exception.  The time of a fix is NaN ([None]) if [_make_gps_time] fails. *)
Fixpoint ref_loop (pf : bytes -> option Q) (millis : Q) (nd nm ng : Z) (rows : list (list bytes)) : option ref_tables :=
  match rows with
  | [] => Some (mkref [] [] [])
  | row :: r =>
      match ref_row pf row with
      | None => ref_loop pf millis nd nm ng r
      | Some (_, None) => None
      | Some (k, Some (x, xs)) =>
          let m := unwrap_millis x millis in
          let line := m :: xs in
          match k with
          | KD => match store 2 line with
                  | Some [t; v] => if cap_D <=? nd then None
                           else match ref_loop pf m (nd + 1) nm ng r with
                                | Some T => Some (mkref ((t, v) :: rdata T) (rmeta T) (rgps T)) | None => None end
                  | _ => None
                  end
          | KM => match store 12 line with
                  | Some v => if cap_M <=? nm then None
                           else match ref_loop pf m nd (nm + 1) ng r with
                                | Some T => Some (mkref (rdata T) (v :: rmeta T) (rgps T)) | None => None end
                  | None => None
                  end
          | KG => match ref_check line with
                  | None => None
                  | Some false => ref_loop pf m nd nm ng r
                  | Some true =>
                      if Nat.eqb (length line) 10 && (ng <? cap_G)
                      then match ref_loop pf m nd nm (ng + 1) r with
                           | Some T => let g := fix_of_line line in
                                       Some (mkref (rdata T) (rmeta T) ((g, make_gps_time g) :: rgps T))
                           | None => None
                           end
                      else None
                  end
          end
      end
  end.

(** [D[:,1].cumsum()] (1029). *)
Fixpoint sums (acc : Q) (l : list (Q * Q)) : list (Q * Q) :=
  match l with [] => [] | (t, v) :: r => (t, acc + v)%Q :: sums (acc + v)%Q r end.

Definition read_reference (pf : bytes -> option Q) (content : option bytes) (offset : Q) (require_gps : bool) : res ref_tables :=
  match content with
  | None => inr FileNotFound
  | Some bs =>
      match ref_loop pf (Qmod offset 8192) 0 0 0 (map csv_row (ref_lines [] bs)) with
      | None => inr OtherExn
      | Some T =>
          match rdata T, rgps T with
          | [], _ => inr EmptyRawFile
          | _, [] => if require_gps then inr NoGPS else inl (mkref (sums 0 (rdata T)) (rmeta T) (rgps T))
          | _, _ => inl (mkref (sums 0 (rdata T)) (rmeta T) (rgps T))
          end
      end
  end.

(** [float] for decimal literals: blanks around, sign, digits with an optional point. *)
Definition dec_float (s : bytes) : option Q :=
  match dec_scan_lf s with Some (v, r) => match skip_space r with [] => Some v | _ => None end | None => None end.
