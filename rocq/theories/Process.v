(** Model of the interpretation of one raw file: gemlog/core.py [_process_gemlog_data] (843-930),
    [_gps_in_bounds] (932-958), [_make_gps_time] (669-675), [_read_with_cython] (677-717) and
    [_read_single] (784-841).  The pandas readers are parameters (their outcome is arbitrary). *)
From Coq Require Import String.
From Coq Require Import ZArith QArith Qround List Bool.
From Verif Require Import Base Scan Parser Unwrap Calendar.
Import ListNotations.
Open Scope Z_scope.

(** Exceptions (gemlog/exceptions.py), as far as the control flow tells them apart. *)
Inductive exn := EmptyRawFile | FileNotFound | NoGPS | Interrupt | CorruptRaw | OtherExn.
Definition res (A : Type) : Type := (A + exn)%type.

(** A data frame cell: a number, a NaN, or text that [pd.to_numeric] rejects. *)
Inductive cell := Num (x : Q) | NaN | Text.

(** A row of the data frame produced by a reader: line type, 'millis-sawtooth', and the value columns
    (for D rows the single data column, whichever column number it has in that reader). *)
Record drow := mkd { dkind : kind; dsaw : Q; dcells : list cell }.

Definition kind_eqb (x y : kind) : bool :=
  match x, y with KD, KD | KG, KG | KM, KM => true | _, _ => false end.

(** Versions: rollover (845-860) and number of M columns; [None] is
    [CorruptRawFile('Invalid raw format version')]. *)
Definition settings (version : string) : option (Q * nat) :=
  if existsb (String.eqb version) ["1.10"; "0.9"; "0.85C"]%string then Some (8192%Q, 11%nat)
  else if String.eqb version "0.85" then Some (65536%Q, 11%nat)
  else if String.eqb version "0.8" then Some (65536%Q, 9%nat)
  else None.

Definition integrates (version : string) : bool :=
  existsb (String.eqb version) ["1.10"; "0.9"; "0.85C"]%string.

(** [pd.to_numeric] on one cell ([None] = ValueError) and on several. *)
Definition numeric (c : cell) : option (option Q) :=
  match c with Num x => Some (Some x) | NaN => Some None | Text => None end.

Fixpoint traverse {A B} (f : A -> option B) (l : list A) : option (list B) :=
  match l with
  | [] => Some []
  | x :: r => match f x, traverse f r with Some y, Some ys => Some (y :: ys) | _, _ => None end
  end.

(** 'millis-corrected' beside the other columns. *)
Record crow := mkc { ckind : kind; cms : Q; ccells : list cell }.
Definition correct (r offset : Q) (df : list drow) : list crow :=
  map2 (fun m d => mkc (dkind d) m (dcells d)) (unwrap r offset (map dsaw df)) df.

Definition group (k : kind) (l : list crow) : list crow := filter (fun c => kind_eqb (ckind c) k) l.

(** Columns of the D table (900-906). *)
Definition sample_of (c : crow) : option (Q * option Q) :=
  match ccells c with
  | x :: _ => match numeric x with Some v => Some (cms c, v) | None => None end
  | [] => None
  end.

(** [Series.cumsum()]: NaN stays NaN and is skipped by the sum. *)
Fixpoint cumsum (acc : Q) (l : list (option Q)) : list (option Q) :=
  match l with
  | [] => []
  | Some x :: r => Some (acc + x)%Q :: cumsum (acc + x)%Q r
  | None :: r => None :: cumsum acc r
  end.

Definition integrate (l : list (Q * option Q)) : list (Q * option Q) :=
  combine (map fst l) (cumsum 0 (map snd l)).

Definition meta_of (ncol : nat) (c : crow) : option (Q * list (option Q)) :=
  match traverse numeric (firstn ncol (ccells c)) with
  | Some v => Some (cms c, v)
  | None => None
  end.

(** A GPS row with its column names (914). *)
Record fix_ := mkfix { msPPS : Q; msLag : option Q; gyear : option Q; gmonth : option Q; gday : option Q;
                       ghour : option Q; gminute : option Q; gsecond : option Q; glat : option Q; glon : option Q }.

(** Columns 2..10 (917-919).  A missing column would be a KeyError, caught like the others. *)
Definition fix_of (c : crow) : option fix_ :=
  match traverse numeric (firstn 9 (ccells c)) with
  | Some [lag; y; mo; d; h; mi; s; la; lo] => Some (mkfix (cms c) lag y mo d h mi s la lo)
  | _ => None
  end.

(** Comparisons of a float column with a number; NaN compares False (and != is True). *)
Definition flt (x : option Q) (y : Q) : bool := match x with Some v => Qltb v y | None => false end.
Definition fgt (x : option Q) (y : Q) : bool := match x with Some v => Qltb y v | None => false end.
Definition feq (x : option Q) (y : Q) : bool := match x with Some v => Qeq_bool v y | None => false end.

(** [np.round]: nearest integer, ties to even. *)
Definition np_round (x : Q) : Z :=
  let f := Qfloor x in
  match Qcompare (x - inject_Z f)%Q (1 # 2)%Q with
  | Lt => f
  | Gt => f + 1
  | Eq => if Z.even f then f else f + 1
  end.

Definition not_whole (x : option Q) : bool :=
  match x with Some v => negb (Qeq_bool v (inject_Z (np_round v))) | None => true end.

Definition outside (x : option Q) (lo hi : Q) : bool := flt x lo || fgt x hi.

(** [_gps_in_bounds] (932-958). *)
Definition gps_in_bounds (g : fix_) : bool :=
  negb (outside (glat g) (-90) 90 || outside (glon g) (-180) 180 || outside (msLag g) 0 1000
        || outside (gyear g) 2014 2040 || outside (gmonth g) 1 12 || outside (gday g) 1 31
        || outside (ghour g) 0 24 || outside (gminute g) 0 60 || outside (gsecond g) 0 60
        || feq (glat g) 0 || feq (glon g) 0 || not_whole (gsecond g)).

(** [_check_gps] of the reference reader (963-973). *)
Definition check_gps (g : fix_) : bool :=
  negb (feq (glat g) 0 || fgt (glat g) 90 || flt (glat g) (-90)
        || feq (glon g) 0 || fgt (glon g) 180 || flt (glon g) (-180)
        || fgt (msLag g) 1000 || flt (msLag g) 0
        || fgt (gyear g) 2040 || flt (gyear g) 2014
        || fgt (gmonth g) 12 || flt (gmonth g) 1
        || fgt (gday g) 31 || flt (gday g) 1
        || fgt (ghour g) 24 || flt (ghour g) 0
        || fgt (gminute g) 60 || flt (gminute g) 0
        || fgt (gsecond g) 60 || flt (gsecond g) 0 || not_whole (gsecond g)).

(** [int(x)] of a float: truncation towards zero; NaN raises. *)
Definition py_trunc (x : Q) : Z := if Qle_bool 0 x then Qfloor x else - Qfloor (- x).
Definition int_of (x : option Q) : option Z := match x with Some v => Some (py_trunc v) | None => None end.

(** [_make_gps_time] (669-675): NaN ([None]) when anything raises. *)
Definition make_gps_time (g : fix_) : option Z :=
  match int_of (gyear g), int_of (gmonth g), int_of (gday g), int_of (ghour g), int_of (gminute g), int_of (gsecond g) with
  | Some y, Some mo, Some d, Some h, Some mi, Some s => utc_timestamp y mo d h mi s
  | _, _, _, _, _, _ => None
  end.

(** 921-925: the rows in bounds that get a time. *)
Fixpoint keep_fixes (gs : list fix_) : list (fix_ * Z) :=
  match gs with
  | [] => []
  | g :: r => if gps_in_bounds g
              then match make_gps_time g with Some t => (g, t) :: keep_fixes r | None => keep_fixes r end
              else keep_fixes r
  end.

Record tables := mktab { data : list (Q * option Q); metadata : list (Q * list (option Q)); gps : list (fix_ * Z) }.

(** The [try] block 915-930.  [empty_apply_raises]: whether this version of pandas raises when the
    result of [apply] on an empty frame is assigned to one column (line 923); both are covered. *)
Definition gps_table (empty_apply_raises : bool) (G : list crow) : option (list (fix_ * Z)) :=
  match G with
  | [] => None                                     (* get_group raises KeyError *)
  | _ => match traverse fix_of G with
         | None => None
         | Some gs =>
             match filter gps_in_bounds gs with
             | [] => if empty_apply_raises then None else Some []
             | _ => Some (keep_fixes gs)
             end
         end
  end.

(** [_process_gemlog_data] (843-930). *)
Definition process (empty_apply_raises : bool) (version : string) (offset : Q) (require_gps : bool)
                   (df : list drow) : res tables :=
  match settings version with
  | None => inr CorruptRaw
  | Some (r, ncol) =>
      match df with
      | [] => inr OtherExn                          (* iloc[0] of an empty frame, 867 *)
      | _ =>
          let rows := correct r offset df in
          match group KD rows, group KM rows with
          | [], _ | _, [] => inr OtherExn           (* KeyError, 890-891 *)
          | D, M =>
              match traverse sample_of D, traverse (meta_of ncol) M with
              | Some d, Some m =>
                  let d := if integrates version then integrate d else d in
                  match gps_table empty_apply_raises (group KG rows) with
                  | Some g => inl (mktab d m g)
                  | None => if require_gps then inr NoGPS else inl (mktab d m [])
                  end
              | _, _ => inr OtherExn
              end
          end
      end
  end.

Definition drow_of (r : row) : drow := mkd (rkind r) (rmillis r) (map Num (rvals r)).

(** [_read_with_cython] (677-717); [content = None] is a missing file. *)
Definition read_with_cython (sc : scanner) (buf0 : bytes) (content : option bytes) (require_gps : bool) : res (list drow) :=
  match content with
  | None => inr FileNotFound
  | Some bs =>
      match parse_retry sc buf0 bs with
      | None => inr OtherExn                        (* IndexError, file too long *)
      | Some [] => inr EmptyRawFile
      | Some rows =>
          if negb (existsb (fun r => kind_eqb (rkind r) KG) rows) && require_gps then inr NoGPS
          else inl (map drow_of rows)
      end
  end.

(** [_time_corrections] (1519-1526): the same for every version in the table, KeyError otherwise. *)
Definition time_correction (version : string) : option Q :=
  if existsb (String.eqb version) ["0.8"; "0.85"; "0.85C"; "0.9"; "0.91"; "1.10"]%string
  then Some (893 # 100)%Q else None.

(** Exceptions that end the reader loop at once (824). *)
Definition fatal (e : exn) : bool :=
  match e with EmptyRawFile | FileNotFound | NoGPS | Interrupt => true | _ => false end.

(** The loop of [_read_single] (818-841) over the readers' outcomes, which are computed lazily
    (a later reader is only called if the earlier ones failed). *)
Fixpoint try_readers (ear : bool) (version : string) (offset : Q) (require_gps : bool)
                     (readers : list (bool -> res (list drow))) : res tables :=
  match readers with
  | [] => inr CorruptRaw
  | reader :: rest =>
      match (match reader require_gps with
             | inl df => process ear version offset require_gps df
             | inr e => inr e
             end) with
      | inr e => if fatal e then inr e else try_readers ear version offset require_gps rest
      | inl out =>
          match gps out, require_gps with
          | [], true => inr CorruptRaw
          | _, _ =>
              match time_correction version with
              | Some c => inl (mktab (map (fun p => (fst p + c, snd p))%Q (data out)) (metadata out) (gps out))
              | None => inr OtherExn                (* KeyError from the dictionary, not caught *)
              end
          end
      end
  end.

Definition modern (version : string) : bool :=
  existsb (String.eqb version) ["1.10"; "0.91"; "0.9"; "0.85C"]%string.

(** [_read_single] (784-841).  [pandas] and [pandas08] are the outcomes of [_read_with_pandas] and
    [_read_0_8_pd] on the same file. *)
Definition read_single (sc : scanner) (buf0 : bytes) (ear : bool) (pandas pandas08 : bool -> res (list drow))
                       (content : option bytes) (version : string) (offset : Q) (require_gps : bool) : res tables :=
  if modern version
  then try_readers ear version offset require_gps [read_with_cython sc buf0 content; pandas]
  else try_readers ear version offset require_gps [pandas08].
