(** Merging raw files so that every file bears GPS data: gemlog/gem_cat.py ([gem_cat] 16-105,
    [AppendFile] 112-162).

    Files are given by their content, in the order of the sorted listing (line 43).  Exceptions are
    [None].  The input and output directories are taken to be different, both readable and writable;
    the serial number (49) is an argument.  Byte values stand for characters (a file that is not valid
    UTF-8 raises instead). *)
From Coq Require Import String.
From Coq Require Import ZArith QArith List Bool.
From Verif Require Import Base Scan Convert110 Process.
Import ListNotations.
Open Scope Z_scope.

(** Python text mode and pandas end a line at LF, CR LF or CR alone.  Each line comes with the
    information whether it was terminated. *)
Fixpoint text_lines (bs : bytes) : list (bytes * bool) :=
  match bs with
  | [] => []
  | c :: r =>
      if c =? 10 then ([], true) :: text_lines r
      else if c =? 13 then
        ([], true) :: match r with
                      | d :: r' => if d =? 10 then text_lines r' else text_lines r
                      | [] => []
                      end
      else match text_lines r with
           | [] => [([c], false)]
           | (l, t) :: ls => (c :: l, t) :: ls
           end
  end.

(** [OF.write(line)] of a line obtained by iterating over a text file (141, 159). *)
Definition write_line (p : bytes * bool) : bytes := fst p ++ if snd p then [10] else [].

(** [pd.read_csv] skips empty lines and lines of blanks. *)
Definition blank (l : bytes) : bool := forallb (Z.eqb 32) l.
Definition starts (c : Z) (l : bytes) : bool := match l with x :: _ => x =? c | [] => false end.

Fixpoint first_nonblank (ls : list (bytes * bool)) : option bytes :=
  match ls with
  | [] => None
  | (l, _) :: r => if blank l then first_nonblank r else Some l
  end.

(** Lines 123-131 and 149-154: the smallest number [j] of skipped lines for which the next line that
    pandas sees begins with 'D', and that line.  [None]: EmptyDataError.
    Simplification: lines containing a tab, a double quote or one of pandas' NaN words are read like
    any other line. *)
Fixpoint find_D (ls : list (bytes * bool)) : option (nat * bytes) :=
  match ls with
  | [] => None
  | _ :: r =>
      match first_nonblank ls with
      | None => None
      | Some l =>
          if starts 68 l then Some (O, l)
          else match find_D r with Some (j, l') => Some (S j, l') | None => None end
      end
  end.

Definition new_formats : list string := ["0.85C"; "0.9"; "0.91"; "1.10"]%string.   (* 119 *)

(** [AppendFile] (112-162): the new content of the output file.  [fmt]: result of
    [_read_format_version(infile)] (118); [p_start]: last ADC reading of the previous input (121).
    A D line with one column (c2 is NaN) or more than two (pandas makes the first the index) is [None]. *)
Definition append_file (fmt : option string) (p_start : string -> option Z) (inn out : bytes) : option bytes :=
  match fmt with
  | None => None
  | Some v =>
      let ls := text_lines inn in
      if existsb (String.eqb v) new_formats then
        match p_start v, find_D ls with
        | Some p, Some (j, l) =>
            match split_comma l with                       (* columns c1 and c2, 134 *)
            | [c1; c2] =>
                match py_int c2 with
                | Some n => Some (out ++ c1 ++ [44] ++ str_Z (n - p) ++ [10] ++
                                  concat (map write_line (skipn (S j) ls)))
                | None => None
                end
            | _ => None
            end
        | _, _ => None
        end
      else
        match find_D ls with
        | Some (j, _) => Some (out ++ concat (map write_line (skipn j ls)))
        | None => None
        end
  end.

(** Lines 65-71: does some line begin with 'G'?  [None]: nothing to read, [EmptyRawFile]. *)
Definition gps_lines (c : bytes) : option bool :=
  match filter (fun p => negb (blank (fst p))) (text_lines c) with
  | [] => None
  | ls => Some (existsb (fun p => starts 71 (fst p)) ls)
  end.

(** [int(_read_single(prev, require_gps=False, version=format)['data'][-1,1])] (121). *)
Definition last_adc (sc : scanner) (buf0 : bytes) (ear : bool) (pandas pandas08 : bytes -> bool -> res (list drow))
                    (prev : bytes) (v : string) : option Z :=
  match read_single sc buf0 ear (pandas prev) (pandas08 prev) (Some prev) v 0 false with
  | inl tab => int_of (last (map snd (data tab)) None)
  | inr _ => None
  end.

Section Loop.
  Variable fmt_of : bytes -> option string.       (* [_read_format_version] (core.py 589-599) *)
  Variable last_of : bytes -> string -> option Z. (* [last_adc] in the program *)

  Definition append (prev inn out : bytes) : option bytes := append_file (fmt_of inn) (last_of prev) inn out.

  (** The loop over the files (54-104), [cat_all] false.  [cur]: number and content of the current
      output file ([None]: [out_file] is still empty); [prev]: the previous input; [prev_gps]:
      [has_gps[k-1]].  Result: the output files in the order of creation, and whether the loop ended
      without exception. *)
  Fixpoint merge (cur : option (Z * bytes)) (counter : Z) (prev : bytes) (prev_gps : bool) (files : list bytes)
    : list (Z * bytes) * bool :=
    let written := match cur with Some o => [o] | None => [] end in
    match files with
    | [] => (written, true)
    | f :: r =>
        match gps_lines f with
        | None => (written, false)
        | Some g =>
            match cur with
            | None => if g then merge (Some (counter, f)) (counter + 1) f true r
                      else merge None counter f false r
            | Some (n, o) =>
                if g && prev_gps then
                  let (outs, ok) := merge (Some (counter, f)) (counter + 1) f true r in ((n, o) :: outs, ok)
                else
                  match append prev f o with
                  | None => (written, false)
                  | Some o' => merge (Some (n, o')) counter f g r
                  end
            end
        end
    end.

  (** [cat_all] (57-63). *)
  Fixpoint merge_all (cur : option bytes) (prev : bytes) (files : list bytes) : option bytes * bool :=
    match files with
    | [] => (cur, true)
    | f :: r =>
        match cur with
        | None => merge_all (Some f) f r
        | Some o => match append prev f o with
                    | None => (cur, false)
                    | Some o' => merge_all (Some o') f r
                    end
        end
    end.

  (** [gem_cat] (16-105): the written files by name, and whether it returned. *)
  Definition out_name (n : Z) (sn : bytes) : bytes := b "FILE" ++ pad 4 n ++ b "." ++ sn.   (* 81, 97 *)
  Definition gem_cat (sn : option bytes) (cat_all : bool) (files : list bytes) : list (bytes * bytes) * bool :=
    match sn with
    | None => ([], false)
    | Some s =>
        if cat_all then
          let (o, ok) := merge_all None [] files in
          (match o with Some c => [(b "FILE9999." ++ s, c)] | None => [] end, ok)
        else let (outs, ok) := merge None 0 [] false files in
             (map (fun p => (out_name (fst p) s, snd p)) outs, ok)
    end.
End Loop.
