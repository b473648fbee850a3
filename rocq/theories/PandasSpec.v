(** The lines of raw files that the pandas readers can be held to, and what the lines say. *)
From Coq Require Import String.
From Coq Require Import ZArith QArith List Bool.
From Verif Require Import Base Scan Parser ParserSpec Process Header HeaderSpec.
Import ListNotations.
Open Scope Z_scope.

(** Numbers and what begins with the letters D, G, M, as far as they occur in lines, are not taken for missing; a cell
    without text is. *)
Definition keeps (na : bytes -> bool) : Prop :=
  na [] = true /\ (forall i, int_ok i -> na (int_text i) = false) /\ (forall d, dec_ok d -> na (dec_text d) = false) /\
  forall c t, In c [68; 71; 77] -> t = [] \/ (exists d, dec_ok d /\ t = dec_text d) -> na (c :: t) = false.

(** Lines of the formats 0.8 and 0.85: a letter, the clock value and further cells, numbers or empty; or anything else. *)
Inductive old_line := Row (k : kind) (ms : declit) (cells : list (option field)) | Skip (l : bytes).

Definition kind_letter (k : kind) : Z := match k with KD => 68 | KG => 71 | KM => 77 end.
Definition cell_text (c : option field) : bytes := match c with Some f => field_text f | None => [] end.
Definition old_text (x : old_line) : bytes :=
  match x with
  | Row k ms cells => kind_letter k :: 44 :: dec_text ms ++ concat (map (fun c => 44 :: cell_text c) cells)
  | Skip l => l
  end.

Definition good_field (f : field) : Prop := match f with FInt i => int_ok i | FDec d => dec_ok d end.
(** Characters of lines: ASCII, no line end, no NUL, no double quote. *)
Definition line_char (c : Z) : Prop := 0 < c < 128 /\ c <> 10 /\ c <> 13 /\ c <> 34.
(** At most [n] commas. *)
Definition commas_at_most (n : nat) (l : bytes) : Prop := (length (filter (Z.eqb 44) l) <= n)%nat.

(** Other lines: not a letter D, G or M alone in the first cell, or no clock value in the second. *)
Definition skip_ok (l : bytes) : Prop :=
  Forall line_char l /\ commas_at_most 14 l /\
  forall c t, In c [68; 71; 77] -> l = c :: 44 :: t -> t = [] \/ exists u, t = 44 :: u.

Definition old_ok (x : old_line) : Prop :=
  match x with
  | Row k ms cells => dec_ok ms /\ dneg ms = false /\ (length cells <= 13)%nat /\
                      Forall (fun c => match c with Some f => good_field f | None => True end) cells
  | Skip l => skip_ok l
  end.

(** The file: its head, the lines with their endings, and a last line without ending. *)
Definition old_file (head : list (bytes * bytes)) (body : list (old_line * bytes)) (last : old_line) : bytes :=
  lines_text (head ++ map (fun p => (old_text (fst p), snd p)) body) ++ old_text last.
Definition head_ok (head : list (bytes * bytes)) : Prop :=
  length head = 6%nat /\ Forall (fun p => Forall line_char (fst p) /\ (snd p = [10] \/ snd p = [13; 10])) head.

(** The rows among the lines. *)
Definition stated (xs : list old_line) : list (kind * declit * list (option field)) :=
  concat (map (fun x => match x with Row k ms cells => [(k, ms, cells)] | Skip _ => [] end) xs).

(** The cell of a table shows what the line has in that place. *)
Definition shows (c : Process.cell) (f : option (option field)) : Prop :=
  match f with
  | Some (Some g) => exists v, c = Num v /\ (v == field_value g)%Q
  | _ => c = NaN
  end.

(** The row of a table is what a line says: the kind, the whole milliseconds of the clock, and the cells, the missing ones
    being NaN. *)
Definition row_is (d : drow) (e : kind * declit * list (option field)) : Prop :=
  let '(k, ms, cells) := e in
  dkind d = k /\
  (exists n, dsaw d = inject_Z n /\ inject_Z n <= dec_value ms /\ dec_value ms < inject_Z n + 1)%Q /\
  length (dcells d) = 13%nat /\ forall i c, nth_error (dcells d) i = Some c -> shows c (nth_error cells i).

Definition row_kind (e : kind * declit * list (option field)) : kind := fst (fst e).

(** The fix that the cells of a GPS row give. *)
Definition fix_stated (ms : Q) (cells : list (option field)) : fix_ :=
  let v i := match nth_error cells i with Some (Some f) => Some (field_value f) | _ => None end in
  mkfix ms (v 0%nat) (v 1%nat) (v 2%nat) (v 3%nat) (v 4%nat) (v 5%nat) (v 6%nat) (v 7%nat) (v 8%nat).

(** * The fallback reader of the later formats *)

(** No number begins with one of the letters D, G, M. *)
Definition letters_no_numbers (pf : bytes -> option Q) : Prop := forall c t, In c [68; 71; 77] -> pf (c :: t) = None.

(** Lines as the formats up to 0.9 have them: clock values without fraction; other lines have at most 13 cells, the first
    of which is not missing, or are empty. *)
Definition whole_ms (f : field) : Prop := match f with FDec d => dfrac d = None | FInt _ => False end.
Definition steady (na : bytes -> bool) (r : record) : Prop :=
  match r with
  | Full_D ms _ _ => dfrac ms = None
  | Full_G (f :: _) _ | Full_M (f :: _) _ => whole_ms f
  | Other l => commas_at_most 12 l /\
               (empty_line l \/ forall s t, ~ In 44 s -> l = s \/ l = s ++ 44 :: t -> na s = false)
  | _ => False
  end.
(** Remarks have no NUL and no double quote. *)
Definition unquoted (r : record) : Prop := match r with Other l => Forall line_char l | _ => True end.

(** Two readers found the same row; one of them may have empty cells after it. *)
Definition same_number (c c' : Process.cell) : Prop := exists v w, c = Num v /\ c' = Num w /\ (v == w)%Q.
Definition same_row (d d' : drow) : Prop :=
  dkind d = dkind d' /\ (dsaw d == dsaw d')%Q /\
  exists cells empty, dcells d' = cells ++ empty /\ Forall2 same_number (dcells d) cells /\ Forall (fun c => c = NaN) empty.
