(** Vocabulary for stating properties of the raw-file reader, independent of how it works. *)
From Coq Require Import ZArith QArith List Bool.
From Verif Require Import Base Scan Parser.
Import ListNotations.
Open Scope Z_scope.

(** A text file: newline-terminated lines followed by a possibly empty unterminated line. *)
Definition unlines (ls : list bytes) : bytes := concat (map (fun l => l ++ [10]) ls).
Definition file (ls : list bytes) (last : bytes) : bytes := unlines ls ++ last.

(** Lines that fit the reader's line buffer. *)
Definition ok_line (l : bytes) : Prop := ~ In 10 l /\ (length l <= 254)%nat.
(** An unterminated last line; it must not be a lone marker byte 'G' or 'M' (see the refutation
    [lone_marker_at_eof_refuted] for what happens then). *)
Definition ok_last (l : bytes) : Prop := ok_line l /\ l <> [71] /\ l <> [77].

(** The kind of record a line announces by its first byte: 'a'..'z' or 'D' sample, 'G', 'M'. *)
Definition line_kind (l : bytes) : option kind :=
  match l with
  | [] => None
  | c :: _ =>
      if ((97 <=? c) && (c <=? 122)) || (c =? 68) then Some KD
      else if c =? 71 then Some KG
      else if c =? 77 then Some KM
      else None
  end.

Definition is_data (l : bytes) : bool := match line_kind l with Some _ => true | None => false end.
Definition is_sample (l : bytes) : bool := match line_kind l with Some KD => true | _ => false end.

Fixpoint kinds (ls : list bytes) : list kind :=
  match ls with
  | [] => []
  | l :: r => match line_kind l with Some k => k :: kinds r | None => kinds r end
  end.

Definition kind_D (r : row) : bool := match rkind r with KD => true | _ => false end.

(** Time stamp of the last sample row so far (0 at the beginning of the file). *)
Fixpoint last_clock_from (d : Q) (rows : list row) : Q :=
  match rows with
  | [] => d
  | r :: rs => last_clock_from (if kind_D r then rmillis r else d) rs
  end.
Definition last_clock := last_clock_from 0%Q.

(** Decimal notation: what a number written in a line denotes. *)
Record intlit := { ineg : bool; idig : list Z }.                        (* -?d+ *)
Record declit := { dneg : bool; dint : list Z; dfrac : option (list Z) }. (* -?d+(.d* )? *)

Definition all_digits (ds : list Z) : Prop := Forall (fun d => 0 <= d <= 9) ds.

(** Positional value, most significant digit first. *)
Fixpoint pos_value (ds : list Z) : Z :=
  match ds with
  | [] => 0
  | d :: r => d * 10 ^ Z.of_nat (length r) + pos_value r
  end.

Definition sign_text (neg : bool) : bytes := if neg then [45] else [].
Definition digit_text (ds : list Z) : bytes := map (fun d => 48 + d) ds.

Definition int_text (i : intlit) : bytes := sign_text (ineg i) ++ digit_text (idig i).
Definition int_value (i : intlit) : Z := (if ineg i then -1 else 1) * pos_value (idig i).
Definition int_ok (i : intlit) : Prop :=
  idig i <> [] /\ all_digits (idig i) /\ - 2 ^ 31 <= int_value i < 2 ^ 31.

Definition frac_digits (d : declit) : list Z := match dfrac d with Some f => f | None => [] end.
Definition dec_text (d : declit) : bytes :=
  sign_text (dneg d) ++ digit_text (dint d) ++
  match dfrac d with Some f => 46 :: digit_text f | None => [] end.
Definition dec_value (d : declit) : Q :=
  (inject_Z (if dneg d then -1 else 1) *
   (inject_Z (pos_value (dint d)) +
    inject_Z (pos_value (frac_digits d)) / inject_Z (10 ^ Z.of_nat (length (frac_digits d)))))%Q.
Definition dec_ok (d : declit) : Prop :=
  dint d <> [] /\ all_digits (dint d) /\ all_digits (frac_digits d).

(** A field of a line, and the C conversion that the documented format prescribes for it. *)
Inductive field := FInt (i : intlit) | FDec (d : declit).
Definition field_text (f : field) : bytes := match f with FInt i => int_text i | FDec d => dec_text d end.
Definition field_value (f : field) : Q := match f with FInt i => inject_Z (int_value i) | FDec d => dec_value d end.
Definition field_ok (c : conv) (f : field) : Prop :=
  match c, f with
  | Cd, FInt i => int_ok i
  | Clf, FDec d => dec_ok d
  | _, _ => False
  end.

(** Comma-separated text. *)
Fixpoint join (fs : list field) : bytes :=
  match fs with
  | [] => []
  | [f] => field_text f
  | f :: r => field_text f ++ 44 :: join r
  end.

(** What may follow the last field of a line: nothing, or text starting with CR, blank, comma or newline. *)
Definition stops (t : bytes) : Prop := t = [] \/ exists c r, t = c :: r /\ In c [10; 13; 32; 44].

(** Documented raw lines (README, parsers.pyx 93-94, 105-106, 123-125). *)
Definition line_D (ms : declit) (a : intlit) (t : bytes) : bytes := 68 :: join [FDec ms; FInt a] ++ t.
Definition line_G (fs : list field) (t : bytes) : bytes := 71 :: 44 :: join fs ++ t.
Definition line_M (fs : list field) (t : bytes) : bytes := 77 :: 44 :: join fs ++ t.

(** What is required of the C library's number scanning: it reads complete decimal literals. *)
Definition reads_decimal (sc : scanner) : Prop :=
  (forall i t, int_ok i -> stops t -> scan_d sc (int_text i ++ t) = Some (int_value i, t)) /\
  (forall d t, dec_ok d -> stops t ->
     exists v, scan_lf sc (dec_text d ++ t) = Some (v, t) /\ v == dec_value d)%Q.

(** How [fgets] with a 256-byte buffer cuts an arbitrary file: pieces of at most 255 bytes, a newline
    only at the end of a piece, and a piece that is neither full nor newline-terminated is the last one. *)
Inductive fgets_pieces : bytes -> list bytes -> Prop :=
| pieces_nil : fgets_pieces [] []
| pieces_line c bs cs : ~ In 10 c -> (length c <= 254)%nat -> fgets_pieces bs cs ->
    fgets_pieces (c ++ [10] ++ bs) ((c ++ [10]) :: cs)
| pieces_full c bs cs : ~ In 10 c -> length c = 255%nat -> fgets_pieces bs cs ->
    fgets_pieces (c ++ bs) (c :: cs)
| pieces_last c : c <> [] -> ~ In 10 c -> (length c <= 254)%nat -> fgets_pieces c [c].

(** The documented lines of a raw file, and what each of them says. *)
Inductive record :=
| Full_D (ms : declit) (a : intlit) (t : bytes)   (* D<ms>,<counts> *)
| Full_G (fs : list field) (t : bytes)            (* G,<10 fields> *)
| Full_M (fs : list field) (t : bytes)            (* M,<12 fields> *)
| Compact2 (dev diff : Z) (t : bytes)             (* two letters: clock deviation, sample *)
| Compact1 (diff : Z) (t : bytes)                 (* one letter: sample, deviation 0 *)
| Other (l : bytes).                              (* comment, configuration, empty line ... *)

Definition letter (d : Z) : Prop := -12 <= d <= 13.

Definition record_ok (r : record) : Prop :=
  match r with
  | Full_D ms a t => dec_ok ms /\ int_ok a /\ stops t
  | Full_G fs t => Forall2 field_ok [Clf; Clf; Cd; Cd; Cd; Cd; Cd; Clf; Clf; Clf] fs /\ stops t
  | Full_M fs t => Forall2 field_ok [Clf; Clf; Clf; Clf; Clf; Cd; Cd; Cd; Cd; Cd; Cd; Cd] fs /\ stops t
  | Compact2 dev diff t => letter dev /\ letter diff
  | Compact1 diff t => letter diff /\ match t with c :: _ => ~ (97 <= c <= 122) | [] => True end
  | Other l => line_kind l = None
  end.

Definition record_text (r : record) : bytes :=
  match r with
  | Full_D ms a t => line_D ms a t
  | Full_G fs t => line_G fs t
  | Full_M fs t => line_M fs t
  | Compact2 dev diff t => 109 + dev :: 109 + diff :: t
  | Compact1 diff t => 109 + diff :: t
  | Other l => l
  end.

(** A row holds the given kind, clock value and values. *)
Definition denotes (r : row) (k : kind) (clock : Q) (vals : list Q) : Prop :=
  rkind r = k /\ (rmillis r == clock)%Q /\ Forall2 Qeq (rvals r) vals.

(** [x] reduced to [0, 8192). *)
Definition reduced (x y : Q) : Prop := (0 <= y /\ y < 8192 /\ exists k : Z, x == y + inject_Z (8192 * k))%Q.

(** The rows a documented file stands for, when the previous sample had time stamp [clock]. *)
Inductive means : Q -> list record -> list row -> Prop :=
| means_nil c : means c [] []
| means_D c ms a t rs r rows : denotes r KD (dec_value ms) [inject_Z (int_value a)] ->
    means (rmillis r) rs rows -> means c (Full_D ms a t :: rs) (r :: rows)
| means_G c f fs t rs r rows : denotes r KG (field_value f) (map field_value fs) ->
    means c rs rows -> means c (Full_G (f :: fs) t :: rs) (r :: rows)
| means_M c f fs t rs r rows : denotes r KM (field_value f) (map field_value fs) ->
    means c rs rows -> means c (Full_M (f :: fs) t :: rs) (r :: rows)
| means_2 c dev diff t rs r rows m : reduced (c + 10 + inject_Z dev)%Q m -> denotes r KD m [inject_Z diff] ->
    means (rmillis r) rs rows -> means c (Compact2 dev diff t :: rs) (r :: rows)
| means_1 c diff t rs r rows m : reduced (c + 10)%Q m -> denotes r KD m [inject_Z diff] ->
    means (rmillis r) rs rows -> means c (Compact1 diff t :: rs) (r :: rows)
| means_O c l rs rows : means c rs rows -> means c (Other l :: rs) rows.
