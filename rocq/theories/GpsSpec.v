(** What a user may expect of the GPS summary. *)
From Coq Require Import String.
From Coq Require Import ZArith QArith List.
From Verif Require Import Base NamesSpec OutliersSpec StationsSpec InventorySpec Gps.
Import ListNotations.
Open Scope Z_scope.

(** Of Gps.v only the types are used. *)
Definition begins (p n : bytes) : Prop := exists r, n = p ++ r.

(** The last component of a path. *)
Definition file_name (path n : bytes) : Prop := ~ In 47 n /\ (path = n \/ exists dir, path = dir ++ [47] ++ n).

(** [n] is the name of a log of [sn]: what stands before the first "gps"; it ends with "txt" and is not hidden. *)
Definition before_gps (sn n : bytes) : Prop :=
  (exists r, n = sn ++ b "gps" ++ r) /\ (forall a r, n = a ++ b "gps" ++ r -> (length sn <= length a)%nat).
Definition log_of (sn n : bytes) : Prop :=
  before_gps sn n /\ ~ begins (b ".") n /\ exists r, n = sn ++ b "gps" ++ r ++ b "txt".

(** The log that counts in a folder: the last in name order of those beginning with the serial number. *)
Definition last_log (sn : bytes) (es : list log) (e : log) : Prop :=
  In e es /\ begins sn (fst e) /\ forall e', In e' es -> begins sn (fst e') -> fst e' = fst e \/ before (fst e') (fst e).

(** The fixes read for a serial number: those of one log per folder that has any. *)
Inductive fixes_of (sn : bytes) : list item -> list fix_ -> Prop :=
| fixes_nil : fixes_of sn [] []
| fixes_folder es e x items l : last_log sn es e -> snd e = Some x -> fixes_of sn items l ->
    fixes_of sn (Folder es :: items) (x ++ l)
| fixes_none es items l : (forall e, In e es -> ~ begins sn (fst e)) -> fixes_of sn items l ->
    fixes_of sn (Folder es :: items) l
| fixes_plain path n x items l : file_name path n -> firstn 3 n = sn -> fixes_of sn items l ->
    fixes_of sn (Plain path (Some x) :: items) (x ++ l)
| fixes_other path n x items l : file_name path n -> firstn 3 n <> sn -> fixes_of sn items l ->
    fixes_of sn (Plain path x :: items) l.

(** The core of a set of positions (OutliersSpec). *)
Definition core (x y : list (Q * Q)) : Prop := passes 5 x y /\ one_pass 5 y y.

(** The line for a serial number: mean, squared standard error, first and last time and number of those
    fixes that are in the core and within the time limits. *)
Definition used (t1 t2 : Z) (all w : list fix_) : Prop :=
  exists c k, core (map (fun f => (f_lat f, f_lon f)) all) c /\
    those_with (fun f => In (f_lat f, f_lon f) c) all k /\
    those_with (fun f => t1 <= f_t f <= t2) k w.
Definition standard_error2 (l : list Q) (q : Q) : Prop :=
  exists v, is_variance l v /\ (q * size l == v)%Q.
Definition line_for (sn : bytes) (w : list fix_) (s : summary) : Prop :=
  s_sn s = sn /\ is_mean (map f_lat w) (s_lat s) /\ is_mean (map f_lon w) (s_lon s) /\
  standard_error2 (map f_lat w) (s_lat_se2 s) /\ standard_error2 (map f_lon w) (s_lon_se2 s) /\
  earliest (map f_t w) (s_start s) /\ latest (map f_t w) (s_end s) /\ s_count s = length w.

(** The lines for a list of serial numbers: those with nothing left are missing. *)
Inductive summary_of (items : list item) (t1 t2 : Z) : list bytes -> list summary -> Prop :=
| so_nil : summary_of items t1 t2 [] []
| so_line sn sns all w s l : fixes_of sn items all -> used t1 t2 all w -> w <> [] -> line_for sn w s ->
    summary_of items t1 t2 sns l -> summary_of items t1 t2 (sn :: sns) (s :: l)
| so_none sn sns all l : fixes_of sn items all -> used t1 t2 all [] ->
    summary_of items t1 t2 sns l -> summary_of items t1 t2 (sn :: sns) l.

(** Strictly ascending in name order. *)
Inductive in_order : list bytes -> Prop :=
| io_nil : in_order []
| io_cons x l : Forall (before x) l -> in_order l -> in_order (x :: l).

(** The serial number a plain file stands for. *)
Definition plain_sn (n sn : bytes) : Prop := before_gps sn n \/ (sn = n /\ forall a r, n <> a ++ b "gps" ++ r).

(** The name of a serial number in a list, or in a text with commas. *)
Definition chosen (sn : bytes) (c : choice) : Prop :=
  match c with Listed l => In sn l | InText s => exists a r, s = a ++ sn ++ r end.
Fixpoint joined (l : list bytes) : bytes :=
  match l with [] => [] | [x] => x | x :: r => x ++ b "," ++ joined r end.

(** No folder has a hidden entry; no log is unreadable. *)
Definition visible (items : list item) : Prop :=
  forall es e, In (Folder es) items -> In e es -> ~ begins (b ".") (fst e).
Definition readable (it : item) : Prop :=
  match it with Folder es => Forall (fun e : log => snd e <> None) es | Plain _ c => c <> None end.

(** The elevation in the row of codes_in. *)
Inductive elevation_in (h : list bytes) (sn : bytes) : list (list bytes) -> bytes -> Prop :=
| elev_here row rows e : cell_under (b "sn") h row sn -> cell_under (b "elevation") h row e ->
    elevation_in h sn (row :: rows) e
| elev_next row rows sn' e : cell_under (b "sn") h row sn' -> sn' <> sn -> elevation_in h sn rows e ->
    elevation_in h sn (row :: rows) e.
