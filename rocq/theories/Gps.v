(** Summaries of GPS logs: gemlog/gem_network.py [read_gps] (394-430), [summarize_gps] (433-560).

    What the user's pattern designates is given as the list of folders (with their entries) and plain
    files, in the order in which the code visits them: sorted for a pattern, as given for a list.  The
    rows of a log are what [pd.read_csv] makes of it; [None]: it raises. *)
From Coq Require Import String.
From Coq Require Import ZArith QArith List Bool.
From Verif Require Import Base Scan Names Select Outliers Stations Inventory.
Import ListNotations.
Open Scope Z_scope.

Record fix_ := mkfix { f_lat : Q; f_lon : Q; f_t : Z }.
Notation log := (bytes * option (list fix_))%type.
Inductive item := Folder (entries : list log) | Plain (path : bytes) (content : option (list fix_)).

Definition hidden (n : bytes) : bool := match n with c :: _ => c =? 46 | [] => false end.
(** [glob.glob(gpsDir + '/' + SN + '*')] (419); [SN] free of glob characters. *)
Definition glob_sn (sn n : bytes) : bool := starts_with sn n && (negb (hidden n) || hidden sn).

(** 417-429. *)
Definition read_item (sn : bytes) (it : item) : option (list fix_) :=
  match it with
  | Folder es =>
      match rev (sort_by (fun e f : log => le_bytes (fst e) (fst f)) (filter (fun e => glob_sn sn (fst e)) es)) with
      | [] => Some []
      | e :: _ => snd e
      end
  | Plain path c => if eqb_bytes (firstn 3 (last (split_on 47 path) [])) sn then c else Some []
  end.
Fixpoint read_gps (sn : bytes) (items : list item) : option (list fix_) :=
  match items with
  | [] => Some []
  | it :: r => match read_item sn it, read_gps sn r with Some a, Some l => Some (a ++ l) | _, _ => None end
  end.

(** [name.split('gps')[0]] and whether the rest has been reached: the part before the first "gps", and
    the part after it. *)
Fixpoint cut_gps (n : bytes) : bytes * option bytes :=
  match n with
  | [] => ([], None)
  | c :: r => if starts_with (b "gps") n then ([], Some (skipn 3 n))
              else let (h, t) := cut_gps r in (c :: h, t)
  end.
Definition ends_with (suf s : bytes) : bool := starts_with (rev suf) (rev s).
(** [glob.glob(gpsDir + '/*gps*txt')] (490, 495). *)
Definition gps_name (n : bytes) : bool :=
  negb (hidden n) && match snd (cut_gps n) with Some r => ends_with (b "txt") r | None => false end.
Definition name_sn (n : bytes) : bytes := fst (cut_gps n).

(** 485-513.  A plain file counts only if the user gave a list (494-497). *)
Definition file_names (is_list : bool) (it : item) : list bytes :=
  match it with
  | Folder es => filter gps_name (map fst es)
  | Plain path _ => if is_list then [last (split_on 47 path) []] else []
  end.
(** What a user may give to include or exclude.  [current_SN in include_SN] (508-509) looks for an element
    of a list, but for a part of a text. *)
Inductive choice := Listed (l : list bytes) | InText (s : bytes).
Fixpoint part_of (p s : bytes) : bool :=
  starts_with p s || match s with [] => false | _ :: r => part_of p r end.
Definition in_choice (sn : bytes) (c : choice) : bool :=
  match c with Listed l => existsb (eqb_bytes sn) l | InText s => part_of sn s end.
Definition wanted (incl excl : option choice) (sn : bytes) : bool :=
  match incl with None => true | Some c => in_choice sn c end &&
  match excl with None => true | Some c => negb (in_choice sn c) end.
Definition sn_list (is_list : bool) (items : list item) (incl excl : option choice) : list bytes :=
  sort_by le_bytes (unique eqb_bytes
    (filter (wanted incl excl) (map name_sn (flat_map (file_names is_list) items)))).

(** [_remove_outliers] (387-392) on whole rows, see Outliers.v. *)
Definition position (f : fix_) : Q * Q := (f_lat f, f_lon f).
Definition pass_rows (x : list fix_) : list fix_ :=
  filter (fun f => close 5 (map f_lat x) (f_lat f) && close 5 (map f_lon x) (f_lon f)) x.
Fixpoint remove_rows (fuel : nat) (x : list fix_) : list fix_ :=
  let w := pass_rows x in
  if (length w <? length x)%nat then match fuel with O => x | S f => remove_rows f w end else x.

(** A line of the summary; the standard errors are given by their squares. *)
Record summary := mksum { s_sn : bytes; s_lat : Q; s_lon : Q; s_lat_se2 : Q; s_lon_se2 : Q;
                          s_start : Z; s_end : Z; s_count : nat }.
Definition se2 (l : list Q) : Q := (variance l / count l)%Q.

(** 519-531; [Some None]: no line for this instrument. *)
Definition summarize_one (items : list item) (t1 t2 : Z) (sn : bytes) : option (option summary) :=
  match read_gps sn items with
  | None => None
  | Some all =>
      let w := filter (fun f => (t1 <=? f_t f) && (f_t f <=? t2)) (remove_rows (length all) all) in
      match minZ (map f_t w), maxZ (map f_t w) with
      | Some a, Some e =>
          Some (Some (mksum sn (mean (map f_lat w)) (mean (map f_lon w)) (se2 (map f_lat w)) (se2 (map f_lon w)) a e (length w)))
      | _, _ => Some None
      end
  end.
Fixpoint summarize_all (items : list item) (t1 t2 : Z) (sns : list bytes) : option (list summary) :=
  match sns with
  | [] => Some []
  | sn :: r =>
      match summarize_one items t1 t2 sn, summarize_all items t1 t2 r with
      | Some (Some s), Some l => Some (s :: l)
      | Some None, Some l => Some l
      | _, _ => None
      end
  end.

(** 532-553: the codes and the elevation in the station table, blank and -9999 if the serial number is
    not in it.  [None]: the exception caught at 544 comes too late and the columns differ in length. *)
Definition annotate (t : table) (s : summary) : option (cell * cell * cell * cell) :=
  match codes_of t (s_sn s) with
  | Skip => Some (Txt [], Txt [], Txt [], Number (-9999))
  | Crash => None
  | Codes n st l =>
      match column t (b "SN") with
      | Some c => match index_of (s_sn s) c with
                  | Some w => match get t (b "elevation") w with Some e => Some (n, st, l, e) | None => None end
                  | None => None
                  end
      | None => None
      end
  end.

(** 476-560 up to the station table; t1, t2 default to 1970-01-01 and 9999-12-31 (476-483). *)
Definition summarize_gps (is_list : bool) (items : list item) (t1 t2 : option Z) (incl excl : option choice)
  : option (list summary) :=
  let lo := match t1 with Some t => t | None => 0 end in
  let hi := match t2 with Some t => t | None => 253402214400 * 1000000000 end in
  summarize_all items lo hi (sn_list is_list items incl excl).

(** [summarize_gps_terminal] (565-640): the paths are a list; the texts given to include and exclude are
    split at commas (620-627), but the texts themselves are passed on (636). *)
Definition summarize_gps_terminal (items : list item) (t1 t2 : option Z) (incl excl : option bytes) : option (list summary) :=
  summarize_gps true items t1 t2 (option_map InText incl) (option_map InText excl).
