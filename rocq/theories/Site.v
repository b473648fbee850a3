(** From the GPS log of a conversion to the coordinates of an inventory.  A row of the log as [convert] writes it
    (gemlog/core.py 261-265, 306-310, [to_csv]) and as [read_gps] reads it (gemlog/gem_network.py 427-428, [pd.read_csv] with
    the column t as time); the lines of [summarize_gps] without station information as the coordinate table of
    [make_gem_inventory] (517-531, 555-556; 203-212).  Simplification: numbers that are written and read back are the same
    (pandas writes as many digits as are needed). *)
From Coq Require Import ZArith QArith List Bool.
From Verif Require Import Base Breaks Gps Inventory.
Import ListNotations.
Open Scope Z_scope.

(** The row that is read for a row that was written; [None]: a coordinate is missing (not modelled in Gps.v). *)
Definition read_row (row : Breaks.position) : option Gps.fix_ :=
  match p_lat row, p_lon row with
  | Some la, Some lo => Some (Gps.mkfix la lo (p_t row * 1000000000))
  | _, _ => None
  end.
Fixpoint read_rows (l : list Breaks.position) : option (list Gps.fix_) :=
  match l with
  | [] => Some []
  | row :: r => match read_row row, read_rows r with Some f, Some m => Some (f :: m) | _, _ => None end
  end.

(** The table that [summarize_gps] returns without station information: serial numbers but no codes; the elevation is -9999. *)
Definition cline_of (s : summary) : cline := mkc (s_sn s) [] [] [] (s_lat s) (s_lon s) (-9999) (s_start s) (s_end s).
Definition coords_of (l : list summary) : coords := mkcoords true false true true (map cline_of l).
