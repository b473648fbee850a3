(** What is drawn of the lags of two conversions: gemlog/gemlog_aux.py [plot_lags] (71-100).

    Simplifications: a drawn line of dots is the list of its values, NaN ([None]) where there is no dot; colours, the
    legend and showing the figure are left out.  The lags are given window by window, as [check_lags] finds them
    ([Database]), with the number of stations; numpy's arrays have a row for each station. *)
From Coq Require Import ZArith QArith List Bool.
From Verif Require Import Base Database Commands.
Import ListNotations.
Open Scope Z_scope.

(** The lags or correlations of a station: a row of the array; [None]: IndexError. *)
Definition station_row (n : nat) (cols : list (list Q)) (i : nat) : option (list Q) :=
  if Nat.ltb i n then all_of (map (fun c => nth_error c i) cols) else None.
(** 78-79: True / True is 1, False / False is NaN. *)
Definition multiplier (s : Z) : option Q := if s =? 0 then Some 1%Q else None.
(** The product with a row (84, 88, 93, 97); [None]: ValueError, the shapes differ (numpy would
    stretch a single entry; [check_lags] gives equal lengths).  81-82: no multiplier. *)
Definition scaled (use : bool) (sums : list Z) (r : list Q) : option (list (option Q)) :=
  if use then
    if Nat.eqb (length sums) (length r)
    then Some (map (fun p => match multiplier (fst p) with Some c => Some (c * snd p)%Q | None => None end) (combine sums r))
    else None
  else Some (map (fun x => Some (1 * x)%Q) r).
(** A panel: [N = 3] (73) lines, each [up] higher than the one before (1/6 for lags). *)
Definition panel (use : bool) (n : nat) (cols : list (list Q)) (sums : list Z) (up : Q) : option (list (list (option Q))) :=
  all_of (map (fun i => match station_row n cols i with
    | Some r => match scaled use sums r with
        | Some l => Some (map (option_map (fun x => x + inject_Z (Z.of_nat i) * up)%Q) l)
        | None => None
        end
    | None => None
    end) (seq 0 3)).
(** The four panels: upper left and right (84, 93), lower left and right (88, 97). *)
Record panels := mkpanels { u_lags : list (list (option Q)); u_coefs : list (list (option Q)); l_lags : list (list (option Q)); l_coefs : list (list (option Q)) }.
(** 71-100: lags and correlations of the second argument above, of the first below. *)
Definition plot_lags (n0 : nat) (lag0 : found) (n1 : nat) (lag1 : found) (use : bool) : option panels :=
  match panel use n1 (map (map inject_Z) (f_lag lag1)) (f_sum lag1) (1 # 6),
        panel use n0 (map (map inject_Z) (f_lag lag0)) (f_sum lag0) (1 # 6),
        panel use n1 (f_coef lag1) (f_sum lag1) 0,
        panel use n0 (f_coef lag0) (f_sum lag0) 0 with
  | Some a, Some c, Some d, Some e => Some (mkpanels a d c e)
  | _, _, _, _ => None
  end.
