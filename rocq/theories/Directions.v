(** From a stream to directions: the windows of gemlog/xcorr.py [xcorr_one_day] (329-333) with
    [xcorr_function] (335-366), the table made of them, and [invert_for_slowness] (131-176) of that table.

    The stream is the one after upsampling, detrending and filtering (320-328), its traces sampled every [dt]
    seconds.  Writing the table to a file and reading it back, as [calculate_direction] does, is not modelled. *)
From Coq Require Import String.
From Coq Require Import ZArith QArith List Bool.
From Verif Require Import Base Stations Windows Slowness Xcorr.
Import ListNotations.
Open Scope Z_scope.

Section directions.
Context {S : Type}.
Variable prepare : list S -> list S.
Variable std : list S -> Q.
Variable correlate : list S -> list S -> Z -> Z * Q.
Variable dt : Q.
Variable maxshift : option Q.

(** [stats.network], [stats.station] and [stats.location] (355-356) of a trace with id
    network.station.location.channel. *)
Definition sensor_of (tr : bytes * list (Q * S)) : sensor (list S) :=
  match split_on 46 (fst tr) with
  | net :: sta :: loc :: _ => mks (list S) net sta loc dt (map snd (snd tr))
  | _ => mks (list S) [] [] [] dt (map snd (snd tr))
  end.

(** The analysis of one window. *)
Definition analyse (w : list (bytes * list (Q * S))) : option (list (bytes * item)) :=
  xcorr_function (list S) prepare std correlate (map sensor_of w) maxshift.

(** [pd.DataFrame.from_dict(output)] (333): the flag is the number 0 or 1. *)
Definition number (v : option item) : option Q :=
  match v with
  | Some (Num q) => Some q
  | Some (Flag f) => Some (if f then 1%Q else 0%Q)
  | None => None
  end.
Definition table (r : list Q * list (bytes * list (option item))) : frame :=
  (b "t_mid", map Some (fst r)) :: map (fun kc => (fst kc, map number (snd kc))) (snd r).

(** 329-333, then 131-176; [None]: an exception. *)
Definition directions (st : list (bytes * list (Q * S))) (win overlap : Q) (ls : locations)
  : option (list Q * list (option arrival)) :=
  match apply_function_windows analyse st win overlap with
  | None => None
  | Some r => match invert_for_slowness (table r) (length (fst r)) ls with
              | None => None
              | Some res => Some (fst r, res)
              end
  end.
End directions.
