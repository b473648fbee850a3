(** Looking for time discontinuities: [check_discontinuity] of gemlog/gemlog_aux.py (20-30).
    Streams are those of Stream.v, with an id for every trace.  Simplifications: a line that is printed is a value (id, number of
    the first sample, number of the last sample); ids are sorted as one string (obspy: by network, station, location and
    channel, which may be another order only if a code has a character before the dot). *)
From Coq Require Import ZArith List Bool.
From Verif Require Import Base Select Stations Stream Patch.
Import ListNotations.
Open Scope Z_scope.

(** 23-25; [None]: a file cannot be read. *)
Fixpoint read_files (files : list (option (list (bytes * gtrace)))) : option (list (bytes * gtrace)) :=
  match files with
  | [] => Some []
  | None :: _ => None
  | Some s :: r => match read_files r with None => None | Some t => Some (s ++ t) end
  end.
(** The traces with an id. *)
Definition with_id (id : bytes) (st : list (bytes * gtrace)) : stream := map snd (filter (fun t => eqb_bytes (fst t) id) st).
(** [st.merge(); st = st.split()] (26-27): id by id. *)
Definition merge_split_ids (st : list (bytes * gtrace)) : list (bytes * gtrace) :=
  flat_map (fun id => map (pair id) (merge_split (with_id id st))) (sort_by le_bytes (unique eqb_bytes (map fst st))).
(** 28-30. *)
Definition check_discontinuity (files : list (option (list (bytes * gtrace)))) : option (list (bytes * Z * Z)) :=
  match read_files files with
  | None => None
  | Some st =>
      let st := merge_split_ids st in
      Some (if (1 <? length st)%nat then map (fun t => (fst t, gs (snd t), gend (snd t))) st else [])
  end.
