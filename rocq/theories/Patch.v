(** Filling short gaps before the plots of a huddle test: [_interpolate_stream] of gemlog/gemlog_aux.py
    (344-378), used by gemlog/huddle_test.py (540).  Streams are those of Stream.v.  Simplifications: the limit
    is a whole number [L] of sampling intervals (0.1 s: 10); the samples are integers.  The spline of scipy is
    a parameter: it gets the known samples (position in the window, value) and a position, and gives the value
    that is stored there (a float is truncated when it is stored in an integer array). *)
From Coq Require Import ZArith List Bool.
From Verif Require Import Base Stream.
Import ListNotations.
Open Scope Z_scope.

(** [t[data_good]], [tr_new.data[data_good]] (361-363). *)
Fixpoint knots_from (t : Z) (l : list (option Z)) : list (Z * Z) :=
  match l with
  | [] => []
  | Some v :: r => (t, v) :: knots_from (t + 1) r
  | None :: r => knots_from (t + 1) r
  end.

(** [tr_new.data[~data_good] = interp_function(t[~data_good])] (364). *)
Fixpoint fill_from (f : Z -> Z) (t : Z) (l : list (option Z)) : list Z :=
  match l with
  | [] => []
  | Some v :: r => v :: fill_from f (t + 1) r
  | None :: r => f t :: fill_from f (t + 1) r
  end.
Definition masked (o : option Z) : bool := match o with None => true | Some _ => false end.

Section spline.
Variable spline : list (Z * Z) -> Z -> Z.

(** The new trace (357-364).  [None]: AttributeError, the merged window has no masked sample and then is a
    plain array without [mask] (361); or IndexError, the window is empty (358; does not happen). *)
Definition patch (L : Z) (x y : gtrace) (st : stream) : option gtrace :=
  let window := filter nonempty (map (clip (gend x - L) (gs y + L)) st) in
  match merge Masked (map unmasked window) with
  | m :: _ => if existsb masked (md m) then Some (mkg (ms m) (fill_from (spline (knots_from 0 (md m))) 0 (md m))) else None
  | [] => None
  end.

(** The loop (353-370) over the traces [l]; [st] is the stream with the new traces so far: they are added at
    its end, so that [st[i]] and [st[i+1]] are the traces of [l]. *)
Fixpoint patches (L : Z) (l : stream) (st : stream) : option stream :=
  match l with
  | x :: ((y :: _) as r) =>
      if gs y - gend x <? L
      then match patch L x y st with None => None | Some tr => patches L r (st ++ [tr]) end
      else patches L r st
  | _ => Some st
  end.

(** [st.merge(); st = st.split()] (347-348, 372-373). *)
Definition merge_split (st : stream) : stream := flat_map split_one (merge Masked (map unmasked st)).

Definition interpolate_stream (L : Z) (st : stream) : option stream :=
  let st := merge_split st in
  match st with
  | [_] => Some st
  | _ => match patches L st st with None => None | Some st => Some (merge_split st) end
  end.
End spline.
