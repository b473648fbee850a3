(** Model of the millisecond-clock unwrapping: gemlog/core.py [_process_gemlog_data] lines 863-872
    (vectorised, pandas) and the reference [_unwrap_millis] (662-665) with its use in
    [_slow__read_single_v0_9] (982, 1002-1003). *)
From Coq Require Import ZArith QArith Qround List Bool.
From Verif Require Import Base.
Import ListNotations.
Open Scope Z_scope.

(** [Series.diff()] : the first entry is NaN ([None]). *)
Fixpoint diffs (prev : option Q) (xs : list Q) : list (option Q) :=
  match xs with
  | [] => []
  | x :: r => match prev with None => None | Some p => Some (x - p)%Q end :: diffs (Some x) r
  end.

(** Comparisons with NaN are False. *)
Definition lt_opt (d : option Q) (y : Q) : bool := match d with Some x => Qltb x y | None => false end.
Definition gt_opt (d : option Q) (y : Q) : bool := match d with Some x => Qltb y x | None => false end.

(** [(bool Series).cumsum()]. *)
Fixpoint cumcount (n : Z) (bs : list bool) : list Z :=
  match bs with
  | [] => []
  | x :: r => let n' := n + (if x then 1 else 0) in n' :: cumcount n' r
  end.

Fixpoint map2 {A B C} (f : A -> B -> C) (l : list A) (m : list B) : list C :=
  match l, m with
  | x :: l', y :: m' => f x y :: map2 f l' m'
  | _, _ => []
  end.

(** Lines 863-866: 'millis-stairstep' and 'millis-corrected' before the shift. *)
Definition stairstep (r : Q) (saw : list Q) : list Z :=
  let d := diffs None saw in
  map2 Z.sub (cumcount 0 (map (fun x => lt_opt x (- (r / 2))%Q) d))
             (cumcount 0 (map (fun x => gt_opt x (r / 2)%Q) d)).

Definition corrected0 (r : Q) (saw : list Q) : list Q :=
  map2 (fun k s => inject_Z k * r + s)%Q (stairstep r saw) saw.

(** Lines 867-872: shift to the requested offset ([iloc[0]] of an empty frame raises, but an empty
    file has been rejected before; here the shift of nothing is nothing). *)
Definition unwrap (r offset : Q) (saw : list Q) : list Q :=
  let c := corrected0 r saw in
  match c with
  | [] => []
  | first :: _ =>
      map (fun x => x + ((offset - first) + Qmod (first - Qmod offset r + r / 2) r - r / 2))%Q c
  end.

(** [_unwrap_millis(new, old)] (662-665), maxNegative = 2**12, rollover = 2**13. *)
Definition unwrap_millis (new old : Q) : Q :=
  (old + Qmod (new - Qmod old 8192 + 4096) 8192 - 4096)%Q.

(** The loop of the reference reader, 1002 ("millis = _unwrap_millis(line[0], millis)"). *)
Fixpoint ref_unwrap_from (millis : Q) (saw : list Q) : list Q :=
  match saw with
  | [] => []
  | s :: r => let m := unwrap_millis s millis in m :: ref_unwrap_from m r
  end.

(** Start value, line 982. *)
Definition ref_unwrap (offset : Q) (saw : list Q) : list Q := ref_unwrap_from (Qmod offset 8192) saw.
