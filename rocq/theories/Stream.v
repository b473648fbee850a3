(** Streams on the 0.01 s grid: the obspy operations that gemlog/core.py uses on them, and [_merge_gaps]
    (550-564).  Times are counted in sampling intervals (0.01 s) since the epoch, so that sample number [k]
    is at time [k].  Simplification: all traces have the same id and their samples are on the grid (as
    [_interp_time] makes them, see C20).  The obspy functions are described from their documentation; they
    are part of the trusted base. *)
From Coq Require Import ZArith QArith Qround List Bool.
From Verif Require Import Base.
Import ListNotations.
Open Scope Z_scope.

(** A trace: number of its first sample, samples. *)
Record gtrace := mkg { gs : Z; gd : list Z }.
Definition stream := list gtrace.
Definition gend (tr : gtrace) : Z := gs tr + Z.of_nat (length (gd tr)) - 1.

(** A trace with masked samples ([None]), as [Stream.merge] makes them. *)
Record mtrace := mkm { ms : Z; md : list (option Z) }.
Definition mend (tr : mtrace) : Z := ms tr + Z.of_nat (length (md tr)) - 1.
Definition unmasked (tr : gtrace) : mtrace := mkm (gs tr) (map Some (gd tr)).

(** [Stream.split]: the parts without masked samples; [cur] is the current part, reversed. *)
Fixpoint split_from (s : Z) (cur : list Z) (l : list (option Z)) : stream :=
  let emit := match cur with [] => [] | _ => [mkg (s - Z.of_nat (length cur)) (rev cur)] end in
  match l with
  | [] => emit
  | Some v :: r => split_from (s + 1) (v :: cur) r
  | None :: r => emit ++ split_from (s + 1) [] r
  end.
Definition split_one (tr : mtrace) : stream := split_from (ms tr) [] (md tr).

(** Filling a gap of [n] samples: masked, or linear between the neighbours, truncated to an integer. *)
Inductive filling := Masked | Interpolate.
Definition interpolated (a z : Z) (n i : nat) : Z :=
  Z.quot (a * (Z.of_nat n + 1) + Z.of_nat i * (z - a)) (Z.of_nat n + 1).
Definition fill (f : filling) (a z : option Z) (n : nat) : list (option Z) :=
  match f, a, z with
  | Interpolate, Some a, Some z => map (fun i => Some (interpolated a z n i)) (seq 1 n)
  | _, _, _ => repeat None n
  end.

Definition oeqb (x y : option Z) : bool :=
  match x, y with Some a, Some c => a =? c | None, None => true | _, _ => false end.
Fixpoint eq_data (l m : list (option Z)) : bool :=
  match l, m with [], [] => true | x :: l, y :: m => oeqb x y && eq_data l m | _, _ => false end.

(** [Trace.__add__] with method 0, for [lt] starting no later than [rt]. *)
Definition add (f : filling) (lt rt : mtrace) : mtrace :=
  let delta := ms rt - mend lt - 1 in
  let a := last (md lt) None in let z := hd None (md rt) in
  if 0 <=? delta then                                            (* adjacent, or a gap *)
    mkm (ms lt) (md lt ++ fill f a z (Z.to_nat delta) ++ md rt)
  else
    let n := Z.to_nat (- delta) in                               (* overlap *)
    if mend lt <? mend rt then
      let keep := (length (md lt) - n)%nat in
      if eq_data (skipn keep (md lt)) (firstn n (md rt))
      then mkm (ms lt) (firstn keep (md lt) ++ md rt)
      else mkm (ms lt) (firstn keep (md lt) ++ fill f a z n ++ skipn n (md rt))
    else                                                          (* [rt] within [lt] *)
      let n1 := Z.to_nat (ms rt - ms lt) in let k := length (md rt) in
      if eq_data (firstn k (skipn n1 (md lt))) (md rt) then lt
      else mkm (ms lt) (firstn n1 (md lt) ++ fill f a z k ++ skipn (n1 + k) (md lt)).

(** [Stream.sort] by start and end time. *)
Definition before (x y : mtrace) : bool := (ms x <? ms y) || ((ms x =? ms y) && (mend x <=? mend y)).
Fixpoint insert (x : mtrace) (l : list mtrace) : list mtrace :=
  match l with [] => [x] | y :: r => if before x y then x :: l else y :: insert x r end.
Definition sort (l : list mtrace) : list mtrace := fold_right insert [] l.

(** [Stream.merge]: one trace. *)
Definition merge (f : filling) (l : list mtrace) : list mtrace :=
  match sort l with [] => [] | x :: r => [fold_left (add f) r x] end.

(** [_merge_gaps] (550-564): body of the loop 553-562, [out] in reverse order.  The limit of 0.031 s is
    three sampling intervals. *)
Definition merge_step (out : list mtrace) (tr2 : gtrace) : list mtrace :=
  match out with
  | [] => [unmasked tr2]                                          (* does not happen *)
  | tr1 :: _ =>
      if gs tr2 - mend tr1 <=? 3
      then rev (merge Interpolate [tr1; unmasked tr2]) ++ out
      else unmasked tr2 :: out
  end.
Definition merge_gaps (st : stream) : stream :=
  match st with
  | [] => []
  | tr :: r => flat_map split_one (merge Masked (rev (fold_left merge_step r [unmasked tr])))
  end.

(** [Stream.slice] with [nearest_sample=False]: samples at times from [a] to [z], both included; parts
    without samples are left out. *)
Definition qceil (x : Q) : Z := - Qfloor (- x).
Definition clip (a z : Z) (tr : gtrace) : gtrace :=
  let n := Z.to_nat (a - gs tr) in
  let l := skipn n (gd tr) in
  let s := Z.max a (gs tr) in
  mkg s (firstn (Z.to_nat (z - s + 1)) l).
Definition nonempty (tr : gtrace) : bool := match gd tr with [] => false | _ => true end.
Definition slice (st : stream) (a z : Q) : stream := filter nonempty (map (clip (qceil a) (Qfloor z)) st).

(** Rounding half away from zero. *)
Definition round_away (x : Q) : Z := if Qle_bool 0 x then Qfloor (x + (1 # 2))%Q else - Qfloor (- x + (1 # 2))%Q.

(** [Stream.trim] with [nearest_sample=True]: the limits are moved to the nearest samples, counted from the
    start and the end of the first trace; [None]: ValueError, the start is after the end. *)
Definition trim (st : stream) (a z : Q) : option stream :=
  match st with
  | [] => Some []
  | tr :: _ =>
      let a' := gs tr + round_away (a - inject_Z (gs tr)) in
      let z' := gend tr + round_away (z - inject_Z (gend tr)) in
      if z' <? a' then None else Some (filter nonempty (map (clip a' z') st))
  end.
