(** [_interp_time] as it is computed, in doubles: every sum, difference, product and quotient is rounded by [rnd], and so are the
    constants of the program.  The definitions are those of Interp.v otherwise, and cite the same lines of core.py. *)
From Coq Require Import ZArith QArith Qround List Bool.
From Verif Require Import Base Process Interp.
Import ListNotations.
Open Scope Q_scope.

Section Double.
  Variable rnd : Q -> Q.
  Variable spline : list (Q * option Q) -> option (Q -> Q).

  (** Lines 1287-1293 ([np.diff] is rounded; comparisons are exact). *)
  Fixpoint dsteps (l : list Q) : list Q := match l with x :: ((y :: _) as r) => rnd (y - x) :: dsteps r | _ => [] end.
  Definition dbreaks (min_step max_step t1 t2 : Q) (ts : list Q) : list nat :=
    filter (fun i => Qltb t1 (at_ ts i) && Qltb (at_ ts (S i)) t2)
      (where_ 0 (map (fun d => Qltb max_step d || Qltb d min_step) (dsteps ts))).
  Definition dchunks (min_step max_step t1 t2 : Q) (ts : list Q) : list (Q * Q) :=
    let bs := dbreaks min_step max_step t1 t2 ts in
    filter (fun c => negb (Qeq_bool (fst c) (snd c)))
      (combine (t1 :: map (fun i => at_ ts (S i)) bs) (map (at_ ts) bs ++ [t2])).

  (** [np.round(x, 2)]: times 100, to the nearest integer, divided by 100. *)
  Definition dround2 (x : Q) : Q := rnd (inject_Z (np_round (rnd (x * 100))) / 100).
  (** Line 1308. *)
  Definition dgrid (s e : Q) : list Q :=
    map (fun k => dround2 (rnd (s + rnd (inject_Z (Z.of_nat k) * rnd (1 # 100)))))
      (seq 0 (Z.to_nat (Qfloor (rnd (rnd (e - s) / rnd (1 # 100)))))).
  (** Line 1298. *)
  Definition dnear (s e : Q) (pts : list (Q * option Q)) : list (Q * option Q) :=
    filter (fun p => Qle_bool (rnd (rnd (s - rnd (1 # 100)) - rnd (1 # 1000))) (fst p) &&
                     Qle_bool (fst p) (rnd (rnd (e + rnd (1 # 100)) - rnd (1 # 1000)))) pts.

  (** Lines 1297-1314. *)
  Fixpoint dresample (pts : list (Q * option Q)) (cs : list (Q * Q)) : option (list trace) :=
    match cs with
    | [] => Some []
    | (s, e) :: rest =>
        match spline (dnear s e pts) with
        | None => dresample pts rest
        | Some f =>
            match dgrid s e with
            | [] => None
            | (t0 :: _) as g =>
                match dresample pts rest with
                | Some trs => Some (mktr t0 (map (fun t => np_round (f t)) g) :: trs)
                | None => None
                end
            end
        end
    end.

  (** The call made everywhere in the package (1268, 1546): the limits [t1], [t2] are infinite, so the first and the last time are taken
      (1285-1286). *)
  Definition dinterp (rows : list (option Q * option Q)) : option (list trace) :=
    let pts := timed_points rows in
    let ts := map fst pts in
    match first_from None ts, last_upto None ts with
    | Some a, Some z => dresample pts (dchunks 0 (rnd (25 # 1000)) a z ts)
    | _, _ => None
    end.
End Double.
