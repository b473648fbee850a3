(** Model of gemlog/core.py [_find_breaks] (1421-1488), [_reformat_GPS] (1410-1418), the row that [read_gem]
    puts in an empty GPS table (519-525) and [_assign_times] (1245-1270).  [now] is the time of the call
    (1428).  Doubles are rationals; the debugging output is left out. *)
From Coq Require Import ZArith QArith Qminmax List Bool.
From Verif Require Import Base Process ReadSeveral Drift Segments Interp Calendar CalendarSpec Fields.
Import ListNotations.
Open Scope Q_scope.

Definition tag : Type := fix_ * Z.

(** Lines 519-525. *)
Definition dummy : tag :=
  (mkfix 0 (Some 0) (Some 1970) (Some 1) (Some 1) (Some 0) (Some 0) (Some 0) (Some 0) (Some 0), 0%Z).
Definition filled (gps : list tag) : list tag := match gps with [] => [dummy] | _ => gps end.

(** Lines 1427-1434: [prev] and [next] are the neighbours in [tPad]. *)
Definition far (s t : Z) : bool := (86400 <? Z.abs (s - t))%Z.
Definition bad_tag (now : Q) (prev next : Z) (e : tag) : bool :=
  Qltb now (inject_Z (snd e)) || flt (gyear (fst e)) 2015 || far (snd e) prev && far (snd e) next
  || feq (glat (fst e)) 0 || feq (glon (fst e)) 0.
Fixpoint good_tags (now : Q) (prev : Z) (l : list tag) : list tag :=
  match l with
  | [] => []
  | e :: r =>
      let next := match r with [] => snd e | e' :: _ => snd e' end in
      if bad_tag now prev next e then good_tags now (snd e) r else e :: good_tags now (snd e) r
  end.
(** [None]: the IndexError of [t[0]] (1426). *)
Definition usable_tags (now : Q) (l : list tag) : option (list tag) :=
  match l with [] => None | e :: _ => Some (good_tags now (snd e) l) end.

(** [l[a:z]] of Python, with negative indices. *)
Definition py_index (n : nat) (i : Z) : nat :=
  Z.to_nat (Z.min (Z.of_nat n) (if i <? 0 then Z.max 0 (i + Z.of_nat n) else i))%Z.
Definition py_slice {A} (l : list A) (a z : Z) : list A :=
  let i := py_index (length l) a in let j := py_index (length l) z in firstn (j - i) (skipn i l).

(** [np.max], [np.min]; [None] is the ValueError on an empty array. *)
Definition amax (l : list Q) : option Q := match l with [] => None | x :: r => Some (fold_left Qmax r x) end.
Definition amin (l : list Q) : option Q := match l with [] => None | x :: r => Some (fold_left Qmin r x) end.

(** Lines 1440-1453: the sample clock and the positions of its breaks, without a break at either end. *)
Definition data_breaks (mD : list Q) : list nat := where_ 0 (map (fun d => Qltb 25 d || Qltb d 0) (diffs mD)).
Definition without_first (p : list Q * list nat) : list Q * list nat :=
  let (mD, bs) := p in
  if existsb (Nat.eqb 0) bs then (tl mD, map pred (filter (fun i => negb (Nat.eqb i 0)) bs)) else p.
Definition without_last (p : list Q * list nat) : list Q * list nat :=
  let (mD, bs) := p in
  let k := length (diffs mD) in
  if existsb (fun i => Nat.eqb (S i) k) bs then (removelast mD, filter (fun i => negb (Nat.eqb (S i) k)) bs) else p.
Definition inner_breaks (mD : list Q) : list Q * list nat := without_last (without_first (mD, data_breaks mD)).

(** The values around a break, [m[(i-1):(i+2)]]. *)
Definition around_break (m : list Q) (i : nat) : list Q := py_slice m (Z.of_nat i - 1) (Z.of_nat i + 2).

(** Loop 1455-1457. *)
Fixpoint data_limits (mD : list Q) (bs : list nat) : option (list Q * list Q) :=
  match bs with
  | [] => Some ([], [])
  | i :: r =>
      match amax (around_break mD i), amin (around_break mD i), data_limits mD r with
      | Some s, Some e, Some (ss, es) => Some (s :: ss, e :: es)
      | _, _, _ => None
      end
  end.

(** Lines 1460-1464: rate between consecutive tags ([dt = 0] gives NaN or an infinity: a break). *)
Definition gps_break (dm dt : Q) : bool :=
  if Qeq_bool dt 0 then true
  else let r := dm / dt * (1024 # 1000) in
       Qltb 50 dt && (Qltb (10001 # 10) r || Qltb r (9999 # 10)) || Qle_bool dt 50 && (Qltb 1002 r || Qltb r 998).
Definition gps_breaks (mG tG : list Q) : list nat :=
  where_ 0 (map (fun p => gps_break (fst p) (snd p)) (combine (diffs mG) (diffs tG))).

(** [x & y] of two boolean arrays with numpy's broadcasting; [None]: the shapes do not fit. *)
Definition and_arrays (x y : list bool) : option (list bool) :=
  if Nat.eqb (length x) (length y) then Some (map (fun p => fst p && snd p) (combine x y))
  else match x, y with
       | [a], _ => Some (map (andb a) y)
       | _, [c] => Some (map (fun a => a && c) x)
       | _, _ => None
       end.

(** [l[w]] and [l[w] = v] for a list of positions; [None] is an IndexError. *)
Fixpoint take (l : list Q) (w : list nat) : option (list Q) :=
  match w with
  | [] => Some []
  | i :: r => match nth_error l i, take l r with Some x, Some xs => Some (x :: xs) | _, _ => None end
  end.
Definition put_all (l : list Q) (w : list nat) (v : Q) : list Q :=
  map (fun p => if existsb (Nat.eqb (fst p)) w then v else snd p) (combine (seq 0 (length l)) l).

(** [mG[w][tG[w] == lim][-1]] with [lim] the extreme of [tG[w]] (1479, 1488): the last of the tags
    selected by [keep] whose time is extreme; [None]: there is none. *)
Definition extreme (choose : list Q -> option Q) (keep : Q -> bool) (mG tG : list Q) : option Q :=
  let sel := filter (fun p => keep (snd p)) (combine mG tG) in
  match choose (map snd sel) with
  | None => None
  | Some v => match rev (filter (fun p => Qeq_bool (snd p) v) sel) with [] => None | p :: _ => Some (fst p) end
  end.

Record limits := mkl { starts : list Q; ends : list Q; earliest : Q }.

(** One iteration of the loop 1466-1488. *)
Definition gps_step (mG tG : list Q) (i : nat) (s : limits) : option limits :=
  match and_arrays (map (Qle_bool (at_ mG i)) (starts s)) (map (fun e => Qle_bool e (at_ mG (S i))) (ends s)) with
  | None => None
  | Some ov =>
      if existsb (fun c => c) ov then
        let w := where_ 0 ov in
        match take (starts s) w, amax (around_break mG i), take (ends s) w, amin (around_break mG i) with
        | Some ss, Some hi, Some es, Some lo =>
            match amax (ss ++ [hi]), amax (es ++ [lo]) with
            | Some s', Some e' => Some (mkl (put_all (starts s) w s') (put_all (ends s) w e') (earliest s))
            | _, _ => None
            end
        | _, _, _, _ => None
        end
      else
        let ss := match extreme amin (Qltb (at_ tG i)) mG tG with Some m => starts s ++ [m] | None => starts s end in
        match extreme amax (fun t => Qltb t (at_ tG (S i))) mG tG with
        | None => Some (mkl ss (ends s) (at_ tG (S i)))
        | Some m => Some (mkl ss (ends s ++ [m]) (earliest s))
        end
  end.
Fixpoint gps_loop (mG tG : list Q) (bs : list nat) (s : limits) : option limits :=
  match bs with
  | [] => Some s
  | i :: r => match gps_step mG tG i s with Some s' => gps_loop mG tG r s' | None => None end
  end.

(** [_find_breaks] (1421-1488): the two lists it returns; [None]: it raises. *)
Definition find_breaks (now : Q) (gps : list tag) (clock : list Q) : option (list Q * list Q) :=
  match usable_tags now gps with
  | None => None
  | Some gs =>
      let (mD, bs) := inner_breaks clock in
      match data_limits mD bs with
      | None => None
      | Some (ss, es) =>
          let mG := map (fun e => msPPS (fst e)) gs in
          let tG := map (fun e => inject_Z (snd e)) gs in
          match amin mD, amax mD with
          | Some lo, Some hi =>
              match gps_loop mG tG (gps_breaks mG tG) (mkl ss es lo) with
              | Some s => Some (earliest s :: starts s, ends s ++ [hi])
              | None => None
              end
          | _, _ => None
          end
      end
  end.

(** [_reformat_GPS] (1410-1418); [int(year)] of a NaN raises ([None]). *)
Record position := mkpos { p_year : Z; p_date : Q; p_lat : option Q; p_lon : option Q; p_t : Z }.
Definition reformat_one (e : tag) : option position :=
  let (tm, j) := fields (snd e) in
  match int_of (gyear (fst e)) with
  | Some y => Some (mkpos y (inject_Z j + inject_Z (hour tm) / 24 + inject_Z (minute tm) / 1440 + inject_Z (second tm) / 86400)
                          (glat (fst e)) (glon (fst e)) (snd e))
  | None => None
  end.
Fixpoint reformat (gps : list tag) : option (list position) :=
  match gps with
  | [] => Some []
  | e :: r => match reformat_one e, reformat r with Some x, Some xs => Some (x :: xs) | _, _ => None end
  end.

(** What [_assign_times] raises: CorruptRawFile (1254), which [convert] treats like a missing block, or anything else. *)
Inductive trouble := Corrupt_block | Other_trouble.

(** The stream, the times of the metadata rows, the times [t1], [t2] of the header lines, the GPS table. *)
Record assigned := mka { a_data : list trace; a_meta : list (option Q * list (option Q)); a_header : list (option Q * option Q);
                         a_gps : list position }.

Section Assign.
  Variable spline : list (Q * option Q) -> option (Q -> Q).
  Variables F S : Type.

  (** [_assign_times] (1245-1270). *)
  Definition assign_times (now : Q) (L : joined F hinfo S) : assigned + trouble :=
    match reformat (jgps L) with
    | None => inr Other_trouble
    | Some G =>
        match find_breaks now (jgps L) (map fst (jdata L)) with
        | None => inr Corrupt_block
        | Some _ =>
            match interp spline (timed (jheader L) (jdata L)) with
            | None => inr Other_trouble
            | Some st =>
                inl (mka st (map (fun p => (apply_segments (jheader L) (fst p), snd p)) (jmeta L))
                       (map (fun r => (apply_segments (jheader L) (h_start (line r)), apply_segments (jheader L) (h_end (line r)))) (jheader L)) G)
            end
        end
    end.
End Assign.
