(** The clock and sample arithmetic of the readers as it is done, in doubles: every sum, difference and product is rounded by [rnd].
    The definitions are those of Parser.v, Unwrap.v and Process.v otherwise, and cite the same lines. *)
From Coq Require Import String.
From Coq Require Import ZArith QArith Qround List Bool.
From Verif Require Import Base Scan Parser Unwrap Process.
Import ListNotations.
Open Scope Z_scope.

Section Double.
  Variable rnd : Q -> Q.

  (** [x % r] for doubles with r > 0 (Python's, numpy's and Cython's): C's [fmod], which is exact, and one addition if that is negative. *)
  Definition fmod (x r : Q) : Q := (x - r * inject_Z (py_trunc (x / r)))%Q.
  Definition dmod (x r : Q) : Q := let m := fmod x r in if Qltb m 0 then rnd (m + r)%Q else m.

  (** parsers.pyx 80-147 ([Parser.step]). *)
  Definition dstep (sc : scanner) (s : pstate) (chunk : bytes) : pstate * option row :=
    let buf' := chunk ++ 0 :: skipn (S (length chunk)) (buf s) in
    let c0 := nth 0 buf' 0 in
    let c1 := nth 1 buf' 0 in
    let s := mkst (prev s) (dms s) (adc s) (gvars s) (mvars s) buf' in
    if is_lower c0 then
      if negb (is_lower c1) then
        let cur := dmod (rnd (prev s + 10)) roll in
        (mkst cur (dms s) (adc s) (gvars s) (mvars s) buf', Some (mkrow KD cur [inject_Z (c0 - 109)]))
      else
        let cur := dmod (rnd (rnd (rnd (prev s + 10) + inject_Z c0) - 109)) roll in
        (mkst cur (dms s) (adc s) (gvars s) (mvars s) buf', Some (mkrow KD cur [inject_Z (c1 - 109)]))
    else if c0 =? 68 then
      match sscanf sc fmt_D (cstr (skipn 1 buf')) with
      | [v] =>
          let d := dmod (rnd (prev s + 10)) roll in
          (mkst d d (adc s) (gvars s) (mvars s) buf', Some (mkrow KD d [v]))
      | v :: a :: _ => (mkst v v a (gvars s) (mvars s) buf', Some (mkrow KD v [a]))
      | [] => (mkst (dms s) (dms s) (adc s) (gvars s) (mvars s) buf', Some (mkrow KD (dms s) [adc s]))
      end
    else if c0 =? 71 then
      let g := assign (sscanf sc fmt_G (cstr (skipn 2 buf'))) (gvars s) in
      (mkst (prev s) (dms s) (adc s) g (mvars s) buf', Some (mkrow KG (hd 0%Q g) (tl g)))
    else if c0 =? 77 then
      let m := assign (sscanf sc fmt_M (cstr (skipn 2 buf'))) (mvars s) in
      (mkst (prev s) (dms s) (adc s) (gvars s) m buf', Some (mkrow KM (hd 0%Q m) (tl m)))
    else (s, None).
  Fixpoint drun (sc : scanner) (s : pstate) (cs : list bytes) : list row :=
    match cs with
    | [] => []
    | c :: cs' => let (s', r) := dstep sc s c in
                  match r with Some x => x :: drun sc s' cs' | None => drun sc s' cs' end
    end.
  Definition dparse_gemfile (sc : scanner) (buf0 : bytes) (n_row : Z) (bs : bytes) : option (list row) :=
    let rows := drun sc (init buf0) (chunks bs) in
    if Z.of_nat (length rows) <=? n_row then Some rows else None.
  Definition dparse_retry (sc : scanner) (buf0 : bytes) (bs : bytes) : option (list row) :=
    match dparse_gemfile sc buf0 1560000 bs with
    | Some rows => Some rows
    | None => dparse_gemfile sc buf0 (1560000 * 6 * 7) bs
    end.
  Definition dread_with_cython (sc : scanner) (buf0 : bytes) (content : option bytes) (require_gps : bool) : res (list drow) :=
    match content with
    | None => inr FileNotFound
    | Some bs =>
        match dparse_retry sc buf0 bs with
        | None => inr OtherExn
        | Some [] => inr EmptyRawFile
        | Some rows =>
            if negb (existsb (fun r => kind_eqb (rkind r) KG) rows) && require_gps then inr NoGPS
            else inl (map drow_of rows)
        end
    end.

  (** core.py 863-872 ([Unwrap.unwrap]); the stairstep is made of integers until the clock is added. *)
  Fixpoint ddiffs (p : option Q) (xs : list Q) : list (option Q) :=
    match xs with
    | [] => []
    | x :: r => match p with None => None | Some p => Some (rnd (x - p)%Q) end :: ddiffs (Some x) r
    end.
  Definition dstairstep (r : Q) (saw : list Q) : list Z :=
    let d := ddiffs None saw in
    map2 Z.sub (cumcount 0 (map (fun x => lt_opt x (- (r / 2))%Q) d))
               (cumcount 0 (map (fun x => gt_opt x (r / 2)%Q) d)).
  Definition dcorrected0 (r : Q) (saw : list Q) : list Q :=
    map2 (fun k s => rnd (rnd (inject_Z k * r) + s))%Q (dstairstep r saw) saw.
  Definition dunwrap (r offset : Q) (saw : list Q) : list Q :=
    let c := dcorrected0 r saw in
    match c with
    | [] => []
    | first :: _ =>
        let shift := rnd (rnd (rnd (offset - first) + dmod (rnd (rnd (first - dmod offset r) + r / 2)) r) - r / 2)%Q in
        map (fun x => rnd (x + shift)%Q) c
    end.
  Definition dcorrect (r offset : Q) (df : list drow) : list crow :=
    map2 (fun m d => mkc (dkind d) m (dcells d)) (dunwrap r offset (map dsaw df)) df.

  (** 908-910: the running sum. *)
  Fixpoint dcumsum (acc : Q) (l : list (option Q)) : list (option Q) :=
    match l with
    | [] => []
    | Some x :: r => let a := rnd (acc + x)%Q in Some a :: dcumsum a r
    | None :: r => None :: dcumsum acc r
    end.
  Definition dintegrate (l : list (Q * option Q)) : list (Q * option Q) := combine (map fst l) (dcumsum 0 (map snd l)).

  (** [_process_gemlog_data] (843-930; [Process.process]). *)
  Definition dprocess (empty_apply_raises : bool) (version : string) (offset : Q) (require_gps : bool) (df : list drow) : res tables :=
    match settings version with
    | None => inr CorruptRaw
    | Some (r, ncol) =>
        match df with
        | [] => inr OtherExn
        | _ =>
            let rows := dcorrect r offset df in
            match group KD rows, group KM rows with
            | [], _ | _, [] => inr OtherExn
            | D, M =>
                match traverse sample_of D, traverse (meta_of ncol) M with
                | Some d, Some m =>
                    let d := if integrates version then dintegrate d else d in
                    match gps_table empty_apply_raises (group KG rows) with
                    | Some g => inl (mktab d m g)
                    | None => if require_gps then inr NoGPS else inl (mktab d m [])
                    end
                | _, _ => inr OtherExn
                end
            end
        end
    end.

  (** [_read_single] (784-841; [Process.read_single]); 8.93 is rounded when the program is read. *)
  Fixpoint dtry_readers (ear : bool) (version : string) (offset : Q) (require_gps : bool)
                        (readers : list (bool -> res (list drow))) : res tables :=
    match readers with
    | [] => inr CorruptRaw
    | reader :: rest =>
        match (match reader require_gps with
               | inl df => dprocess ear version offset require_gps df
               | inr e => inr e
               end) with
        | inr e => if fatal e then inr e else dtry_readers ear version offset require_gps rest
        | inl out =>
            match gps out, require_gps with
            | [], true => inr CorruptRaw
            | _, _ =>
                match time_correction version with
                | Some c => inl (mktab (map (fun p => (rnd (fst p + rnd c), snd p))%Q (data out)) (metadata out) (gps out))
                | None => inr OtherExn
                end
            end
        end
    end.
  Definition dread_single (sc : scanner) (buf0 : bytes) (ear : bool) (pandas pandas08 : bool -> res (list drow))
                          (content : option bytes) (version : string) (offset : Q) (require_gps : bool) : res tables :=
    if modern version
    then dtry_readers ear version offset require_gps [dread_with_cython sc buf0 content; pandas]
    else dtry_readers ear version offset require_gps [pandas08].
End Double.
