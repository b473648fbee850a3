(** [_read_several] (core.py 1032-1094) as it is computed, in doubles: the definitions are those of ReadSeveral.v, with every sum and
    difference rounded by [rnd]; they cite the same lines. *)
From Coq Require Import String.
From Coq Require Import ZArith QArith List Bool.
From Verif Require Import Base Scan Process ReadSeveral Double.
Import ListNotations.
Open Scope Z_scope.

Section Double.
  Variable rnd : Q -> Q.

  (** Lines 1054-1057. *)
  Definition dshift_fix (c : Q) (g : fix_) : fix_ :=
    mkfix (rnd (msPPS g + c)%Q) (msLag g) (gyear g) (gmonth g) (gday g) (ghour g) (gminute g) (gsecond g) (glat g) (glon g).
  Definition dshift (c : Q) (L : tables) : tables :=
    mktab (map (fun p => (rnd (fst p + c), snd p))%Q (data L))
          (map (fun p => (rnd (fst p + c), snd p))%Q (metadata L))
          (map (fun p => (dshift_fix c (fst p), snd p)) (gps L)).
  Definition dalign (start : Q) (L : tables) : option tables :=
    match data L with
    | [] => None
    | (t, _) :: _ => Some (if Qltb t start then dshift 8192 L else L)
    end.
  (** Lines 1059-1060. *)
  Fixpoint ddiscontinuous (ts : list Q) : bool :=
    match ts with
    | x :: ((y :: _) as r) => Qltb (rnd (y - x)%Q) 0 || Qltb 1000 (rnd (y - x)%Q) || ddiscontinuous r
    | _ => false
    end.

  Section Loop.
    Variables F H S : Type.
    Variable read_v : F -> string -> Q -> bool -> res tables.
    Variable drift : tables -> F -> bool -> H + failure.
    Variable sn : F -> option S.
    Variable version : string.
    Variable require_gps : bool.

    (** Lines 1044-1084 ([ReadSeveral.one_file]). *)
    Definition done_file (fn : F) (start : Q) : hrow H S * (tables + failure) :=
      match read F read_v version require_gps fn start with
      | inr e => (empty_hrow, inr (Exn e))
      | inl L0 =>
          match dalign start L0 with
          | None => (empty_hrow, inr (Exn OtherExn))
          | Some L =>
              if ddiscontinuous (map fst (data L)) then (empty_hrow, inr (Exn CorruptRaw))
              else match drift L fn require_gps with
                   | inr f => (empty_hrow, inr f)
                   | inl h =>
                       let info := if negb require_gps || negb (Nat.eqb (length (gps L)) 0) then Some h else None in
                       let num := Some (length (data L)) in
                       match sn fn with
                       | None => (mkh info num None, inr (Exn CorruptRaw))
                       | Some s => (mkh info num (Some s), inl L)
                       end
                   end
          end
      end.

    (** Lines 1041-1092 ([ReadSeveral.loop]). *)
    Fixpoint dloop (start : Q) (acc : joined F H S) (fns : list F) : option (joined F H S) :=
      match fns with
      | [] => Some acc
      | fn :: rest =>
          match done_file fn start with
          | (_, inr (Exn Interrupt)) => None
          | (h, inr f) =>
              dloop start (mkj (jdata acc) (jmeta acc) (jgps acc) (jheader acc ++ [h]) (jproblems acc ++ [message_for F fn f])) rest
          | (h, inl L) =>
              let D := jdata acc ++ data L in
              dloop (last_of start D)
                    (mkj D (jmeta acc ++ metadata L) (jgps acc ++ gps L) (jheader acc ++ [h]) (jproblems acc)) rest
          end
      end.
    Definition dread_several (fns : list F) : option (joined F H S) := dloop 0 (mkj [] [] [] [] []) fns.
  End Loop.

  (** [_read_single] on a file on disk ([ReadSeveral.read_raw]). *)
  Definition dread_raw (sc : scanner) (buf0 : bytes) (ear : bool) (f : raw_file) (version : string) (start : Q) (require_gps : bool)
    : res tables := dread_single rnd sc buf0 ear (f_pandas f) (f_pandas08 f) (f_content f) version start require_gps.
End Double.
