(** Analysis in sliding windows: gemlog/xcorr.py [_validate_inputs] (284-309),
    [apply_function_windows] (370-429).

    A trace is the list of its samples with their times.  [Stream.slice] with [nearest_sample = False]
    keeps the samples whose times lie between its limits, both included, and drops traces that are left
    empty; the rounding of obspy to 1e-7 samples is not modelled.  Times are exact numbers of seconds. *)
From Coq Require Import String.
From Coq Require Import ZArith QArith Qround List Bool.
From Verif Require Import Base Unwrap.
Import ListNotations.
Open Scope Z_scope.

(** Numbers a user may give; [None] is NaN, with which every comparison is false. *)
Definition lt_nan (x y : option Q) : bool := match x, y with Some a, Some c => Qltb a c | _, _ => false end.
Definition le_nan (x y : option Q) : bool := match x, y with Some a, Some c => Qle_bool a c | _, _ => false end.
(** 284-309; true: no exception. *)
Definition validate_inputs (fl fh win overlap upsample : option Q) : bool :=
  negb (lt_nan fl (Some 0%Q) || lt_nan fh (Some 0%Q) || le_nan fh fl) &&
  negb (le_nan win (Some 0%Q)) &&
  (le_nan (Some 0%Q) overlap && lt_nan overlap (Some 1%Q)) &&
  le_nan (Some 1%Q) upsample.

Definition eps : Q := 1 # 1000000.

(** 404. *)
Definition num_windows (len win overlap : Q) : Z :=
  1 + Qceiling ((len - win) / (win * (1 - overlap)) - eps).
(** 407. *)
Definition win_start (t1 len win : Q) (n i : Z) : Q :=
  t1 + inject_Z i * (len - win) / inject_Z (n - 1).

Section Apply.
  Context {S V : Type}.
  Definition trace : Type := bytes * list (Q * S).
  Definition slice (st : list trace) (a e : Q) : list trace :=
    filter (fun tr => match snd tr with [] => false | _ => true end)
      (map (fun tr : trace => (fst tr, filter (fun s => Qle_bool a (fst s) && Qle_bool (fst s) e) (snd tr))) st).

  Definition dict := list (bytes * V).
  (** The columns of the output other than [t_mid]; [None] is NaN. *)
  Definition columns := list (bytes * list (option V)).

  (** 418-420. *)
  Fixpoint put (i : nat) (k : bytes) (v : V) (out : columns) : columns :=
    match out with
    | [] => [(k, repeat None i ++ [Some v])]
    | (k', c) :: r => if eqb_bytes k' k then (k', c ++ [Some v]) :: r else (k', c) :: put i k v r
    end.
  Definition has_key (d : dict) (k : bytes) : bool := existsb (fun kv => eqb_bytes (fst kv) k) d.
  (** 417-424, for results without an item [t_mid]. *)
  Definition add_window (i : nat) (d : dict) (out : columns) : columns :=
    map (fun kc => if has_key d (fst kc) then kc else (fst kc, snd kc ++ [None]))
      (fold_left (fun out kv => put i (fst kv) (snd kv) out) d out).

  (** [f]: the analysis; [None]: it raises. *)
  Variable f : list trace -> option dict.

  (** The loop (406-427), from window [i] on. *)
  Fixpoint run_windows (st : list trace) (t1 len win : Q) (n : Z) (i : nat) (todo : nat) (tmid : list Q) (out : columns)
    : option (list Q * columns) :=
    match todo with
    | O => Some (tmid, out)
    | Datatypes.S todo =>
        let s := win_start t1 len win n (Z.of_nat i) in
        match f (slice st (s - eps) (s + win - eps)) with
        | None => None
        | Some d => run_windows st t1 len win n (Datatypes.S i) todo (tmid ++ [(s + win / 2)%Q]) (add_window i d out)
        end
    end.

  (** 399-429.  [None]: an exception: of an empty stream (401), of division by zero if there is exactly
      one window (407), or of [f]. *)
  Definition apply_function_windows (st : list trace) (win overlap : Q) : option (list Q * columns) :=
    match st with
    | [] => None
    | tr :: _ =>
        match snd tr, rev (snd tr) with
        | s1 :: _, s2 :: _ =>
            let len := (fst s2 - fst s1)%Q in
            let n := num_windows len win overlap in
            if n =? 1 then None else run_windows st (fst s1) len win n 0 (Z.to_nat n) [] []
        | _, _ => None
        end
    end.
End Apply.
