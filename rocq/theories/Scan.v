(** C library [sscanf], as far as parsers.pyx uses it. *)
From Coq Require Import ZArith QArith List Bool.
From Verif Require Import Base.
Import ListNotations.
Open Scope Z_scope.

(** What [sscanf] does for one [%d] / one [%lf] at the current position: [None] is a matching or
    input failure, [Some (v, rest)] a successful conversion.  The parser model is parametric in
    these two functions; the theorems that do not depend on number syntax hold for all of them. *)
Record scanner := {
  scan_d  : bytes -> option (Z * bytes);
  scan_lf : bytes -> option (Q * bytes)
}.

(** The conversions of a format string whose conversions are separated by single commas,
    such as "%lf,%d" (parsers.pyx 95, 107-110, 126-130). *)
Inductive conv := Cd | Clf.

Definition scan1 (sc : scanner) (c : conv) (s : bytes) : option (Q * bytes) :=
  match c with
  | Cd => match scan_d sc s with Some (z, r) => Some (inject_Z z, r) | None => None end
  | Clf => scan_lf sc s
  end.

(** [sscanf(s, fmt, ...)]: the list of converted values; stops at the first failure.
    Its length is the return value (the code never distinguishes EOF (-1) from 0).
    The literal ',' between conversions must match exactly (a literal does not skip blanks). *)
Fixpoint scan_rest (sc : scanner) (fmt : list conv) (s : bytes) : list Q :=
  match fmt with
  | [] => []
  | c :: fmt' =>
      match s with
      | 44 :: s' =>
          match scan1 sc c s' with
          | Some (v, r) => v :: scan_rest sc fmt' r
          | None => []
          end
      | _ => []
      end
  end.

Definition sscanf (sc : scanner) (fmt : list conv) (s : bytes) : list Q :=
  match fmt with
  | [] => []
  | c :: fmt' =>
      match scan1 sc c s with
      | Some (v, r) => v :: scan_rest sc fmt' r
      | None => []
      end
  end.

(** A concrete scanner for decimal numbers (glibc behaviour).
    Simplifications: exponents, hexadecimal floats, "inf" and "nan" are not scanned (Gem firmware
    never writes them); [%lf] keeps the exact decimal value instead of the nearest double. *)
Definition is_space (c : Z) : bool := (c =? 32) || ((9 <=? c) && (c <=? 13)).

Fixpoint skip_space (s : bytes) : bytes :=
  match s with
  | c :: s' => if is_space c then skip_space s' else s
  | [] => []
  end.

Fixpoint take_digits (s : bytes) : list Z * bytes :=
  match s with
  | c :: s' => if is_digit c then let (d, r) := take_digits s' in ((c - 48) :: d, r) else ([], s)
  | [] => ([], [])
  end.

Definition take_sign (s : bytes) : bool * bytes :=
  match s with
  | 45 :: s' => (true, s')
  | 43 :: s' => (false, s')
  | _ => (false, s)
  end.

Definition val_digits (d : list Z) : Z := fold_left (fun a x => a * 10 + x) d 0.

(** glibc's [%d]: [strtol] saturates at the 64-bit range, then the value is stored in a 32-bit int. *)
Definition clamp_long (z : Z) : Z := Z.max (- 2 ^ 63) (Z.min z (2 ^ 63 - 1)).
Definition to_int (z : Z) : Z := (z + 2 ^ 31) mod 2 ^ 32 - 2 ^ 31.

Definition dec_scan_d (s : bytes) : option (Z * bytes) :=
  let (neg, s1) := take_sign (skip_space s) in
  let (d, r) := take_digits s1 in
  match d with
  | [] => None
  | _ => let v := val_digits d in Some (to_int (clamp_long (if neg then - v else v)), r)
  end.

Fixpoint pow10 (k : nat) : positive :=
  match k with O => 1%positive | S k' => (10 * pow10 k')%positive end.

Definition dec_scan_lf (s : bytes) : option (Q * bytes) :=
  let (neg, s1) := take_sign (skip_space s) in
  let (ip, r) := take_digits s1 in
  let (fp, r') := match r with
                  | 46 :: r1 => let (f, r2) := take_digits r1 in (f, r2)
                  | _ => ([], r)
                  end in
  match ip ++ fp with
  | [] => None
  | ds => let m := val_digits ds in
          Some ((if neg then - m else m) # pow10 (length fp), r')%Q
  end.

Definition dec_scanner : scanner := {| scan_d := dec_scan_d; scan_lf := dec_scan_lf |}.
