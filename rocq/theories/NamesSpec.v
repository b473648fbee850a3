(** What a user may expect of file names. *)
From Coq Require Import String.
From Coq Require Import ZArith List.
From Verif Require Import Base CalendarSpec.
Import ListNotations.
Open Scope Z_scope.

(** [s] is the number [n] in decimal, with zeros in front up to [w] digits: no superfluous zero beyond that. *)
Fixpoint value_of (s : bytes) : Z :=
  match s with [] => 0 | c :: r => (c - 48) * 10 ^ Z.of_nat (length r) + value_of r end.
Definition decimal (w : nat) (n : Z) (s : bytes) : Prop :=
  Forall (fun c => 48 <= c <= 57) s /\ value_of s = n /\ (w <= length s)%nat /\ s <> [] /\
  (match s with 48 :: _ :: _ => length s = w | _ => True end).

(** Dictionary order of names. *)
Inductive before : bytes -> bytes -> Prop :=
| before_end : forall c s, before [] (c :: s)
| before_here : forall a c r s, a < c -> before (a :: r) (c :: s)
| before_later : forall a r s, before r s -> before (a :: r) (a :: s).

(** A pattern is text without braces and fields in braces. *)
Inductive piece := Text (s : bytes) | Field (s : bytes).
Definition brace_free (s : bytes) : Prop := ~ In 123 s /\ ~ In 125 s.
Definition good (p : piece) : Prop := match p with Text s | Field s => brace_free s end.
Definition written (p : piece) : bytes := match p with Text s => s | Field s => b "{" ++ s ++ b "}" end.
Definition pattern (l : list piece) : bytes := concat (map written l).

(** What a field of a file name should become: numbers with at least two digits (year four, day of year three). *)
Inductive filled (t : datetime) (jd : Z) (net sta loc fmt : bytes) : piece -> bytes -> Prop :=
| fill_text : forall s, filled t jd net sta loc fmt (Text s) s
| fill_year : forall s, decimal 4 (year t) s -> filled t jd net sta loc fmt (Field (b "year")) s
| fill_mon : forall s, decimal 2 (month t) s -> filled t jd net sta loc fmt (Field (b "mon")) s
| fill_day : forall s, decimal 2 (day t) s -> filled t jd net sta loc fmt (Field (b "day")) s
| fill_hour : forall s, decimal 2 (hour t) s -> filled t jd net sta loc fmt (Field (b "hour")) s
| fill_min : forall s, decimal 2 (minute t) s -> filled t jd net sta loc fmt (Field (b "min")) s
| fill_sec : forall s, decimal 2 (second t) s -> filled t jd net sta loc fmt (Field (b "sec")) s
| fill_jd : forall s, decimal 3 jd s -> filled t jd net sta loc fmt (Field (b "jd")) s
| fill_net : filled t jd net sta loc fmt (Field (b "net")) net
| fill_sta : filled t jd net sta loc fmt (Field (b "sta")) sta
| fill_loc : filled t jd net sta loc fmt (Field (b "loc")) loc
| fill_chan : filled t jd net sta loc fmt (Field (b "chan")) (b "HDF")
| fill_fmt : filled t jd net sta loc fmt (Field (b "fmt")) fmt.
