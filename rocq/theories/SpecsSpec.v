(** What a user may expect of the instrument constants and of WAV files. *)
From Coq Require Import String.
From Coq Require Import ZArith QArith Qabs List.
From Verif Require Import Base.
Import ListNotations.
Open Scope Q_scope.

(** The hardware generations: serial numbers, version. *)
Inductive generation (sn : Z) : Q -> Prop :=
| gen_05 : (3 <= sn <= 7)%Z -> generation sn (5 # 10)
| gen_07 : (8 <= sn <= 14)%Z -> generation sn (7 # 10)
| gen_08 : (15 <= sn <= 19)%Z -> generation sn (8 # 10)
| gen_082 : (20 <= sn <= 37)%Z -> generation sn (82 # 100)
| gen_09 : (38 <= sn <= 40)%Z -> generation sn (9 # 10)
| gen_091 : (41 <= sn <= 43)%Z -> generation sn (91 # 100)
| gen_092 : (44 <= sn <= 46)%Z -> generation sn (92 # 100)
| gen_098 : (47 <= sn <= 49)%Z -> generation sn (98 # 100)
| gen_099 : (50 <= sn <= 51)%Z -> generation sn (99 # 100)
| gen_0991 : (52 <= sn <= 54)%Z -> generation sn (991 # 1000)
| gen_0992 : (55 <= sn <= 57)%Z -> generation sn (992 # 1000)
| gen_10 : (58 <= sn <= 107)%Z -> generation sn 1
| gen_101 : (108 <= sn)%Z -> generation sn (101 # 100).

(** The bit weights documented in the table before the code (core.py 1329-1342), by serial number: Pascal, Volt. *)
Inductive documented (sn : Z) : Q -> Q -> Prop :=
| doc_1 : (3 <= sn <= 37)%Z -> documented sn (3256538 # 1000000000) (7362894 # 100000000000000)
| doc_2 : (38 <= sn <= 46)%Z -> documented sn (3543324 # 1000000000) (7362894 # 100000000000000)
| doc_3 : (47 <= sn)%Z -> documented sn (3501200 # 1000000000) (7275362 # 100000000000000).

(** Supply voltage of the sensor, Volt. *)
Definition supply (sn : Z) (v : Q) : Prop := ((sn <= 37)%Z /\ v = 3373 # 1000) \/ ((38 <= sn)%Z /\ v = 31 # 10).

(** Strings equal up to upper and lower case (ASCII). *)
Definition same_letter (c d : Z) : Prop :=
  c = d \/ ((65 <= c <= 90)%Z /\ d = (c + 32)%Z) \/ ((65 <= d <= 90)%Z /\ c = (d + 32)%Z).
Definition same_word (s t : bytes) : Prop := Forall2 same_letter s t.

(** Sum of a list. *)
Fixpoint total (l : list Q) : Q := match l with [] => 0 | x :: r => x + total r end.
