(** What a user may expect of converting one file. *)
From Coq Require Import String.
From Coq Require Import ZArith QArith List.
From Verif Require Import Base UnwrapSpec Process Drift CliSpec.
Import ListNotations.
Open Scope Z_scope.

(** [n] is the file name at the end of the path [p]. *)
Definition file_name_of (p n : bytes) : Prop := ~ In 47 n /\ (p = n \/ exists folder, p = folder ++ 47 :: n).

(** The options of the command. *)
Definition single_known (g : given) : Prop := match g with Flag c => In c (b "f") | Value c _ => In c (b "io") end.

(** The sample clock never runs back nor jumps by more than 1000 ms. *)
Definition steady (ts : list Q) : Prop := chain (fun x y => 0 <= y - x <= 1000)%Q ts.
