(** What may be expected of a pool of processes that write to one log, and of the command lines of gem_cat and of the
    huddle test. *)
From Coq Require Import String.
From Coq Require Import ZArith List Bool.
From Verif Require Import Base Cli CliSpec.
Import ListNotations.
Open Scope Z_scope.

(** [m] consists of the elements of the lists [ls], those of each list in their order. *)
Inductive interleaving {A} : list (list A) -> list A -> Prop :=
| il_done ls : Forall (fun l => l = []) ls -> interleaving ls []
| il_step before x l after m : interleaving (before ++ l :: after) m -> interleaving (before ++ (x :: l) :: after) (x :: m).

Definition prefix_of {A} (l m : list A) : Prop := exists r, m = l ++ r.

(** [sub] occurs in [s], but not at its beginning. *)
Definition occurs_later {A} (sub s : list A) : Prop :=
  (exists u v, s = u ++ sub ++ v) /\ ~ prefix_of sub s.

(** How many tasks are begun, but not all of their lines logged. *)
Definition unfinished {A} (parts tasks : list (list A)) : nat :=
  length (filter (fun pt => negb (Nat.eqb (length (fst pt)) (length (snd pt)))) (combine parts tasks)).

Definition gem_cat_known (g : given) : Prop := match g with Flag c => False | Value c _ => In c (b "ioe") end.
Definition huddle_known (g : given) : Prop := match g with Flag c => In c (b "dt") | Value c _ => In c (b "isxoflp") end.
