(** What a user may expect of the command gemconvert. *)
From Coq Require Import String.
From Coq Require Import ZArith List.
From Verif Require Import Base NamesSpec SelectSpec Cli.
Import ListNotations.
Open Scope Z_scope.

(** A command line with every option in a word of its own. *)
Inductive given := Flag (c : Z) | Value (c : Z) (text : bytes).
Definition words (l : list given) : list bytes :=
  flat_map (fun g => match g with Flag c => [[45; c]] | Value c a => [[45; c]; a] end) l.
Definition known (g : given) : Prop :=
  match g with Flag c => In c (b "dt") | Value c _ => In c (b "isxcoflp") end.
(** The text given last for an option. *)
Definition given_last (c : Z) (a : bytes) (l : list given) : Prop :=
  exists l1 l2, l = l1 ++ Value c a :: l2 /\ forall a', ~ In (Value c a') l2.
Definition not_given (c : Z) (l : list given) : Prop := forall a, ~ In (Value c a) l.
(** Items separated by commas. *)
Fixpoint commas (l : list bytes) : bytes :=
  match l with [] => [] | [x] => x | x :: r => x ++ b "," ++ commas r end.

(** [sn] is what follows the ninth character of a file name, at most four characters. *)
Definition after_nine (name sn : bytes) : Prop :=
  (exists front back, name = front ++ sn ++ back /\ length front = 9%nat /\ (length sn = 4%nat \/ (length sn < 4)%nat /\ back = [])) \/
  ((length name < 9)%nat /\ sn = []).

(** The text [s] is the integer [n]. *)
Definition reads_as (s : bytes) (n : Z) : Prop :=
  exists l sg ds r, s = l ++ sg ++ ds ++ r /\ Forall blank l /\ Forall blank r /\ digits ds /\
    ((sg = [] \/ sg = b "+") /\ n = value_of (filter is_digit ds) \/ sg = b "-" /\ n = - value_of (filter is_digit ds)).
(** The first row with a number. *)
Definition first_row (rows : list row) (n : Z) (r : row) : Prop :=
  exists before after, rows = before ++ r :: after /\ reads_as (r_sn r) n /\ forall r', In r' before -> ~ reads_as (r_sn r') n.
