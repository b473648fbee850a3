(** Conversions in the same folders again and again: calls of gemconvert (gemlog/gemconvert.py 222-226) one after the
    other, each of which may be killed at any point, also in the middle of writing a file.

    [convert] (gemlog/core.py 224-334) writes a file by one call (261, 265, 306, 310, 348, 354), one step in
    Workers.v; if it is killed within this call, a part of the contents may be there. *)
From Coq Require Import String.
From Coq Require Import ZArith List Bool.
From Verif Require Import Base Names Workers WorkersSpec.
Import ListNotations.
Open Scope Z_scope.

Section Again.
  Variable D : Type.
  Variables out format : bytes.

  (** A part of what the conversion was about to write to [q] when it was killed.  A new file may be there with a part of
      its lines or samples; a file that is added to keeps what it has. *)
  Definition part (t : tree D) (js : job D * state D) (q : bytes) (d : list D) : Prop :=
    match next out format (fst js) (snd js) with
    | Some (Put p x, _) => q = p /\ exists y, x = d ++ y
    | Some (Add p x, _) => q = p /\ exists y z, x = y ++ z /\ d = match file t p with Some l => l | None => [] end ++ y
    | _ => False
    end.
  Definition cut (p : pool D) (t t' : tree D) : Prop :=
    (forall q, is_dir t' q = is_dir t q) /\
    (forall q, file t' q = file t q \/ exists js d, In js p /\ part t js q d /\ file t' q = Some d).

  (** One call, up to its end or until it is killed; and one call after the other. *)
  Definition session (jobs : list (job D)) (t t' : tree D) : Prop :=
    exists schedule p t1, run out format schedule (begin jobs) t = Some (p, t1) /\ cut p t1 t'.
  Fixpoint sessions (l : list (list (job D))) (t t' : tree D) : Prop :=
    match l with
    | [] => (forall q, is_dir t' q = is_dir t q) /\ (forall q, file t' q = file t q)
    | jobs :: r => exists u, session jobs t u /\ sessions r u t'
    end.
  (** A call that comes to its end, with every conversion done. *)
  Definition complete (jobs : list (job D)) (t t' : tree D) : Prop :=
    exists schedule p, run out format schedule (begin jobs) t = Some (p, t') /\ idle out format p = true /\ forall j, ~ In (j, Exited) p.
End Again.
Arguments part {D}. Arguments cut {D}. Arguments session {D}. Arguments sessions {D}. Arguments complete {D}.
