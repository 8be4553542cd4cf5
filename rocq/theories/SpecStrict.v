(** * Histories that differ only in the [strict] argument of Blueprint(...) (blueprint.py
    184-191).  Stated without reference to how the operations work. *)
From Verif Require Import Py Num Util Classes Mixins Entity World.

(** the same call, the [strict] argument aside *)
Inductive same_call : op -> op -> Prop :=
| sc_same o : same_call o o
| sc_blueprint s s' c : same_call (ONewBlueprint s c) (ONewBlueprint s' c).

(** what every call of a history answers: nothing or the exception *)
Fixpoint outcomes (ops : list op) (w : world) : list (res unit) :=
  match ops with
  | [] => []
  | o :: r => snd (step o w) :: outcomes r (fst (step o w))
  end.
