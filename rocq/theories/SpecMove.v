(** * Moving an entity from one blueprint to another (C79). *)
From Verif Require Import Py Num Util SpecUtil Classes Mixins Entity World SpecWorld SpecDoc SpecParts.
Open Scope string_scope. Open Scope Z_scope. Open Scope list_scope.

(** the entity [i] is taken out of [a] and put into [b] *)
Definition moves (w : world) (a b i : nat) (w2 : world) : Prop :=
  exists w1, step (ORemove a (OEnt i)) w = (w1, Ok tt) /\ step (OAdd b (OEnt i)) w1 = (w2, Ok tt).
(** no wire of the blueprint ends at [i] *)
Definition no_wire_at (x : bp) (i : nat) : Prop := forall c, In c (b_conns x) -> c_from c <> Some i /\ c_to c <> Some i.
(** the same document with the number [n], or the same exception *)
Definition same_but_number (n : Z) (r r' : res val) : Prop :=
  (exists d, r = Ok (VDict d) /\ r' = Ok (VDict (dset "entity_number" (VInt n) d))) \/ (exists e, r = Err e /\ r' = Err e).
