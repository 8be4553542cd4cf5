(** * The order of the entities in a document (C78). *)
From Verif Require Import Py Num NumFacts Util SpecUtil Classes Mixins Entity World SpecWorld SpecDoc SpecParts.
Open Scope string_scope. Open Scope Z_scope. Open Scope list_scope.

(** no two entities of the blueprint are at one position *)
Definition spread (w : world) (b : nat) : Prop :=
  forall x i j u v, blu w b = Some x -> In i (b_objs x) -> In j (b_objs x) -> i <> j -> has_pos w i u -> has_pos w j v ->
  ~ (xeq (nval (vx u)) (nval (vx v)) /\ xeq (nval (vy u)) (nval (vy v))).
(** the entities of the two blueprints, taken in order, have the same documents, or the same exceptions *)
Definition entities_alike (w1 w2 : world) (b : nat) : Prop :=
  exists x1 x2, blu w1 b = Some x1 /\ blu w2 b = Some x2 /\ length (b_objs x1) = length (b_objs x2) /\
  forall k i j, nth_error (b_objs x1) k = Some i -> nth_error (b_objs x2) k = Some j ->
    entity_alone w1 i = entity_alone w2 j.
