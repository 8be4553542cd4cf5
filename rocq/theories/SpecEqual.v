(** * Independent specification of equality of blueprints. *)
From Verif Require Import Py SpecCodec Util Classes Mixins Entity World SpecWorld.

(** no wire of the blueprint leads from one side of an entity to another side of the same entity *)
Definition unlooped (w : world) (b : nat) : Prop := exists x, blu w b = Some x /\ forall c, In c (b_conns x) -> ~ skew_loop c.
(** the document exported for the blueprint *)
Definition document (w : world) (b : nat) (v : val) : Prop := snd (bp_json b w) = Ok v.
