(** * A concrete program used by the examples: the shipped prototype data and small blueprints. *)
From Verif Require Import Py Num Util Classes Mixins Entity World EntityData.

Definition shipped_file : val :=
  VDict [(KS "entity", VDict shipped_entities); (KS "recipe", VDict shipped_recipes);
         (KS "item", VDict shipped_items); (KS "signal", VDict shipped_signals); (KS "tile", VDict shipped_tiles)].
Definition half : val := VFlt (S754_finite false 4503599627370496 (-53)).
Definition pt (x y : val) : val := VDict [(KS "x", x); (KS "y", y)].
Definition ipt (x y : Z) : val := pt (VInt x) (VInt y).
Definition thing (name : string) (x y : Z) : dict := [(KS "name", VStr name); (KS "position", ipt x y)].
Definition numbered_thing (n : Z) (name : string) (x y : Z) : dict := (KS "entity_number", VInt n) :: thing name x y.
Definition doc_of (inner : dict) : val := VDict [(KS "blueprint", VDict inner)].
Definition ents_doc (l : list dict) : val := doc_of [(KS "entities", VList (map VDict l))].

Definition boot : list op := [OImport shipped_file false; ONewBlueprint true []].
(** three chests made out of order and a decider combinator; entities 0, 1, 2, 3 *)
Definition demo_ops : list op :=
  boot ++ [OMake 0 (thing "steel-chest" 4 2); OMake 0 (thing "iron-chest" 1 2);
           OMake 0 (thing "wooden-chest" 1 0); OMake 0 (thing "constant-combinator" 9 9)].
Definition demo : world := Eval vm_compute in run demo_ops start.
(** a red wire between entities 0 and 1 *)
Definition wired : world := Eval vm_compute in
  fst (step (OConnect 1 (Some 0%nat) (VInt 1) (VStr "1") "red") demo).

Definition objs (w : world) : list (list nat) := map b_objs (w_bps w).
Definition autos (w : world) : list val := map e_auto (w_ents w).
Definition layers (w : world) : list (option nat) := map e_layer (w_ents w).
Definition wires (w : world) : list (list conn) := map b_conns (w_bps w).
