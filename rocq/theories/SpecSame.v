(** * Loading a document and making its entities one by one (C77). *)
From Verif Require Import Py Num Util SpecUtil Classes Mixins Entity World SpecWorld SpecDoc SpecParts.
Open Scope string_scope. Open Scope Z_scope. Open Scope list_scope.

(** the document lists these entities, and they have no wires *)
Definition lists_unwired (d : dict) (kws : list dict) : Prop :=
  doc_list d "entities" = map VDict kws /\ forall kw, In kw kws -> dget "connections" kw = None.
(** the blueprint [b] has the same list of entities in both states, each the same in all its attributes and in what it exports,
    and no wires in either *)
Definition same_content (w1 w2 : world) (b : nat) : Prop :=
  exists x1 x2, blu w1 b = Some x1 /\ blu w2 b = Some x2 /\ b_objs x1 = b_objs x2 /\ b_conns x1 = [] /\ b_conns x2 = [] /\
    forall i, In i (b_objs x1) -> exists e, ent w1 i = Some e /\ ent w2 i = Some e /\ entity_alone w1 i = entity_alone w2 i.
(** the two exports list the same entities *)
Definition same_entities_exported (w1 w2 : world) (b : nat) : Prop :=
  forall d1 d2, blueprint_doc w1 b = Ok (VDict [(KS "blueprint", VDict d1)]) -> blueprint_doc w2 b = Ok (VDict [(KS "blueprint", VDict d2)]) ->
  dget "entities" d1 = dget "entities" d2.
