(** * What an operation can reach, and what a blueprint depends on. *)
From Verif Require Import Py Num Util Classes Mixins Entity World SpecWorld.

(** the entities a blueprint's document speaks about: listed, at the end of a wire, or driven by
    a schedule *)
Definition wire_end (c : conn) (i : nat) : Prop := c_from c = Some i \/ c_to c = Some i.
Definition depends (w : world) (b i : nat) : Prop :=
  exists x, blu w b = Some x /\
    (In i (b_objs x) \/ (exists c, In c (b_conns x) /\ wire_end c i) \/ (exists s, In s (b_scheds x) /\ In i (fst s))).
Definition listed (w : world) (b i : nat) : Prop := exists x, blu w b = Some x /\ In i (b_objs x).
Definition at_home (w : world) (i b : nat) : Prop := exists e, ent w i = Some e /\ e_layer e = Some b.

(** the blueprint whose method is called, or whose wires are asked for or changed *)
Definition calls_blueprint (w : world) (o : op) (b : nat) : Prop :=
  match o with
  | OLoad c _ | OMake c _ | OAdd c _ | ORemove c _ | ODelAt c _ | OAt c _ | ORotate c _ _ _ | OTilesMake c _
  | OTilesAdd c _ | OFlip c _ | OFlipColor c _ | OSetLabel c _ _ | ORecenter c _ | OExport c | OSort c => c = b
  | OConnect e _ _ _ _ | OGetConnections e | OExportEnt e => at_home w e b
  | _ => False
  end.
(** the entity whose method is called or whose attribute is assigned, or which is handed over *)
Definition calls_entity (o : op) (i : nat) : Prop :=
  match o with
  | OAdd _ (OEnt e) | ORemove _ (OEnt e) | ORotateEnt e _ _ _ | ORename e _ | OSetPosition e _ | OSetDirection e _
  | OSetAttr e _ _ | OSetCb e _ _ | OSetMixins e _ | OAddMixins e _ => e = i
  | _ => False
  end.
(** prototype data is shared by all blueprints *)
Definition sets_prototypes (o : op) : Prop := match o with OSetTable _ _ _ | OImport _ _ => True | _ => False end.

(** the call has nothing to do with blueprint [b]: it is not made on [b], nor on an entity [b]
    depends on, nor on a blueprint listing such an entity *)
Definition foreign (w : world) (o : op) (b : nat) : Prop :=
  ~ sets_prototypes o /\ ~ calls_blueprint w o b /\
  (forall i, calls_entity o i -> ~ depends w b i) /\
  (forall c i, calls_blueprint w o c -> listed w c i -> ~ depends w b i).
(** a history of such calls *)
Inductive foreign_history (b : nat) : list op -> world -> Prop :=
| fh_nil w : foreign_history b [] w
| fh_cons o r w : op_ok w o -> foreign w o b -> foreign_history b r (fst (step o w)) -> foreign_history b (o :: r) w.

(** all the entities a blueprint speaks about are its own *)
Definition self_contained (w : world) (b : nat) : Prop := forall i, depends w b i -> listed w b i.

(** what is the same about blueprint [b] in both states *)
Definition undisturbed (w w' : world) (b : nat) : Prop :=
  blu w' b = blu w b /\ (forall i, depends w b i -> ent w' i = ent w i) /\
  snd (bp_json b w') = snd (bp_json b w) /\ (forall pt, snd (layer_at b pt w') = snd (layer_at b pt w)) /\
  snd (maximum_values b w') = snd (maximum_values b w).
