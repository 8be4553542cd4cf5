(** * Independent specification: giving an entity another name. *)
From Verif Require Import Py Num Util Classes Mixins Entity World SpecWorld SpecDoc SpecEntity.
Open Scope Z_scope.

(** the prototype table has an entry of type [ty] for the name [s] *)
Definition type_of (p : protos) (s ty : string) : Prop :=
  exists data, dget s (p_entity p) = Some (VDict data) /\ dget "type" data = Some (VStr ty).
(** no blueprint has mixins of its own for [ty] *)
Definition not_customised (w : world) (ty : string) : Prop :=
  forall b x, blu w b = Some x -> dget ty (b_custom x) = None.
(** the blueprint entity [i] belongs to has no mixins of its own for [ty] *)
Definition plain_layer (w : world) (i : nat) (ty : string) : Prop :=
  forall e b x, ent w i = Some e -> e_layer e = Some b -> blu w b = Some x -> dget ty (b_custom x) = None.
(** operations that make entities *)
Definition makes (o : op) : Prop := match o with ONewEntity _ _ | OMake _ _ | OLoad _ _ => True | _ => False end.
(** the operation [o] made entity [i], or renamed it, and its name is of type [ty] since *)
Record became (wa : world) (o : op) (i : nat) (ty : string) : Prop := mkBecame {
  bc_entity : exists e s, ent (fst (step o wa)) i = Some e /\ e_strict e = true /\ e_name e = VStr s /\ type_of (w_protos wa) s ty;
  bc_how : makes o /\ ent wa i = None \/ exists v, o = ORename i v /\ snd (step o wa) = Ok tt }.
(** the operation [o] made entity [i]; its name is of type [ty], for which no blueprint has
    mixins of its own *)
Record made_as (wa : world) (o : op) (i : nat) (ty : string) : Prop := mkMade {
  md_entity : exists e s, ent (fst (step o wa)) i = Some e /\ e_strict e = true /\ e_name e = VStr s /\ type_of (w_protos wa) s ty;
  md_how : makes o /\ ent wa i = None; md_plain : not_customised wa ty }.
(** [o] is not set_mixins of entity [i] *)
Definition leaves_mixins (i : nat) (o : op) : Prop := match o with OSetMixins j _ => j <> i | _ => True end.

(** neither set_mixins of entity [i] nor an assignment to an attribute of it or its control
    behaviour *)
Definition leaves_settings (i : nat) (o : op) : Prop :=
  match o with OSetMixins j _ | OSetAttr j _ _ | OSetCb j _ _ => j <> i | _ => True end.

(** pairs of prototype types: an entity made as the first cannot be renamed to one of the second,
    because the order of their mixins differs *)
Definition clashes : list (string * string) := [
  ("inserter", "pump"); ("inserter", "train-stop"); ("inserter", "transport-belt");
  ("mining-drill", "pump"); ("mining-drill", "train-stop"); ("mining-drill", "transport-belt");
  ("offshore-pump", "pump"); ("offshore-pump", "train-stop"); ("offshore-pump", "transport-belt");
  ("pump", "inserter"); ("pump", "offshore-pump");
  ("train-stop", "inserter"); ("train-stop", "offshore-pump");
  ("transport-belt", "inserter"); ("transport-belt", "offshore-pump")].

(** a result with the "name" in the exported object replaced *)
Definition with_new_name (s : string) (r : res val) : res val :=
  match r with Ok (VDict d) => Ok (VDict (dset "name" (VStr s) d)) | _ => r end.
(** [w'] is [w] but for the name (and the run-time class) of entity [i] *)
Definition only_renamed (w w' : world) (i : nat) (s : string) : Prop :=
  w_protos w' = w_protos w /\ w_bps w' = w_bps w /\ length (w_ents w') = length (w_ents w) /\ (forall j, j <> i -> ent w' j = ent w j) /\
  exists e e', ent w i = Some e /\ ent w' i = Some e' /\ e' = with_cls (e_cls e') (with_name (VStr s) e).
(** keys an entity can export without having been given them *)
Definition optional_settings : list string := ["recipe"; "color"].
