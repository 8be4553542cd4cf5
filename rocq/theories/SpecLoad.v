(** * What a call of [load] leaves in the blueprint, whether it returns or raises: C60, C61.

    [x] is the blueprint before the call, [x'] after it, [d] the blueprint's part of the document.
    Nothing here is used by the model. *)
From Verif Require Import Py Num Util Classes Mixins Entity World SpecUtil SpecWorld SpecDoc.
Open Scope Z_scope.

(** a key of the document, or the default when it is absent *)
Definition given (d : dict) (k : string) (dflt : val) : val :=
  match dget k d with Some v => v | None => dflt end.
(** the label colour afterwards: the old one when the document has none *)
Definition colour_after (d : dict) (old new : option color) : Prop :=
  (given d "label_color" VNone = VNone /\ new = old) \/
  (given d "label_color" VNone <> VNone /\ exists c, color_of_val (given d "label_color" VNone) = Ok c /\ new = Some c).
(** all other objects are as they were; only blueprint [b] and its entities may change *)
Definition elsewhere (w w' : world) (b : nat) : Prop :=
  w_protos w' = w_protos w /\ forall c, c <> b -> blu w' c = blu w c.
(** what no call of load ever changes in the blueprint *)
Definition fixed (x x' : bp) : Prop :=
  b_strict x' = b_strict x /\ b_custom x' = b_custom x /\ b_tiles x' = b_tiles x.
(** item and label are the document's *)
Definition titled (d : dict) (x' : bp) : Prop :=
  b_item x' = given d "item" (VStr "blueprint") /\ b_label x' = given d "label" VNone.
(** item, label, colour and version are the document's, the icons were started afresh *)
Definition headed (d : dict) (x x' : bp) : Prop :=
  titled d x' /\ colour_after d (b_label_color x) (b_label_color x') /\
  b_version x' = given d "version" (VInt 0) /\ length (b_icons x') = 4%nat.

(** [e] is what the constructor makes of the description [v], before it has got a number *)
Definition made_of (w : world) (x : bp) (b : nat) (v : val) (e : entity) : Prop :=
  exists kw, v = VDict kw /\ snd (construct (w_protos w) (b_custom x) (Some b) kw) = Ok e.
(** the description cannot be made into an entity, and this is the exception *)
Definition unmakable (w : world) (x : bp) (b : nat) (v : val) (err : exn) : Prop :=
  ((forall kw, v <> VDict kw) /\ err = EType) \/
  (exists kw, v = VDict kw /\ snd (construct (w_protos w) (b_custom x) (Some b) kw) = Err err).
(** the objects that existed are as they were, and [es] are new *)
Definition exactly_added (w w' : world) (es : list entity) : Prop := w_ents w' = w_ents w ++ es.
(** the same, but any of them may have been given another number by the sorting *)
Definition renumbered (e e' : entity) : Prop := e' = with_auto (e_auto e') e.
Definition added_and_renumbered (w w' : world) (es : list entity) : Prop :=
  Forall2 renumbered (w_ents w ++ es) (w_ents w').
(** the new objects are put at the end of the list, in the order of the document *)
Definition appended (w : world) (x : bp) (es : list entity) : list nat :=
  b_objs x ++ seq (length (w_ents w)) (length es).

(** ** the places where a call can stop *)
(** at the label colour: nothing else has been looked at *)
Definition stopped_at_colour (w w' : world) (d : dict) (x x' : bp) (err : exn) : Prop :=
  given d "label_color" VNone <> VNone /\ color_of_val (given d "label_color" VNone) = Err err /\
  w_ents w' = w_ents w /\ titled d x' /\ b_label_color x' = b_label_color x /\ b_version x' = b_version x /\
  b_icons x' = b_icons x /\ b_objs x' = b_objs x /\ b_conns x' = b_conns x.
(** at the icons *)
Definition stopped_at_icons (w w' : world) (d : dict) (x x' : bp) : Prop :=
  dget "icons" d <> None /\ dget "icons" d <> Some (VList []) /\
  w_ents w' = w_ents w /\ headed d x x' /\ b_objs x' = b_objs x /\ b_conns x' = b_conns x.
(** at the entity described by [v]: those before it stay in the list, unsorted.  Or the entities
    are no list at all (the text of a string is outside the model) *)
Definition stopped_at_entity (w w' : world) (b : nat) (d : dict) (x x' : bp) (err : exn) : Prop :=
  (exists pre v post es, dget "entities" d = Some (VList (pre ++ v :: post)) /\ unmakable w x b v err /\
     Forall2 (made_of w x b) pre es /\ exactly_added w w' es /\ headed d x x' /\
     b_objs x' = appended w x es /\ b_conns x' = b_conns x) \/
  ((exists v, dget "entities" d = Some v /\ (forall l, v <> VList l) /\ ((forall s, v <> VStr s) -> err = EType)) /\
     exactly_added w w' [] /\ headed d x x' /\ b_objs x' = b_objs x /\ b_conns x' = b_conns x).
(** an entity without a usable position: all are in the list, unsorted *)
Definition stopped_at_sorting (w w' : world) (b : nat) (d : dict) (x x' : bp) : Prop :=
  exists es, Forall2 (made_of w x b) (doc_list d "entities") es /\ exactly_added w w' es /\ headed d x x' /\
    b_objs x' = appended w x es /\ b_conns x' = b_conns x /\
    exists i e, In i (b_objs x') /\ ent w' i = Some e /\
      forall p, e_pos e = Some p -> nval (vx p) = XNaN \/ nval (vy p) = XNaN.
(** later, at the wires, the tiles or the schedules: the list has been sorted and numbered, and the
    wires known before are forgotten for some of those in the documents of the entities *)
Definition stopped_later (w w' : world) (b : nat) (d : dict) (x x' : bp) : Prop :=
  exists es, Forall2 (made_of w x b) (doc_list d "entities") es /\ added_and_renumbered w w' es /\ headed d x x' /\
    sorted_layer w' b (appended w x es) /\
    forall c, In c (b_conns x') -> exists n, mentions w' b n /\ same_wire c n.

Definition left_behind (w w' : world) (b : nat) (d : dict) (x x' : bp) (err : exn) : Prop :=
  stopped_at_colour w w' d x x' err \/ stopped_at_icons w w' d x x' \/ stopped_at_entity w w' b d x x' err \/
  stopped_at_sorting w w' b d x x' \/ stopped_later w w' b d x x'.

(** ** a call that returns *)
Definition merged (w w' : world) (b : nat) (d : dict) (x x' : bp) : Prop :=
  exists es, Forall2 (made_of w x b) (doc_list d "entities") es /\ added_and_renumbered w w' es /\ headed d x x' /\
    sorted_layer w' b (appended w x es).
