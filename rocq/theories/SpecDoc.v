(** * Independent specifications for documents: unknown names, icons, schedules, what load
    leaves of the caller's data. *)
From Coq Require Import Sorting.Sorted.
From Verif Require Import Py Num Util Classes Mixins Entity World SpecWorld.
Open Scope Z_scope.

(** ** Descriptions of entities *)
(** a description with string keys, a name and a position, none of whose keys clash with the
    constructor's own parameters *)
Definition describes (kw : dict) (name : val) : Prop :=
  all_KS kw = true /\ dget "self" kw = None /\ dget "blueprint_layer" kw = None /\
  dget "name" kw = Some name /\ dget "position" kw <> None.
(** strict is not switched off in the description itself *)
Definition checked (kw : dict) : Prop := forall v, dget "strict" kw = Some v -> truthy v = true.
Definition unknown_name (p : protos) (kw : dict) : Prop :=
  exists s : string, describes kw (VStr s) /\ dget s (p_entity p) = None.

(** the document holds the blueprint [d], wrapped or not *)
Definition holds (doc : val) (d : dict) : Prop :=
  (doc = VDict d /\ dget "blueprint" d = None) \/ (exists o, doc = VDict o /\ dget "blueprint" o = Some (VDict d)).
(** the same document with the blueprint [d] *)
Definition refilled (doc : val) (d : dict) : val :=
  match doc with
  | VDict o => match dget "blueprint" o with Some _ => VDict (dset "blueprint" (VDict d) o) | None => VDict d end
  | _ => doc
  end.

(** ** Documents without contents, such as blueprint books *)
Definition bare (d : dict) : Prop :=
  dget "entities" d = None /\ dget "icons" d = None /\ dget "tiles" d = None /\ dget "schedules" d = None /\ dget "label_color" d = None.

(** ** Icons *)
(** the slot (0..3) of an icon index, counting from the end for indices below 1 *)
Definition slot_of (z : Z) (k : nat) : Prop :=
  (1 <= z <= 4 /\ z = Z.of_nat k + 1) \/ (-3 <= z <= 0 /\ z = Z.of_nat k - 3).
(** [v] is an icon for the signal named [s], known to the game, with index [z] *)
Definition icon_for (p : protos) (v : val) (s : string) (z : Z) : Prop :=
  exists d sig, v = VDict d /\ dget "signal" d = Some sig /\ dget "index" d = Some (VInt z) /\ s <> "" /\
    (sig = VStr s \/ exists sd, sig = VDict sd /\ dget "name" sd = Some (VStr s)) /\ dget s (p_signal p) <> None.
(** the same, the signal being unknown *)
Definition icon_unknown (p : protos) (v : val) : Prop :=
  exists d sig s, v = VDict d /\ dget "signal" d = Some sig /\ s <> "" /\
    (sig = VStr s \/ exists sd, sig = VDict sd /\ dget "name" sd = Some (VStr s)) /\ dget s (p_signal p) = None.
(** slot [k] after the icons: the last one for it *)
Inductive shows (p : protos) (k : nat) : list val -> option val -> Prop :=
| sh_none : shows p k [] None
| sh_here l v s z o : shows p k l o -> icon_for p v s z -> slot_of z k -> shows p k (l ++ [v]) (Some (VStr s))
| sh_skip l v s z o : shows p k l o -> icon_for p v s z -> ~ slot_of z k -> shows p k (l ++ [v]) o.
(** the documents of the icons in the slots, in order of their slots *)
Definition icon_docs (p : protos) (slots : list (option val)) (l : list val) : Prop :=
  exists ks : list nat, StronglySorted lt ks /\
    (forall k v, nth_error slots k = Some (Some v) -> In k ks) /\
    Forall2 (fun k v => exists s data t, nth_error slots k = Some (Some (VStr s)) /\ dget s (p_signal p) = Some (VDict data) /\
               dget "type" data = Some t /\
               v = VDict [(KS "index", VInt (Z.of_nat k + 1)); (KS "signal", VDict [(KS "name", VStr s); (KS "type", t)])]) ks l.
(** no label colour, or one that Color accepts *)
Definition colour_fine (d : dict) : Prop := forall v, dget "label_color" d = Some v -> v = VNone \/ exists c, color_of_val v = Ok c.

(** ** Schedules *)
(** the entities a list of numbers denotes in a layer, in order, numbers without entity left out *)
Inductive found (w : world) (b : nat) : list val -> list nat -> Prop :=
| fo_nil : found w b [] []
| fo_hit n i ns is_ : get_entity_by_id w b n = Some i -> found w b ns is_ -> found w b (n :: ns) (i :: is_)
| fo_miss n ns is_ : get_entity_by_id w b n = None -> found w b ns is_ -> found w b (n :: ns) is_.
(** [s] is what the schedule document [v] says *)
Definition sched_of (w : world) (b : nat) (v : val) (s : list nat * val) : Prop :=
  exists d nums, v = VDict d /\ dget "schedule" d = Some (snd s) /\ dget "locomotives" d = Some (VList nums) /\
    found w b nums (fst s).
(** what only a load changes in a blueprint *)
Definition settings (x : bp) := (b_strict x, b_custom x, b_item x, b_icons x, b_version x, b_scheds x).
Definition is_load_of (b : nat) (o : op) : bool := match o with OLoad b' _ => Nat.eqb b' b | _ => false end.
(** the document of the schedule [s] *)
Definition sched_doc (w : world) (s : list nat * val) (v : val) : Prop :=
  exists nums, v = VDict [(KS "locomotives", VList nums); (KS "schedule", snd s)] /\
    Forall2 (fun i n => exists e : entity, ent w i = Some e /\ e_auto e = n) (fst s) nums.

(** ** What load leaves *)
(** [d'] is [d] with some keys missing *)
Definition shrunk (d d' : dict) : Prop := forall k, dget k d' = dget k d \/ dget k d' = None.
Definition conditions (f : string) : Prop := f = "arithmetic_conditions" \/ f = "decider_conditions" \/ f = "_conditions".
(** the control behaviour loses entries of one conditions dictionary *)
Definition cb_spent (cb cb' : dict) : Prop :=
  exists f d d', conditions f /\ dget f cb = Some (VDict d) /\ shrunk d d' /\ cb' = dset f (VDict d') cb.
Definition entity_spent (v v' : val) : Prop :=
  v' = v \/ exists kw cb cb', v = VDict kw /\ dget "control_behavior" kw = Some (VDict cb) /\ cb_spent cb cb' /\
              v' = VDict (dset "control_behavior" (VDict cb') kw).
Definition doc_spent (d d' : dict) : Prop :=
  exists d1, (d1 = d \/ exists l l', dget "entities" d = Some (VList l) /\ Forall2 entity_spent l l' /\
                          d1 = dset "entities" (VList l') d) /\
    (d' = d1 \/ d' = ddel "schedules" d1).
(** the two combinator types with conditions *)
Definition conditions_of (ty : string) : option string :=
  if String.eqb ty "arithmetic-combinator" then Some "arithmetic_conditions"
  else if String.eqb ty "decider-combinator" then Some "decider_conditions" else None.
