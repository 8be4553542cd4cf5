(** * The document of a blueprint and the documents of its parts (C73). *)
From Verif Require Import Py Num Util SpecUtil Classes Mixins Entity Setters World SpecWorld SpecDoc SpecEntity SpecAttr SpecValues SpecSetting SpecBehaviour.
Open Scope string_scope. Open Scope Z_scope. Open Scope list_scope.

(** what exporting the entity [i] on its own gives *)
Definition entity_alone (w : world) (i : nat) : res val := snd (ent_json i w).
(** what exporting the blueprint [b] gives *)
Definition blueprint_doc (w : world) (b : nat) : res val := snd (bp_json b w).
(** the document of the signal of an icon: only a name has one *)
Inductive icon_doc (t : dict) : val -> res val -> Prop :=
| ic_name n r : signal_doc t n r -> icon_doc t (VStr n) r
| ic_other v : (forall n, v <> VStr n) -> icon_doc t v (Err EAttribute).

(** the first part that has no document: the entities come in the order of the list, then the icons *)
Inductive bad_part (w : world) (x : bp) : exn -> Prop :=
| bp_entity pre i post e : b_objs x = pre ++ i :: post -> (forall j, In j pre -> exists v, entity_alone w j = Ok v) ->
    entity_alone w i = Err e -> bad_part w x e
| bp_icon pre v post e : (forall j, In j (b_objs x) -> exists u, entity_alone w j = Ok u) ->
    b_icons x = pre ++ Some v :: post -> (forall u, In (Some u) pre -> exists d, icon_doc (p_signal (w_protos w)) u (Ok d)) ->
    icon_doc (p_signal (w_protos w)) v (Err e) -> bad_part w x e.

(** the icons that are set, with the numbers of their slots *)
Fixpoint set_icons (k : Z) (l : list (option val)) : list (Z * val) :=
  match l with [] => [] | None :: r => set_icons (k + 1) r | Some v :: r => (k, v) :: set_icons (k + 1) r end.
(** [k] is in the document with [v], or is absent *)
Definition says (d : dict) (k : string) (v : option val) : Prop := dget k d = v.
Definition listed (l : list val) : option val := match l with [] => None | _ => Some (VList l) end.
(** the document of a schedule: the numbers of its locomotives *)
Definition schedule_doc (w : world) (s : list nat * val) (v : val) : Prop :=
  exists ns, Forall2 (fun i n => exists e, ent w i = Some e /\ n = e_auto e) (fst s) ns /\
    v = VDict [(KS "locomotives", VList ns); (KS "schedule", snd s)].
Definition icon_entry (t : dict) (k : Z * val) (v : val) : Prop :=
  exists d, icon_doc t (snd k) (Ok d) /\ v = VDict [(KS "index", VInt (fst k)); (KS "signal", d)].
Record whole_doc (w : world) (x : bp) (d : dict) : Prop := mkWhole {
  wd_item : says d "item" (Some (b_item x));
  wd_label : says d "label" (match b_label x with VNone => None | v => Some v end);
  wd_color : says d "label_color" (match b_label_color x with
               | Some c => Some (VDict [(KS "r", val_of_num (col_r c)); (KS "g", val_of_num (col_g c)); (KS "b", val_of_num (col_b c)); (KS "a", val_of_num (col_a c))]) | None => None end);
  wd_entities : exists l, Forall2 (fun i v => entity_alone w i = Ok v) (b_objs x) l /\ says d "entities" (listed l);
  wd_tiles : says d "tiles" None;
  wd_icons : exists l, Forall2 (icon_entry (p_signal (w_protos w))) (set_icons 1 (b_icons x)) l /\ says d "icons" (Some (VList l));
  wd_version : says d "version" (Some (b_version x));
  wd_schedules : exists l, Forall2 (schedule_doc w) (b_scheds x) l /\ says d "schedules" (listed l);
  wd_keys : forall k v, In (k, v) d -> exists s, k = KS s /\ In s ["item"; "label"; "label_color"; "entities"; "icons"; "version"; "schedules"] }.

(** ** The wires of one entity *)
(** the other end of a wire at [i] *)
Definition far_end (i : nat) (c : conn) (o : option nat) : Prop :=
  (c_from c = Some i /\ o = c_to c) \/ (c_to c = Some i /\ o = c_from c).
(** a wire that ends at no entity *)
Definition loose_wire (x : bp) (i : nat) : Prop := exists c, In c (b_conns x) /\ far_end i c None.
(** numbers of entities that Python can compare: whole numbers, or texts; None only with itself *)
Definition plain_number (v : val) : Prop := v = VNone \/ (exists z, v = VInt z) \/ exists s, v = VStr s.
Definition comparable (u v : val) : Prop :=
  (u = VNone /\ v = VNone) \/ (exists y z, u = VInt y /\ v = VInt z) \/ exists s t, u = VStr s /\ v = VStr t.
Definition far_number (w : world) (x : bp) (i : nat) (n : val) : Prop :=
  exists c j e, In c (b_conns x) /\ far_end i c (Some j) /\ ent w j = Some e /\ n = e_auto e.
