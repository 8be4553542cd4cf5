(** * Independent specification of the round trip of whole blueprints: well-formed documents and
    what the export of a loaded document has in common with it. *)
From Coq Require Import Permutation Sorting.Sorted.
From Verif Require Import Py Num NumFacts Util Classes Mixins Entity World SpecWorld SpecDoc SpecEntity SpecTrip.
Open Scope Z_scope.

(** the list under a key, absent meaning empty *)
Definition lists (d : dict) (k : string) (l : list val) : Prop :=
  dget k d = Some (VList l) \/ (dget k d = None /\ l = []).
(** the same, an empty list being left out *)
Definition lists_short (d : dict) (k : string) (l : list val) : Prop :=
  dget k d = match l with [] => None | _ => Some (VList l) end.

(** ** Wires in documents *)
Definition has_number (kw : dict) (n : Z) : Prop := dget "entity_number" kw = Some (VInt n).
(** the sides of an entity are the keys "1" and "2" *)
Definition side_key (k : key) (s : Z) : Prop := (k = KS "1" /\ s = 1) \/ (k = KS "2" /\ s = 2).
(** an entry of the lists under "connections": the entity numbered [n], its side [t] (1 by default) *)
Definition end_doc (v : val) (n t : Z) : Prop :=
  exists e, v = VDict e /\ dget "entity_id" e = Some (VInt n) /\ odflt (VInt 1) (dget "circuit_id" e) = VInt t.
(** the [i]-th document says that side [s] of its entity is wired to side [t] of the [j]-th *)
Definition says_wire (kws : list dict) (i : nat) (s : Z) (j : nat) (t : Z) (col : string) : Prop :=
  exists kw kw' n raw sk cols l v, nth_error kws i = Some kw /\ nth_error kws j = Some kw' /\ has_number kw' n /\
    dget "connections" kw = Some (VDict raw) /\ In (sk, VDict cols) raw /\ side_key sk s /\ In (KS col, VList l) cols /\
    In v l /\ end_doc v n t.
(** said at either end *)
Definition wired (kws : list dict) (i : nat) (s : Z) (j : nat) (t : Z) (col : string) : Prop :=
  says_wire kws i s j t col \/ says_wire kws j t i s col.

(** ** Well-formed documents *)
(** the wires of [kw] lead to other entities of the document *)
Definition wires_doc (kws : list dict) (kw : dict) : Prop :=
  dget "connections" kw = None \/
  exists raw, dget "connections" kw = Some (VDict raw) /\
  forall sk cv, In (sk, cv) raw -> exists s cols, side_key sk s /\ cv = VDict cols /\
  forall ck lv, In (ck, lv) cols -> exists col l, ck = KS col /\ lv = VList l /\
  forall v, In v l -> exists n t, end_doc v n t /\ ~ has_number kw n /\ exists kw', In kw' kws /\ has_number kw' n.
Definition entity_doc (p : protos) (kws : list dict) (kw : dict) : Prop :=
  exists s ty own cbk n, In (ty, (own, cbk)) formats /\ well_formed p kw s ty /\ has_number kw n /\
    (forall v, dget "position" kw = Some v -> no_nan v) /\ wires_doc kws kw.
Definition icon_item (p : protos) (v : val) (z : Z) : Prop :=
  exists d sg, v = VDict d /\ keys_within d ["index"; "signal"] /\ dget "index" d = Some (VInt z) /\ 1 <= z <= 4 /\
    dget "signal" d = Some sg /\ signal_doc p sg.
Definition schedule_doc (kws : list dict) (v : val) : Prop :=
  exists d nums plan, v = VDict d /\ keys_within d ["locomotives"; "schedule"] /\
    dget "locomotives" d = Some (VList (map VInt nums)) /\ dget "schedule" d = Some plan /\
    forall n, In n nums -> exists kw, In kw kws /\ has_number kw n.
(** a blueprint whose entities are [kws] *)
Record whole (p : protos) (d : dict) (kws : list dict) : Prop := mkWhole {
  wh_entities : lists d "entities" (map VDict kws);
  wh_entity : forall kw, In kw kws -> entity_doc p kws kw;
  wh_numbers : forall i j kw kw' n, nth_error kws i = Some kw -> nth_error kws j = Some kw' ->
                 has_number kw n -> has_number kw' n -> i = j;
  wh_tiles : lists d "tiles" [];
  wh_label : dget "label" d <> Some VNone;
  wh_colour : forall v, dget "label_color" d = Some v -> colour_doc v;
  wh_icons : exists l zs, lists d "icons" l /\ Forall2 (icon_item p) l zs /\ NoDup zs;
  wh_scheds : exists l, lists d "schedules" l /\ Forall (schedule_doc kws) l }.

(** ** The same blueprint again *)
(** the place a description asks for *)
Definition number_of (v : val) (n : num) : Prop := (exists z, v = VInt z /\ n = NI z) \/ (exists f, v = VFlt f /\ n = NF f).
Definition doc_at (kw : dict) (q : vec) : Prop :=
  exists d x y, dget "position" kw = Some (VDict d) /\ dget "x" d = Some x /\ dget "y" d = Some y /\
    number_of x (vx q) /\ number_of y (vy q).
(** [order] lists the documents by (y, x), those at one place in the order they are given in *)
Definition by_place (kws : list dict) (order : list nat) : Prop :=
  Permutation (seq 0 (length kws)) order /\
  forall k m i j, (k < m)%nat -> nth_error order k = Some i -> nth_error order m = Some j ->
  exists kw kw' q q', nth_error kws i = Some kw /\ nth_error kws j = Some kw' /\ doc_at kw q /\ doc_at kw' q' /\
    pos_le q q' /\ (pos_le q' q -> (i < j)%nat).
(** combinators with an input and an output *)
Definition two_port (p : protos) (kw : dict) : Prop :=
  exists (s : string) data ty, dget "name" kw = Some (VStr s) /\ dget s (p_entity p) = Some (VDict data) /\
    dget "type" data = Some (VStr ty) /\ In ty ["arithmetic-combinator"; "decider-combinator"].
(** the entry written for the other end [j] of a wire at a side [s] *)
Definition written_end (p : protos) (kws : list dict) (order : list nat) (s : Z) (j : nat) (v : val) : Prop :=
  exists m kw, nth_error order m = Some j /\ nth_error kws j = Some kw /\
    ((two_port p kw /\ v = VDict [(KS "entity_id", VInt (Z.of_nat m + 1)); (KS "circuit_id", VInt s)]) \/
     (~ two_port p kw /\ v = VDict [(KS "entity_id", VInt (Z.of_nat m + 1))])).
(** a dictionary of wires as the exporter writes it: for each side with wires a dictionary, in it for
    each colour in use a list with something in it; nothing else *)
Definition tidy (raw : dict) : Prop :=
  NoDup (map fst raw) /\ forall k v, In (k, v) raw -> exists s cols, k = KI s /\ v = VDict cols /\ cols <> [] /\
    NoDup (map fst cols) /\ forall c u, In (c, u) cols -> exists col l, c = KS col /\ u = VList l /\ l <> [].
Definition tidy_wires (e : dict) : Prop :=
  forall v, dget "connections" e = Some v -> exists raw, v = VDict raw /\ raw <> [] /\ tidy raw.
(** [e] is the description of the [i]-th entity again, with the number of its place and one entry
    for each of its wires *)
Definition entity_again (p : protos) (kws : list dict) (order : list nat) (k i : nat) (e : dict) : Prop :=
  (exists kw, nth_error kws i = Some kw /\ says_again kw e) /\
  dget "entity_number" e = Some (VInt (Z.of_nat k + 1)) /\
  (forall s col, exists ends vs, NoDup ends /\ (forall j t, In (j, t) ends <-> wired kws i s j t col) /\
     Permutation (port (conns_of_doc e) s col) vs /\ Forall2 (fun jt v => written_end p kws order s (fst jt) v) ends vs) /\
  tidy_wires e /\ ((forall s j t col, ~ wired kws i s j t col) -> dget "connections" e = None).
Definition index_of (v : val) (z : Z) : Prop := exists d, v = VDict d /\ dget "index" d = Some (VInt z).
(** the icons again, in the order of their indices *)
Definition icons_again (l m : list val) : Prop :=
  (forall v, In v l -> exists u, In u m /\ jeq v u) /\ (forall u, In u m -> exists v, In v l /\ jeq v u) /\
  StronglySorted (fun u u' => exists z z', index_of u z /\ index_of u' z' /\ z < z') m.
(** the schedule again, for the same locomotives *)
Definition schedule_again (kws : list dict) (order : list nat) (v u : val) : Prop :=
  exists d nums plan nums', v = VDict d /\ dget "locomotives" d = Some (VList nums) /\ dget "schedule" d = Some plan /\
    u = VDict [(KS "locomotives", VList nums'); (KS "schedule", plan)] /\
    Forall2 (fun n n' => exists k i kw, nth_error order k = Some i /\ nth_error kws i = Some kw /\
               dget "entity_number" kw = Some n /\ n' = VInt (Z.of_nat k + 1)) nums nums'.
Record same_blueprint (p : protos) (d : dict) (kws : list dict) (o : dict) : Prop := mkSame {
  sb_keys : keys_within o ["item"; "label"; "label_color"; "entities"; "icons"; "version"; "schedules"];
  sb_item : dget "item" o = Some (odflt (VStr "blueprint") (dget "item" d));
  sb_version : dget "version" o = Some (odflt (VInt 0) (dget "version" d));
  sb_label : dget "label" o = dget "label" d;
  sb_colour : same_at "label_color" d o;
  sb_icons : exists l m, lists d "icons" l /\ dget "icons" o = Some (VList m) /\ icons_again l m;
  sb_entities : exists order (es : list dict), by_place kws order /\ lists_short o "entities" (map VDict es) /\ length es = length order /\
    (forall k i (e : dict), nth_error order k = Some i -> nth_error es k = Some e -> entity_again p kws order k i e) /\
    exists l m, lists d "schedules" l /\ lists_short o "schedules" m /\ Forall2 (schedule_again kws order) l m }.
