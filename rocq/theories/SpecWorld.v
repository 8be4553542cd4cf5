(** * Independent specifications for blueprints, layers and wires.

    Vocabulary used to state the properties of blueprint.py and entity.py; nothing here is
    used by the model. *)
From Coq Require Import QArith Permutation.
From Verif Require Import Py Num NumFacts Util SpecUtil Classes Mixins Entity World.
Open Scope Z_scope.

(** ** Histories: programs whose operations only mention existing entities. *)
Definition alive (w : world) (o : option nat) : Prop :=
  match o with Some i => exists e, ent w i = Some e | None => True end.
Definition op_ok (w : world) (o : op) : Prop := match o with OConnect _ t _ _ _ => alive w t | _ => True end.
Inductive reachable : world -> Prop :=
| reach_start : reachable start
| reach_step w o : reachable w -> op_ok w o -> reachable (fst (step o w)).
(** the same without Connection.flip_color, which recolours a wire in place *)
Definition is_recolour (o : op) : bool := match o with OFlipColor _ _ => true | _ => false end.
Inductive reachable_plain : world -> Prop :=
| reachp_start : reachable_plain start
| reachp_step w o : reachable_plain w -> op_ok w o -> is_recolour o = false -> reachable_plain (fst (step o w)).

(** ** Wires as a set *)
Definition distinct_wires (l : list conn) : Prop :=
  forall i j a b, nth_error l i = Some a -> nth_error l j = Some b -> i <> j -> ~ same_wire a b.

(** Python integer literals accepted by int(): blanks, a sign, digits with single underscores *)
Definition blank (c : ascii) : Prop := In (nat_of_ascii c) [9; 10; 11; 12; 13; 32]%nat.
Definition digit (c : ascii) (d : Z) : Prop := 0 <= d <= 9 /\ Z.of_nat (nat_of_ascii c) = 48 + d.
Inductive blanks : string -> Prop :=
| bl_nil : blanks ""
| bl_cons c s : blank c -> blanks s -> blanks (String c s).
(** [number s acc v]: reading the digits of [s] after having read [acc] gives [v] *)
Inductive number : string -> Z -> Z -> Prop :=
| num_one c d acc : digit c d -> number (String c "") acc (10 * acc + d)
| num_dig c d s acc v : digit c d -> number s (10 * acc + d) v -> number (String c s) acc v
| num_und c d s acc v : digit c d -> number s (10 * acc + d) v -> number (String c (String "_" s)) acc v.
Definition int_text (s : string) (z : Z) : Prop :=
  exists l body r v, blanks l /\ blanks r /\ number body 0 v /\
    ((s = l ++ body ++ r /\ z = v) \/ (s = l ++ "+" ++ body ++ r /\ z = v) \/
     (s = l ++ "-" ++ body ++ r /\ z = - v))%string.

(** ** Order of a layer *)
(** lexicographic on (y, x), on exact values *)
Definition pos_le (v u : vec) : Prop :=
  xlt (nval (vy v)) (nval (vy u)) \/
  (xeq (nval (vy v)) (nval (vy u)) /\ (xlt (nval (vx v)) (nval (vx u)) \/ xeq (nval (vx v)) (nval (vx u)))).
Definition has_pos (w : world) (i : nat) (v : vec) : Prop := exists e, ent w i = Some e /\ e_pos e = Some v.
Definition in_order (w : world) (l : list nat) : Prop :=
  forall k m i j, (k < m)%nat -> nth_error l k = Some i -> nth_error l m = Some j ->
  exists v u, has_pos w i v /\ has_pos w j u /\ pos_le v u.
(** entities at one position keep their order *)
Definition at_pos (w : world) (v : vec) (i : nat) : bool :=
  match ent w i with
  | Some e => match e_pos e with Some u => neqb (vx u) (vx v) && neqb (vy u) (vy v) | None => false end
  | None => false
  end.
Definition reordered (w : world) (l l' : list nat) : Prop :=
  Permutation l l' /\ in_order w l' /\ forall v, filter (at_pos w v) l' = filter (at_pos w v) l.
(** numbers are 1..n in list order *)
Definition numbered (w : world) (l : list nat) : Prop :=
  forall k i, nth_error l k = Some i -> exists e, ent w i = Some e /\ e_auto e = VInt (Z.of_nat k + 1).
Definition sorted_layer (w : world) (b : nat) (l : list nat) : Prop :=
  exists x, blu w b = Some x /\ reordered w l (b_objs x) /\ numbered w (b_objs x).

(** ** Frames *)
Definition objs_of (w : world) (b : nat) : option (list nat) := option_map b_objs (blu w b).
Definition conns_of (w : world) (b : nat) : option (list conn) := option_map b_conns (blu w b).

(** the effect of dropping a set of entities from one layer *)
Definition dropped (w w' : world) (b : nat) (gone : nat -> bool) : Prop :=
  (forall x, blu w b = Some x -> blu w' b = Some (b_set_objs (filter (fun j => negb (gone j)) (b_objs x)) x)) /\
  (forall c, c <> b -> blu w' c = blu w c) /\
  (forall i, ent w' i = if gone i then option_map (with_layer None) (ent w i) else ent w i) /\
  w_protos w' = w_protos w.

(** the point minus the entity's position, computed exactly, is strictly between the corners *)
Definition strictly_inside (tl br pos pt : vec) : Prop :=
  exists px py x y : Q,
    nfin (vx pos) px /\ nfin (vy pos) py /\ nfin (vx pt) x /\ nfin (vy pt) y /\
    xlt (nval (vx tl)) (XFin (x - px)) /\ xlt (XFin (x - px)) (nval (vx br)) /\
    xlt (nval (vy tl)) (XFin (y - py)) /\ xlt (XFin (y - py)) (nval (vy br)).
(** entity [i] covers the point *)
Definition covers (w : world) (pt : vec) (i : nat) : Prop :=
  exists e tl br pos, ent w i = Some e /\ selection_box (w_protos w) e = Ok (tl, br) /\
    e_pos e = Some pos /\ strictly_inside tl br pos pt.
(** multiples of 1/256 of magnitude below 2^40 *)
Definition game_num (n : num) : Prop := exists k, on_grid k n /\ Z.abs k < 2 ^ 48.
Definition game_pos (v : vec) : Prop := game_num (vx v) /\ game_num (vy v).

(** ** Documents *)
(** the part of a document that [load] reads *)
Definition inner_doc (doc : val) : dict :=
  match doc with
  | VDict d => match dget "blueprint" d with Some (VDict i) => i | _ => d end
  | _ => []
  end.
Definition doc_list (d : dict) (k : string) : list val :=
  match dget k d with Some (VList l) => l | _ => [] end.

(** ** The five prototype tables and the order in which an import fills them *)
Definition table_of (t : table) (p : protos) : dict :=
  match t with TEntity => p_entity p | TRecipe => p_recipe p | TItem => p_item p | TSignal => p_signal p | TTile => p_tile p end.
Definition table_name (t : table) : string :=
  match t with TEntity => "entity" | TRecipe => "recipe" | TItem => "item" | TSignal => "signal" | TTile => "tile" end.
Definition table_rank (t : table) : nat :=
  match t with TEntity => 0 | TRecipe => 1 | TItem => 2 | TSignal => 3 | TTile => 4 end.

(** ** Entity numbers from the document: the value is the integer [z] (True is 1, 3.0 is 3) *)
Definition denotes (v : val) (z : Z) : Prop :=
  match v with
  | VInt y => y = z
  | VBool b => z = if b then 1 else 0
  | VFlt f => ffin f (z # 1)
  | _ => False
  end.
(** what the constructor stores once and for all *)
Definition fixed_part (e : entity) : bool * val * val := (e_strict e, e_number e, e_raw e).

(** ** Exported wires *)
(** the list under a side and colour of an exported "connections" object *)
Definition port (obj : dict) (side : Z) (col : string) : list val :=
  match dget (KI side) obj with
  | Some (VDict d) => match dget (KS col) d with Some (VList l) => l | _ => [] end
  | _ => []
  end.
(** how entity [e] sees a wire: (its side, colour, other end, the side written as circuit_id).
    A loop is seen from both of its ends. *)
Definition views (e : nat) (c : conn) : list (Z * string * nat * Z) :=
  match c_from c, c_to c with
  | Some a, Some b =>
      if Nat.eqb a e then
        if Nat.eqb b e then [(c_fs c, c_color c, e, c_ts c); (c_ts c, c_color c, e, c_ts c)]
        else [(c_fs c, c_color c, b, c_fs c)]
      else if Nat.eqb b e then [(c_ts c, c_color c, a, c_ts c)]
      else []
  | _, _ => []
  end.
Definition seen_at (s : Z) (col : string) (v : Z * string * nat * Z) : bool :=
  let '(s', col', _, _) := v in (s' =? s) && String.eqb col' col.
(** the exported entry: the other end's number, with circuit_id when it has two sides *)
Definition two_sided (en : entity) : Prop := In CCombinator (statics (e_cls en)).
Definition entry_for (w : world) (f : nat) (side : Z) (v : val) : Prop :=
  exists fe, ent w f = Some fe /\
    ((two_sided fe /\ v = VDict [(KS "entity_id", e_auto fe); (KS "circuit_id", VInt side)]) \/
     (~ two_sided fe /\ v = VDict [(KS "entity_id", e_auto fe)])).
Definition entry_of (w : world) (o : Z * string * nat * Z) (v : val) : Prop :=
  let '(_, _, f, s) := o in entry_for w f s v.
(** both ends of every wire at [e] exist and carry an integer number *)
Definition numbered_ends (w : world) (e : nat) (cs : list conn) : Prop :=
  forall c, In c cs -> c_from c = Some e \/ c_to c = Some e ->
    exists i j ei ej n m, c_from c = Some i /\ c_to c = Some j /\ ent w i = Some ei /\ ent w j = Some ej /\
      e_auto ei = VInt n /\ e_auto ej = VInt m.
(** a loop between different sides of one entity *)
Definition skew_loop (c : conn) : Prop := c_from c = c_to c /\ c_fs c <> c_ts c.

(** ** Exported documents *)
(** the value under "connections" of an exported entity, absent when there is none *)
Definition conns_of_doc (d : dict) : dict := match dget "connections" d with Some (VDict o) => o | _ => [] end.
(** [v] is the export of the listed entity [i] of the blueprint [x]: number, name and position,
    and under every side and colour the entries of its wires and nothing else *)
Definition exports_entity (w : world) (x : bp) (i : nat) (v : val) : Prop :=
  exists e q d, ent w i = Some e /\ e_pos e = Some q /\ v = VDict d /\
    dget "entity_number" d = Some (e_auto e) /\ dget "name" d = Some (e_name e) /\
    dget "position" d = Some (vec_to_json q) /\
    forall s col, exists l, Permutation (port (conns_of_doc d) s col) l /\
      Forall2 (entry_of w) (filter (seen_at s col) (flat_map (views i) (b_conns x))) l.
(** operations that only look at things, or turn a wire around *)
Definition looks (o : op) : bool :=
  match o with OExport _ | OExportEnt _ | OGetConnections _ | OAt _ _ | OFlip _ _ => true | _ => false end.

(** ** Wires mentioned by the documents of the listed entities *)
(** an entry [v] under side key [sk] and colour [col] of entity [i] denotes the wire [n]; the
    other end is looked up by its number, and is missing when no entity has it *)
Definition entry_denotes (w : world) (b i : nat) (sk : key) (col : string) (v : val) (n : conn) : Prop :=
  exists d id s t, v = VDict d /\ dget "entity_id" d = Some id /\ py_int (val_of_key sk) = Ok s /\
    py_int (odflt (VStr "1") (dget "circuit_id" d)) = Ok t /\
    n = mkConn (Some i) (get_entity_by_id w b id) s t col.
(** [v] occurs in the raw connections of [e] under [sk] and [col] *)
Definition raw_entry (e : entity) (sk : key) (col : key) (v : val) : Prop :=
  exists raw cols l, e_raw e = VDict raw /\ In (sk, VDict cols) raw /\ In (col, VList l) cols /\ In v l.
Definition mentions (w : world) (b : nat) (n : conn) : Prop :=
  exists x i e sk col v, blu w b = Some x /\ In i (b_objs x) /\ ent w i = Some e /\
    raw_entry e sk (KS col) v /\ entry_denotes w b i sk col v n.
(** the raw connections have the expected shape and their sides are integers *)
Definition wires_readable (w : world) (b : nat) : Prop :=
  forall x i e, blu w b = Some x -> In i (b_objs x) -> ent w i = Some e ->
  e_raw e = VNone \/
  exists raw, e_raw e = VDict raw /\ forall sk cv, In (sk, cv) raw ->
  exists cols, cv = VDict cols /\ forall ck lv, In (ck, lv) cols ->
  exists col l, ck = KS col /\ lv = VList l /\ forall v, In v l -> exists n, entry_denotes w b i sk col v n.
