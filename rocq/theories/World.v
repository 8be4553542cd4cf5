(** * Model of blueprint.py and of the wire methods of entity.py: a heap of entities and
    blueprints, and the API operations on it. *)
From Verif Require Import Py Num Util Classes Mixins Entity Setters.

(** ** The heap.  Entities and blueprints are addressed by their index. *)
Record bp := mkBp {
  b_strict : bool; b_custom : customs;
  b_objs : list nat;                 (* entities layer, [objs] *)
  b_tiles : list tile;               (* tiles layer, [objs] *)
  b_item : val; b_label : val; b_label_color : option color;
  b_icons : list (option val);       (* Icon objects by slot: the stored signal name *)
  b_version : val; b_conns : list conn;
  b_scheds : list (list nat * val) }. (* (locomotives, schedule) *)

Record world := mkWorld { w_protos : protos; w_ents : list entity; w_bps : list bp }.

Definition b_set_objs (l : list nat) (b : bp) : bp :=
  mkBp (b_strict b) (b_custom b) l (b_tiles b) (b_item b) (b_label b) (b_label_color b) (b_icons b)
       (b_version b) (b_conns b) (b_scheds b).
Definition b_set_tiles (l : list tile) (b : bp) : bp :=
  mkBp (b_strict b) (b_custom b) (b_objs b) l (b_item b) (b_label b) (b_label_color b) (b_icons b)
       (b_version b) (b_conns b) (b_scheds b).
Definition b_set_item (v : val) (b : bp) : bp :=
  mkBp (b_strict b) (b_custom b) (b_objs b) (b_tiles b) v (b_label b) (b_label_color b) (b_icons b)
       (b_version b) (b_conns b) (b_scheds b).
Definition b_set_label (v : val) (b : bp) : bp :=
  mkBp (b_strict b) (b_custom b) (b_objs b) (b_tiles b) (b_item b) v (b_label_color b) (b_icons b)
       (b_version b) (b_conns b) (b_scheds b).
Definition b_set_label_color (c : option color) (b : bp) : bp :=
  mkBp (b_strict b) (b_custom b) (b_objs b) (b_tiles b) (b_item b) (b_label b) c (b_icons b)
       (b_version b) (b_conns b) (b_scheds b).
Definition b_set_icons (l : list (option val)) (b : bp) : bp :=
  mkBp (b_strict b) (b_custom b) (b_objs b) (b_tiles b) (b_item b) (b_label b) (b_label_color b) l
       (b_version b) (b_conns b) (b_scheds b).
Definition b_set_version (v : val) (b : bp) : bp :=
  mkBp (b_strict b) (b_custom b) (b_objs b) (b_tiles b) (b_item b) (b_label b) (b_label_color b)
       (b_icons b) v (b_conns b) (b_scheds b).
Definition b_set_conns (l : list conn) (b : bp) : bp :=
  mkBp (b_strict b) (b_custom b) (b_objs b) (b_tiles b) (b_item b) (b_label b) (b_label_color b)
       (b_icons b) (b_version b) l (b_scheds b).
Definition b_set_scheds (l : list (list nat * val)) (b : bp) : bp :=
  mkBp (b_strict b) (b_custom b) (b_objs b) (b_tiles b) (b_item b) (b_label b) (b_label_color b)
       (b_icons b) (b_version b) (b_conns b) l.

(** [l[i] := f l[i]] *)
Fixpoint lupd {A} (i : nat) (f : A -> A) (l : list A) : list A :=
  match l, i with
  | [], _ => []
  | x :: r, O => f x :: r
  | x :: r, S j => x :: lupd j f r
  end.

Definition ent (w : world) (i : nat) : option entity := nth_error (w_ents w) i.
Definition blu (w : world) (b : nat) : option bp := nth_error (w_bps w) b.
Definition upd_ent (i : nat) (f : entity -> entity) (w : world) : world :=
  mkWorld (w_protos w) (lupd i f (w_ents w)) (w_bps w).
Definition upd_bp (b : nat) (f : bp -> bp) (w : world) : world :=
  mkWorld (w_protos w) (w_ents w) (lupd b f (w_bps w)).
Definition set_protos (p : protos) (w : world) : world := mkWorld p (w_ents w) (w_bps w).
(** allocate; the new address is the old length *)
Definition new_ent (e : entity) (w : world) : world :=
  mkWorld (w_protos w) (w_ents w ++ [e]) (w_bps w).
Definition new_bp (b : bp) (w : world) : world :=
  mkWorld (w_protos w) (w_ents w) (w_bps w ++ [b]).

(** ** Effects: state in, state out, result or exception. *)
Definition M (A : Type) := world -> world * res A.
Definition ret {A} (a : A) : M A := fun w => (w, Ok a).
Definition raise {A} (e : exn) : M A := fun w => (w, Err e).
Definition mbind {A B} (m : M A) (f : A -> M B) : M B :=
  fun w => let '(w', r) := m w in match r with Ok a => f a w' | Err e => (w', Err e) end.
Notation "'do' x <- m ; k" := (mbind m (fun x => k)) (at level 200, x pattern, m at level 100, k at level 200).
Definition modify (f : world -> world) : M unit := fun w => (f w, Ok tt).
Definition gets {A} (f : world -> res A) : M A := fun w => (w, f w).
(** dangling addresses do not exist in Python *)
Definition get_ent (i : nat) : M entity :=
  gets (fun w => match ent w i with Some e => Ok e | None => Err EUnmodelled end).
Definition get_bp (b : nat) : M bp :=
  gets (fun w => match blu w b with Some x => Ok x | None => Err EUnmodelled end).

(** a loop that keeps what it did before raising *)
Fixpoint foldE {A X} (f : A -> X -> A * res unit) (l : list X) (acc : A) : A * res unit :=
  match l with
  | [] => (acc, Ok tt)
  | x :: r => let '(acc, o) := f acc x in
              match o with Ok _ => foldE f r acc | Err e => (acc, Err e) end
  end.
Definition forM {X} (f : X -> M unit) (l : list X) : M unit := fun w => foldE (fun w x => f x w) l w.
Fixpoint mapMM {X Y} (f : X -> M Y) (l : list X) : M (list Y) :=
  match l with
  | [] => ret []
  | x :: r => do y <- f x; do ys <- mapMM f r; ret (y :: ys)
  end.

(** ** BlueprintLayer.sort, blueprint.py 92-94, 129-134 *)
(** the sort key: tuples (y, x), compared lexicographically with Python's == and < *)
Definition key_ltb (a b : vec) : bool :=
  if neqb (vy a) (vy b) then nltb (vx a) (vx b) else nltb (vy a) (vy b).
(** [list.sort] is stable; insertion from the left, after equal keys *)
Section Sort.
  Context {K X : Type} (lt : K -> K -> bool).
  Fixpoint insert (x : K * X) (l : list (K * X)) : list (K * X) :=
    match l with
    | [] => [x]
    | y :: r => if lt (fst x) (fst y) then x :: l else y :: insert x r
    end.
  Definition isort (l : list (K * X)) : list (K * X) := fold_left (fun acc x => insert x acc) l [].
End Sort.

Definition nanb (n : num) : bool := match nval n with XNaN => true | _ => false end.
Definition pos_key (e : entity) : res vec :=
  match e_pos e with
  | None => Err EAttribute                          (* None.y *)
  | Some v => if nanb (vx v) || nanb (vy v) then Err EUnmodelled else Ok v
  end.
(** the sorted list of addresses.  When a key cannot be computed, list.sort raises and leaves
    the list alone; NaN coordinates are outside the model. *)
Definition sorted_objs (w : world) (l : list nat) : res (list nat) :=
  let! ks := mapM (fun i => match ent w i with
                            | None => Err EUnmodelled
                            | Some e => let! k := pos_key e in Ok (k, i)
                            end) l in
  Ok (map snd (isort key_ltb ks)).
(** 132-134 *)
Fixpoint reindex (i : Z) (l : list nat) (w : world) : world :=
  match l with
  | [] => w
  | o :: r => reindex (i + 1) r (upd_ent o (with_auto (VInt i)) w)
  end.
Definition sort_layer (b : nat) : M unit :=
  do x <- get_bp b;
  do l <- gets (fun w => sorted_objs w (b_objs x));
  do _ <- modify (upd_bp b (b_set_objs l));
  modify (reindex 1 l).

(** ** BlueprintLayer operations on the entities layer *)
(** an argument of add/remove: an entity, or something that is not one *)
Inductive obj := OEnt (i : nat) | OForeign.

Definition mem_nat (i : nat) (l : list nat) : bool := existsb (Nat.eqb i) l.
Definition opt_nat_eqb (a b : option nat) : bool :=
  match a, b with Some x, Some y => Nat.eqb x y | None, None => true | _, _ => false end.

(** blueprint.py 67-78 *)
Definition layer_add (b : nat) (o : obj) : M unit :=
  match o with
  | OForeign => raise EType
  | OEnt i =>
      do e <- get_ent i;
      do x <- get_bp b;
      if negb (opt_nat_eqb (e_layer e) None) && negb (opt_nat_eqb (e_layer e) (Some b))
      then raise EDuplicateEntity
      else if mem_nat i (b_objs x) then ret tt
      else do _ <- modify (upd_bp b (b_set_objs (b_objs x ++ [i])));
           do _ <- modify (upd_ent i (with_layer (Some b)));
           sort_layer b
  end.

(** [list.remove]: the first occurrence (entities compare by identity) *)
Fixpoint remove1 (i : nat) (l : list nat) : list nat :=
  match l with [] => [] | x :: r => if Nat.eqb i x then r else x :: remove1 i r end.
(** [self.objs.remove(obj); obj._blueprint_layer = None] *)
Definition drop_obj (b i : nat) : M unit :=
  do x <- get_bp b;
  if mem_nat i (b_objs x)
  then do _ <- modify (upd_bp b (b_set_objs (remove1 i (b_objs x))));
       modify (upd_ent i (with_layer None))
  else raise EValue.
(** 80-85, and 57-60 for [del layer[entity]] *)
Definition layer_remove (b : nat) (o : obj) : M unit :=
  match o with OForeign => raise EType | OEnt i => drop_obj b i end.

(** 50-55 *)
Fixpoint at_list (w : world) (pt : vec) (l : list nat) : res (list nat) :=
  match l with
  | [] => Ok []
  | i :: r => match ent w i with
              | None => Err EUnmodelled
              | Some e => let! c := collides (w_protos w) e pt in
                          let! t := at_list w pt r in
                          Ok (if c : bool then i :: t else t)
              end
  end.
Definition layer_at (b : nat) (pt : vec) : M (list nat) :=
  do x <- get_bp b; gets (fun w => at_list w pt (b_objs x)).
(** 61-65 [del layer[point]] *)
Definition layer_del_at (b : nat) (pt : vec) : M unit :=
  do l <- layer_at b pt; forM (drop_obj b) l.

(** Entity(...) called directly, optionally with [blueprint_layer] *)
Definition new_entity (layer : option nat) (kw : dict) : M nat :=
  do cust <- match layer with None => ret [] | Some b => do x <- get_bp b; ret (b_custom x) end;
  fun w => match snd (construct (w_protos w) cust layer kw) with
           | Err x => (w, Err x)
           | Ok e => (new_ent e w, Ok (length (w_ents w)))
           end.
(** 87-90 *)
Definition layer_make (b : nat) (kw : dict) : M nat :=
  do i <- new_entity (Some b) kw;
  do _ <- layer_add b (OEnt i);
  ret i.

(** Python equality of JSON values *)
Definition num_like (v : val) : option num :=
  match v with
  | VBool b => Some (NI (if b then 1 else 0))
  | VInt z => Some (NI z)
  | VFlt f => Some (NF f)
  | _ => None
  end.
Fixpoint py_eqb (a b : val) {struct a} : bool :=
  match a, b with
  | VNone, VNone => true
  | VStr s, VStr t => String.eqb s t
  | VList l, VList m =>
      (fix go l m := match l, m with
                     | [], [] => true
                     | x :: l', y :: m' => py_eqb x y && go l' m'
                     | _, _ => false
                     end) l m
  | VDict d, VDict e =>
      Nat.eqb (length d) (length e) &&
      (fix go d := match d with
                   | [] => true
                   | (k, x) :: d' => match dget k e with Some y => py_eqb x y | None => false end && go d'
                   end) d
  | _, _ => match num_like a, num_like b with Some x, Some y => neqb x y | _, _ => false end
  end.

(** 118-124 and Blueprint.get_entity_by_id 302-305: first entity whose own number equals n *)
Fixpoint find_number (w : world) (n : val) (l : list nat) : option nat :=
  match l with
  | [] => None
  | i :: r => match ent w i with
              | Some e => if py_eqb (e_number e) n then Some i else find_number w n r
              | None => find_number w n r
              end
  end.
Definition get_entity_by_id (w : world) (b : nat) (n : val) : option nat :=
  match blu w b with Some x => find_number w n (b_objs x) | None => None end.

(** ** Wires *)
(** entity.py 161-170.  The Connection is built first (its sides go through int()). *)
Definition connect (e : nat) (target : option nat) (fs ts : val) (col : string) : M unit :=
  do en <- get_ent e;
  do c <- gets (fun _ => conn_new (Some e) target fs ts col);
  match e_layer en with
  | None => raise EAttribute
  | Some b => do x <- get_bp b;
              if existsb (fun d => conn_eqb c d) (b_conns x) then ret tt
              else modify (upd_bp b (b_set_conns (b_conns x ++ [c])))
  end.

(** sort keys of get_connections (entity.py 156-159): the numbers of both ends *)
Definition end_auto (w : world) (o : option nat) : res val :=
  match o with
  | None => Err EAttribute
  | Some i => match ent w i with Some e => Ok (e_auto e) | None => Err EUnmodelled end
  end.
Definition conn_key (w : world) (c : conn) : res (val * val) :=
  let! a := end_auto w (c_from c) in let! b := end_auto w (c_to c) in Ok (a, b).
(** what Python can compare: numbers with numbers, strings with strings; None only equals
    None.  Mixing kinds makes sorted() raise TypeError; other kinds are outside the model. *)
Definition auto_kind (v : val) : Z :=
  match v with VInt _ => 0 | VNone => 1 | VStr _ => 2 | _ => 3 end.
Fixpoint str_ltb (a b : string) : bool :=
  match a, b with
  | _, EmptyString => false
  | EmptyString, String _ _ => true
  | String x r, String y s =>
      if Ascii.eqb x y then str_ltb r s else Nat.ltb (nat_of_ascii x) (nat_of_ascii y)
  end.
Definition auto_ltb (a b : val) : bool :=
  match a, b with VInt x, VInt y => x <? y | VStr s, VStr t => str_ltb s t | _, _ => false end.
Definition auto_eqb (a b : val) : bool :=
  match a, b with
  | VInt x, VInt y => x =? y
  | VStr s, VStr t => String.eqb s t
  | VNone, VNone => true
  | _, _ => false
  end.
Definition conn_key_ltb (a b : val * val) : bool :=
  if auto_eqb (fst a) (fst b) then auto_ltb (snd a) (snd b) else auto_ltb (fst a) (fst b).
Definition same_kinds (l : list val) : bool :=
  match l with [] => true | x :: r => forallb (fun y => auto_kind x =? auto_kind y) r end.
Definition sorted_conns (ks : list ((val * val) * conn)) : res (list conn) :=
  if existsb (fun kc => (auto_kind (fst (fst kc)) =? 3) || (auto_kind (snd (fst kc)) =? 3)) ks
  then Err EUnmodelled
  else if negb (same_kinds (map (fun kc => fst (fst kc)) ks) && same_kinds (map (fun kc => snd (fst kc)) ks))
  then Err EType
  else Ok (map snd (isort conn_key_ltb ks)).

(** entity.py 152-159: the attached connections are turned around in place so that they
    start at this entity, then listed in order *)
Definition turn_towards (e : nat) (c : conn) : conn := if attached_to c e then orientate c e else c.
Definition get_connections (e : nat) : M (list conn) :=
  do en <- get_ent e;
  match e_layer en with
  | None => raise EAttribute
  | Some b =>
      do x <- get_bp b;
      let cs := map (turn_towards e) (b_conns x) in
      do _ <- modify (upd_bp b (b_set_conns cs));
      let mine := filter (fun c => attached_to c e) cs in
      gets (fun w => let! ks := mapM (fun c => let! k := conn_key w c in Ok (k, c)) mine in sorted_conns ks)
  end.

(** entity.py 172-198 *)
Definition slot (obj : dict) (side : Z) : dict :=
  match dget (KI side) obj with Some (VDict d) => d | _ => [] end.
Definition slot_list (d : dict) (col : string) : list val :=
  match dget col d with Some (VList l) => l | _ => [] end.
(** create the nested containers when missing (176-179, 181-184) *)
Definition ensure_slot (side : Z) (col : string) (obj : dict) : dict :=
  let obj := if dmem (KI side) obj then obj else dset (KI side) (VDict []) obj in
  let d := slot obj side in
  if dmem col d then obj else dset (KI side) (VDict (dset col (VList []) d)) obj.
Definition append_slot (side : Z) (col : string) (v : val) (obj : dict) : dict :=
  let d := slot obj side in
  dset (KI side) (VDict (dset col (VList (slot_list d col ++ [v])) d)) obj.
(** 185-189, 192-196: entity_id, and circuit_id (always the *from* side) for two-sided targets *)
Definition conn_entry (target : entity) (fs : Z) : val :=
  VDict ((KS "entity_id", e_auto target) ::
         (if nr_connections target =? 2 then [(KS "circuit_id", VInt fs)] else [])).
Definition conn_json1 (w : world) (self : nat) (obj : dict) (c : conn) : res dict :=
  let obj := ensure_slot (c_fs c) (c_color c) obj in
  match c_to c with
  | None => Err EAttribute
  | Some t =>
      match ent w t with
      | None => Err EUnmodelled
      | Some te =>
          let obj := if Nat.eqb t self
                     then append_slot (c_ts c) (c_color c) (conn_entry te (c_fs c))
                            (ensure_slot (c_ts c) (c_color c) obj)
                     else obj in
          Ok (append_slot (c_fs c) (c_color c) (conn_entry te (c_fs c)) obj)
      end
  end.
Fixpoint conns_json (w : world) (self : nat) (l : list conn) (obj : dict) : res dict :=
  match l with
  | [] => Ok obj
  | c :: r => let! obj := conn_json1 w self obj c in conns_json w self r obj
  end.
Definition connections_to_json (e : nat) : M dict :=
  do cs <- get_connections e; gets (fun w => conns_json w e cs []).

(** ** Export *)
(** entity.py 255-264 *)
Definition ent_json (i : nat) : M val :=
  do e <- get_ent i;
  match e_pos e with
  | None => raise EAttribute
  | Some v =>
      let o := [(KS "entity_number", e_auto e); (KS "name", e_name e); (KS "position", vec_to_json v)] in
      do cs <- connections_to_json i;
      let o := match cs with [] => o | _ => dset "connections" (VDict cs) o end in
      gets (fun w => let! d := json_chain (w_protos w) (e_dir e) (statics (e_cls e)) (e_cb e)
                                 (chain (e_cls e)) (e_at e) o in
                     Ok (VDict d))
  end.
(** blueprint.py 109-116 *)
Definition none_if_empty (l : list val) : val := match l with [] => VNone | _ => VList l end.
Definition layer_json (b : nat) : M val :=
  do x <- get_bp b;
  do l <- mapMM ent_json (b_objs x);
  ret (none_if_empty l).

(** 282-285: an icon whose name is None or an int has no to_json *)
Fixpoint icons_json (p : protos) (i : Z) (l : list (option val)) : res (list val) :=
  match l with
  | [] => Ok []
  | None :: r => icons_json p (i + 1) r
  | Some v :: r => let! j := signal_json p v in
                   let! t := icons_json p (i + 1) r in
                   Ok (VDict [(KS "index", VInt i); (KS "signal", j)] :: t)
  end.
(** Schedule.to_json 27-33 *)
Definition sched_json (w : world) (s : list nat * val) : res val :=
  let! l := mapM (fun i => match ent w i with Some e => Ok (e_auto e) | None => Err EUnmodelled end) (fst s) in
  Ok (VDict [(KS "locomotives", VList l); (KS "schedule", snd s)]).
(** 274-293 *)
Definition bp_json (b : nat) : M val :=
  do x <- get_bp b;
  let o := obj_set [(KS "item", b_item x)] "label" (b_label x) in
  let o := match b_label_color x with Some c => dset "label_color" (color_to_json c) o | None => o end in
  do es <- layer_json b;
  let o := obj_set o "entities" es in
  let o := obj_set o "tiles" (none_if_empty (map tile_to_json (b_tiles x))) in
  do ic <- gets (fun w => icons_json (w_protos w) 1 (b_icons x));
  let o := dset "icons" (VList ic) o in
  let o := dset "version" (b_version x) o in
  do sc <- gets (fun w => mapM (sched_json w) (b_scheds x));
  let o := match sc with [] => o | _ => dset "schedules" (VList sc) o end in
  ret (VDict [(KS "blueprint", VDict o)]).

(** ** Loading *)
(** parse_connections 376-396, first part: the connection list built so far is kept when
    something raises *)
Definition key_str (k : key) : res string := match k with KS s => Ok s | KI _ => Err EUnmodelled end.
Definition items_of (v : val) : res dict :=
  match v with VDict d => Ok d | _ => Err EAttribute end.
Definition parse_one (w : world) (b e : nat) (side col : key) (acc : list conn) (c : val)
  : list conn * res unit :=
  match (let! id := getitem c "entity_id" in
         let! ci := getdef c "circuit_id" (VStr "1") in
         let! col := key_str col in
         conn_new (Some e) (get_entity_by_id w b id) (val_of_key side) ci col) with
  | Err x => (acc, Err x)
  | Ok n => (if existsb (fun d => conn_eqb n d) acc then acc else acc ++ [n], Ok tt)
  end.
Definition parse_color (w : world) (b e : nat) (side : key) (acc : list conn) (kv : key * val)
  : list conn * res unit :=
  match iter_val (snd kv) with
  | Err x => (acc, Err x)
  | Ok l => foldE (parse_one w b e side (fst kv)) l acc
  end.
Definition parse_side (w : world) (b e : nat) (acc : list conn) (kv : key * val) : list conn * res unit :=
  match items_of (snd kv) with
  | Err x => (acc, Err x)
  | Ok d => foldE (parse_color w b e (fst kv)) d acc
  end.
Definition parse_entity (w : world) (b : nat) (acc : list conn) (i : nat) : list conn * res unit :=
  match ent w i with
  | None => (acc, Err EUnmodelled)
  | Some e => match e_raw e with
              | VNone => (acc, Ok tt)
              | raw => match items_of raw with
                       | Err x => (acc, Err x)
                       | Ok d => foldE (parse_side w b i) d acc
                       end
              end
  end.
Definition parse_connections (b : nat) : M unit :=
  do x <- get_bp b;
  do _ <- (fun w => let '(cs, r) := foldE (parse_entity w b) (b_objs x) [] in
                    (upd_bp b (b_set_conns cs) w, r));
  forM (fun i => do _ <- get_connections i; ret tt) (b_objs x).

(** 241-245 icons: Python list indexing with negative indices; the signal is checked first *)
Definition icon_index (v : val) : res Z :=
  match v with
  | VInt z => Ok (z - 1)
  | VBool b => Ok ((if b then 1 else 0) - 1)
  | _ => Err EType            (* float index, or "-" undefined *)
  end.
Definition list_set_py {A} (i : Z) (x : A) (l : list A) : res (list A) :=
  let n := Z.of_nat (length l) in
  let i := if i <? 0 then i + n else i in
  if (i <? 0) || (n <=? i) then Err EIndex else Ok (lupd (Z.to_nat i) (fun _ => x) l).
Definition load_icon (p : protos) (acc : list (option val)) (v : val) : list (option val) * res unit :=
  match (let! s := getitem v "signal" in
         let! s := signal_set p s in
         let! i := getitem v "index" in
         let! i := icon_index i in
         list_set_py i (Some s) acc) with
  | Err e => (acc, Err e)
  | Ok l => (l, Ok tt)
  end.

(** 248-249: [self.entities._load(star-star entity)] for each, with the documents as they are left *)
Fixpoint load_entities (b : nat) (cust : customs) (l : list val) (w : world)
  : world * list val * res unit :=
  match l with
  | [] => (w, [], Ok tt)
  | v :: r =>
      match v with
      | VDict kw =>
          let '(kw', o) := construct (w_protos w) cust (Some b) kw in
          match o with
          | Err x => (w, VDict kw' :: r, Err x)
          | Ok e =>
              let i := length (w_ents w) in
              let w := upd_bp b (fun x => b_set_objs (b_objs x ++ [i]) x) (new_ent e w) in
              let '(w, r', res) := load_entities b cust r w in
              (w, VDict kw' :: r', res)
          end
      | _ => (w, l, Err EType)
      end
  end.

(** 254-256: Tile(blueprint_layer=..., star-star tile) *)
Definition load_tile (acc : list tile) (p : protos) (v : val) : list tile * res unit :=
  match (let! kw := as_kwargs v in
         if dmem "self" kw || dmem "blueprint_layer" kw then Err EType else
         tile_init (p_tile p) ((KS "blueprint_layer", VNone) :: kw)) with
  | Err e => (acc, Err e)
  | Ok t => (acc ++ [t], Ok tt)
  end.
Definition sort_tiles (l : list tile) : list tile :=
  map snd (isort key_ltb (map (fun t => (t_pos t, t)) l)).

(** Schedule.__init__ 16-25: keyword-only schedule and locomotives *)
Definition sched_new (w : world) (b : nat) (v : val) : res (list nat * val) :=
  let! kw := as_kwargs v in
  if dmem "self" kw || dmem "blueprint" kw then Err EType else
  match dget "schedule" kw, dget "locomotives" kw, ddel "locomotives" (ddel "schedule" kw) with
  | Some s, Some locos, [] =>
      let! l := iter_val locos in
      let found := map (fun n => get_entity_by_id w b n) l in
      Ok (flat_map (fun o => match o with Some i => [i] | None => [] end) found, s)
  | _, _, _ => Err EType
  end.

(** [data.get(k, dflt)] *)
Definition dataget (data : dict) (k : string) (dflt : val) : val := odflt dflt (dget (KS k) data).
(** 229-246 *)
Definition load_head (b : nat) (data : dict) : M unit :=
  do _ <- modify (upd_bp b (fun x => b_set_label (dataget data "label" VNone)
                                       (b_set_item (dataget data "item" (VStr "blueprint")) x)));
  do _ <- match dataget data "label_color" VNone with
          | VNone => ret tt
          | v => do c <- gets (fun _ => color_of_val v); modify (upd_bp b (b_set_label_color (Some c)))
          end;
  do _ <- modify (upd_bp b (fun x => b_set_icons [None; None; None; None]
                                       (b_set_version (dataget data "version" (VInt 0)) x)));
  do icons <- gets (fun _ => iter_val (dataget data "icons" (VList [])));
  fun w => let '(ic, r) := foldE (load_icon (w_protos w)) icons [None; None; None; None] in
           (upd_bp b (b_set_icons ic) w, r).
(** 250-256 *)
Definition load_tail (b : nat) (data : dict) : M unit :=
  do _ <- sort_layer b;
  do _ <- parse_connections b;
  do tiles <- gets (fun _ => iter_val (dataget data "tiles" (VList [])));
  do x <- get_bp b;
  do _ <- (fun w => let '(ts, r) := foldE (fun acc v => load_tile acc (w_protos w) v) tiles (b_tiles x) in
                    (upd_bp b (b_set_tiles ts) w, r));
  modify (upd_bp b (fun x => b_set_tiles (sort_tiles (b_tiles x)) x)).
(** 258-261 *)
Definition load_scheds (b : nat) (data : dict) : M unit :=
  do ss <- gets (fun w => let! l := iter_val (dataget data "schedules" (VList [])) in
                          mapM (sched_new w b) l);
  modify (upd_bp b (b_set_scheds ss)).

(** 229-261 on the inner dictionary.  Returns the caller's dictionary as it is left: the
    entity documents live inside the caller's list, and 'schedules' is popped. *)
Definition load_inner (b : nat) (cust : customs) (data : dict) (w : world) : world * dict * res unit :=
  let '(w, r) := load_head b data w in
  match r with
  | Err e => (w, data, Err e)
  | Ok _ =>
      match iter_val (dataget data "entities" (VList [])) with
      | Err e => (w, data, Err e)
      | Ok ents =>
          let '(w, ents', r) := load_entities b cust ents w in
          let data' := match dget "entities" data with
                       | Some (VList _) => dset "entities" (VList ents') data
                       | _ => data
                       end in
          match r with
          | Err e => (w, data', Err e)
          | Ok _ =>
              let '(w, r) := load_tail b data w in
              match r with
              | Err e => (w, data', Err e)
              | Ok _ => let '(w, r) := load_scheds b data w in (w, ddel "schedules" data', r)
              end
          end
      end
  end.

(** 224-227: unwrap 'blueprint', then every use of [data.get] needs a dict *)
Definition load (b : nat) (doc : val) (w : world) : world * val * res unit :=
  match blu w b with
  | None => (w, doc, Err EUnmodelled)
  | Some x =>
      let cust := b_custom x in
      match doc with
      | VDict d =>
          match dget "blueprint" d with
          | Some (VDict inner) =>
              let '(w, inner', r) := load_inner b cust inner w in
              (w, VDict (dset "blueprint" (VDict inner') d), r)
          | Some _ => (w, doc, Err EAttribute)
          | None => let '(w, d', r) := load_inner b cust d w in (w, VDict d', r)
          end
      | VList l => (w, doc, Err (if existsb (py_eqb (VStr "blueprint")) l then EType else EAttribute))
      | VStr s => (w, doc, Err (if substringb "blueprint" s then EType else EAttribute))
      | _ => (w, doc, Err EType)
      end
  end.

(** 184-202 Blueprint(custom_entity_prototypes=..., strict=...) *)
Definition empty_bp (strict : bool) (cust : customs) : bp :=
  mkBp strict cust [] [] (VStr "blueprint") (VStr "") None [] (VInt 0) [] [].
(** 208-209 Blueprint(data=...): when load raises the object is lost to the caller, but not to
    the entities created so far *)
Definition new_blueprint (strict : bool) (cust : customs) : M nat := fun w =>
  (new_bp (empty_bp strict cust) w, Ok (length (w_bps w))).

(** ** set_label 263-268 *)
Inductive label_color_arg := LNone | LColor (c : color) | LDict (v : val).
Definition set_label (b : nat) (label : val) (c : label_color_arg) : M unit :=
  do _ <- get_bp b;
  do _ <- modify (upd_bp b (b_set_label label));
  match c with
  | LNone => ret tt
  | LColor c => modify (upd_bp b (b_set_label_color (Some c)))
  | LDict v => do c <- gets (fun _ => color_of_val v); modify (upd_bp b (b_set_label_color (Some c)))
  end.

(** ** Rotation: Blueprint.rotate 270-272, BlueprintLayer.rotate 104-107.
    The [direction] keyword is handed to both layers, which compare it with different
    constants: entities with Direction.CLOCKWISE (0), tiles with 'clockwise'. *)
Inductive rdir := RDefault | RClockwise0 | RClockwiseStr | ROther.
Definition ent_cw (r : rdir) : bool := match r with RDefault | RClockwise0 => true | _ => false end.
Definition tile_cw (r : rdir) : bool := match r with RDefault | RClockwiseStr => true | _ => false end.

Definition rotate_ent (amount : Z) (around : vec) (r : rdir) (i : nat) : M unit := fun w =>
  match ent w i with
  | None => (w, Err EUnmodelled)
  | Some e => let '(e', x) := entity_rotate amount around (ent_cw r) e in
              (upd_ent i (fun _ => e') w, x)
  end.
Definition layer_rotate (b : nat) (amount : Z) (around : vec) (r : rdir) : M unit :=
  do x <- get_bp b;
  do _ <- forM (rotate_ent amount around r) (b_objs x);
  sort_layer b.
(** tiles: a list rebuilt element by element; what was rotated before an exception stays *)
Fixpoint rotate_tiles (amount : Z) (around : vec) (cw : bool) (l : list tile) : list tile * res unit :=
  match l with
  | [] => ([], Ok tt)
  | t :: r => match tile_rotate t amount around cw with
              | Err e => (l, Err e)
              | Ok t' => let '(r', x) := rotate_tiles amount around cw r in (t' :: r', x)
              end
  end.
Definition tiles_rotate (b : nat) (amount : Z) (around : vec) (r : rdir) : M unit :=
  do x <- get_bp b;
  do _ <- (fun w => let '(ts, o) := rotate_tiles amount around (tile_cw r) (b_tiles x) in
                    (upd_bp b (b_set_tiles ts) w, o));
  modify (upd_bp b (fun x => b_set_tiles (sort_tiles (b_tiles x)) x)).
Definition bp_rotate (b : nat) (amount : Z) (around : vec) (r : rdir) : M unit :=
  do _ <- layer_rotate b amount around r; tiles_rotate b amount around r.

(** ** Geometry of a blueprint, 307-374 *)
Definition pinf : num := NF (S754_infinity false).
Definition ninf : num := NF (S754_infinity true).
(** 313-322 for one entity; the order of the four updates does not matter for the result *)
Definition max_step (p : protos) (acc : num * num * num * num) (e : entity)
  : res (num * num * num * num) :=
  let '(maxx, minx, maxy, miny) := acc in
  let! tl := ent_top_left p e in
  let! br := ent_bottom_right p e in
  let! maxx := if ngtb (vx br) maxx then let! z := nint (vx br) in Ok (NI z) else Ok maxx in
  let! minx := if nltb (vx tl) minx then let! z := nint (vx tl) in Ok (NI z) else Ok minx in
  let! maxy := if ngtb (vy br) maxy then let! z := nint (vy br) in Ok (NI z) else Ok maxy in
  let! miny := if nltb (vy tl) miny then let! z := nint (vy tl) in Ok (NI z) else Ok miny in
  Ok (maxx, minx, maxy, miny).
Fixpoint max_fold (p : protos) (l : list entity) (acc : num * num * num * num)
  : res (num * num * num * num) :=
  match l with
  | [] => Ok acc
  | e :: r => let! acc := max_step p acc e in max_fold p r acc
  end.
Definition layer_ents (w : world) (x : bp) : res (list entity) :=
  mapM (fun i => match ent w i with Some e => Ok e | None => Err EUnmodelled end) (b_objs x).
Definition maximum_values (b : nat) : M (num * num * num * num) :=
  do x <- get_bp b;
  gets (fun w => let! l := layer_ents w x in max_fold (w_protos w) l (ninf, pinf, ninf, pinf)).
(** 325-328 *)
Definition center_of (m : num * num * num * num) : res vec :=
  let '(maxx, minx, maxy, miny) := m in
  let! sx := nadd maxx minx in let! x := ntruediv sx (NI 2) in
  let! sy := nadd maxy miny in let! y := ntruediv sy (NI 2) in
  Ok (mkVec x y).
Definition center (b : nat) : M vec := do m <- maximum_values b; gets (fun _ => center_of m).
(** 338-363 *)
Definition corners_of (m : num * num * num * num) : vec * vec * vec * vec :=
  let '(maxx, minx, maxy, miny) := m in
  (mkVec minx miny, mkVec maxx miny, mkVec minx maxy, mkVec maxx maxy).
(** 330-336: sums the positions, then [len(self.entities)]: BlueprintLayer has no __len__ *)
Fixpoint sum_positions (l : list entity) (acc : vec) : res vec :=
  match l with
  | [] => Ok acc
  | e :: r => let! acc := vadd acc (pos_operand e) in sum_positions r acc
  end.
Definition weighted_center (b : nat) : M vec :=
  do x <- get_bp b;
  gets (fun w => let! l := layer_ents w x in
                 let! _ := sum_positions l vzero in
                 Err EType).
(** 365-374: ends in a call of a method that does not exist *)
Definition recenter (b : nat) (around : option vec) : M unit :=
  do x <- get_bp b;
  do c <- match around with
          | Some v => ret v
          | None => do c <- center b; gets (fun _ => vceil c)
          end;
  if veqb c vzero then ret tt
  else do _ <- forM (fun i => do e <- get_ent i;
                              match e_pos e with
                              | None => raise EType
                              | Some v => do q <- gets (fun _ => vsub v (OVec c));
                                          modify (upd_ent i (with_pos (Some q)))
                              end) (b_objs x);
       raise EAttribute.

(** ** Prototype tables, 144-182 *)
Definition set_data (append : bool) (old data : dict) : dict := if append then dmerge old data else data.
Inductive table := TEntity | TRecipe | TItem | TSignal | TTile.
Definition set_table (t : table) (append : bool) (data : dict) (p : protos) : protos :=
  match t with
  | TEntity => mkProtos (set_data append (p_entity p) data) (p_recipe p) (p_item p) (p_signal p) (p_tile p)
  | TRecipe => mkProtos (p_entity p) (set_data append (p_recipe p) data) (p_item p) (p_signal p) (p_tile p)
  | TItem => mkProtos (p_entity p) (p_recipe p) (set_data append (p_item p) data) (p_signal p) (p_tile p)
  | TSignal => mkProtos (p_entity p) (p_recipe p) (p_item p) (set_data append (p_signal p) data) (p_tile p)
  | TTile => mkProtos (p_entity p) (p_recipe p) (p_item p) (p_signal p) (set_data append (p_tile p) data)
  end.
(** 174-182: the tables are updated one after the other.  The file is its parsed content;
    table entries that are not dictionaries are outside the model. *)
Definition import_order : list (table * string) :=
  [(TEntity, "entity"); (TRecipe, "recipe"); (TItem, "item"); (TSignal, "signal"); (TTile, "tile")].
Definition import_table (file : val) (append : bool) (p : protos) (tn : table * string)
  : protos * res unit :=
  match getitem file (snd tn) with
  | Err e => (p, Err e)
  | Ok (VDict d) => (set_table (fst tn) append d p, Ok tt)
  | Ok _ => (p, Err EUnmodelled)
  end.
Definition import_prototype_data (file : val) (append : bool) (p : protos) : protos * res unit :=
  foldE (import_table file append) import_order p.

(** ** Attribute assignments of the API on an entity *)
(** [entity.name = v] *)
Definition rename (i : nat) (v : val) : M unit := fun w =>
  match ent w i with
  | None => (w, Err EUnmodelled)
  | Some e =>
      let cust := match e_layer e with
                  | Some b => match blu w b with Some x => b_custom x | None => [] end
                  | None => []
                  end in
      let '(e', r) := set_name (w_protos w) cust v e in
      (upd_ent i (fun _ => e') w, r)
  end.
(** [entity.position = v] (entity.py 12-13), [entity.direction = v] (23-24) *)
Definition set_position (i : nat) (v : val) : M unit :=
  do _ <- get_ent i;
  do o <- gets (fun _ => vec_of_val v); modify (upd_ent i (with_pos o)).
Definition set_direction (i : nat) (v : val) : M unit :=
  do _ <- get_ent i;
  do d <- gets (fun _ => dir_of_val v); modify (upd_ent i (with_dir d)).

(** [entity.k = v] and [entity.control_behavior.k = v] for attributes of the mixins *)
Definition assign_attr (i : nat) (k : mattr) (v : val) : M unit := fun w =>
  match ent w i with
  | None => (w, Err EUnmodelled)
  | Some e => let '(e', r) := set_attr (w_protos w) k v e in (upd_ent i (fun _ => e') w, r)
  end.
Definition assign_cb (i : nat) (k : string) (v : val) : M unit := fun w =>
  match ent w i with
  | None => (w, Err EUnmodelled)
  | Some e => let '(e', r) := set_cb_attr (w_protos w) k v e in (upd_ent i (fun _ => e') w, r)
  end.

(** [entity.set_mixins(...)], [entity.add_mixins(...)], entity.py 116-122, with classes of the
    library *)
Definition ent_set_mixins (i : nat) (ms : list scls) : M unit :=
  do e <- get_ent i;
  do c <- gets (fun _ => set_mixins (e_cls e) ms); modify (upd_ent i (with_cls c)).
Definition ent_add_mixins (i : nat) (ms : list scls) : M unit :=
  do e <- get_ent i;
  do c <- gets (fun _ => add_mixins (e_cls e) ms); modify (upd_ent i (with_cls c)).

(** ** The tile layer: [tiles.make] (blueprint.py 87-90 with Tile, whose constructor gets
    blueprint_layer) and [tiles.add] of a Tile (67-78: a Tile has no _blueprint_layer) *)
Definition tiles_add (b : nat) (t : option tile) : M unit :=
  do _ <- get_bp b;
  match t with None => raise EType | Some _ => raise EAttribute end.
Definition tiles_make (b : nat) (kw : dict) : M unit :=
  do _ <- get_bp b;
  do t <- gets (fun w => let! kw := as_kwargs (VDict kw) in
                         if dmem "self" kw || dmem "blueprint_layer" kw then Err EType else
                         tile_init (p_tile (w_protos w)) ((KS "blueprint_layer", VNone) :: kw));
  tiles_add b (Some t).

(** ** Methods of a Connection taken from [blueprint.connections[k]], util.py 326-339 *)
Definition conn_call (f : conn -> conn) (b k : nat) : M unit :=
  do x <- get_bp b; modify (upd_bp b (b_set_conns (lupd k f (b_conns x)))).

(** ** API operations and histories *)
Inductive op :=
| ONewBlueprint (strict : bool) (cust : customs)
| OLoad (b : nat) (doc : val)
| ONewEntity (layer : option nat) (kw : dict)
| OMake (b : nat) (kw : dict)
| OAdd (b : nat) (o : obj)
| ORemove (b : nat) (o : obj)
| ODelAt (b : nat) (pt : vec)
| OAt (b : nat) (pt : vec)
| OConnect (e : nat) (target : option nat) (fs ts : val) (col : string)
| OGetConnections (e : nat)
| ORotate (b : nat) (amount : Z) (around : vec) (r : rdir)
| ORotateEnt (e : nat) (amount : Z) (around : vec) (r : rdir)
| ORename (e : nat) (v : val)
| OSetPosition (e : nat) (v : val)
| OSetDirection (e : nat) (v : val)
| OSetAttr (e : nat) (k : mattr) (v : val)
| OSetCb (e : nat) (k : string) (v : val)
| OSetMixins (e : nat) (ms : list scls)
| OAddMixins (e : nat) (ms : list scls)
| OTilesMake (b : nat) (kw : dict)
| OTilesAdd (b : nat) (t : option tile)
| OFlip (b k : nat)
| OFlipColor (b k : nat)
| OSetLabel (b : nat) (label : val) (c : label_color_arg)
| ORecenter (b : nat) (around : option vec)
| OExport (b : nat)
| OExportEnt (e : nat)
| OSort (b : nat)
| OSetTable (t : table) (append : bool) (data : dict)
| OImport (file : val) (append : bool).

Definition drop_res {A} (x : world * res A) : world * res unit :=
  let '(w, r) := x in (w, let! _ := r in Ok tt).

Definition step (o : op) (w : world) : world * res unit :=
  match o with
  | ONewBlueprint s c => drop_res (new_blueprint s c w)
  | OLoad b doc => let '(w, _, r) := load b doc w in (w, r)
  | ONewEntity l kw => drop_res (new_entity l kw w)
  | OMake b kw => drop_res (layer_make b kw w)
  | OAdd b x => layer_add b x w
  | ORemove b x => layer_remove b x w
  | ODelAt b pt => layer_del_at b pt w
  | OAt b pt => drop_res (layer_at b pt w)
  | OConnect e t fs ts c => connect e t fs ts c w
  | OGetConnections e => drop_res (get_connections e w)
  | ORotate b n a r => bp_rotate b n a r w
  | ORotateEnt e n a r => rotate_ent n a r e w
  | ORename e v => rename e v w
  | OSetPosition e v => set_position e v w
  | OSetDirection e v => set_direction e v w
  | OSetAttr e k v => assign_attr e k v w
  | OSetCb e k v => assign_cb e k v w
  | OSetMixins e ms => ent_set_mixins e ms w
  | OAddMixins e ms => ent_add_mixins e ms w
  | OTilesMake b kw => tiles_make b kw w
  | OTilesAdd b t => tiles_add b t w
  | OFlip b k => conn_call conn_flip b k w
  | OFlipColor b k => conn_call flip_color b k w
  | OSetLabel b l c => set_label b l c w
  | ORecenter b a => recenter b a w
  | OExport b => drop_res (bp_json b w)
  | OExportEnt e => drop_res (ent_json e w)
  | OSort b => sort_layer b w
  | OSetTable t a d => (set_protos (set_table t a d (w_protos w)) w, Ok tt)
  | OImport f a => let '(p, r) := import_prototype_data f a (w_protos w) in (set_protos p w, r)
  end.

(** A program using the API: exceptions are caught and the program goes on. *)
Fixpoint run (ops : list op) (w : world) : world :=
  match ops with [] => w | o :: r => run r (fst (step o w)) end.

(** blueprint.py 138-142: the tables start empty *)
Definition no_protos : protos := mkProtos [] [] [] [] [].
Definition start : world := mkWorld no_protos [] [].
