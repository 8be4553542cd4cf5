(** * Model of entity.py: names, construction, rotation, selection boxes. *)
From Verif Require Import Py Num Util Classes Mixins.

(** An Entity instance.  [e_layer] is [_blueprint_layer] (the address of the blueprint whose
    entity layer it is, or None); [e_number] the number given to the constructor, [e_auto]
    the [_auto_entity_number] that is exported. *)
Record entity := mkEnt {
  e_strict : bool; e_layer : option nat; e_number : val; e_auto : val; e_name : val;
  e_cls : icls; e_pos : option vec; e_dir : direction; e_raw : val; e_cb : option cbobj;
  e_at : dict }.

Definition with_layer (l : option nat) (e : entity) : entity :=
  mkEnt (e_strict e) l (e_number e) (e_auto e) (e_name e) (e_cls e) (e_pos e) (e_dir e) (e_raw e)
        (e_cb e) (e_at e).
Definition with_auto (v : val) (e : entity) : entity :=
  mkEnt (e_strict e) (e_layer e) (e_number e) v (e_name e) (e_cls e) (e_pos e) (e_dir e) (e_raw e)
        (e_cb e) (e_at e).
Definition with_name (v : val) (e : entity) : entity :=
  mkEnt (e_strict e) (e_layer e) (e_number e) (e_auto e) v (e_cls e) (e_pos e) (e_dir e) (e_raw e)
        (e_cb e) (e_at e).
Definition with_cls (c : icls) (e : entity) : entity :=
  mkEnt (e_strict e) (e_layer e) (e_number e) (e_auto e) (e_name e) c (e_pos e) (e_dir e) (e_raw e)
        (e_cb e) (e_at e).
Definition with_pos (p : option vec) (e : entity) : entity :=
  mkEnt (e_strict e) (e_layer e) (e_number e) (e_auto e) (e_name e) (e_cls e) p (e_dir e) (e_raw e)
        (e_cb e) (e_at e).
Definition with_dir (d : direction) (e : entity) : entity :=
  mkEnt (e_strict e) (e_layer e) (e_number e) (e_auto e) (e_name e) (e_cls e) (e_pos e) d (e_raw e)
        (e_cb e) (e_at e).
Definition with_cb (c : option cbobj) (e : entity) : entity :=
  mkEnt (e_strict e) (e_layer e) (e_number e) (e_auto e) (e_name e) (e_cls e) (e_pos e) (e_dir e)
        (e_raw e) c (e_at e).
Definition with_at (a : dict) (e : entity) : entity :=
  mkEnt (e_strict e) (e_layer e) (e_number e) (e_auto e) (e_name e) (e_cls e) (e_pos e) (e_dir e)
        (e_raw e) (e_cb e) a.

(** [custom_entity_prototypes], blueprint.py 200-202: prototype type -> mixins, restricted to
    classes of the library. *)
Definition customs := list (key * list scls).

(** ** EntityName.__set__, entity.py 77-97.  Without strict the value is stored unchecked and
    no mixin is added (names that are not strings are then outside the model). *)
Definition set_name (p : protos) (cust : customs) (v : val) (e : entity) : entity * res unit :=
  if negb (e_strict e)
  then match v with VStr _ => (with_name v e, Ok tt) | _ => (e, Err EUnmodelled) end
  else match in_table v (p_entity p) with
       | Err x => (e, Err x)
       | Ok false => (e, Err EUnknownEntity)
       | Ok true =>
           let e := with_name v e in
           match v with
           | VStr s =>
               match (let! t := match dget s (p_entity p) with
                                | None => Err EKey
                                | Some data => getitem data "type"
                                end in
                      match t with
                      | VStr ty =>
                          match dget ty type_mixins with
                          | None => Err EKey
                          | Some ms => add_mixins (e_cls e) (odflt [] (dget ty cust) ++ ms)
                          end
                      | VList _ | VDict _ => Err EType
                      | _ => Err EKey
                      end) with
               | Err x => (e, Err x)
               | Ok ic => (with_cls ic e, Ok tt)
               end
           | _ => (e, Err EUnmodelled)
           end
       end.

(** the keywords Entity.__init__ names itself (entity.py 124-126, 135, 138) *)
Definition entity_keys : list string :=
  ["name"; "position"; "strict"; "blueprint_layer"; "direction"; "entity_number";
   "connections"; "control_behavior"].
Definition drop_keys (ks : list string) (d : dict) : dict :=
  fold_left (fun d k => ddel (KS k) d) ks d.

(** ** Entity.__init__, entity.py 124-143, called with keyword arguments [kw] and
    [blueprint_layer=layer].  The first component is the caller's keyword dictionary
    afterwards: combinator conditions nested in it are emptied in place. *)
Definition construct (p : protos) (cust : customs) (layer : option nat) (kw : dict)
  : dict * res entity :=
  if negb (all_KS kw) || dmem "self" kw || dmem "blueprint_layer" kw then (kw, Err EType) else
  match dget "name" kw, dget "position" kw with
  | Some name, Some position =>
      let num := odflt VNone (dget "entity_number" kw) in
      let e := mkEnt (truthy (odflt (VBool true) (dget "strict" kw))) layer num num (VStr "")
                     entity_cls None 0 (odflt VNone (dget "connections" kw)) None [] in
      let '(e, r) := set_name p cust name e in
      match r with
      | Err x => (kw, Err x)
      | Ok _ =>
          match (let! pos := vec_of_val position in
                 let! dir := dir_of_val (odflt (VInt 0) (dget "direction" kw)) in
                 Ok (with_dir dir (with_pos pos e))) with
          | Err x => (kw, Err x)
          | Ok e =>
              let finish (kw' : dict) (e : entity) : dict * res entity :=
                (kw', let! a := init_chain p (e_strict e) (e_name e) (statics (e_cls e)) (chain (e_cls e))
                                  (mkIst 0 (drop_keys entity_keys kw) []) in
                      Ok (with_at a e)) in
              match dget "control_behavior" kw with
              | None => finish kw e
              | Some cbv =>
                  match as_kwargs cbv with
                  | Err x => (kw, Err x)
                  | Ok cbkw =>
                      if dmem "self" cbkw || dmem "_entity" cbkw then (kw, Err EType) else
                      let ch := cb_chain (e_cls e) in
                      let '(st, r) := cb_init_chain p (e_name e) (statics (e_cls e)) ch ch
                                        (mkCst 0 cbkw [] None) in
                      let kw' := match k_mut st with
                                 | None => kw
                                 | Some (f, d) => dset "control_behavior" (VDict (dset f (VDict d) cbkw)) kw
                                 end in
                      match r with
                      | Err x => (kw', Err x)
                      | Ok a => finish kw' (with_cb (Some (mkCb ch a)) e)
                      end
                  end
              end
          end
      end
  | _, _ => (kw, Err EType)
  end.

(** BaseMixin 11, Combinator 202: [NR_CONNECTIONS] *)
Definition nr_connections (e : entity) : Z := if has_cls CCombinator (statics (e_cls e)) then 2 else 1.

(** ** Entity.rotate, entity.py 237-253.  [cw] is [direction == Direction.CLOCKWISE]; the
    counter-clockwise branch computes [amount %= 4 - amount]. *)
Definition turn_amount (amount : Z) (cw : bool) : Z :=
  let amount := amount mod 4 in if cw then amount else amount mod (4 - amount).

Definition entity_rotate (amount : Z) (around : vec) (cw : bool) (e : entity) : entity * res unit :=
  match e_pos e with
  | None => (e, Err EType)
  | Some v =>
      match (let! q := vsub v (OVec around) in
             vadd (rotn (Z.to_nat (turn_amount amount cw)) q) (OVec around)) with
      | Err x => (e, Err x)
      | Ok q =>
          let e := with_pos (Some q) e in
          let '((d, a), r) := rotate_chain (turn_amount amount cw) (chain (e_cls e)) (e_dir e, e_at e) in
          (with_at a (with_dir d e), r)
      end
  end.

(** ** EntityName.NameStr.selection_box, entity.py 66-71, with [data] 61-64.  A corner without
    coordinates ([Vector()] is None) is outside the model. *)
Definition corner_of_val (v : val) : res vec :=
  let! kw := as_kwargs v in
  match kw with
  | [] => Err EUnmodelled
  | _ => let! x := getitem v "x" in let! y := getitem v "y" in
         let! x := num_of_val x in let! y := num_of_val y in Ok (mkVec x y)
  end.
Definition proto_box (p : protos) (name : val) : res (vec * vec) :=
  match name with
  | VStr s =>
      match dget s (p_entity p) with
      | None => Err EKey
      | Some data =>
          let! b := getitem data "selection_box" in
          let! lt := getitem b "left_top" in
          let! lt := corner_of_val lt in
          let! rb := getitem b "right_bottom" in
          let! rb := corner_of_val rb in
          Ok (lt, rb)
      end
  | _ => Err EUnmodelled
  end.
(** 220-230: the coordinates of both corners are swapped [direction // 2] times *)
Definition swap_box (b : vec * vec) : vec * vec := (vyx (fst b), vyx (snd b)).
Fixpoint swap_boxn (n : nat) (b : vec * vec) : vec * vec :=
  match n with O => b | S k => swap_boxn k (swap_box b) end.
Definition selection_box (p : protos) (e : entity) : res (vec * vec) :=
  let! b := proto_box p (e_name e) in
  Ok (swap_boxn (Z.to_nat (e_dir e / 2)) b).

Definition pos_operand (e : entity) : operand :=
  match e_pos e with Some v => OVec v | None => OOther end.
(** [self.position + corner]: a None position meets [Vector.__radd__], which refuses None *)
Definition pos_plus (e : entity) (c : vec) : res vec :=
  match e_pos e with Some v => vadd v (OVec c) | None => Err EType end.
(** 200-218 *)
Definition ent_top_left (p : protos) (e : entity) : res vec :=
  let! (tl, _) := selection_box p e in pos_plus e tl.
Definition ent_top_right (p : protos) (e : entity) : res vec :=
  let! (tl, br) := selection_box p e in pos_plus e (mkVec (vx br) (vy tl)).
Definition ent_bottom_left (p : protos) (e : entity) : res vec :=
  let! (tl, br) := selection_box p e in pos_plus e (mkVec (vx tl) (vy br)).
Definition ent_bottom_right (p : protos) (e : entity) : res vec :=
  let! (_, br) := selection_box p e in pos_plus e br.
(** 232-235 *)
Definition collides (p : protos) (e : entity) (pt : vec) : res bool :=
  let! (tl, br) := selection_box p e in
  let! q := vsub pt (pos_operand e) in
  Ok (vltb tl q && vltb q br).
