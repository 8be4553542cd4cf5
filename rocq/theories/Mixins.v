(** * Model of entity_mixins.py: every mixin's [__init__], [to_json] and nested
    ControlBehavior, as links of the [super()] chains that the MRO determines.

    Attributes of an instance are a dictionary from attribute names to values.  The
    names are the public ones: private mangling (self.__x) and the descriptor storage
    names ("__" + name) are injective renamings, and no two classes of the library
    store different things under the same name.  Helper objects that are only built
    from and written back to JSON (Vector, Color, Filter, Item, CircuitParameters,
    NameStr) are stored as the value they hold. *)
From Verif Require Import Py Num Util Classes DefaultEntities.

(** The class-level tables of Blueprint, blueprint.py 138-142 *)
Record protos := mkProtos {
  p_entity : dict; p_recipe : dict; p_item : dict; p_signal : dict; p_tile : dict }.

(** Reading a plain attribute: AttributeError when it was never set. *)
Definition aget (a : dict) (k : string) : res val :=
  match dget k a with Some v => Ok v | None => Err EAttribute end.
(** Reading a descriptor (SignalName 105-111, Operator 68-69, ColorField 450-451,
    RecipeName 747-751): missing means None. *)
Definition dsc (a : dict) (k : string) : val := odflt VNone (dget k a).

(** Dictionary keys built from JSON values ([d[value["index"]] = ...]): unhashable
    values raise TypeError; None, bool and float keys are outside the model. *)
Definition key_of_val (v : val) : res key :=
  match v with
  | VStr s => Ok (KS s)
  | VInt z => Ok (KI z)
  | VList _ | VDict _ => Err EType
  | _ => Err EUnmodelled
  end.
Definition val_of_key (k : key) : val := match k with KS s => VStr s | KI z => VInt z end.

Definition opt_str (o : option string) : val := match o with Some s => VStr s | None => VNone end.
(** NameStr(value), util.py 266-274 with the built-in table *)
Definition name_val (v : val) : res val := let! o := name_str defaultentities v in Ok (opt_str o).

(** ** SignalName, entity_mixins.py 72-111.
    Objects carrying these descriptors other than entities have no [strict] attribute,
    so the check is always on.  Falsy values other than None, "" and 0 are outside the
    model. *)
Definition signal_check (p : protos) (v : val) : res val :=
  if truthy v
  then let! known := in_table v (p_signal p) in
       if known : bool then Ok v else Err EUnknownSignal
  else match v with
       | VNone => Ok v
       | VStr _ => Ok v
       | VInt _ => Ok v
       | _ => Err EUnmodelled
       end.
(** 88-103 *)
Definition signal_set (p : protos) (v : val) : res val :=
  match v with
  | VInt z => Ok v
  | VDict d => signal_check p (odflt VNone (dget "name" d))
  | _ => signal_check p v
  end.
(** [.to_json()] on what 105-111 returns: None and int have no such method *)
Definition signal_json (p : protos) (v : val) : res val :=
  match v with
  | VStr s => match dget s (p_signal p) with
              | None => Err EKey
              | Some data => let! t := getitem data "type" in
                             Ok (VDict [(KS "name", v); (KS "type", t)])
              end
  | _ => Err EAttribute
  end.
(** [obj_set(obj, k, self.signal)], util.py 626-637 *)
Definition signal_obj_set (p : protos) (obj : dict) (k : string) (v : val) : res dict :=
  match v with
  | VNone => Ok obj
  | VStr _ => let! j := signal_json p v in Ok (dset k j obj)
  | _ => Ok (dset k v obj)
  end.

(** ** Operator, 55-69 *)
Definition operator_set (options : list string) (v : val) : res val :=
  if str_in v options || is_none v then Ok v else Err EValue.
Definition decider_ops := [">"; "<"; "="; "≥"; "≤"; "!="].               (* 272, 489 *)
Definition arithmetic_ops :=
  ["*"; "/"; "+"; "-"; "%"; "^"; "<<"; ">>"; "AND"; "OR"; "XOR"].          (* 263-264 *)

(** ** Filter objects: Filters.Filter 153-170 is stored as {signal, count, index},
    FilterInserter.Filter 621-632 as {name, index}. *)
Inductive fcls := FSignal | FName.
(** [entity.Filter] / [self.Filter]: the first class in the MRO that defines it *)
Fixpoint filter_cls (l : list scls) : option fcls :=
  match l with
  | [] => None
  | CFilters :: _ => Some FSignal
  | CFilterInserter :: _ => Some FName
  | _ :: r => filter_cls r
  end.
(** 156-163 and 624-629: leftover keywords become positional arguments of
    [object.__init__] (TypeError), and so does a keyword named [self]. *)
Definition filter_new (p : protos) (fc : option fcls) (v : val) : res val :=
  match fc with
  | None => Err EAttribute
  | Some fc =>
      let! kw := as_kwargs v in
      if dmem "self" kw then Err EType else
      match fc with
      | FSignal =>
          let! s := signal_set p (dsc kw "signal") in
          match ddel "index" (ddel "count" (ddel "signal" kw)) with
          | _ :: _ => Err EType
          | [] => Ok (VDict [(KS "signal", s); (KS "count", dsc kw "count");
                             (KS "index", dsc kw "index")])
          end
      | FName =>
          let! s := signal_set p (dsc kw "name") in
          match ddel "index" (ddel "name" kw) with
          | _ :: _ => Err EType
          | [] => Ok (VDict [(KS "name", s); (KS "index", dsc kw "index")])
          end
      end
  end.
(** 165-170, 631-632 *)
Definition filter_json (p : protos) (f : val) : res val :=
  match f with
  | VDict d =>
      if dmem "signal" d
      then let! s := signal_json p (dsc d "signal") in
           Ok (VDict [(KS "signal", s); (KS "count", dsc d "count"); (KS "index", dsc d "index")])
      else Ok (VDict [(KS "index", dsc d "index"); (KS "name", dsc d "name")])
  | _ => Err EAttribute
  end.

(** ** State of a constructor chain: number of positional arguments handed on, remaining
    keyword arguments, attributes set so far. *)
Record ist := mkIst { i_args : nat; i_kw : dict; i_at : dict }.

Definition kwv (st : ist) (k : string) : val := odflt VNone (dget k (i_kw st)).
(** consume keywords [ks], store attributes [at] *)
Definition consume (st : ist) (ks : list string) (ats : dict) : ist :=
  mkIst (i_args st)
        (fold_left (fun kw k => ddel (KS k) kw) ks (i_kw st))
        (fold_left (fun a kv => dset (fst kv) (snd kv) a) ats (i_at st)).

(** 380-385 Train.orientation setter: [value % 1.0] *)
Definition orientation_set (v : val) : res val :=
  match v with
  | VNone => Ok VNone
  | VInt _ | VFlt _ => let! n := num_of_val v in
                       let! m := nmod n (NF fone) in Ok (val_of_num m)
  | VBool _ | VStr _ => Err EUnmodelled
  | _ => Err EType
  end.

(** 474-479, 607-611: [int(value)] unless None *)
Definition int_or_none (v : val) : res val :=
  match v with VNone => Ok VNone | _ => let! z := py_int v in Ok (VInt z) end.

(** 593, 601: [Vector(value)] kept as JSON *)
Definition vector_field (v : val) : res val :=
  let! o := vec_of_val v in Ok (match o with None => VNone | Some w => vec_to_json w end).

(** 424-433 Cargo.inventory setter: bar and the filters by index *)
Fixpoint cargo_filters (l : list val) (acc : dict) : res dict :=
  match l with
  | [] => Ok acc
  | f :: r => let! n := getitem f "name" in let! n := name_val n in
              let! i := getitem f "index" in let! k := key_of_val i in
              cargo_filters r (dset k n acc)
  end.
Definition inventory_set (v : val) : res (val * dict) :=
  match v with
  | VNone => Ok (VNone, [])
  | _ => let! bar := getdef v "bar" VNone in
         let! fs := getdef v "filters" (VList []) in
         let! l := iter_val fs in
         let! d := cargo_filters l [] in
         Ok (bar, d)
  end.
(** 412-422 *)
Definition inventory_get (bar : val) (fs : dict) : val :=
  match bar, fs with
  | VNone, [] => VNone
  | _, _ =>
      let inv := obj_set [] "bar" bar in
      VDict (match fs with
             | [] => inv
             | _ => dset "filters" (VList (map (fun kv => VDict [(KS "index", val_of_key (fst kv));
                                                                (KS "name", snd kv)]) fs)) inv
             end)
  end.

(** 796-805 Requester.request_filters setter *)
Fixpoint request_set (l : list val) (acc : dict) : res dict :=
  match l with
  | [] => Ok acc
  | f :: r => let! n := getitem f "name" in let! n := name_val n in
              let! c := getitem f "count" in let! c := py_int c in
              let! i := getitem f "index" in let! k := key_of_val i in
              request_set r (dset k (VDict [(KS "name", n); (KS "count", VInt c)]) acc)
  end.

(** 693-705 InfinityContainer.infinity_settings_filters setter *)
Fixpoint infinity_filters (l : list val) (acc : dict) : res dict :=
  match l with
  | [] => Ok acc
  | f :: r => let! m := getitem f "mode" in
              if negb (str_in m ["at-least"; "at-most"; "exactly"]) then Err EValue else
              let! c := getitem f "count" in
              let! n := getitem f "name" in let! n := name_val n in
              let! i := getitem f "index" in let! k := key_of_val i in
              infinity_filters r (dset k (VDict [(KS "count", c); (KS "mode", m); (KS "name", n)]) acc)
  end.

(** [float(v)]; strings are outside the model *)
Definition py_float (v : val) : res float64 :=
  match v with
  | VInt z => float_of_int z
  | VFlt f => Ok f
  | VBool b => float_of_int (if b then 1 else 0)
  | VStr _ => Err EUnmodelled
  | _ => Err EType
  end.

(** 932-941 *)
Definition speaker_parameters (v : val) : res val :=
  match v with
  | VNone => Ok VNone
  | _ => let! a := getitem v "playback_volume" in let! a := py_float a in
         let! b := getitem v "playback_globally" in
         let! c := getitem v "allow_polyphony" in
         Ok (VDict [(KS "playback_volume", VFlt a); (KS "playback_globally", VBool (truthy b));
                    (KS "allow_polyphony", VBool (truthy c))])
  end.
(** 947-958 *)
Definition speaker_alert (v : val) : res val :=
  match v with
  | VNone => Ok VNone
  | _ => let! a := getitem v "show_alert" in
         let! b := getitem v "show_on_map" in
         let! i := getdef v "icon_signal_id" (VDict []) in
         let! n := getdef i "name" VNone in
         let! n := name_val n in
         let! m := getitem v "alert_message" in
         Ok (VDict [(KS "show_alert", VBool (truthy a)); (KS "show_on_map", VBool (truthy b));
                    (KS "icon_signal_id", n); (KS "alert_message", m)])
  end.

(** 884-888: [value in [None, True, False]] with Python equality (1 == True, 0.0 == False) *)
Definition bool_like (v : val) : bool :=
  match v with
  | VNone | VBool _ => true
  | VInt z => (z =? 0) || (z =? 1)
  | VFlt f => neqb (NF f) (NI 0) || neqb (NF f) (NI 1)
  | _ => false
  end.

(** 1085-1090: [(value is not None and value < 0) or value > 255] *)
Definition variation_set (v : val) : res val :=
  match v with
  | VInt z => if (z <? 0) || (255 <? z) then Err EValue else Ok v
  | VFlt f => if nltb (NF f) (NI 0) || ngtb (NF f) (NI 255) then Err EValue else Ok v
  | VBool _ => Ok v
  | _ => Err EType
  end.

(** 736-745 RecipeName.__set__ *)
Definition recipe_set (p : protos) (strict : bool) (v : val) : res val :=
  if negb strict then match v with VNone | VStr _ => Ok v | _ => Err EUnmodelled end
  else match v with
       | VNone => Ok v
       | _ => let! known := in_table v (p_recipe p) in
              if known : bool then Ok v else Err EUnknownRecipe
       end.

Definition side_ok (v : val) : bool := is_none v || str_in v ["right"; "left"].

(** Items 136-140: the items dictionary with every key checked by SignalName *)
Fixpoint items_check (p : protos) (d : dict) : res unit :=
  match d with
  | [] => Ok tt
  | (k, _) :: r => let! _ := signal_set p (val_of_key k) in items_check p r
  end.

(** ** One link of the entity constructor chain.  Classes without [__init__] hand the
    call on unchanged.  [cls] is the list of source classes of the instance. *)
Definition init_mixin (p : protos) (strict : bool) (cls : list scls) (c : scls) (st : ist) : res ist :=
  match c with
  | CItems =>                                                       (* 136-141 *)
      match odflt (VDict []) (dget "items" (i_kw st)) with
      | VDict d =>
          let! _ := items_check p d in
          let st := consume st ["items"] [(KS "items", VDict d)] in
          Ok (mkIst (i_args st + length (i_kw st)) [] (i_at st))
      | _ => Err EAttribute
      end
  | CTrain =>                                                       (* 372-374 *)
      let! o := orientation_set (kwv st "orientation") in
      Ok (consume st ["orientation"] [(KS "orientation", o)])
  | CCargo =>                                                       (* 393-395 *)
      let! (bar, fs) := inventory_set (kwv st "inventory") in
      Ok (consume st ["inventory"] [(KS "inventory_bar", bar); (KS "inventory_filters", VDict fs)])
  | CColor =>                                                       (* 456-458 *)
      let v := kwv st "color" in
      let! j := match v with
                | VNone => Ok VNone
                | _ => let! col := color_of_val v in Ok (color_to_json col)
                end in
      Ok (consume st ["color"] [(KS "color", j)])
  | CContainer =>                                                   (* 466-468 *)
      let! b := int_or_none (kwv st "bar") in
      Ok (consume st ["bar"] [(KS "bar", b)])
  | CInserter =>                                                    (* 580-585 *)
      let! o := int_or_none (kwv st "override_stack_size") in
      let! pk := vector_field (kwv st "pickup_position") in
      let! dp := vector_field (kwv st "drop_position") in
      Ok (consume st ["override_stack_size"; "drop_position"; "pickup_position"]
            [(KS "override_stack_size", o); (KS "pickup_position", pk); (KS "drop_position", dp)])
  | CFilterInserter =>                                              (* 634-641 *)
      let! l := match kwv st "filters" with VNone => Ok [] | v => iter_val v end in
      let! fs := mapM (filter_new p (filter_cls cls)) l in
      let m := kwv st "filter_mode" in
      if negb (is_none m || str_in m ["whitelist"; "blacklist"]) then Err EValue else
      Ok (consume st ["filters"; "filter_mode"] [(KS "filters", VList fs); (KS "filter_mode", m)])
  | CInfinityContainer =>                                           (* 663-665, 675-679 *)
      let v := kwv st "infinity_settings" in
      let! r := getitem v "remove_unfiltered_items" in
      let! fs := getitem v "filters" in
      let! l := match fs with VNone => Ok [] | _ => iter_val fs end in
      let! d := infinity_filters l [] in
      Ok (consume st ["infinity_settings"]
            [(KS "infinity_remove", VBool (truthy r)); (KS "infinity_filters", VDict d)])
  | CRecipe =>                                                      (* 757-759 *)
      let! r := recipe_set p strict (kwv st "recipe") in
      Ok (consume st ["recipe"] [(KS "recipe", r)])
  | CRequester =>                                                   (* 778-782 *)
      let b := odflt (VBool false) (dget "request_from_buffers" (i_kw st)) in
      let! l := match kwv st "request_filters" with VNone => Ok [] | v => iter_val v end in
      let! d := request_set l [] in
      Ok (consume st ["request_from_buffers"; "request_filters"]
            [(KS "request_from_buffers", b); (KS "request_filters", VDict d)])
  | CSilo =>                                                        (* 876-878 *)
      let v := kwv st "auto_launch" in
      if negb (bool_like v) then Err EValue else
      Ok (consume st ["auto_launch"] [(KS "auto_launch", v)])
  | CSpeaker =>                                                     (* 923-926 *)
      let! a := speaker_parameters (kwv st "parameters") in
      let! b := speaker_alert (kwv st "alert_parameters") in
      Ok (consume st ["parameters"; "alert_parameters"]
            [(KS "parameters", a); (KS "alert_parameters", b)])
  | CSplitter =>                                                    (* 976-982 *)
      let i := kwv st "input_priority" in
      let o := kwv st "output_priority" in
      if negb (side_ok i) then Err EValue else
      if negb (side_ok o) then Err EValue else
      let! f := name_val (kwv st "filter") in
      Ok (consume st ["input_priority"; "output_priority"; "filter"]
            [(KS "input_priority", i); (KS "output_priority", o); (KS "filter", f)])
  | CStation =>                                                     (* 1043-1045 *)
      Ok (consume st ["station"] [(KS "station", kwv st "station")])
  | CUnderground =>                                                 (* 1053-1055: required *)
      match dget "type" (i_kw st) with
      | None => Err EType
      | Some v => if negb (str_in v ["input"; "output"]) then Err EValue else
                  Ok (consume st ["type"] [(KS "type", v)])
      end
  | CVariation =>                                                   (* 1077-1079 *)
      let! v := variation_set (kwv st "variation") in
      Ok (consume st ["variation"] [(KS "variation", v)])
  | _ => Ok st      (* Orientation 361, Rotatable 860: pass on; others: no __init__ *)
  end.

(** 35-47 BaseMixin.__init__: anything left over is a TypeError, unless building its
    message already fails: it reads [self.name.data['type']], i.e. the prototype table. *)
Definition leftover_error (p : protos) (name : val) : exn :=
  match name with
  | VStr s => match dget s (p_entity p) with
              | None => EKey
              | Some d => match getitem d "type" with Ok _ => EType | Err e => e end
              end
  | _ => EUnmodelled
  end.
Definition base_init (p : protos) (name : val) (args : nat) (kw : dict) : res unit :=
  match args, kw with
  | O, [] => Ok tt
  | _, _ => Err (leftover_error p name)
  end.

(** The whole chain after Entity.__init__ (entity.py 143); BaseMixin.__init__ does not call
    super. *)
Fixpoint init_chain (p : protos) (strict : bool) (name : val) (cls : list scls) (l : list scls)
         (st : ist) : res dict :=
  match l with
  | [] => Ok (i_at st)                 (* not reached: BaseMixin is in every chain *)
  | CBaseMixin :: _ => let! _ := base_init p name (i_args st) (i_kw st) in Ok (i_at st)
  | c :: r => let! st := init_mixin p strict cls c st in init_chain p strict name cls r st
  end.

(** ** One link of the entity export chain, [to_json(obj)]. *)
Definition json_mixin (p : protos) (dir : direction) (c : scls) (a : dict) (obj : dict) : res dict :=
  match c with
  | CItems =>                                                       (* 143-149 *)
      let! v := aget a "items" in
      match v with
      | VDict (_ :: _) => Ok (dset "items" v obj)
      | _ => Ok obj
      end
  | CTrain => let! v := aget a "orientation" in Ok (obj_set obj "orientation" v)  (* 387-389 *)
  | CCargo =>                                                       (* 435-437 *)
      let! b := aget a "inventory_bar" in
      let! f := aget a "inventory_filters" in
      match f with
      | VDict d => Ok (obj_set obj "inventory" (inventory_get b d))
      | _ => Err EUnmodelled
      end
  | CColor => Ok (obj_set obj "color" (dsc a "color"))              (* 460-462 *)
  | CContainer => let! b := aget a "bar" in Ok (obj_set obj "bar" b)  (* 481-483 *)
  | CInserter =>                                                    (* 613-617 *)
      let! o := aget a "override_stack_size" in
      let! pk := aget a "pickup_position" in
      let! dp := aget a "drop_position" in
      Ok (obj_set (obj_set (obj_set obj "override_stack_size" o) "pickup_position" pk)
            "drop_position" dp)
  | CFilterInserter =>                                              (* 653-659 *)
      let! m := aget a "filter_mode" in
      let obj := obj_set obj "filter_mode" m in
      let! fs := aget a "filters" in
      match fs with
      | VList (x :: r) => let! js := mapM (filter_json p) (x :: r) in
                          Ok (dset "filters" (VList js) obj)
      | _ => Ok obj
      end
  | CInfinityContainer =>                                           (* 707-723 *)
      let! r := aget a "infinity_remove" in
      let! f := aget a "infinity_filters" in
      match f with
      | VDict d =>
          Ok (dset "infinity_settings"
                (VDict [(KS "remove_unfiltered_items", r);
                        (KS "filters",
                         VList (map (fun kv => VDict [(KS "index", val_of_key (fst kv));
                                                      (KS "count", odflt VNone (match snd kv with VDict e => dget "count" e | _ => None end));
                                                      (KS "mode", odflt VNone (match snd kv with VDict e => dget "mode" e | _ => None end));
                                                      (KS "name", odflt VNone (match snd kv with VDict e => dget "name" e | _ => None end))])
                                    d))]) obj)
      | _ => Err EUnmodelled
      end
  | CRecipe => Ok (obj_set obj "recipe" (dsc a "recipe"))           (* 761-763 *)
  | CRequester =>                                                   (* 807-819 *)
      let! b := aget a "request_from_buffers" in
      let obj := if truthy b then dset "request_from_buffers" b obj else obj in
      let! f := aget a "request_filters" in
      match f with
      | VDict (x :: r) =>
          Ok (dset "request_filters"
                (VList (map (fun kv => VDict [(KS "index", val_of_key (fst kv));
                                              (KS "name", odflt VNone (match snd kv with VDict e => dget "name" e | _ => None end));
                                              (KS "count", odflt VNone (match snd kv with VDict e => dget "count" e | _ => None end))])
                            (x :: r))) obj)
      | _ => Ok obj
      end
  | CRotatable =>                                                   (* 869-872 *)
      Ok (if dir =? 0 then obj else dset "direction" (VInt dir) obj)
  | CSilo => let! v := aget a "auto_launch" in Ok (obj_set obj "auto_launch" v)   (* 890-892 *)
  | CSpeaker =>                                                     (* 960-972 *)
      let! v := aget a "parameters" in
      let obj := obj_set obj "parameters" v in
      let! w := aget a "alert_parameters" in
      match w with
      | VDict d =>
          let s := [(KS "show_alert", dsc d "show_alert"); (KS "show_on_map", dsc d "show_on_map");
                    (KS "alert_message", dsc d "alert_message")] in
          let s := match dsc d "icon_signal_id" with
                   | VStr n => s ++ [(KS "icon_signal_id",
                                      VDict [(KS "name", VStr n); (KS "type", default_type defaultentities n)])]
                   | _ => s
                   end in
          Ok (dset "alert_parameters" (VDict s) obj)
      | _ => Ok obj
      end
  | CSplitter =>                                                    (* 1012-1016 *)
      let! i := aget a "input_priority" in
      let! o := aget a "output_priority" in
      let! f := aget a "filter" in
      Ok (obj_set (obj_set (obj_set obj "input_priority" i) "output_priority" o) "filter" f)
  | CStation => let! v := aget a "station" in Ok (obj_set obj "station" v)        (* 1047-1049 *)
  | CUnderground => let! v := aget a "type" in Ok (obj_set obj "type" v)          (* 1067-1069 *)
  | CVariation => let! v := aget a "variation" in Ok (obj_set obj "variation" v)  (* 1092-1094 *)
  | _ => Ok obj                                                     (* no to_json of its own *)
  end.

(** ** ControlBehavior constructors.  [k_mut] records what the construction left in the
    caller's "<type>_conditions" dictionary, which Combinator and Decider empty in place. *)
Record cst := mkCst { k_args : nat; k_kw : dict; k_at : dict; k_mut : option (string * dict) }.

Definition ckw (st : cst) (k : string) : val := odflt VNone (dget k (k_kw st)).
Definition cconsume (st : cst) (ks : list string) (ats : dict) : cst :=
  mkCst (k_args st)
        (fold_left (fun kw k => ddel (KS k) kw) ks (k_kw st))
        (fold_left (fun a kv => dset (fst kv) (snd kv) a) ats (k_at st)) (k_mut st).

(** [_entity.TYPE], [_entity.OPERATOR] (203-204, 259-260, 268-269): first class in the MRO
    that defines them *)
Fixpoint comb_names (l : list scls) : option (string * string) :=
  match l with
  | [] => None
  | CArithmetic :: _ => Some ("arithmetic", "operation")
  | CDecider :: _ => Some ("decider", "comparator")
  | CCombinator :: _ => Some ("", "")
  | _ :: r => comb_names r
  end.
(** the [operator] descriptor found on the ControlBehavior's MRO (263, 272), if any *)
Fixpoint comb_operator (l : list scls) (v : val) : res val :=
  match l with
  | [] => Ok v
  | CArithmetic :: _ => operator_set arithmetic_ops v
  | CDecider :: _ => operator_set decider_ops v
  | _ :: r => comb_operator r v
  end.

(** 217-227 get_from: pops from the conditions dictionary *)
Definition get_from (typ key : string) (d : dict) : dict * res val :=
  let ck := if String.eqb typ "decider" && String.eqb key "first" then "constant"
            else (key ++ "_constant")%string in
  let '(v, d) := dpop ck VNone d in
  match v with
  | VNone => let '(s, d) := dpop (key ++ "_signal")%string VNone d in
             match s with
             | VNone => (d, Ok VNone)
             | _ => (d, getitem s "name")
             end
  | _ => (d, Ok v)
  end.
(** [self.first = get_from(...)] *)
Definition take_signal (p : protos) (typ key : string) (d : dict) : dict * res val :=
  let '(d, r) := get_from typ key d in (d, bind r (signal_set p)).

(** 215-231: what is popped and stored, in order, with the conditions left behind even
    when one of the steps raises *)
Definition comb_take (p : protos) (cbl : list scls) (typ op : string) (d : dict)
  : dict * res dict :=
  match dget op d with
  | None => (d, Err EKey)
  | Some o =>
      let d := ddel op d in
      match comb_operator cbl o with
      | Err e => (d, Err e)
      | Ok o =>
          let '(d, r1) := take_signal p typ "first" d in
          match r1 with
          | Err e => (d, Err e)
          | Ok f =>
              let '(d, r2) := take_signal p typ "second" d in
              match r2 with
              | Err e => (d, Err e)
              | Ok s =>
                  let '(d, r3) := take_signal p typ "output" d in
                  match r3 with
                  | Err e => (d, Err e)
                  | Ok t => (d, Ok [(KS "operator", o); (KS "first", f);
                                    (KS "second", s); (KS "output", t)])
                  end
              end
          end
      end
  end.

(** [x.pop("k")] / [x.pop("k", d)] on something that is not a dict: a list refuses a string
    index, everything else has no [pop] *)
Definition no_pop (v : val) : exn := match v with VList _ => EType | _ => EAttribute end.

(** 211-234 Combinator.ControlBehavior.__init__ *)
Definition comb_init (p : protos) (cls cbl : list scls) (st : cst) : cst * res unit :=
  match comb_names cls with
  | None => (st, Err EAttribute)
  | Some (typ, op) =>
      let field := (typ ++ "_conditions")%string in
      match odflt (VDict []) (dget field (k_kw st)) with
      | VDict d =>
          let '(d', r) := comb_take p cbl typ op d in
          let mut := if dmem field (k_kw st) then Some (field, d') else k_mut st in
          match r with
          | Err e => (mkCst (k_args st) (k_kw st) (k_at st) mut, Err e)
          | Ok ats =>
              let kw := ddel field (k_kw st) in
              let kw := match d' with [] => kw | _ => dset field (VDict d') kw end in
              (mkCst (k_args st) kw
                     (fold_left (fun a kv => dset (fst kv) (snd kv) a)
                                ((KS "field", VStr field) :: ats) (k_at st)) mut, Ok tt)
          end
      | v => (st, Err (no_pop v))
      end
  end.

(** 273-281 Decider.ControlBehavior.__init__ *)
Definition decider_init (cls : list scls) (st : cst) : cst * res unit :=
  match comb_names cls with
  | None => (st, Err EAttribute)
  | Some (typ, _) =>
      let field := (typ ++ "_conditions")%string in
      match dget field (k_kw st) with
      | None => (st, Err EKey)
      | Some (VDict d) =>
          let '(c, d') := dpop "copy_count_from_input" (VBool false) d in
          let kw := ddel field (k_kw st) in
          let kw := match d' with [] => kw | _ => dset field (VDict d') kw end in
          (mkCst (k_args st) kw
                 (dset "copy_count_from_input" c (dset "field" (VStr field) (k_at st)))
                 (Some (field, d')), Ok tt)
      | Some v => (st, Err (no_pop v))
      end
  end.

(** 908-915 CircuitParameters: a plain class, leftovers reach [object.__init__] *)
Definition circuit_parameters (v : val) : res val :=
  let! kw := as_kwargs v in
  match ddel "note_id" (ddel "instrument_id" (ddel "signal_value_is_pitch" kw)) with
  | _ :: _ => Err EType
  | [] => Ok (VDict [(KS "instrument_id", dsc kw "instrument_id"); (KS "note_id", dsc kw "note_id");
                     (KS "signal_value_is_pitch", dsc kw "signal_value_is_pitch")])
  end.

(** The other ControlBehavior constructors: attributes from keywords. *)
Definition cb_simple (p : protos) (cls : list scls) (c : scls) (st : cst) : res cst :=
  match c with
  | CAccumulator =>                                                 (* 118-121 *)
      let! s := signal_set p (ckw st "output_signal") in
      Ok (cconsume st ["output_signal"] [(KS "output_signal", s)])
  | CFilters =>                                                     (* 173-179 *)
      let! l := iter_val (odflt (VList []) (dget "filters" (k_kw st))) in
      let! fs := mapM (filter_new p (filter_cls cls)) l in
      Ok (cconsume st ["filters"] [(KS "filters", VList fs)])
  | CConstantCombinator =>                                          (* 191-193 *)
      Ok (cconsume st ["is_on"] [(KS "is_on", odflt (VBool true) (dget "is_on" (k_kw st)))])
  | CTransportBelt =>                                               (* 293-300 *)
      Ok (cconsume st ["circuit_enable_disable"; "circuit_read_hand_contents"; "circuit_contents_read_mode"]
            [(KS "circuit_enable_disable", ckw st "circuit_enable_disable");
             (KS "circuit_read_hand_contents", ckw st "circuit_read_hand_contents");
             (KS "circuit_contents_read_mode", ckw st "circuit_contents_read_mode")])
  | CTrainSignal =>                                                 (* 315-324 *)
      let! r := signal_set p (ckw st "red_output_signal") in
      let! o := signal_set p (ckw st "orange_output_signal") in
      let! g := signal_set p (ckw st "green_output_signal") in
      Ok (cconsume st ["circuit_read_signal"; "red_output_signal"; "orange_output_signal"; "green_output_signal"]
            [(KS "circuit_read_signal", ckw st "circuit_read_signal"); (KS "red_output_signal", r);
             (KS "orange_output_signal", o); (KS "green_output_signal", g)])
  | CChainSignal =>                                                 (* 338-341 *)
      let! b := signal_set p (ckw st "blue_output_signal") in
      Ok (cconsume st ["blue_output_signal"] [(KS "blue_output_signal", b)])
  | CRailSignal =>                                                  (* 350-353 *)
      Ok (cconsume st ["circuit_close_signal"] [(KS "circuit_close_signal", ckw st "circuit_close_signal")])
  | CCircuitCondition =>                                            (* 492-502 *)
      let v := ckw st "circuit_condition" in
      match v with
      | VNone => Ok (cconsume st ["circuit_condition"] [])
      | _ => let! f := getdef v "first_signal" VNone in
             let! f := signal_set p f in
             let! k := getdef v "constant" VNone in
             let! s := getdef v "second_signal" k in
             let! s := signal_set p s in
             let! m := getdef v "comparator" VNone in
             let! m := operator_set decider_ops m in
             Ok (cconsume st ["circuit_condition"]
                   [(KS "first", f); (KS "second", s); (KS "comparator", m)])
      end
  | CLamp =>                                                        (* 524-527 *)
      Ok (cconsume st ["use_colors"] [(KS "use_colors", ckw st "use_colors")])
  | CMiningDrill =>                                                 (* 536-543 *)
      Ok (cconsume st ["circuit_enable_disable"; "circuit_read_resources"; "circuit_resource_read_mode"]
            [(KS "circuit_enable_disable", odflt (VBool true) (dget "circuit_enable_disable" (k_kw st)));
             (KS "circuit_read_resources", odflt (VBool true) (dget "circuit_read_resources" (k_kw st)));
             (KS "circuit_resource_read_mode", odflt (VInt 0) (dget "circuit_resource_read_mode" (k_kw st)))])
  | CInserter =>                                                    (* 556-566: no super call *)
      let! s := signal_set p (ckw st "stack_control_input_signal") in
      Ok (cconsume st ["circuit_mode_of_operation"; "circuit_set_stack_size"; "stack_control_input_signal";
                       "circuit_hand_read_mode"; "circuit_read_hand_contents"]
            [(KS "circuit_mode_of_operation", ckw st "circuit_mode_of_operation");
             (KS "circuit_set_stack_size", ckw st "circuit_set_stack_size");
             (KS "stack_control_input_signal", s);
             (KS "circuit_hand_read_mode", ckw st "circuit_hand_read_mode");
             (KS "circuit_read_hand_contents", ckw st "circuit_read_hand_contents")])
  | CRequester =>                                                   (* 768-771 *)
      Ok (cconsume st ["circuit_mode_of_operation"]
            [(KS "circuit_mode_of_operation", ckw st "circuit_mode_of_operation")])
  | CRoboport =>                                                    (* 829-842 *)
      let! ac := signal_set p (ckw st "available_construction_output_signal") in
      let! tc := signal_set p (ckw st "total_construction_output_signal") in
      let! al := signal_set p (ckw st "available_logistic_output_signal") in
      let! tl := signal_set p (ckw st "total_logistic_output_signal") in
      Ok (cconsume st ["read_logistics"; "read_robot_stats"; "available_construction_output_signal";
                       "total_construction_output_signal"; "available_logistic_output_signal";
                       "total_logistic_output_signal"]
            [(KS "read_logistics", ckw st "read_logistics"); (KS "read_robot_stats", ckw st "read_robot_stats");
             (KS "available_construction_output_signal", ac); (KS "total_construction_output_signal", tc);
             (KS "available_logistic_output_signal", al); (KS "total_logistic_output_signal", tl)])
  | CSpeaker =>                                                     (* 897-901 *)
      let! q := circuit_parameters (odflt (VDict []) (dget "circuit_parameters" (k_kw st))) in
      Ok (cconsume st ["circuit_parameters"] [(KS "circuit_parameters", q)])
  | CStation =>                                                     (* 1023-1032 *)
      let! s := signal_set p (ckw st "train_stopped_signal") in
      Ok (cconsume st ["circuit_enable_disable"; "read_from_train"; "read_stopped_train"; "train_stopped_signal"]
            [(KS "circuit_enable_disable", ckw st "circuit_enable_disable");
             (KS "read_from_train", ckw st "read_from_train");
             (KS "read_stopped_train", ckw st "read_stopped_train");
             (KS "train_stopped_signal", s)])
  | _ => Ok st                                                      (* Arithmetic 262: no __init__ *)
  end.

Definition cb_link (p : protos) (cls cbl : list scls) (c : scls) (st : cst) : cst * res unit :=
  match c with
  | CCombinator => comb_init p cls cbl st
  | CDecider => decider_init cls st
  | _ => match cb_simple p cls c st with Ok st' => (st', Ok tt) | Err e => (st, Err e) end
  end.

(** The constructor chain of a ControlBehavior: [all] is the whole chain, [l] what is
    left of it.  Inserter (556-566) does not call super; BaseMixin (13-28) ends the
    chain and keeps a reference to the entity ("entity" below). *)
Fixpoint cb_init_chain (p : protos) (name : val) (cls all l : list scls) (st : cst)
  : cst * res dict :=
  match l with
  | [] => (st, Ok (k_at st))
  | CBaseMixin :: _ =>
      let st := mkCst (k_args st) (k_kw st) (dset "entity" VNone (k_at st)) (k_mut st) in
      match base_init p name (k_args st) (k_kw st) with
      | Ok _ => (st, Ok (k_at st))
      | Err e => (st, Err e)
      end
  | CInserter :: _ =>
      let '(st, r) := cb_link p cls all CInserter st in
      match r with Ok _ => (st, Ok (k_at st)) | Err e => (st, Err e) end
  | c :: r =>
      let '(st, x) := cb_link p cls all c st in
      match x with Ok _ => cb_init_chain p name cls all r st | Err e => (st, Err e) end
  end.

(** A ControlBehavior instance: the chain of its class (fixed at construction) and its
    attributes. *)
Record cbobj := mkCb { cb_cls : list scls; cb_at : dict }.

(** ** ControlBehavior export.  [cls] is the current class list of the owning entity. *)
(** 237-244, 248-250 set_to / obj_set *)
Definition comb_put (p : protos) (field key : string) (v : val) (s : dict) : res dict :=
  match v with
  | VInt _ => Ok (dset (if String.eqb field "decider_conditions" then KS "constant"
                        else KS (key ++ "_constant")%string) v s)
  | _ => signal_obj_set p s (key ++ "_signal")%string v
  end.

(** the value behind [obj[field]] when it is a dict *)
Definition sub (obj : dict) (k : string) : dict :=
  match dget k obj with Some (VDict d) => d | _ => [] end.

Definition opt_signal_json (p : protos) (obj : dict) (k : string) (v : val) : res dict :=
  if truthy v then let! j := signal_json p v in Ok (dset k j obj) else Ok obj.

Definition cb_json_link (p : protos) (cls : list scls) (c : scls) (a : dict) (obj : dict) : res dict :=
  match c with
  | CAccumulator => signal_obj_set p obj "output_signal" (dsc a "output_signal")   (* 123-125 *)
  | CFilters =>                                                     (* 181-186 *)
      let! fs := aget a "filters" in
      match fs with
      | VList (x :: r) => let! js := mapM (filter_json p) (x :: r) in Ok (dset "filters" (VList js) obj)
      | _ => Ok obj
      end
  | CConstantCombinator =>                                          (* 195-198 *)
      let! v := aget a "is_on" in
      Ok (if truthy v then obj else dset "is_on" (VBool false) obj)
  | CCombinator =>                                                  (* 236-255 *)
      let! _ := aget a "entity" in
      match comb_names cls with
      | None => Err EAttribute
      | Some (_, op) =>
          let! fv := aget a "field" in
          match fv with
          | VStr field =>
              let! o := match dget "operator" a with
                        | Some v => Ok v
                        | None => Err EAttribute
                        end in
              let! s := comb_put p field "first" (dsc a "first") [(KS op, o)] in
              let! s := comb_put p field "second" (dsc a "second") s in
              let! s := comb_put p field "output" (dsc a "output") s in
              Ok (dset field (VDict (dmerge s (sub obj field))) obj)
          | _ => Err EUnmodelled
          end
      end
  | CDecider =>                                                     (* 283-288 *)
      let! fv := aget a "field" in
      match fv with
      | VStr field =>
          let! v := aget a "copy_count_from_input" in
          Ok (dset field (VDict (dset "copy_count_from_input" v (sub obj field))) obj)
      | _ => Err EUnmodelled
      end
  | CTransportBelt =>                                               (* 302-306 *)
      let! r := aget a "circuit_read_hand_contents" in
      let! e := aget a "circuit_enable_disable" in
      let! m := aget a "circuit_contents_read_mode" in
      Ok (dset "circuit_contents_read_mode" m
            (dset "circuit_enable_disable" e (dset "circuit_read_hand_contents" r obj)))
  | CTrainSignal =>                                                 (* 326-331 *)
      let! v := aget a "circuit_read_signal" in
      let obj := obj_set obj "circuit_read_signal" v in
      let! obj := signal_obj_set p obj "red_output_signal" (dsc a "red_output_signal") in
      let! obj := signal_obj_set p obj "orange_output_signal" (dsc a "orange_output_signal") in
      signal_obj_set p obj "green_output_signal" (dsc a "green_output_signal")
  | CChainSignal => signal_obj_set p obj "blue_output_signal" (dsc a "blue_output_signal")  (* 343-345 *)
  | CRailSignal =>                                                  (* 355-357 *)
      let! v := aget a "circuit_close_signal" in Ok (obj_set obj "circuit_close_signal" v)
  | CCircuitCondition =>                                            (* 504-519 *)
      let cc := obj_set [] "comparator" (dsc a "comparator") in
      let! cc := match dsc a "first" with
                 | VNone => Ok cc
                 | VInt z => Ok (dset "first_constant" (VInt z) cc)
                 | v => let! j := signal_json p v in Ok (dset "first_signal" j cc)
                 end in
      let! cc := match dsc a "second" with
                 | VNone => Ok cc
                 | VInt z => Ok (dset "constant" (VInt z) cc)
                 | v => let! j := signal_json p v in Ok (dset "second_signal" j cc)
                 end in
      Ok (match cc with [] => obj | _ => dset "circuit_condition" (VDict cc) obj end)
  | CLamp => let! v := aget a "use_colors" in Ok (obj_set obj "use_colors" v)      (* 529-531 *)
  | CMiningDrill =>                                                 (* 545-549 *)
      let! e := aget a "circuit_enable_disable" in
      let! r := aget a "circuit_read_resources" in
      let! m := aget a "circuit_resource_read_mode" in
      Ok (dset "circuit_resource_read_mode" m
            (dset "circuit_read_resources" r (dset "circuit_enable_disable" e obj)))
  | CInserter =>                                                    (* 568-578 *)
      let! m := aget a "circuit_mode_of_operation" in
      let obj := obj_set obj "circuit_mode_of_operation" m in
      let! z := aget a "circuit_set_stack_size" in
      let obj := obj_set obj "circuit_set_stack_size" z in
      let! obj := signal_obj_set p obj "stack_control_input_signal" (dsc a "stack_control_input_signal") in
      let! h := aget a "circuit_hand_read_mode" in
      let obj := obj_set obj "circuit_hand_read_mode" h in
      let! r := aget a "circuit_read_hand_contents" in
      Ok (obj_set obj "circuit_read_hand_contents" r)
  | CRequester =>                                                   (* 773-776 *)
      let! m := aget a "circuit_mode_of_operation" in
      Ok (obj_set obj "circuit_mode_of_operation" m)
  | CRoboport =>                                                    (* 844-856 *)
      let! l := aget a "read_logistics" in
      let obj := obj_set obj "read_logistics" l in
      let! r := aget a "read_robot_stats" in
      let obj := obj_set obj "read_robot_stats" r in
      let! obj := opt_signal_json p obj "available_construction_output_signal" (dsc a "available_construction_output_signal") in
      let! obj := opt_signal_json p obj "total_construction_output_signal" (dsc a "total_construction_output_signal") in
      let! obj := opt_signal_json p obj "available_logistic_output_signal" (dsc a "available_logistic_output_signal") in
      opt_signal_json p obj "total_logistic_output_signal" (dsc a "total_logistic_output_signal")
  | CSpeaker =>                                                     (* 903-905, 917-921 *)
      let! q := aget a "circuit_parameters" in Ok (dset "circuit_parameters" q obj)
  | CStation =>                                                     (* 1034-1041 *)
      let! e := aget a "circuit_enable_disable" in
      let obj := obj_set obj "circuit_enable_disable" e in
      let! f := aget a "read_from_train" in
      let obj := obj_set obj "read_from_train" f in
      let! s := aget a "read_stopped_train" in
      let obj := obj_set obj "read_stopped_train" s in
      opt_signal_json p obj "train_stopped_signal" (dsc a "train_stopped_signal")
  | _ => Ok obj
  end.

(** The whole chain; BaseMixin (30-33) turns an empty object into None. *)
Fixpoint cb_json_chain (p : protos) (cls : list scls) (l : list scls) (a : dict) (obj : dict) : res val :=
  match l with
  | [] => Ok (VDict obj)
  | CBaseMixin :: _ => Ok (match obj with [] => VNone | _ => VDict obj end)
  | c :: r => let! obj := cb_json_link p cls c a obj in cb_json_chain p cls r a obj
  end.
Definition cb_json (p : protos) (cls : list scls) (cb : cbobj) : res val :=
  cb_json_chain p cls (cb_cls cb) (cb_at cb) [].

(** The entity chain after Entity.to_json; BaseMixin (49-52) adds the control behavior. *)
Fixpoint json_chain (p : protos) (dir : direction) (cls : list scls) (cb : option cbobj)
         (l : list scls) (a : dict) (obj : dict) : res dict :=
  match l with
  | [] => Ok obj
  | CBaseMixin :: _ =>
      match cb with
      | None => Ok obj
      | Some cb => let! v := cb_json p cls cb in Ok (obj_set obj "control_behavior" v)
      end
  | c :: r => let! obj := json_mixin p dir c a obj in json_chain p dir cls cb r a obj
  end.

(** ** Rotation chain: Rotatable.rotate 863-867, Orientation.rotate 364-368.  The state is
    (direction, attributes); it is returned even when a link raises. *)
Definition orientation_of (a : dict) : res val := aget a "orientation".
Definition rotate_link (amount : Z) (c : scls) (st : direction * dict) : (direction * dict) * res unit :=
  let '(d, a) := st in
  match c with
  | CRotatable => ((dir_rotate d amount true, a), Ok tt)
  | COrientation =>
      match (let! o := orientation_of a in
             let! o := match o with
                       | VInt _ | VFlt _ => num_of_val o
                       | _ => Err EType
                       end in
             let! q := nmul (NF quarter) (NI amount) in
             let! q := nmod q (NI 1) in
             let! s := nadd o q in
             orientation_set (val_of_num s)) with
      | Ok v => ((d, dset "orientation" v a), Ok tt)
      | Err e => (st, Err e)
      end
  | _ => (st, Ok tt)
  end.
Fixpoint rotate_chain (amount : Z) (l : list scls) (st : direction * dict)
  : (direction * dict) * res unit :=
  match l with
  | [] => (st, Ok tt)
  | c :: r => let '(st, x) := rotate_link amount c st in
              match x with Ok _ => rotate_chain amount r st | Err e => (st, Err e) end
  end.
