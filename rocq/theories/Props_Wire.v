(** * Theorems about exported and imported wires and numbers: C16, C17, C18, C21, C22, C48. *)
From Coq Require Import QArith Permutation.
From Verif Require Import Py Num NumFacts Util SpecUtil Classes Mixins Entity World SpecWorld LayerProofs PersistProofs
  WireProofs ExportProofs ParseProofs SpecTrip SpecBlueprint ShapeProofs EntityData Demo.
Open Scope Z_scope.

(** two combinators joined by a red wire from side 1 to side 2, and a green wire to a chest *)
Definition combis : world := Eval vm_compute in
  run [OMake 0 (thing "arithmetic-combinator" 20 0); OMake 0 (thing "decider-combinator" 20 5);
       OConnect 4 (Some 5%nat) (VInt 1) (VInt 2) "red"; OConnect 4 (Some 0%nat) (VInt 1) (VInt 1) "green"] wired.
(** the arithmetic combinator wired to itself, input to output *)
Definition looped : world := Eval vm_compute in run [OConnect 4 (Some 4%nat) (VInt 1) (VInt 2) "red"] combis.
(** the wires in the document of an exported entity *)
Definition doc_conns (r : res val) : dict := match r with Ok (VDict d) => conns_of_doc d | _ => [] end.

(** ** C16 *)
(** an exported entity lists, under every side and colour, exactly its wires, each as often as
    it is there, a loop once for each of its two ends *)
Theorem C16_entity_lists_exactly_its_wires :
  forall w e w' v, reachable w -> ent_json e w = (w', Ok v) ->
  exists en b x d, ent w e = Some en /\ e_layer en = Some b /\ blu w b = Some x /\ v = VDict d /\
    forall s col, exists l, Permutation (port (conns_of_doc d) s col) l /\
      Forall2 (entry_of w) (filter (seen_at s col) (flat_map (views e) (b_conns x))) l.
Proof. exact p_C16_entity. Qed.
Print Assumptions C16_entity_lists_exactly_its_wires.
(** and its "connections" hold nothing besides: one non-empty list for each side and colour in use *)
Theorem C16_nothing_else_under_connections :
  forall w e w' v, ent_json e w = (w', Ok v) -> exists d, v = VDict d /\ tidy_wires d.
Proof. exact p_C16_shape. Qed.
Print Assumptions C16_nothing_else_under_connections.
(** the same for the whole document *)
Theorem C16_document_lists_exactly_the_wires :
  forall w b w' doc, reachable w -> bp_json b w = (w', Ok doc) ->
  exists x, blu w b = Some x /\ length (doc_list (inner_doc doc) "entities") = length (b_objs x) /\
  ((forall c, In c (b_conns x) -> ~ skew_loop c) ->
   forall k i, nth_error (b_objs x) k = Some i ->
   exists v, nth_error (doc_list (inner_doc doc) "entities") k = Some v /\ exports_entity w x i v).
Proof. exact p_C16_document. Qed.
Print Assumptions C16_document_lists_exactly_the_wires.
Theorem C16_visible_from_both_ends :
  forall w b x w' doc c e f ke kf, reachable w -> blu w b = Some x -> bp_json b w = (w', Ok doc) ->
  (forall c, In c (b_conns x) -> ~ skew_loop c) ->
  In c (b_conns x) -> c_from c = Some e -> c_to c = Some f -> e <> f ->
  nth_error (b_objs x) ke = Some e -> nth_error (b_objs x) kf = Some f ->
  exists de df u v, nth_error (doc_list (inner_doc doc) "entities") ke = Some (VDict de) /\
    nth_error (doc_list (inner_doc doc) "entities") kf = Some (VDict df) /\
    In u (port (conns_of_doc de) (c_fs c) (c_color c)) /\ entry_for w f (c_fs c) u /\
    In v (port (conns_of_doc df) (c_ts c) (c_color c)) /\ entry_for w e (c_ts c) v.
Proof. exact p_C16_both. Qed.
Print Assumptions C16_visible_from_both_ends.
(** wires never stop the export of their entity when both ends carry integer numbers *)
Theorem C16_wires_always_exported :
  forall w e en b x, ent w e = Some en -> e_layer en = Some b -> blu w b = Some x ->
  numbered_ends w e (b_conns x) -> exists obj, snd (connections_to_json e w) = Ok obj.
Proof. exact p_C16_succeeds. Qed.
Print Assumptions C16_wires_always_exported.

Example C16_ex :
  doc_conns (snd (ent_json 4 combis)) =
    [(KI 1, VDict [(KS "green", VList [VDict [(KS "entity_id", VInt 4)]]);
                   (KS "red", VList [VDict [(KS "entity_id", VInt 5); (KS "circuit_id", VInt 1)]])])] /\
  doc_conns (snd (ent_json 5 combis)) =
    [(KI 2, VDict [(KS "red", VList [VDict [(KS "entity_id", VInt 2); (KS "circuit_id", VInt 2)]])])] /\
  doc_conns (snd (ent_json 2 combis)) = [].
Proof. vm_compute. auto. Qed.

(** ** C17 *)
(** An entry exported for a wire from side [s] of e to side [t] of f is read back, whatever the
    rest of the document, as a wire from side [s] to side [s] when f has two sides and to side 1
    otherwise: it is the original wire exactly when [t] happens to be that side. *)
Theorem C17_entry_read_back :
  forall w f fe s v w2 b2 e2 f2 sk col t,
  ent w f = Some fe -> entry_for w f s v -> get_entity_by_id w2 b2 (e_auto fe) = Some f2 -> py_int (val_of_key sk) = Ok s ->
  e2 <> f2 ->
  exists n, entry_denotes w2 b2 e2 sk col v n /\ (forall m, entry_denotes w2 b2 e2 sk col v m -> m = n) /\
    (same_wire n (mkConn (Some e2) (Some f2) s t col) <-> (two_sided fe /\ t = s \/ ~ two_sided fe /\ t = 1)).
Proof. exact p_C17_from. Qed.
Print Assumptions C17_entry_read_back.

(** a wire from side 1 to side 2 comes back as two different wires; the others come back *)
Definition reloaded (w : world) : world :=
  match snd (bp_json 0 w) with Ok doc => run [ONewBlueprint true []; OLoad 1 doc] w | Err _ => w end.
Example C17_sides_refuted :
  nth 0 (wires combis) [] =
    [mkConn (Some 1%nat) (Some 0%nat) 1 1 "red"; mkConn (Some 4%nat) (Some 5%nat) 1 2 "red";
     mkConn (Some 4%nat) (Some 0%nat) 1 1 "green"] /\
  map (fun i => option_map e_name (ent (reloaded combis) i)) [7; 8; 9; 10]%nat =
    [Some (VStr "arithmetic-combinator"); Some (VStr "iron-chest"); Some (VStr "steel-chest"); Some (VStr "decider-combinator")] /\
  nth 1 (wires (reloaded combis)) [] =
    [mkConn (Some 9%nat) (Some 7%nat) 1 1 "green"; mkConn (Some 10%nat) (Some 7%nat) 1 1 "red";
     mkConn (Some 9%nat) (Some 8%nat) 1 1 "red"; mkConn (Some 10%nat) (Some 7%nat) 2 2 "red"].
Proof. vm_compute. auto. Qed.

(** ** C18 *)
(** looking at things and turning wires around does not change what is exported *)
Theorem C18_export_repeatable :
  forall w b x ops, reachable w -> blu w b = Some x -> (forall c, In c (b_conns x) -> ~ skew_loop c) ->
  forallb looks ops = true -> snd (bp_json b (run ops w)) = snd (bp_json b w).
Proof. exact p_C18_repeat. Qed.
Print Assumptions C18_export_repeatable.
(** an entity wired to itself across different sides *)
Theorem C18_loop_not_repeatable :
  forall w b x c e en w1 d1 w2 d2, reachable_plain w -> blu w b = Some x -> In c (b_conns x) -> skew_loop c ->
  c_from c = Some e -> In e (b_objs x) -> ent w e = Some en -> two_sided en ->
  bp_json b w = (w1, Ok d1) -> bp_json b w1 = (w2, Ok d2) -> d1 <> d2.
Proof. exact p_C18_loop. Qed.
Print Assumptions C18_loop_not_repeatable.

Example C18_ex :
  snd (bp_json 0 (run [OExport 0; OGetConnections 5; OFlip 0 1] combis)) = snd (bp_json 0 combis) /\
  (exists d, snd (bp_json 0 combis) = Ok d) /\
  (exists d, snd (bp_json 0 looped) = Ok d) /\
  doc_conns (snd (ent_json 4 (fst (bp_json 0 looped)))) <> doc_conns (snd (ent_json 4 looped)).
Proof.
  split; [vm_compute; reflexivity|]. split; [eexists; vm_compute; reflexivity|].
  split; [eexists; vm_compute; reflexivity|]. vm_compute. discriminate.
Qed.

(** ** C21, the exported numbers *)
Theorem C21_exported_numbers :
  forall w b x w' doc, reachable w -> blu w b = Some x -> numbered w (b_objs x) ->
  bp_json b w = (w', Ok doc) ->
  length (doc_list (inner_doc doc) "entities") = length (b_objs x) /\
  forall k v, nth_error (doc_list (inner_doc doc) "entities") k = Some v ->
  exists d, v = VDict d /\ dget "entity_number" d = Some (VInt (Z.of_nat k + 1)).
Proof. exact p_C21_exported. Qed.
Print Assumptions C21_exported_numbers.

(** ** C22, wires of deleted entities *)
Theorem C22_dangling_wires_exported :
  forall w b i x e s col t w' doc, reachable w -> blu w b = Some x -> In i (b_objs x) ->
  numbered w (b_objs x) -> In e (b_objs x) -> e <> i ->
  (forall c, In c (b_conns x) -> ~ skew_loop c) ->
  In (s, col, i, t) (flat_map (views e) (b_conns x)) ->
  bp_json b (fst (step (ORemove b (OEnt i)) w)) = (w', Ok doc) ->
  exists ei n, ent w i = Some ei /\ e_auto ei = VInt n /\
    (exists d v, In (VDict d) (doc_list (inner_doc doc) "entities") /\ In v (port (conns_of_doc d) s col) /\
       entry_for w i t v) /\
    forall d, In (VDict d) (doc_list (inner_doc doc) "entities") -> dget "entity_number" d <> Some (VInt n).
Proof. exact p_C22_dangling. Qed.
Print Assumptions C22_dangling_wires_exported.

(** deleting the steel chest (number 4): both its neighbours still refer to 4 *)
Example C22_dangling_ex :
  let w := run [ORemove 0 (OEnt 0)] combis in
  autos w = autos combis /\ objs w = [[2; 4; 1; 5; 3]%nat] /\
  doc_conns (snd (ent_json 1 w)) = [(KI 1, VDict [(KS "red", VList [VDict [(KS "entity_id", VInt 4)]])])] /\
  exists d, snd (bp_json 0 w) = Ok d.
Proof. split; [|split; [|split]]; try (vm_compute; reflexivity). eexists. vm_compute. reflexivity. Qed.

(** ** C48 *)
(** after a successful load the wire list is exactly the set of wires mentioned by the listed
    entities, each once, and every reference has been resolved *)
Theorem C48_loaded_wires :
  forall w b doc w' d' x', reachable w -> load b doc w = (w', d', Ok tt) -> blu w' b = Some x' ->
  distinct_wires (b_conns x') /\
  (forall n, mentions w' b n -> c_to n <> None /\ exists c, In c (b_conns x') /\ same_wire c n) /\
  (forall c, In c (b_conns x') -> exists n, mentions w' b n /\ same_wire c n).
Proof. exact p_C48_loaded. Qed.
Print Assumptions C48_loaded_wires.
(** what the new entities mention is what their documents say *)
Theorem C48_mentions_come_from_the_document :
  forall w b doc w' d' x k kw, blu w b = Some x -> load b doc w = (w', d', Ok tt) ->
  nth_error (doc_list (inner_doc doc) "entities") k = Some (VDict kw) ->
  exists e, ent w' (length (w_ents w) + k) = Some e /\ e_raw e = odflt VNone (dget "connections" kw).
Proof. exact p_C48_raw. Qed.
Print Assumptions C48_mentions_come_from_the_document.
(** a document whose entities can be built and whose wires can be read, one of them to a number
    that no entity has *)
Theorem C48_dangling_reference_fails :
  forall w b d w1 w2 l l' w3 x x3 n, reachable w -> blu w b = Some x ->
  dget "blueprint" d = None -> dget "entities" d = Some (VList l) ->
  load_head b d w = (w1, Ok tt) -> load_entities b (b_custom x) l w1 = (w2, l', Ok tt) -> sort_layer b w2 = (w3, Ok tt) ->
  blu w3 b = Some x3 -> wires_readable w3 b -> mentions w3 b n -> c_to n = None ->
  snd (load b (VDict d) w) = Err EAttribute.
Proof. exact p_C48_load_dangling. Qed.
Print Assumptions C48_dangling_reference_fails.

Definition wire_to (n : Z) : val :=
  VDict [(KS "1", VDict [(KS "red", VList [VDict [(KS "entity_id", VInt n)]])])].
Definition wired_thing (n m : Z) (name : string) (x y : Z) : dict :=
  (KS "connections", wire_to m) :: numbered_thing n name x y.
Example C48_ex :
  let w := run boot start in
  let good := ents_doc [wired_thing 5 9 "iron-chest" 3 3; wired_thing 9 5 "steel-chest" 0 0] in
  let bad := ents_doc [wired_thing 5 9 "iron-chest" 3 3; wired_thing 9 6 "steel-chest" 0 0] in
  nth 0 (wires (run [OLoad 0 good] w)) [] = [mkConn (Some 0%nat) (Some 1%nat) 1 1 "red"] /\
  snd (load 0 good w) = Ok tt /\ snd (load 0 bad w) = Err EAttribute.
Proof. vm_compute. auto. Qed.
