(** * Theorems about documents: unknown names, books, icons, schedules, the caller's data:
      C31, C37, C39, C40, C41. *)
From Coq Require Import Sorting.Sorted.
From Verif Require Import Py Num Util Classes Mixins Entity World SpecWorld SpecDoc DictFacts KeepProofs DocProofs EntityData Demo LayerProofs.
Open Scope Z_scope.

Definition booted : world := Eval vm_compute in run boot start.

(** ** C31 *)
Theorem C31_make_rejects_unknown_names :
  forall w b x kw, blu w b = Some x -> unknown_name (w_protos w) kw -> checked kw ->
  step (OMake b kw) w = (w, Err EUnknownEntity).
Proof. exact p_C31_make. Qed.
Print Assumptions C31_make_rejects_unknown_names.
Theorem C31_entity_rejects_unknown_names :
  forall w l kw, (forall b, l = Some b -> blu w b <> None) -> unknown_name (w_protos w) kw -> checked kw ->
  step (ONewEntity l kw) w = (w, Err EUnknownEntity).
Proof. exact p_C31_new. Qed.
Print Assumptions C31_entity_rejects_unknown_names.
(** a document with such an entity is never loaded, whatever the blueprint's strict flag *)
Theorem C31_load_fails :
  forall w b doc kw, In (VDict kw) (doc_list (inner_doc doc) "entities") -> unknown_name (w_protos w) kw -> checked kw ->
  exists e, snd (step (OLoad b doc) w) = Err e.
Proof. exact p_C31_load. Qed.
Print Assumptions C31_load_fails.
(** when everything before it is fine, the error is UnknownEntity *)
Theorem C31_load_unknown_entity :
  forall w b x doc d pre kw post, blu w b = Some x -> holds doc d ->
  dget "entities" d = Some (VList (pre ++ VDict kw :: post)) -> dget "label_color" d = None -> dget "icons" d = None ->
  (forall v, In v pre -> exists kv e, v = VDict kv /\ snd (construct (w_protos w) (b_custom x) (Some b) kv) = Ok e) ->
  unknown_name (w_protos w) kw -> checked kw -> snd (step (OLoad b doc) w) = Err EUnknownEntity.
Proof. exact p_C31_first. Qed.
Print Assumptions C31_load_unknown_entity.
(** the entity's own strict = False lets any name through, with no mixin at all *)
Theorem C31_unchecked_entity :
  forall p cust l kw s sv pos q dir z, describes kw (VStr s) ->
  dget "strict" kw = Some sv -> truthy sv = false ->
  dget "position" kw = Some pos -> vec_of_val pos = Ok q ->
  odflt (VInt 0) (dget "direction" kw) = dir -> dir_of_val dir = Ok z ->
  dget "control_behavior" kw = None ->
  (forall k, dget k kw <> None -> exists s, k = KS s /\ In s entity_keys) ->
  construct p cust l kw =
    (kw, Ok (mkEnt false l (odflt VNone (dget "entity_number" kw)) (odflt VNone (dget "entity_number" kw)) (VStr s)
               entity_cls q z (odflt VNone (dget "connections" kw)) None [])).
Proof. exact p_C31_unchecked. Qed.
Print Assumptions C31_unchecked_entity.
(** an unknown name in a blueprint made with strict=False *)
Definition lax : world := Eval vm_compute in run [OImport shipped_file false; ONewBlueprint false []] start.
Example C31_ex :
  snd (step (OMake 0 (thing "moon-chest" 1 1)) lax) = Err EUnknownEntity /\
  snd (step (OLoad 0 (ents_doc [thing "iron-chest" 1 1; thing "moon-chest" 1 1])) lax) = Err EUnknownEntity /\
  let w := fst (step (OMake 0 ((KS "strict", VBool false) :: thing "moon-chest" 1 1)) booted) in
  map e_name (w_ents w) = [VStr "moon-chest"] /\ objs w = [[0%nat]].
Proof. vm_compute. auto. Qed.
Example C31_ex_applies : unknown_name (w_protos lax) (thing "moon-chest" 1 1) /\ checked (thing "moon-chest" 1 1).
Proof.
  split.
  - exists "moon-chest". split; [|vm_compute; reflexivity]. repeat split; try reflexivity. discriminate.
  - intros v E. discriminate.
Qed.

(** ** C37 *)
(** whatever happens, the caller's document only loses entries of combinator conditions and its
    schedules; a successful load always takes the schedules *)
Theorem C37_what_load_takes :
  forall w b doc d w' doc' r, holds doc d -> load b doc w = (w', doc', r) ->
  exists d', doc' = refilled doc d' /\ doc_spent d d' /\ (r = Ok tt -> dget "schedules" d' = None).
Proof. exact p_C37_load. Qed.
Print Assumptions C37_what_load_takes.
Theorem C37_other_documents :
  forall w b doc w' doc' r, (forall d, ~ holds doc d) -> load b doc w = (w', doc', r) ->
  doc' = doc /\ w' = w /\ exists e, r = Err e.
Proof. exact p_C37_rejected. Qed.
Print Assumptions C37_other_documents.
(** documents without schedules and combinator conditions are left as they are *)
Theorem C37_untouched :
  forall d d', doc_spent d d' -> dget "schedules" d = None ->
  (forall l v kw cb f, dget "entities" d = Some (VList l) -> In v l -> v = VDict kw ->
     dget "control_behavior" kw = Some (VDict cb) -> conditions f -> dget f cb = None) -> d' = d.
Proof. exact p_C37_untouched. Qed.
Print Assumptions C37_untouched.
(** after a successful load the conditions of every combinator are the empty dictionary *)
Theorem C37_conditions_emptied :
  forall w b x doc d w' doc' l k kw s data ty f cb, blu w b = Some x -> holds doc d -> load b doc w = (w', doc', Ok tt) ->
  dget "entities" d = Some (VList l) -> nth_error l k = Some (VDict kw) -> checked kw -> dget "name" kw = Some (VStr s) ->
  dget s (p_entity (w_protos w)) = Some (VDict data) -> dget "type" data = Some (VStr ty) -> conditions_of ty = Some f ->
  dget ty (b_custom x) = None -> dget "control_behavior" kw = Some (VDict cb) ->
  nth_error (doc_list (inner_doc doc') "entities") k = Some (VDict (dset "control_behavior" (VDict (dset f (VDict []) cb)) kw)).
Proof. exact p_C37_emptied. Qed.
Print Assumptions C37_conditions_emptied.
Definition adder : dict :=
  thing "arithmetic-combinator" 3 3 ++
  [(KS "control_behavior", VDict [(KS "arithmetic_conditions",
      VDict [(KS "first_constant", VInt 1); (KS "second_constant", VInt 2); (KS "operation", VStr "+");
             (KS "output_signal", VDict [(KS "type", VStr "virtual"); (KS "name", VStr "signal-A")])])])].
Definition spent_adder : dict :=
  thing "arithmetic-combinator" 3 3 ++ [(KS "control_behavior", VDict [(KS "arithmetic_conditions", VDict [])])].
(** the second load of the same object finds the conditions gone *)
Example C37_ex :
  let '(w, doc, r) := load 0 (ents_doc [adder]) booted in
  r = Ok tt /\ doc = ents_doc [spent_adder] /\ snd (load 0 doc w) = Err EKey.
Proof. vm_compute. auto. Qed.

(** ** C39 *)
(** a document without contents makes an empty blueprint empty again and nothing else *)
Theorem C39_loads_as_empty :
  forall w b x doc d, reachable w -> blu w b = Some x -> b_objs x = [] -> holds doc d -> bare d ->
  exists w' x', load b doc w = (w', doc, Ok tt) /\ blu w' b = Some x' /\
    b_objs x' = [] /\ b_tiles x' = [] /\ b_conns x' = [] /\ b_scheds x' = [] /\ b_icons x' = [None; None; None; None] /\
    b_item x' = odflt (VStr "blueprint") (dget "item" d) /\ b_label x' = odflt VNone (dget "label" d) /\
    b_version x' = odflt (VInt 0) (dget "version" d) /\
    w_ents w' = w_ents w /\ w_protos w' = w_protos w /\ (forall c, c <> b -> blu w' c = blu w c).
Proof. exact p_C39. Qed.
Print Assumptions C39_loads_as_empty.
Theorem C39_exports_as_empty :
  forall w b x, reachable w -> blu w b = Some x -> b_objs x = [] -> b_scheds x = [] -> b_icons x = [None; None; None; None] ->
  exists o, bp_json b w = (w, Ok (VDict [(KS "blueprint", VDict o)])) /\
    dget "item" o = Some (b_item x) /\ dget "version" o = Some (b_version x) /\ dget "icons" o = Some (VList []) /\
    dget "entities" o = None /\ dget "tiles" o = None /\ dget "schedules" o = None.
Proof. exact p_C39_export. Qed.
Print Assumptions C39_exports_as_empty.
(** a book of two blueprints: both are silently dropped *)
Definition book : val :=
  VDict [(KS "blueprint_book", VDict [(KS "blueprints", VList [ents_doc [thing "iron-chest" 1 1]; ents_doc [adder]]);
                                      (KS "active_index", VInt 0); (KS "item", VStr "blueprint-book")])].
Example C39_ex : holds book (match book with VDict d => d | _ => [] end) /\ bare (match book with VDict d => d | _ => [] end) /\
  let w := fst (step (OLoad 0 book) booted) in
  snd (bp_json 0 w) = Ok (VDict [(KS "blueprint", VDict [(KS "item", VStr "blueprint"); (KS "icons", VList []); (KS "version", VInt 0)])]).
Proof. split; [left; split; reflexivity|]. split; [repeat split; reflexivity|]. vm_compute. reflexivity. Qed.

(** ** C40 *)
(** every slot shows the last icon given for it *)
Theorem C40_slots :
  forall w b x doc d l w' doc', blu w b = Some x -> holds doc d -> dget "icons" d = Some (VList l) ->
  (forall v, In v l -> exists s z, icon_for (w_protos w) v s z /\ -3 <= z <= 4) ->
  load b doc w = (w', doc', Ok tt) ->
  exists x', blu w' b = Some x' /\ length (b_icons x') = 4%nat /\
    forall k o, nth_error (b_icons x') k = Some o -> shows (w_protos w) k l o.
Proof. exact p_C40_slots. Qed.
Print Assumptions C40_slots.
(** until the next load *)
Theorem C40_slots_stay :
  forall ops w b x, (forall o, In o ops -> is_load_of b o = false) -> blu w b = Some x ->
  exists x', blu (run ops w) b = Some x' /\ b_icons x' = b_icons x.
Proof. exact p_C40_kept. Qed.
Print Assumptions C40_slots_stay.
Theorem C40_export :
  forall w b w' doc, bp_json b w = (w', Ok doc) ->
  exists x l, blu w b = Some x /\ dget "icons" (inner_doc doc) = Some (VList l) /\ icon_docs (w_protos w) (b_icons x) l.
Proof. exact p_C40_export. Qed.
Print Assumptions C40_export.
Theorem C40_index_error :
  forall w b x doc d l v s z m, blu w b = Some x -> holds doc d -> colour_fine d ->
  dget "icons" d = Some (VList (l ++ v :: m)) ->
  (forall v, In v l -> exists s z, icon_for (w_protos w) v s z /\ -3 <= z <= 4) ->
  icon_for (w_protos w) v s z -> (z < -3 \/ 4 < z) -> snd (step (OLoad b doc) w) = Err EIndex.
Proof. exact p_C40_index. Qed.
Print Assumptions C40_index_error.
Theorem C40_unknown_signal :
  forall w b x doc d l v m, blu w b = Some x -> holds doc d -> colour_fine d ->
  dget "icons" d = Some (VList (l ++ v :: m)) ->
  (forall v, In v l -> exists s z, icon_for (w_protos w) v s z /\ -3 <= z <= 4) ->
  icon_unknown (w_protos w) v -> snd (step (OLoad b doc) w) = Err EUnknownSignal.
Proof. exact p_C40_unknown. Qed.
Print Assumptions C40_unknown_signal.
Definition icon (z : Z) (s : string) : val :=
  VDict [(KS "index", VInt z); (KS "signal", VDict [(KS "type", VStr "item"); (KS "name", VStr s)])].
Definition icons_doc (l : list val) : val := doc_of [(KS "icons", VList l)].
(** index 0 is slot 4, and the second icon for index 2 wins *)
Example C40_ex :
  let w := fst (step (OLoad 0 (icons_doc [icon 2 "iron-plate"; icon 0 "signal-A"; icon 2 "copper-plate"])) booted) in
  map b_icons (w_bps w) = [[None; Some (VStr "copper-plate"); None; Some (VStr "signal-A")]] /\
  snd (step (OLoad 0 (icons_doc [icon 5 "iron-plate"])) booted) = Err EIndex /\
  snd (step (OLoad 0 (icons_doc [icon (-4) "iron-plate"])) booted) = Err EIndex /\
  snd (step (OLoad 0 (icons_doc [icon 1 "moon-plate"])) booted) = Err EUnknownSignal.
Proof. vm_compute. auto. Qed.

(** ** C41 *)
(** every schedule holds, in order, the entities its numbers denote *)
Theorem C41_load :
  forall w b x doc d w' doc', blu w b = Some x -> holds doc d ->
  (dget "schedules" d = None \/ exists l, dget "schedules" d = Some (VList l)) ->
  (forall v dv, In v (doc_list d "schedules") -> v = VDict dv -> exists nums, dget "locomotives" dv = Some (VList nums)) ->
  load b doc w = (w', doc', Ok tt) ->
  exists x', blu w' b = Some x' /\ Forall2 (sched_of w' b) (doc_list d "schedules") (b_scheds x').
Proof. exact p_C41_load. Qed.
Print Assumptions C41_load.
(** the same entities, whatever is done before the next load *)
Theorem C41_schedules_stay :
  forall ops w b x, (forall o, In o ops -> is_load_of b o = false) -> blu w b = Some x ->
  exists x', blu (run ops w) b = Some x' /\ b_scheds x' = b_scheds x.
Proof. exact p_C41_kept. Qed.
Print Assumptions C41_schedules_stay.
Theorem C41_export :
  forall w b w' doc, bp_json b w = (w', Ok doc) ->
  exists x, blu w b = Some x /\ Forall2 (sched_doc w) (b_scheds x) (doc_list (inner_doc doc) "schedules") /\
    (b_scheds x = [] -> dget "schedules" (inner_doc doc) = None).
Proof. exact p_C41_export. Qed.
Print Assumptions C41_export.
(** the exported number of a listed locomotive is the number of that entity in the same document *)
Theorem C41_numbers_agree :
  forall w b x w' doc m s j i k, blu w b = Some x -> numbered w (b_objs x) -> bp_json b w = (w', Ok doc) ->
  nth_error (b_scheds x) m = Some s -> nth_error (fst s) j = Some i -> nth_error (b_objs x) k = Some i ->
  exists nums d, nth_error (doc_list (inner_doc doc) "schedules") m = Some (VDict [(KS "locomotives", VList nums); (KS "schedule", snd s)]) /\
    nth_error nums j = Some (VInt (Z.of_nat k + 1)) /\
    nth_error (doc_list (inner_doc doc) "entities") k = Some (VDict d) /\ dget "entity_number" d = Some (VInt (Z.of_nat k + 1)).
Proof. exact p_C41_denotes. Qed.
Print Assumptions C41_numbers_agree.
(** two locomotives, one number nobody has; a chest added above them shifts the numbers *)
Definition loco (n : Z) (x y : Z) : dict := numbered_thing n "locomotive" x y ++ [(KS "orientation", VInt 0)].
Definition trains : val :=
  doc_of [(KS "entities", VList [VDict (loco 1 2 8); VDict (loco 2 2 4)]);
          (KS "schedules", VList [VDict [(KS "locomotives", VList [VInt 1; VInt 9; VInt 2]); (KS "schedule", VList [])]])].
Definition sched_numbers (r : res val) : res (list val) :=
  match r with Ok doc => Ok (doc_list (inner_doc doc) "schedules") | Err e => Err e end.
Example C41_ex :
  let w := fst (step (OLoad 0 trains) booted) in
  let w2 := fst (step (OMake 0 (thing "iron-chest" 0 0)) w) in
  map b_scheds (w_bps w) = [[([0; 1]%nat, VList [])]] /\
  sched_numbers (snd (bp_json 0 w)) = Ok [VDict [(KS "locomotives", VList [VInt 2; VInt 1]); (KS "schedule", VList [])]] /\
  sched_numbers (snd (bp_json 0 w2)) = Ok [VDict [(KS "locomotives", VList [VInt 3; VInt 2]); (KS "schedule", VList [])]].
Proof. vm_compute. auto. Qed.
