(** * Theorems about the classes composed from mixins: C46. *)
From Verif Require Import Py Num Util C3 Classes SpecClass C3Proofs Mixins Entity World SpecWorld LayerProofs ClassProofs
  EntityData Demo.

(** ** C46 *)
(** Python's merge gives a common linear order of the base classes' orders whenever there is one *)
Theorem C46_merge_is_a_linear_order :
  forall ls : list (list node),
  match c3_merge node_eqb (c3_size ls) ls with
  | Some r => linearises ls r
  | None => ~ exists r, NoDup r /\ forall l, In l ls -> subseq l r
  end.
Proof. exact p_C46_merge. Qed.
Print Assumptions C46_merge_is_a_linear_order.
(** every type of entity_prototypes.py gives a class, whatever the entity's class was before *)
Theorem C46_every_prototype_composes :
  forall ty ms ic, In (ty, ms) type_mixins -> exists ic', set_mixins ic ms = Ok ic'.
Proof. exact p_C46_total. Qed.
Print Assumptions C46_every_prototype_composes.
(** set_mixins: Entity, the mixins and their bases, each once, subclasses first *)
Theorem C46_set_mixins_order :
  forall ic ms ic', set_mixins ic ms = Ok ic' -> composed [CEntity; CBaseMixin; CBase; CObject] ms ic'.
Proof. exact p_C46_set. Qed.
Print Assumptions C46_set_mixins_order.
(** add_mixins, on any entity a program has made and on any list of mixins *)
Theorem C46_add_mixins_order :
  forall w i e ms ic', reachable w -> ent w i = Some e ->
  add_mixins (e_cls e) ms = Ok ic' -> composed (statics (e_cls e)) ms ic'.
Proof. intros w i e ms ic' R He. exact (p_C46_add _ ms ic' w i e R He eq_refl). Qed.
Print Assumptions C46_add_mixins_order.
(** it fails only when no order agrees with all the lists involved, and then with TypeError *)
Theorem C46_add_mixins_fails :
  forall ic ms, ~ In CEntity ms ->
  (add_mixins ic ms = Err EType \/ exists ic', add_mixins ic ms = Ok ic') /\
  ((exists ic', add_mixins ic ms = Ok ic') <->
   (exists r, NoDup r /\ subseq (ic_mro ic) r /\ (forall m, In m ms -> subseq (smro m) r) /\
              subseq (firstn 1 (ic_mro ic) ++ map NS ms) r) /\
   (exists k, NoDup k /\ subseq (ic_cb ic) k /\ (forall m, In m ms -> has_cb m = true -> subseq (cbmro m) k) /\
              subseq (firstn 1 (ic_cb ic) ++ map CombCB (filter has_cb ms)) k)).
Proof. exact p_C46_fails. Qed.
Print Assumptions C46_add_mixins_fails.
(** the class of every entity, at every time *)
Theorem C46_reachable_classes :
  forall w i e, reachable w -> ent w i = Some e ->
  well_ordered (statics (e_cls e)) /\ cb_well_ordered (cb_chain (e_cls e)) /\
  (exists l, statics (e_cls e) = CEntity :: l ++ [CBaseMixin; CBase; CObject]) /\
  forall c, In c (cb_chain (e_cls e)) <-> In c (statics (e_cls e)) /\ own_cb c = true.
Proof. exact p_C46_reachable. Qed.
Print Assumptions C46_reachable_classes.

(** an inserter *)
Example C46_inserter :
  option_map (fun e => statics (e_cls e)) (ent (run [OMake 0 (thing "inserter" 0 0)] demo) 4) =
    Some [CEntity; CCircuitCondition; CFilterInserter; CInserter; CRotatable; CBaseMixin; CBase; CObject] /\
  option_map (fun e => cb_chain (e_cls e)) (ent (run [OMake 0 (thing "inserter" 0 0)] demo) 4) =
    Some [CCircuitCondition; CInserter; CBaseMixin].
Proof. vm_compute. repeat split; reflexivity. Qed.
(** a superclass before its subclass, and two mixins added in the other order, have no order; a
    subclass added later comes before its superclass *)
Example C46_no_order :
  set_mixins entity_cls [COrientation; CTrain] = Err EType /\
  (let! ic := add_mixins entity_cls [CCircuitCondition; CRotatable] in add_mixins ic [CRotatable; CCircuitCondition]) = Err EType /\
  (let! ic := add_mixins entity_cls [CRotatable; CTrain] in let! ic := add_mixins ic [CCargo] in Ok (statics ic)) =
    Ok [CEntity; CRotatable; CCargo; CTrain; COrientation; CBaseMixin; CBase; CObject].
Proof. vm_compute. repeat split; reflexivity. Qed.
