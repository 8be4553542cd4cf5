(** * Theorems about assigning to the attributes of entities: C58. *)
From Verif Require Import Py Num Util Classes Mixins Entity Setters World SpecWorld SpecDoc SpecEntity SpecAttr AttrProofs EntityData Demo Props_Doc Props_Entity.
Open Scope Z_scope.

(** ** C58 *)
(** Making an entity and assigning afterwards comes to the same as making it with the value: the
    same world, or the same exception *)
Theorem C58_assigning_later_is_making_it_so :
  forall mk w kw k c v e, creating mk -> snd (step (mk kw) w) = Ok tt -> let n := length (w_ents w) in let w1 := fst (step (mk kw) w) in
  ent w1 n = Some e -> keyword_of k = Some c -> accepts e c ->
  snd (step (OSetAttr n k v) w1) = snd (step (mk (dset (attr_name k) v kw)) w) /\
  (snd (step (OSetAttr n k v) w1) = Ok tt -> fst (step (OSetAttr n k v) w1) = fst (step (mk (dset (attr_name k) v kw)) w)).
Proof. exact p_C58_later. Qed.
Print Assumptions C58_assigning_later_is_making_it_so.
(** in particular for the settings of the library's types *)
Theorem C58_settings_of_a_type_can_be_assigned :
  forall p cust layer kw (s ty : string) own cbk e k v, typed p kw s ty -> dget ty cust = None -> In (ty, (own, cbk)) formats ->
  snd (construct p cust layer kw) = Ok e -> In (attr_name k) own ->
  match snd (construct p cust layer (dset (attr_name k) v kw)) with
  | Ok e' => set_attr p k v e = (e', Ok tt)
  | Err x => snd (set_attr p k v e) = Err x
  end.
Proof. exact p_C58_typed. Qed.
Print Assumptions C58_settings_of_a_type_can_be_assigned.
(** No other entity exports anything else *)
Theorem C58_other_entities_keep_their_exports :
  forall i k v w j, j <> i -> snd (ent_json j (fst (step (OSetAttr i k v) w))) = snd (ent_json j w).
Proof. exact p_C58_others. Qed.
Print Assumptions C58_other_entities_keep_their_exports.
(** The entity itself can still be exported, and only the attribute's own key may differ,
    whether the assignment raised or not *)
Theorem C58_only_one_key_of_the_export_changes :
  forall i k v w w1 d, reachable w -> ent_json i w = (w1, Ok (VDict d)) ->
  exists d', snd (ent_json i (fst (step (OSetAttr i k v) w))) = Ok (VDict d') /\ forall key, key <> KS (shown_at k) -> dget key d' = dget key d.
Proof. exact p_C58_frame. Qed.
Print Assumptions C58_only_one_key_of_the_export_changes.
(** Plain settings are exported as assigned *)
Theorem C58_what_was_assigned_is_exported :
  forall i k v w e d, reachable w -> ent w i = Some e -> In (home k) (statics (e_cls e)) ->
  as_given k = true \/ whole k = true /\ (v = VNone \/ exists z, v = VInt z) ->
  snd (step (OSetAttr i k v) w) = Ok tt -> snd (ent_json i (fst (step (OSetAttr i k v) w))) = Ok (VDict d) -> dget (KS (shown_at k)) d = shows v.
Proof. exact p_C58_shown. Qed.
Print Assumptions C58_what_was_assigned_is_exported.
(** A refused value changes nothing, but for the lists of filters *)
Theorem C58_refused_values_change_nothing :
  forall i k v w x, forgetful k = false -> snd (step (OSetAttr i k v) w) = Err x -> fst (step (OSetAttr i k v) w) = w.
Proof. exact p_C58_refused. Qed.
Print Assumptions C58_refused_values_change_nothing.
(** An entity without the mixin of the attribute ignores the assignment (a station name is
    stored all the same) *)
Theorem C58_foreign_attributes_have_no_effect :
  forall i k v w e, ent w i = Some e -> ~ In (home k) (statics (e_cls e)) -> k <> AStation -> fst (step (OSetAttr i k v) w) = w.
Proof. exact p_C58_idle. Qed.
Print Assumptions C58_foreign_attributes_have_no_effect.
(** Control behaviours: assigning is constructing, *)
Theorem C58_behaviours_assigned_later_are_made_so :
  forall mk w kw (s ty : string) own cbk (k : string) cb v e, creating mk -> uncustomised mk w ty -> typed (w_protos w) kw s ty -> In (ty, (own, cbk)) formats -> In k cbk -> ~ In k objects ->
  snd (step (mk (dset "control_behavior" (VDict cb) kw)) w) = Ok tt -> let n := length (w_ents w) in let w1 := fst (step (mk (dset "control_behavior" (VDict cb) kw)) w) in
  ent w1 n = Some e ->
  snd (step (OSetCb n k v) w1) = snd (step (mk (dset "control_behavior" (VDict (dset (KS k) v cb)) kw)) w) /\
  (snd (step (OSetCb n k v) w1) = Ok tt -> fst (step (OSetCb n k v) w1) = fst (step (mk (dset "control_behavior" (VDict (dset (KS k) v cb)) kw)) w)).
Proof. exact p_C58_cb_later. Qed.
Print Assumptions C58_behaviours_assigned_later_are_made_so.
(** also for the parts of a circuit condition; *)
Theorem C58_conditions_assigned_later_are_made_so :
  forall mk w kw (s ty : string) own cbk (g f : string) cb cc v e, creating mk -> uncustomised mk w ty -> typed (w_protos w) kw s ty -> In (ty, (own, cbk)) formats ->
  In "circuit_condition" cbk -> In (g, f) condition_parts -> dget "circuit_condition" cb = Some (VDict cc) ->
  snd (step (mk (dset "control_behavior" (VDict cb) kw)) w) = Ok tt -> let n := length (w_ents w) in let w1 := fst (step (mk (dset "control_behavior" (VDict cb) kw)) w) in
  ent w1 n = Some e -> let kw' := dset "control_behavior" (VDict (dset "circuit_condition" (VDict (dset (KS g) v cc)) cb)) kw in
  snd (step (OSetCb n f v) w1) = snd (step (mk kw') w) /\ (snd (step (OSetCb n f v) w1) = Ok tt -> fst (step (OSetCb n f v) w1) = fst (step (mk kw') w)).
Proof. exact p_C58_condition_later. Qed.
Print Assumptions C58_conditions_assigned_later_are_made_so.
(** no other entity and no other key of the export changes, *)
Theorem C58_behaviours_of_others_keep_their_exports :
  forall i k v w j, j <> i -> snd (ent_json j (fst (step (OSetCb i k v) w))) = snd (ent_json j w).
Proof. exact p_C58_cb_others. Qed.
Print Assumptions C58_behaviours_of_others_keep_their_exports.
Theorem C58_only_the_behaviour_changes :
  forall i k v w d d', reachable w -> snd (ent_json i w) = Ok (VDict d) -> snd (ent_json i (fst (step (OSetCb i k v) w))) = Ok (VDict d') ->
  forall key, key <> KS "control_behavior" -> dget key d' = dget key d.
Proof. exact p_C58_cb_frame. Qed.
Print Assumptions C58_only_the_behaviour_changes.
(** refused values change nothing, *)
Theorem C58_refused_behaviours_change_nothing :
  forall i k v w x, snd (step (OSetCb i k v) w) = Err x -> fst (step (OSetCb i k v) w) = w.
Proof. exact p_C58_cb_refused. Qed.
Print Assumptions C58_refused_behaviours_change_nothing.
(** and entities made without a control behaviour have none to assign to *)
Theorem C58_without_a_behaviour_there_is_nothing_to_assign_to :
  forall i k v w e, ent w i = Some e -> e_cb e = None -> step (OSetCb i k v) w = (w, Err EAttribute).
Proof. exact p_C58_cb_none. Qed.
Print Assumptions C58_without_a_behaviour_there_is_nothing_to_assign_to.

(** an inserter, a requester chest with a request, a lamp with a condition: entities 0, 1, 2 *)
Definition wants (n : string) (c : Z) : val := VList [VDict [(KS "index", VInt 1); (KS "name", VStr n); (KS "count", VInt c)]].
Definition lamp_cb : val :=
  VDict [(KS "circuit_condition", VDict [(KS "first_signal", sig "signal-A" "virtual"); (KS "constant", VInt 3); (KS "comparator", VStr ">")])].
Definition lit_ops : list op :=
  boot ++ [OMake 0 (thing "fast-inserter" 4 2); OMake 0 (thing "logistic-chest-requester" 6 2 ++ [(KS "request_filters", wants "iron-plate" 50)]);
                OMake 0 (thing "small-lamp" 8 2 ++ [(KS "control_behavior", lamp_cb)])].
Definition lit : world := Eval vm_compute in run lit_ops start.
Example lit_reachable : reachable lit.
Proof.
  assert (H : forall ops, Forall (fun o => forall w, op_ok w o) ops -> forall w, reachable w -> reachable (run ops w)).
  { induction ops as [|o ops IH]; intros F w R; [exact R|]. inversion F as [|? ? O F']; subst. cbn [run]. apply IH; [exact F'|]. apply reach_step; auto. }
  assert (E : lit = run lit_ops start) by (vm_compute; reflexivity). rewrite E. apply H; [|apply reach_start]. repeat constructor.
Qed.
Definition tells (i : nat) (o : op) (k : string) : res unit * option val :=
  let '(w', r) := step o lit in (r, match snd (ent_json i w') with Ok (VDict d) => dget (KS k) d | _ => None end).
Example C58_ex :
  tells 0 (OSetAttr 0 AOverride (VInt 7)) "override_stack_size" = (Ok tt, Some (VInt 7)) /\
  tells 0 (OSetAttr 0 AOverride (VStr "7")) "override_stack_size" = (Ok tt, Some (VInt 7)) /\
  tells 0 (OSetAttr 0 AOverride (VList [])) "override_stack_size" = (Err EType, None) /\
  tells 0 (OSetAttr 0 AFilterMode (VStr "greylist")) "filter_mode" = (Err EValue, None) /\
  tells 0 (OSetAttr 0 AFilterMode (VStr "blacklist")) "filter_mode" = (Ok tt, Some (VStr "blacklist")) /\
  tells 1 (OSetAttr 1 ABar (VInt 7)) "bar" = (Ok tt, None) /\
  tells 1 (OSetAttr 1 ARequests (wants "pipe" 2)) "request_filters" = (Ok tt, Some (wants "pipe" 2)) /\
  tells 2 (OSetCb 2 "use_colors" (VBool true)) "control_behavior" =
    (Ok tt, Some (VDict [(KS "use_colors", VBool true);
       (KS "circuit_condition", VDict [(KS "comparator", VStr ">"); (KS "first_signal", sig "signal-A" "virtual"); (KS "constant", VInt 3)])])) /\
  tells 2 (OSetCb 2 "comparator" (VStr "==")) "name" = (Err EValue, Some (VStr "small-lamp")) /\
  tells 0 (OSetCb 0 "use_colors" (VBool true)) "name" = (Err EAttribute, Some (VStr "fast-inserter")).
Proof. vm_compute. repeat split. Qed.
(** Requests are lost when the new ones are refused: the setter empties the list first *)
Theorem C58_refused_requests_refuted :
  exists w i v x e, reachable w /\ ent w i = Some e /\ snd (step (OSetAttr i ARequests v) w) = Err x /\
  (exists d, snd (ent_json i w) = Ok (VDict d) /\ dget "request_filters" d = Some (wants "iron-plate" 50)) /\
  (exists d, snd (ent_json i (fst (step (OSetAttr i ARequests v) w))) = Ok (VDict d) /\ dget "request_filters" d = None).
Proof.
  exists lit, 1%nat, (VList [VDict [(KS "index", VInt 1); (KS "name", VStr "moon-dust"); (KS "count", VInt 2)]]), EUnknownEntity.
  eexists. split; [apply lit_reachable|split; [vm_compute; reflexivity|split; [vm_compute; reflexivity|split; eexists; (split; [vm_compute; reflexivity|reflexivity])]]].
Qed.
Print Assumptions C58_refused_requests_refuted.
(** the premises of the first theorem hold for the inserter, those of the others for the lamp *)
Example C58_later_ex :
  (exists w kw e, snd (step (OMake 0 kw) w) = Ok tt /\ ent (fst (step (OMake 0 kw) w)) (length (w_ents w)) = Some e /\ keyword_of AOverride = Some CInserter /\ accepts e CInserter) /\
  (exists own cbk, In ("lamp", (own, cbk)) formats /\ In "circuit_condition" cbk /\ In "use_colors" cbk /\ typed (w_protos lit) (thing "small-lamp" 9 2) "small-lamp" "lamp").
Proof.
  split.
  - exists lit, (thing "fast-inserter" 5 5). eexists. split; [vm_compute; reflexivity|]. split; [vm_compute; reflexivity|]. split; [reflexivity|].
    eexists [_; _; _], _. split; [vm_compute; reflexivity|]. vm_compute. intuition discriminate.
  - eexists _, _. split; [cbn; auto 40|]. split; [cbn; auto 9|]. split; [cbn; auto 9|].
    repeat split; try (vm_compute; congruence). eexists. split; vm_compute; reflexivity.
Qed.
(** Items hands leftover keywords on as positional arguments: a container behind Items refuses
    the keyword but takes the assignment *)
Example C58_items_ex :
  let mk := OMake 1 in let w := fst (step (ONewBlueprint true [(KS "container", [CItems; CContainer])]) lit) in
  let kw := thing "steel-chest" 5 5 in let w1 := fst (step (mk kw) w) in
  snd (step (mk kw) w) = Ok tt /\ snd (step (mk (dset "bar" (VInt 3) kw)) w) = Err EType /\ snd (step (OSetAttr (length (w_ents w)) ABar (VInt 3)) w1) = Ok tt.
Proof. vm_compute. repeat split. Qed.
