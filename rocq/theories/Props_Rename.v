(** * Theorems about renaming entities: C47. *)
From Verif Require Import Py Num Util Classes Mixins Entity World SpecWorld SpecDoc SpecEntity SpecRename RenameProofs EntityData Demo Props_Doc Props_Entity.
Open Scope Z_scope.

(** ** C47 *)
(** An entity that was made as, or renamed to, something of type [ty], whatever happened to it
    since (but for set_mixins): it can be given every name of that type, and then exports what
    it exported before, with the new name; no other entity exports anything else. *)
Theorem C47_a_name_of_the_same_type_keeps_the_settings :
  forall wa o i (ty : string) ops w s, became wa o i ty -> Forall (leaves_mixins i) ops -> w = run ops (fst (step o wa)) -> reachable w ->
  plain_layer w i ty -> type_of (w_protos w) s ty ->
  exists w', rename i (VStr s) w = (w', Ok tt) /\ only_renamed w w' i s /\
    snd (ent_json i w') = with_new_name s (snd (ent_json i w)) /\ forall j, j <> i -> snd (ent_json j w') = snd (ent_json j w).
Proof. exact p_C47_same. Qed.
Print Assumptions C47_a_name_of_the_same_type_keeps_the_settings.
(** A new type with a setting the entity was not made with: the export breaks (if nothing was
    assigned to the entity's attributes in between) *)
Theorem C47_missing_settings_break_the_export :
  forall wa o i (ty0 ty : string) own0 cb0 own cb ops w s (k : string) w1 d w', made_as wa o i ty0 -> In (ty0, (own0, cb0)) formats -> In (ty, (own, cb)) formats ->
  Forall (leaves_settings i) ops -> w = run ops (fst (step o wa)) -> reachable w -> ent_json i w = (w1, Ok d) ->
  In k own -> ~ In k own0 -> ~ In k optional_settings ->
  type_of (w_protos w) s ty -> rename i (VStr s) w = (w', Ok tt) -> snd (ent_json i w') = Err EAttribute.
Proof. exact p_C47_missing. Qed.
Print Assumptions C47_missing_settings_break_the_export.
(** A new type without such a setting, no control behaviour: the export has the same settings *)
Theorem C47_without_new_settings_the_export_keeps_the_old_ones :
  forall wa o i (ty0 ty : string) own0 cb0 own cb ops w s w1 d w', made_as wa o i ty0 -> In (ty0, (own0, cb0)) formats -> In (ty, (own, cb)) formats ->
  Forall (leaves_settings i) ops -> w = run ops (fst (step o wa)) -> reachable w -> ent_json i w = (w1, Ok (VDict d)) ->
  (forall e, ent w i = Some e -> e_cb e = None) -> plain_layer w i ty ->
  (forall k, In k own -> In k own0 \/ In k optional_settings) ->
  type_of (w_protos w) s ty -> rename i (VStr s) w = (w', Ok tt) ->
  exists d', snd (ent_json i w') = Ok (VDict d') /\ dget "name" d' = Some (VStr s) /\
    forall k, k <> KS "name" -> k <> KS "direction" -> k <> KS "connections" -> dget k d' = dget k d.
Proof. exact p_C47_plain. Qed.
Print Assumptions C47_without_new_settings_the_export_keeps_the_old_ones.
(** Types whose mixins come in opposite orders: TypeError; the name has changed, nothing else *)
Theorem C47_opposite_mixin_orders_are_a_type_error :
  forall wa o i (ty0 ty : string) ops w s, made_as wa o i ty0 -> Forall (leaves_mixins i) ops -> w = run ops (fst (step o wa)) -> reachable w ->
  In (ty0, ty) clashes -> plain_layer w i ty -> type_of (w_protos w) s ty ->
  exists e, ent w i = Some e /\ rename i (VStr s) w = (upd_ent i (fun _ => with_name (VStr s) e) w, Err EType).
Proof. exact p_C47_clash. Qed.
Print Assumptions C47_opposite_mixin_orders_are_a_type_error.
(** for a new entity these are the only types it cannot be renamed to *)
Theorem C47_every_other_type_can_be_assigned :
  forall wa o i (ty0 ty : string) own0 cb0 own cb s, made_as wa o i ty0 -> In (ty0, (own0, cb0)) formats -> In (ty, (own, cb)) formats ->
  ~ In (ty0, ty) clashes -> let w := fst (step o wa) in plain_layer w i ty -> type_of (w_protos w) s ty ->
  exists w', rename i (VStr s) w = (w', Ok tt) /\ only_renamed w w' i s.
Proof. exact p_C47_known. Qed.
Print Assumptions C47_every_other_type_can_be_assigned.
Theorem C47_an_unknown_name_changes_nothing :
  forall i s w e, ent w i = Some e -> e_strict e = true -> dget (KS s) (p_entity (w_protos w)) = None -> rename i (VStr s) w = (w, Err EUnknownEntity).
Proof. exact p_C47_unknown. Qed.
Print Assumptions C47_an_unknown_name_changes_nothing.

(** a belt facing east, a filter inserter and a pipe, as entities 0, 1, 2 *)
Definition names_ops : list op :=
  boot ++ [OMake 0 (thing "transport-belt" 1 1 ++ [(KS "direction", VInt 2)]);
           OMake 0 (thing "filter-inserter" 2 1 ++ [(KS "filter_mode", VStr "blacklist")]); OMake 0 (thing "pipe" 3 1)].
Definition names : world := Eval vm_compute in run names_ops start.
Definition renamed (i : nat) (s : string) : res unit * val * res val :=
  let '(w', r) := step (ORename i (VStr s)) names in
  (r, match ent w' i with Some e => e_name e | None => VNone end, snd (ent_json i w')).
Example C47_ex :
  renamed 0 "express-transport-belt" = (Ok tt, VStr "express-transport-belt",
    Ok (VDict [(KS "entity_number", VInt 1); (KS "name", VStr "express-transport-belt"); (KS "position", ipt 1 1); (KS "direction", VInt 2)])) /\
  renamed 1 "fast-inserter" = (Ok tt, VStr "fast-inserter",
    Ok (VDict [(KS "entity_number", VInt 2); (KS "name", VStr "fast-inserter"); (KS "position", ipt 2 1); (KS "filter_mode", VStr "blacklist")])) /\
  renamed 0 "pipe" = (Ok tt, VStr "pipe",
    Ok (VDict [(KS "entity_number", VInt 1); (KS "name", VStr "pipe"); (KS "position", ipt 1 1); (KS "direction", VInt 2)])) /\
  renamed 2 "filter-inserter" = (Ok tt, VStr "filter-inserter", Err EAttribute) /\
  renamed 2 "assembling-machine-1" = (Ok tt, VStr "assembling-machine-1",
    Ok (VDict [(KS "entity_number", VInt 3); (KS "name", VStr "assembling-machine-1"); (KS "position", ipt 3 1)])) /\
  fst (renamed 1 "pump") = (Err EType, VStr "pump") /\ fst (renamed 0 "inserter") = (Err EType, VStr "inserter") /\
  fst (renamed 2 "moon-pipe") = (Err EUnknownEntity, VStr "pipe").
Proof. vm_compute. repeat split. Qed.
(** the first theorem's premises hold for the belt *)
Example C47_same_ex : exists wa o, became wa o 0 "transport-belt" /\ type_of (w_protos wa) "express-transport-belt" "transport-belt".
Proof.
  exists booted, (OMake 0 (thing "transport-belt" 1 1)). split; [|eexists; split; vm_compute; reflexivity]. split.
  - eexists _, _. split; [vm_compute; reflexivity|]. split; [reflexivity|]. split; [reflexivity|]. eexists. split; vm_compute; reflexivity.
  - left. split; [exact I|reflexivity].
Qed.
