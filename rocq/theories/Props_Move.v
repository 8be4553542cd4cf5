(** * Theorems about moving an entity from one blueprint to another: C79. *)
From Verif Require Import Py Num NumFacts Util SpecUtil Classes Mixins Entity Setters World SpecWorld SpecDoc SpecEntity SpecAttr SpecValues SpecSetting SpecBehaviour SpecMake SpecWrite SpecExport SpecShow SpecParts SpecMove Demo Props_Doc Props_Make Props_Reload Props_Show Props_Build Props_Order.
From Verif Require Import MoveProofs.
From Verif Require TurnProofs.
Open Scope string_scope. Open Scope Z_scope. Open Scope list_scope.

(** an entity without wires says in its new blueprint what it said in the old one, but for its number, which is its place in the list *)
Theorem C79_moved : forall w a b i xa xb w2, reachable w -> a <> b -> blu w a = Some xa -> blu w b = Some xb -> In i (b_objs xa) -> moves w a b i w2 ->
  no_wire_at xa i -> no_wire_at xb i ->
  exists x2 k, blu w2 b = Some x2 /\ nth_error (b_objs x2) k = Some i /\ same_but_number (Z.of_nat k + 1) (entity_alone w i) (entity_alone w2 i).
Proof. exact p_C79_moved. Qed.
Print Assumptions C79_moved.
(** the entities that were there get the numbers of their new places and keep the rest *)
Theorem C79_there : forall w a b i xa xb w2, reachable w -> a <> b -> blu w a = Some xa -> blu w b = Some xb -> In i (b_objs xa) -> moves w a b i w2 ->
  forall j, In j (b_objs xb) -> no_wire_at xb j ->
  exists x2 k, blu w2 b = Some x2 /\ nth_error (b_objs x2) k = Some j /\ same_but_number (Z.of_nat k + 1) (entity_alone w j) (entity_alone w2 j).
Proof. exact p_C79_there. Qed.
Print Assumptions C79_there.
(** the entities it left behind say exactly what they said *)
Theorem C79_left : forall w a b i xa xb w2, reachable w -> a <> b -> blu w a = Some xa -> blu w b = Some xb -> In i (b_objs xa) -> moves w a b i w2 ->
  forall j, In j (b_objs xa) -> j <> i -> no_wire_at xa j -> entity_alone w2 j = entity_alone w j.
Proof. exact p_C79_left. Qed.
Print Assumptions C79_left.

(** ** Examples *)
(** two blueprints: chests at (1, 0) and (0, 7) in the first, a furnace at (5, 0) in the second *)
Definition two_places : world := run [OMake 0 (thing "iron-chest" 0 7); OMake 0 (thing "wooden-chest" 1 0); ONewBlueprint true []; OMake 1 (thing "stone-furnace" 5 0)] booted.
Example C79_ex : exists xa xb w2, reachable two_places /\ blu two_places 0 = Some xa /\ blu two_places 1 = Some xb /\ b_objs xa = [1; 0]%nat /\ b_objs xb = [2]%nat /\ b_conns xa = [] /\ b_conns xb = [] /\
  moves two_places 0 1 1 w2 /\
  entity_alone two_places 0 = Ok (brick_doc 2 "iron-chest" 0 7) /\ entity_alone w2 0 = Ok (brick_doc 2 "iron-chest" 0 7) /\
  entity_alone two_places 1 = Ok (brick_doc 1 "wooden-chest" 1 0) /\ entity_alone w2 1 = Ok (brick_doc 1 "wooden-chest" 1 0) /\
  entity_alone two_places 2 = Ok (brick_doc 1 "stone-furnace" 5 0) /\ entity_alone w2 2 = Ok (brick_doc 2 "stone-furnace" 5 0).
Proof.
  do 2 eexists. exists (fst (step (OAdd 1 (OEnt 1)) (fst (step (ORemove 0 (OEnt 1)) two_places)))).
  split; [apply TurnProofs.run_reach; [reflexivity|apply booted_reachable]|].
  split; [vm_compute; reflexivity|]. split; [vm_compute; reflexivity|]. do 4 (split; [reflexivity|]).
  split; [apply moves_done; vm_compute; reflexivity|].
  do 5 (split; [vm_compute; reflexivity|]). vm_compute. reflexivity.
Qed.
(** two chests joined by a red wire, and an empty blueprint *)
Definition joined (n m x y : Z) : dict :=
  dset "entity_number" (VInt n) (dset "connections" (VDict [(KS "1", VDict [(KS "red", VList [VDict [(KS "entity_id", VInt m)]])])]) (thing "iron-chest" x y)).
Definition two_joined : world := run [OLoad 0 (ents_doc [joined 1 2 0 0; joined 2 1 3 0]); ONewBlueprint true []] booted.
(** a wire does not move along: the entity loses it, while the other end goes on listing a number that means another entity there *)
Theorem C79_wires_refuted : exists w a b i j xa xb w2 d d' f, reachable w /\ a <> b /\ blu w a = Some xa /\ blu w b = Some xb /\ In i (b_objs xa) /\ In j (b_objs xa) /\ j <> i /\ moves w a b i w2 /\ no_wire_at xb i /\
  entity_alone w i = Ok (VDict d) /\ dget "connections" d <> None /\ entity_alone w2 i = Ok (VDict d') /\ dget "connections" d' = None /\
  entity_alone w2 j = Ok (VDict f) /\ dget "entity_number" f = Some (VInt 1) /\
  dget "connections" f = Some (VDict [(KI 1, VDict [(KS "red", VList [VDict [(KS "entity_id", VInt 1)]])])]).
Proof.
  exists two_joined, 0%nat, 1%nat, 1%nat, 0%nat. do 2 eexists. exists (fst (step (OAdd 1 (OEnt 1)) (fst (step (ORemove 0 (OEnt 1)) two_joined)))). do 3 eexists.
  split; [apply TurnProofs.run_reach; [reflexivity|apply booted_reachable]|]. split; [discriminate|].
  split; [vm_compute; reflexivity|]. split; [vm_compute; reflexivity|]. split; [vm_compute; auto|]. split; [vm_compute; auto|]. split; [discriminate|].
  split; [apply moves_done; vm_compute; reflexivity|].
  split; [intros c []|]. split; [vm_compute; reflexivity|]. split; [vm_compute; discriminate|]. do 4 (split; [vm_compute; reflexivity|]). vm_compute. reflexivity.
Qed.
Print Assumptions C79_wires_refuted.
