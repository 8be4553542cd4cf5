(** * Theorems about the document of a blueprint and the documents of its parts: C73. *)
From Verif Require Import Py Num Util SpecUtil Classes Mixins Entity Setters World SpecWorld SpecDoc SpecEntity SpecAttr SpecValues SpecSetting SpecBehaviour SpecParts Demo Props_Doc Props_Make Props_Reload.
From Verif Require Import PartsProofs.
From Verif Require TurnProofs.
Open Scope string_scope. Open Scope Z_scope. Open Scope list_scope.

(** the export of a blueprint fails exactly with the exception of its first part that has no document *)
Theorem C73_failure : forall w b x e, reachable w -> blu w b = Some x -> (blueprint_doc w b = Err e <-> bad_part w x e).
Proof. exact p_C73_failure. Qed.
Print Assumptions C73_failure.
(** otherwise it says, key by key, what the parts say on their own *)
Theorem C73_document : forall w b x v, reachable w -> blu w b = Some x -> blueprint_doc w b = Ok v ->
  exists d, v = VDict [(KS "blueprint", VDict d)] /\ whole_doc w x d.
Proof. exact p_C73_document. Qed.
Print Assumptions C73_document.
(** the wires of an entity have no document exactly when one of them is loose, or their far ends have numbers of different kinds *)
Theorem C73_wires : forall w i en b x e, reachable w -> ent w i = Some en -> e_layer en = Some b -> blu w b = Some x ->
  plain_number (e_auto en) -> (forall n, far_number w x i n -> plain_number n) ->
  (snd (connections_to_json i w) = Err e <->
   (loose_wire x i /\ e = EAttribute) \/
   (~ loose_wire x i /\ (exists m n, far_number w x i m /\ far_number w x i n /\ ~ comparable m n) /\ e = EType)).
Proof. exact p_C73_wires. Qed.
Print Assumptions C73_wires.

(** ** Examples *)
Definition chest (x y : Z) : dict := thing "iron-chest" x y.
Definition one_chest (n : Z) (col : string) : val := VDict [(KS col, VList [VDict [(KS "entity_id", VInt n)]])].
Definition chest_doc (n x y : Z) (wires : dict) : val :=
  VDict [(KS "entity_number", VInt n); (KS "name", VStr "iron-chest"); (KS "position", VDict [(KS "x", VInt x); (KS "y", VInt y)]); (KS "connections", VDict wires)].
(** two chests with a wire between them, and one of them wired to itself *)
Definition wiring : list op := [OMake 0 (chest 1 1); OMake 0 (chest 3 1); OConnect 1 (Some 0%nat) (VInt 1) (VInt 1) "red"; OConnect 0 (Some 0%nat) (VInt 1) (VInt 2) "red"].
Definition wired : world := Eval vm_compute in run wiring booted.
Lemma wired_reachable : reachable wired.
Proof.
  change wired with (run wiring booted). unfold wiring. cbn [run].
  do 4 (apply reach_step; [|first [exact I|vm_compute; eexists; reflexivity]]). apply booted_reachable.
Qed.
Example C73_ex : exists v1 v2, entity_alone wired 0 = Ok v1 /\ entity_alone wired 1 = Ok v2 /\ v2 = chest_doc 2 3 1 [(KI 1, one_chest 1 "red")] /\
  blueprint_doc wired 0 = Ok (VDict [(KS "blueprint", VDict [(KS "item", VStr "blueprint"); (KS "label", VStr ""); (KS "entities", VList [v1; v2]); (KS "icons", VList []); (KS "version", VInt 0)])]).
Proof. do 2 eexists. repeat split; vm_compute; reflexivity. Qed.
(** an icon without a name is loaded; then the blueprint has no document, though both of its entities have *)
Definition iconic (n1 n3 : string) : op :=
  OLoad 0 (doc_of [(KS "icons", VList [VDict [(KS "index", VInt 1); (KS "signal", VDict [(KS "name", VStr n1)])]; VDict [(KS "index", VInt 3); (KS "signal", VDict [(KS "name", VStr n3)])]])]).
Definition blank_icon : world := Eval vm_compute in run [OMake 0 (chest 1 1); OMake 0 (chest 3 1); iconic "coal" ""] booted.
Lemma blank_reachable : reachable blank_icon.
Proof. change blank_icon with (run [OMake 0 (chest 1 1); OMake 0 (chest 3 1); iconic "coal" ""] booted). apply TurnProofs.run_reach; [reflexivity|apply booted_reachable]. Qed.
Example C73_icon_ex : exists x, blu blank_icon 0 = Some x /\ b_objs x = [0; 1]%nat /\ b_icons x = [Some (VStr "coal"); None; Some (VStr ""); None] /\
  snd (step (iconic "coal" "") (run [OMake 0 (chest 1 1); OMake 0 (chest 3 1)] booted)) = Ok tt /\ bad_part blank_icon x EKey /\ blueprint_doc blank_icon 0 = Err EKey.
Proof.
  eexists. split; [vm_compute; reflexivity|]. split; [reflexivity|]. split; [reflexivity|]. split; [vm_compute; reflexivity|]. split; [|vm_compute; reflexivity].
  apply (bp_icon _ _ [Some (VStr "coal"); None] (VStr "") [None]).
  - cbn [b_objs In]. intros j [<-|[<-|[]]]; eexists; vm_compute; reflexivity.
  - reflexivity.
  - intros u [[= <-]|[[=]|[]]]. eexists. apply ic_name. eapply sd_ok; [vm_compute; reflexivity|]. econstructor 1; vm_compute; reflexivity.
  - apply ic_name, sd_unknown. vm_compute. reflexivity.
Qed.
(** so it is false that a blueprint that was loaded can be exported *)
Theorem C73_loaded_refuted : exists w b doc, reachable w /\ snd (step (OLoad b doc) w) = Ok tt /\ blueprint_doc (fst (step (OLoad b doc) w)) b = Err EKey.
Proof. exists booted, 0%nat, (doc_of [(KS "icons", VList [VDict [(KS "index", VInt 1); (KS "signal", VDict [(KS "name", VStr "")])]])]). split; [apply booted_reachable|split; vm_compute; reflexivity]. Qed.
Print Assumptions C73_loaded_refuted.
(** two good icons, and their slots *)
Example C73_icons_ex : exists d, blueprint_doc (run [iconic "coal" "signal-A"] booted) 0 = Ok (VDict [(KS "blueprint", VDict d)]) /\
  dget "icons" d = Some (VList [VDict [(KS "index", VInt 1); (KS "signal", VDict [(KS "name", VStr "coal"); (KS "type", VStr "item")])];
                                VDict [(KS "index", VInt 3); (KS "signal", VDict [(KS "name", VStr "signal-A"); (KS "type", VStr "virtual")])]]).
Proof. eexists. split; vm_compute; reflexivity. Qed.
(** a wire to nothing, and wires to an entity that has a number and one that has none *)
Definition to_nothing : world := Eval vm_compute in run [OConnect 0 None (VInt 1) (VInt 1) "red"] wired.
Definition to_outside : world := Eval vm_compute in run [ONewEntity None (chest 5 5); OConnect 0 (Some 2%nat) (VInt 1) (VInt 1) "red"] wired.
Example C73_wires_ex :
  (exists x, blu to_nothing 0 = Some x /\ loose_wire x 0) /\ snd (connections_to_json 0 to_nothing) = Err EAttribute /\ blueprint_doc to_nothing 0 = Err EAttribute /\
  (exists x, blu to_outside 0 = Some x /\ far_number to_outside x 0 VNone /\ far_number to_outside x 0 (VInt 2)) /\
  snd (connections_to_json 0 to_outside) = Err EType /\ blueprint_doc to_outside 0 = Err EType /\ exists d, snd (connections_to_json 1 to_outside) = Ok d.
Proof.
  split; [|split; [vm_compute; reflexivity|split; [vm_compute; reflexivity|split; [|repeat split; try eexists; vm_compute; reflexivity]]]].
  - eexists. split; [vm_compute; reflexivity|]. eexists. split; [cbn; right; right; left; reflexivity|]. left. split; reflexivity.
  - eexists. split; [vm_compute; reflexivity|]. split.
    + eexists _, 2%nat, _. split; [cbn; right; right; left; reflexivity|]. split; [left; split; reflexivity|]. split; vm_compute; reflexivity.
    + eexists _, 1%nat, _. split; [cbn; left; reflexivity|]. split; [right; split; reflexivity|]. split; vm_compute; reflexivity.
Qed.
