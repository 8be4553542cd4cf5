(** * Theorems about blueprints built entity by entity: C74. *)
From Verif Require Import Py Num Util SpecUtil Classes Mixins Entity Setters World SpecWorld SpecDoc SpecEntity SpecAttr SpecValues SpecSetting SpecBehaviour SpecMake SpecWrite SpecExport SpecShow SpecParts SpecBuild Demo Props_Doc Props_Make Props_Reload Props_Show.
From Verif Require Import BuildProofs.
From Coq Require Import Permutation.
Open Scope string_scope. Open Scope Z_scope. Open Scope list_scope.

(** the document of a blueprint that was empty lists what each entity exported when it was new, in the order of (y, x) and with
    the numbers 1, 2, ...; if some of them could not be exported then, the blueprint fails as the first of these did *)
Theorem C74_document : forall w b x kws l w', reachable w -> blu w b = Some x -> b_objs x = [] -> b_conns x = [] -> builds b w kws l w' ->
  exists p x', arranged l p /\ blu w' b = Some x' /\
    b_item x' = b_item x /\ b_label x' = b_label x /\ b_label_color x' = b_label_color x /\ b_icons x' = b_icons x /\ b_version x' = b_version x /\ b_scheds x' = b_scheds x /\
    ((exists out, numbered_docs 1 p out) \/ exists e, first_bad p e) /\
    (forall e, first_bad p e -> blueprint_doc w' b = Err e) /\
    (forall out, numbered_docs 1 p out -> (forall u, In (Some u) (b_icons x) -> exists d, icon_doc (p_signal (w_protos w)) u (Ok d)) ->
      exists d, blueprint_doc w' b = Ok (VDict [(KS "blueprint", VDict d)]) /\ whole_doc w' x' d /\ says d "entities" (SpecParts.listed out)).
Proof. exact p_C74. Qed.
Print Assumptions C74_document.
(** every entity that was made has a position, so every list of descriptions that are made one after the other is such a building *)
Theorem C74_position : forall w b kw, reachable w -> (exists x, blu w b = Some x) -> snd (step (OMake b kw) w) = Ok tt ->
  exists v, has_pos (fst (step (OMake b kw) w)) (length (w_ents w)) v.
Proof. exact p_C74_position. Qed.
Print Assumptions C74_position.

(** ** Examples *)
(** made in this order: below, right, left, and a second one on the right *)
Definition bricks : list dict := [thing "iron-chest" 0 7; thing "stone-furnace" 5 0; thing "iron-chest" 1 0; thing "wooden-chest" 5 0].
Definition brick_doc (n : Z) (name : string) (x y : Z) : val :=
  VDict [(KS "entity_number", VInt n); (KS "name", VStr name); (KS "position", VDict [(KS "x", VInt x); (KS "y", VInt y)])].
Example C74_ex : exists l w' d, builds 0 booted bricks l w' /\ length l = 4%nat /\
  blueprint_doc w' 0 = Ok (VDict [(KS "blueprint", VDict d)]) /\
  dget "entities" d = Some (VList [brick_doc 1 "iron-chest" 1 0; brick_doc 2 "stone-furnace" 5 0; brick_doc 3 "wooden-chest" 5 0; brick_doc 4 "iron-chest" 0 7]).
Proof.
  do 3 eexists. split; [|split; [|split]].
  - unfold bricks. do 4 (eapply bu_next; [vm_compute; reflexivity|eexists; split; vm_compute; reflexivity|]). apply bu_none.
  - reflexivity.
  - vm_compute. reflexivity.
  - vm_compute. reflexivity.
Qed.
(** an accumulator that cannot be exported is put before a chest that stands below it *)
Example C74_bad_ex : exists l w' d, builds 0 booted [thing "iron-chest" 0 70; blank_accumulator] l w' /\ map snd l = [Ok d; Err EKey] /\ blueprint_doc w' 0 = Err EKey.
Proof.
  do 3 eexists. split; [|split].
  - do 2 (eapply bu_next; [vm_compute; reflexivity|eexists; split; vm_compute; reflexivity|]). apply bu_none.
  - vm_compute. reflexivity.
  - vm_compute. reflexivity.
Qed.
(** the number in a description is not the one in the document *)
Theorem C74_number_kept_refuted : exists w b kw d, reachable w /\ dget "entity_number" kw = Some (VInt 7) /\ snd (step (OMake b kw) w) = Ok tt /\
  export_of (OMake b) w kw = Ok (VDict d) /\ dget "entity_number" d = Some (VInt 1).
Proof. exists booted, 0%nat, (numbered_thing 7 "iron-chest" 0 0). eexists. split; [apply booted_reachable|]. split; [reflexivity|]. split; [|split]; vm_compute; reflexivity. Qed.
Print Assumptions C74_number_kept_refuted.
