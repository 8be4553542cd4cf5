(** * Theorems about loading a document and making its entities one by one: C77. *)
From Verif Require Import Py Num NumFacts Util SpecUtil Classes Mixins Entity Setters World SpecWorld SpecDoc SpecEntity SpecAttr SpecValues SpecSetting SpecBehaviour SpecMake SpecWrite SpecExport SpecShow SpecParts SpecBuild SpecOrder SpecSame Demo Props_Doc Props_Make Props_Reload Props_Show Props_Build Props_Order.
From Verif Require Import SameProofs.
Open Scope string_scope. Open Scope Z_scope. Open Scope list_scope.

(** both ways give the same entities in the same order, with the same numbers and the same documents *)
Theorem C77_same_entities : forall w b x doc d w' doc' kws l w1, reachable w -> blu w b = Some x -> b_objs x = [] -> b_conns x = [] ->
  holds doc d -> load b doc w = (w', doc', Ok tt) -> lists_unwired d kws -> builds b w kws l w1 -> same_content w' w1 b.
Proof. intros w b x doc d w' doc' kws l w1 R Hx E C Hd H [D N] B. exact (p_C77_same w b x doc d w' doc' kws l w1 R Hx E C Hd H D N B). Qed.
Print Assumptions C77_same_entities.
(** and the two exports list the same entities *)
Theorem C77_same_export : forall w b x doc d w' doc' kws l w1, reachable w -> blu w b = Some x -> b_objs x = [] -> b_conns x = [] ->
  holds doc d -> load b doc w = (w', doc', Ok tt) -> lists_unwired d kws -> builds b w kws l w1 -> same_entities_exported w' w1 b.
Proof. intros w b x doc d w' doc' kws l w1 R Hx E C Hd H [D N] B. exact (p_C77_export w b x doc d w' doc' kws l w1 R Hx E C Hd H D N B). Qed.
Print Assumptions C77_same_export.
(** what can be loaded can be made one by one, with or without wires *)
Theorem C77_possible : forall w b x doc d w' doc' (kws : list dict), reachable w -> blu w b = Some x -> b_objs x = [] -> holds doc d -> load b doc w = (w', doc', Ok tt) ->
  doc_list d "entities" = map VDict kws -> exists l w1, builds b w kws l w1.
Proof. exact p_C77_possible. Qed.
Print Assumptions C77_possible.

(** ** Examples *)
(** three entities, two of them out of order; each way gives the same list *)
Example C77_ex : exists d w' doc' l w1 e1 e2, holds (doc_of d) d /\ load 0 (doc_of d) booted = (w', doc', Ok tt) /\ lists_unwired d three /\ builds 0 booted three l w1 /\
  blueprint_doc w' 0 = Ok (VDict [(KS "blueprint", VDict e1)]) /\ blueprint_doc w1 0 = Ok (VDict [(KS "blueprint", VDict e2)]) /\
  dget "entities" e1 = Some (VList [brick_doc 1 "iron-chest" 1 0; brick_doc 2 "stone-furnace" 5 0; brick_doc 3 "iron-chest" 0 7]) /\ dget "label" e1 <> dget "label" e2.
Proof.
  set (d := [(KS "label", VStr "shop"); (KS "entities", VList (map VDict three))]).
  exists d, (fst (fst (load 0 (doc_of d) booted))), (snd (fst (load 0 (doc_of d) booted))). do 4 eexists.
  split; [right; eexists; split; reflexivity|]. split; [apply load_done; vm_compute; reflexivity|].
  split; [split; [reflexivity|intros kw [<-|[<-|[<-|[]]]]; reflexivity]|].
  split; [unfold three; do 3 (eapply bu_next; [vm_compute; reflexivity|eexists; split; vm_compute; reflexivity|]); apply bu_none|].
  split; [vm_compute; reflexivity|]. split; [vm_compute; reflexivity|]. split; [vm_compute; reflexivity|vm_compute; discriminate].
Qed.
(** two descriptions joined by a red wire, as in the document of a blueprint *)
Definition wired (n m : Z) (x y : Z) : dict :=
  dset "entity_number" (VInt n) (dset "connections" (VDict [(KS "1", VDict [(KS "red", VList [VDict [(KS "entity_id", VInt m)]])])]) (thing "iron-chest" x y)).
(** with wires in the descriptions the two ways differ: making an entity does not read its wires *)
Theorem C77_wires_refuted : exists w b x doc d w' doc' kws l w1, reachable w /\ blu w b = Some x /\ b_objs x = [] /\ b_conns x = [] /\
  holds doc d /\ load b doc w = (w', doc', Ok tt) /\ doc_list d "entities" = map VDict kws /\ builds b w kws l w1 /\ ~ same_content w' w1 b /\ ~ same_entities_exported w' w1 b.
Proof.
  set (k := [wired 1 2 0 0; wired 2 1 3 0]). set (doc := ents_doc k).
  exists booted, 0%nat. eexists. exists doc, [(KS "entities", VList (map VDict k))], (fst (fst (load 0 doc booted))), (snd (fst (load 0 doc booted))), k. do 2 eexists.
  split; [apply booted_reachable|]. split; [vm_compute; reflexivity|]. do 2 (split; [reflexivity|]).
  split; [right; eexists; split; reflexivity|]. split; [apply load_done; vm_compute; reflexivity|]. split; [reflexivity|].
  split; [unfold k; do 2 (eapply bu_next; [vm_compute; reflexivity|eexists; split; vm_compute; reflexivity|]); apply bu_none|]. split.
  - intros (x1 & x2 & H1 & _ & _ & C & _). apply (f_equal (option_map b_conns)) in H1. cbn [option_map] in H1. rewrite C in H1. clear -H1. vm_compute in H1. discriminate H1.
  - eapply exported_differ; [vm_compute; reflexivity|vm_compute; reflexivity|vm_compute; discriminate].
Qed.
Print Assumptions C77_wires_refuted.
