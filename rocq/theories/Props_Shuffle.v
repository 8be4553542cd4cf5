(** * Theorems about the order of the entities in a document: C78. *)
From Verif Require Import Py Num NumFacts Util SpecUtil Classes Mixins Entity Setters World SpecWorld SpecDoc SpecEntity SpecAttr SpecValues SpecSetting SpecBehaviour SpecMake SpecWrite SpecExport SpecShow SpecParts SpecBuild SpecOrder SpecSame SpecShuffle Demo Props_Doc Props_Make Props_Reload Props_Show Props_Build Props_Order.
From Verif Require Import SameProofs ShuffleProofs.
From Coq Require Import Permutation.
Open Scope string_scope. Open Scope Z_scope. Open Scope list_scope.

(** the same descriptions in another order: the entities, taken in order, have the same documents or exceptions *)
Theorem C78_entities : forall w b x doc1 doc2 d1 d2 w1 w2 r1 r2 kws1 kws2, reachable w -> blu w b = Some x -> b_objs x = [] -> b_conns x = [] -> holds doc1 d1 -> holds doc2 d2 ->
  load b doc1 w = (w1, r1, Ok tt) -> load b doc2 w = (w2, r2, Ok tt) -> lists_unwired d1 kws1 -> lists_unwired d2 kws2 -> Permutation kws1 kws2 -> spread w1 b ->
  entities_alike w1 w2 b.
Proof. exact p_C78_alike. Qed.
Print Assumptions C78_entities.
(** so the two exports list the same entities *)
Theorem C78_export : forall w b x doc1 doc2 d1 d2 w1 w2 r1 r2 kws1 kws2, reachable w -> blu w b = Some x -> b_objs x = [] -> b_conns x = [] -> holds doc1 d1 -> holds doc2 d2 ->
  load b doc1 w = (w1, r1, Ok tt) -> load b doc2 w = (w2, r2, Ok tt) -> lists_unwired d1 kws1 -> lists_unwired d2 kws2 -> Permutation kws1 kws2 -> spread w1 b ->
  same_entities_exported w1 w2 b.
Proof. exact p_C78_export. Qed.
Print Assumptions C78_export.

(** ** Examples *)
Example C78_ex : exists w1 w2 r1 r2 e1 e2, load 0 (ents_doc three) booted = (w1, r1, Ok tt) /\ load 0 (ents_doc (rev three)) booted = (w2, r2, Ok tt) /\
  lists_unwired [(KS "entities", VList (map VDict three))] three /\ lists_unwired [(KS "entities", VList (map VDict (rev three)))] (rev three) /\ spread w1 0 /\ r1 <> r2 /\
  blueprint_doc w1 0 = Ok (VDict [(KS "blueprint", VDict e1)]) /\ blueprint_doc w2 0 = Ok (VDict [(KS "blueprint", VDict e2)]) /\
  dget "entities" e2 = Some (VList [brick_doc 1 "iron-chest" 1 0; brick_doc 2 "stone-furnace" 5 0; brick_doc 3 "iron-chest" 0 7]).
Proof.
  do 2 eexists. exists (snd (fst (load 0 (ents_doc three) booted))), (snd (fst (load 0 (ents_doc (rev three)) booted))). do 2 eexists.
  split; [apply load_done; vm_compute; reflexivity|]. split; [apply load_done; vm_compute; reflexivity|].
  split; [split; [reflexivity|intros kw [<-|[<-|[<-|[]]]]; reflexivity]|]. split; [split; [reflexivity|intros kw [<-|[<-|[<-|[]]]]; reflexivity]|].
  split; [|split; [vm_compute; discriminate|split; [vm_compute; reflexivity|split; [vm_compute; reflexivity|vm_compute; reflexivity]]]].
  intros x i j u v Hx Hi Hj N (e & He & Pe) (f & Hf & Pf).
  assert (O : option_map b_objs (Some x) = Some [2; 1; 0]%nat) by (rewrite <- Hx; vm_compute; reflexivity). injection O as O. rewrite O in Hi, Hj. clear O Hx x.
  match type of He with ent ?W _ = _ => assert (V : forall k, In k [2; 1; 0]%nat -> forall g t, ent W k = Some g -> e_pos g = Some t ->
     (k = 2%nat /\ t = mkVec (NI 1) (NI 0)) \/ (k = 1%nat /\ t = mkVec (NI 5) (NI 0)) \/ (k = 0%nat /\ t = mkVec (NI 0) (NI 7))) end.
  { clear. intros k Hk g t Hg Pg. apply (f_equal (option_map e_pos)) in Hg. cbn [option_map] in Hg. rewrite Pg in Hg. clear Pg.
    destruct Hk as [<-|[<-|[<-|[]]]]; vm_compute in Hg; injection Hg as <-; auto. }
  pose proof (V i Hi e u He Pe) as A. pose proof (V j Hj f v Hf Pf) as B. clear V He Hf Pe Pf e f Hi Hj. intros [X Y].
  destruct A as [[-> ->]|[[-> ->]|[-> ->]]]; destruct B as [[-> ->]|[[-> ->]|[-> ->]]]; try (apply N; reflexivity); first [discriminate X|discriminate Y].
Qed.
(** two at one position: then the order of the document shows *)
Theorem C78_one_position_refuted : exists w b x doc1 doc2 d1 d2 w1 w2 r1 r2 kws1 kws2, reachable w /\ blu w b = Some x /\ b_objs x = [] /\ b_conns x = [] /\ holds doc1 d1 /\ holds doc2 d2 /\
  load b doc1 w = (w1, r1, Ok tt) /\ load b doc2 w = (w2, r2, Ok tt) /\ lists_unwired d1 kws1 /\ lists_unwired d2 kws2 /\ Permutation kws1 kws2 /\ ~ same_entities_exported w1 w2 b.
Proof.
  pose (k1 := [thing "iron-chest" 1 1; thing "wooden-chest" 1 1]). pose (k2 := [thing "wooden-chest" 1 1; thing "iron-chest" 1 1]).
  exists booted, 0%nat. eexists. exists (ents_doc k1), (ents_doc k2), [(KS "entities", VList (map VDict k1))], [(KS "entities", VList (map VDict k2))]. do 4 eexists. exists k1, k2.
  split; [apply booted_reachable|]. split; [vm_compute; reflexivity|]. do 2 (split; [reflexivity|]).
  do 2 (split; [right; eexists; split; reflexivity|]). do 2 (split; [apply load_done; vm_compute; reflexivity|]).
  do 2 (split; [split; [reflexivity|intros kw [<-|[<-|[]]]; reflexivity]|]). split; [constructor|].
  eapply exported_differ; [vm_compute; reflexivity|vm_compute; reflexivity|vm_compute; discriminate].
Qed.
Print Assumptions C78_one_position_refuted.
