(** * Theorems about the order in which entities are made: C76. *)
From Verif Require Import Py Num NumFacts Util SpecUtil Classes Mixins Entity Setters World SpecWorld SpecDoc SpecEntity SpecAttr SpecValues SpecSetting SpecBehaviour SpecMake SpecWrite SpecExport SpecShow SpecParts SpecBuild SpecOrder Demo Props_Doc Props_Make Props_Reload Props_Show Props_Build.
From Verif Require Import OrderProofs.
From Coq Require Import Permutation.
Open Scope string_scope. Open Scope Z_scope. Open Scope list_scope.

(** the same descriptions made in another order give the same document, or the same exception *)
Theorem C76_any_order : forall w b x kws kws' l l' w1 w2, reachable w -> blu w b = Some x -> b_objs x = [] -> b_conns x = [] -> b_scheds x = [] ->
  builds b w kws l w1 -> builds b w kws' l' w2 -> Permutation kws kws' -> apart l -> blueprint_doc w1 b = blueprint_doc w2 b.
Proof. exact p_C76_order. Qed.
Print Assumptions C76_any_order.
(** what can be made in one order can be made in every order *)
Theorem C76_every_order_possible : forall w b x kws kws' l w1, reachable w -> blu w b = Some x -> b_objs x = [] -> b_conns x = [] ->
  builds b w kws l w1 -> Permutation kws kws' -> exists l' w2, builds b w kws' l' w2.
Proof. exact p_C76_possible. Qed.
Print Assumptions C76_every_order_possible.

(** ** Examples *)
Definition three : list dict := [thing "iron-chest" 0 7; thing "stone-furnace" 5 0; thing "iron-chest" 1 0].
Example C76_ex : exists l l' w1 w2 d, builds 0 booted three l w1 /\ builds 0 booted (rev three) l' w2 /\ Permutation three (rev three) /\ apart l /\
  map snd l <> rev (map snd l') /\ blueprint_doc w1 0 = Ok (VDict [(KS "blueprint", VDict d)]) /\ blueprint_doc w2 0 = Ok (VDict [(KS "blueprint", VDict d)]) /\
  dget "entities" d = Some (VList [brick_doc 1 "iron-chest" 1 0; brick_doc 2 "stone-furnace" 5 0; brick_doc 3 "iron-chest" 0 7]).
Proof.
  do 5 eexists. split; [|split; [|split; [|split; [|split; [|split; [|split]]]]]].
  - unfold three. do 3 (eapply bu_next; [vm_compute; reflexivity|eexists; split; vm_compute; reflexivity|]). apply bu_none.
  - unfold three. cbn [rev app]. do 3 (eapply bu_next; [vm_compute; reflexivity|eexists; split; vm_compute; reflexivity|]). apply bu_none.
  - apply Permutation_rev.
  - intros k m a c N Ha Hc. apply (map_nth_error fst) in Ha. apply (map_nth_error fst) in Hc.
    assert (V : forall k, nth_error [mkVec (NI 0) (NI 7); mkVec (NI 5) (NI 0); mkVec (NI 1) (NI 0)] k = Some (fst a) -> nth_error [mkVec (NI 0) (NI 7); mkVec (NI 5) (NI 0); mkVec (NI 1) (NI 0)] m = Some (fst c) -> k <> m ->
      ~ (xeq (nval (vx (fst a))) (nval (vx (fst c))) /\ xeq (nval (vy (fst a))) (nval (vy (fst c))))); [|exact (V k Ha Hc N)].
    generalize (fst a) (fst c). clear. intros a c k Ha Hc N [X Y]. destruct k as [|[|[|k]]]; destruct m as [|[|[|m]]]; cbn [nth_error] in Ha, Hc; try congruence; try (destruct k; discriminate); try (destruct m; discriminate);
      injection Ha as <-; injection Hc as <-; discriminate X.
  - vm_compute. discriminate.
  - vm_compute. reflexivity.
  - vm_compute. reflexivity.
  - vm_compute. reflexivity.
Qed.
(** two at one position: then the order of making shows *)
Theorem C76_one_position_refuted : exists w b x kws kws' l l' w1 w2, reachable w /\ blu w b = Some x /\ b_objs x = [] /\ b_conns x = [] /\ b_scheds x = [] /\
  builds b w kws l w1 /\ builds b w kws' l' w2 /\ Permutation kws kws' /\ blueprint_doc w1 b <> blueprint_doc w2 b.
Proof.
  exists booted, 0%nat. eexists. exists [thing "iron-chest" 1 1; thing "wooden-chest" 1 1], [thing "wooden-chest" 1 1; thing "iron-chest" 1 1]. do 4 eexists.
  split; [apply booted_reachable|]. split; [vm_compute; reflexivity|]. do 3 (split; [reflexivity|]).
  split; [do 2 (eapply bu_next; [vm_compute; reflexivity|eexists; split; vm_compute; reflexivity|]); apply bu_none|].
  split; [do 2 (eapply bu_next; [vm_compute; reflexivity|eexists; split; vm_compute; reflexivity|]); apply bu_none|].
  split; [constructor|]. vm_compute. discriminate.
Qed.
Print Assumptions C76_one_position_refuted.
