(** * Theorems about taking entities out of a blueprint and putting them back: C75. *)
From Verif Require Import Py Num NumFacts Util SpecUtil Classes Mixins Entity Setters World SpecWorld SpecDoc SpecEntity SpecAttr SpecValues SpecSetting SpecBehaviour SpecParts SpecTake Demo Props_Doc Props_Make Props_Reload Props_Parts.
From Verif Require Import TakeProofs.
From Verif Require TurnProofs.
From Coq Require Import Lia.
Open Scope string_scope. Open Scope Z_scope. Open Scope list_scope.

(** after entities were taken out, each of the others exports what it exported before, wires included; those taken out cannot be exported *)
Theorem C75_others : forall w b o gone x j, reachable w -> takes_out w b o gone -> blu w b = Some x -> In j (b_objs x) ->
  entity_alone (fst (step o w)) j = if gone j then Err EAttribute else entity_alone w j.
Proof. exact p_C75_others. Qed.
Print Assumptions C75_others.
(** the document is the old one without the entries of those taken out: no other entry and no other key changes *)
Theorem C75_document : forall w b o gone x d, reachable w -> takes_out w b o gone -> blu w b = Some x -> blueprint_doc w b = Ok (VDict [(KS "blueprint", VDict d)]) ->
  exists d' ds, blueprint_doc (fst (step o w)) b = Ok (VDict [(KS "blueprint", VDict d')]) /\ Forall2 (fun i v => entity_alone w i = Ok v) (b_objs x) ds /\
    says d "entities" (SpecParts.listed ds) /\ says d' "entities" (SpecParts.listed (leave_out gone (b_objs x) ds)) /\
    forall k, k <> KS "entities" -> dget k d' = dget k d.
Proof. exact p_C75_document. Qed.
Print Assumptions C75_document.
(** an entity that was the only one at its position, taken out and added again: nothing at all has changed *)
Theorem C75_put_back : forall w b i x, reachable w -> blu w b = Some x -> In i (b_objs x) -> in_place w (b_objs x) -> alone_there w (b_objs x) i ->
  step (OAdd b (OEnt i)) (fst (step (ORemove b (OEnt i)) w)) = (w, Ok tt).
Proof. exact p_C75_restore. Qed.
Print Assumptions C75_put_back.

(** ** Examples *)
Definition row : list op := [OMake 0 (chest 1 1); OMake 0 (chest 3 1); OMake 0 (chest 5 1); OConnect 0 (Some 2%nat) (VInt 1) (VInt 1) "red"].
Definition in_row : world := Eval vm_compute in run row booted.
Lemma row_reachable : reachable in_row.
Proof. change in_row with (run row booted). unfold row. cbn [run]. do 4 (apply reach_step; [|first [exact I|vm_compute; eexists; reflexivity]]). apply booted_reachable. Qed.
Example C75_ex : exists x d1 d2 d3, takes_out in_row 0 (ORemove 0 (OEnt 1)) (Nat.eqb 1) /\ takes_out in_row 0 (ODelAt 0 (mkVec (NI 3) (NI 1))) (fun i => existsb (Nat.eqb i) [1%nat]) /\
  blu in_row 0 = Some x /\ in_place in_row (b_objs x) /\ alone_there in_row (b_objs x) 1 /\
  map (entity_alone in_row) [0; 1; 2]%nat = [Ok d1; Ok d2; Ok d3] /\
  blueprint_doc (run [ORemove 0 (OEnt 1)] in_row) 0 = Ok (VDict [(KS "blueprint", VDict [(KS "item", VStr "blueprint"); (KS "label", VStr ""); (KS "entities", VList [d1; d3]); (KS "icons", VList []); (KS "version", VInt 0)])]).
Proof.
  do 4 eexists. split; [eapply to_remove; [vm_compute; reflexivity|cbn; auto]|]. split; [eapply to_delete; vm_compute; reflexivity|].
  split; [vm_compute; reflexivity|]. cbn [b_objs]. split; [split|split; [|split]].
  - intros i [<-|[<-|[<-|[]]]]; (eexists; split; [eexists; split; vm_compute; reflexivity|split; discriminate]).
  - intros k m i j L Hi Hj. destruct k as [|[|[|k]]]; destruct m as [|[|[|m]]]; cbn [nth_error] in Hi, Hj; try lia; try discriminate; try (destruct k; discriminate); try (destruct m; discriminate);
      injection Hi as <-; injection Hj as <-; (eexists; eexists; split; [eexists; split; vm_compute; reflexivity|split; [eexists; split; vm_compute; reflexivity|]]);
      right; (split; [vm_compute; reflexivity|left; vm_compute; reflexivity]).
  - intros k i Hi. destruct k as [|[|[|k]]]; cbn [nth_error] in Hi; [..|destruct k; discriminate]; injection Hi as <-; eexists; split; vm_compute; reflexivity.
  - intros j v u [<-|[<-|[<-|[]]]] N (e & He & Pe) (e' & He' & Pe') [A B]; try congruence; vm_compute in He, He'; injection He as <-; injection He' as <-; vm_compute in Pe, Pe'; injection Pe as <-; injection Pe' as <-; discriminate A.
  - vm_compute. reflexivity.
  - vm_compute. reflexivity.
Qed.
(** with another entity at the position the order changes, so in general it is false that putting back restores the document *)
Theorem C75_put_back_refuted : exists w b i, reachable w /\ snd (step (ORemove b (OEnt i)) w) = Ok tt /\
  snd (step (OAdd b (OEnt i)) (fst (step (ORemove b (OEnt i)) w))) = Ok tt /\
  blueprint_doc (fst (step (OAdd b (OEnt i)) (fst (step (ORemove b (OEnt i)) w)))) b <> blueprint_doc w b.
Proof.
  exists (run [OMake 0 (chest 1 1); OMake 0 (thing "wooden-chest" 1 1)] booted), 0%nat, 0%nat.
  split; [apply TurnProofs.run_reach; [reflexivity|apply booted_reachable]|]. split; [vm_compute; reflexivity|]. split; [vm_compute; reflexivity|]. vm_compute. discriminate.
Qed.
Print Assumptions C75_put_back_refuted.
