(** * Theorems about blueprints not disturbing each other: C54. *)
From Verif Require Import Py Num Util Classes Mixins Entity World SpecWorld SpecFrame FrameStep EntityData Demo.
Open Scope Z_scope.

(** ** C54 *)
(** a call that is not made on the blueprint, nor on an entity its document speaks about, nor on
    a blueprint that lists such an entity, changes nothing about the blueprint: its contents, its
    entities, its export, what is found at a point, its extent *)
Theorem C54_foreign_calls_do_not_disturb :
  forall w b o, reachable w -> blu w b <> None -> foreign w o b -> undisturbed w (fst (step o w)) b.
Proof. exact p_C54_step. Qed.
Print Assumptions C54_foreign_calls_do_not_disturb.
(** the same for any number of such calls *)
Theorem C54_foreign_histories_do_not_disturb :
  forall b ops w, reachable w -> blu w b <> None -> foreign_history b ops w -> undisturbed w (run ops w) b.
Proof. exact p_C54_history. Qed.
Print Assumptions C54_foreign_histories_do_not_disturb.
(** when the blueprint speaks about its own entities only, every call on another blueprint or on
    an entity that is not listed in it is such a call (prototype tables aside) *)
Theorem C54_self_contained :
  forall w b o, reachable w -> self_contained w b -> ~ sets_prototypes o -> ~ calls_blueprint w o b ->
  (forall i, calls_entity o i -> ~ listed w b i) -> foreign w o b.
Proof. exact p_C54_self. Qed.
Print Assumptions C54_self_contained.
(** and the blueprint goes on speaking about its own entities only *)
Theorem C54_stays_self_contained :
  forall w w' b, undisturbed w w' b -> self_contained w b -> self_contained w' b.
Proof. exact p_C54_stays. Qed.
Print Assumptions C54_stays_self_contained.

(** two blueprints with two chests each; entities 0, 1 and 2, 3 *)
Definition pair_ops : list op :=
  boot ++ [ONewBlueprint true []; OMake 0 (thing "steel-chest" 0 0); OMake 0 (thing "iron-chest" 4 0);
           OMake 1 (thing "steel-chest" 0 0); OMake 1 (thing "iron-chest" 4 0);
           OConnect 0 (Some 1%nat) (VInt 1) (VInt 1) "red"].
Definition two_bps : world := Eval vm_compute in run pair_ops start.
Definition busy_ops : list op :=
  [OMake 1 (thing "wooden-chest" 0 0); ORotate 1 2 (mkVec (NI 0) (NI 0)) RDefault; ORemove 1 (OEnt 3); OExport 1].
Lemma two_bps_reachable : reachable two_bps.
Proof.
  assert (H : forall ops, Forall (fun o => forall w, op_ok w o) ops -> forall w, reachable w -> reachable (run ops w)).
  { induction 1; cbn; auto. intros w R. apply IHForall. constructor; auto. }
  set (o := OConnect 0 (Some 1%nat) (VInt 1) (VInt 1) "red").
  set (w := run (firstn 7 pair_ops) start).
  assert (R : reachable w). { apply H; [|constructor]. repeat constructor. }
  change two_bps with (fst (step o w)). constructor; auto. eexists. vm_compute. reflexivity.
Qed.
(** blueprint 0 is not disturbed by a busy history on blueprint 1 *)
Example C54_ex : forall w', w' = run busy_ops two_bps ->
  foreign_history 0 busy_ops two_bps /\ map b_objs (w_bps w') = [[0; 1]; [2; 4]]%nat /\ snd (bp_json 0 w') = snd (bp_json 0 two_bps).
Proof.
  intros w' ->. split; [|vm_compute; split; reflexivity].
  assert (S0 : self_contained two_bps 0).
  { intros i (x & Hx & H). exists x. split; auto. injection Hx as <-. destruct H as [H|[(c & [<-|[]] & H)|(s & [] & _)]]; auto.
    destruct H as [H|H]; injection H as <-; cbn; auto. }
  assert (H : forall ops w, reachable w -> blu w 0 <> None -> self_contained w 0 ->
    Forall (fun o => ~ sets_prototypes o /\ match o with OMake 1 _ | ORotate 1 _ _ _ | OExport 1 => True | ORemove 1 (OEnt 3) => ~ listed w 0 3 | _ => False end) ops ->
    foreign_history 0 ops w).
  { induction ops as [|o r IH]; intros w R HB S F; [constructor|]. inversion F as [|? ? [Q1 Q2] Q3]; subst.
    assert (OK : op_ok w o) by (destruct o; cbn; auto; exfalso; exact Q2).
    assert (FO : foreign w o 0).
    { destruct o; try (exfalso; exact Q2); destruct b as [|[|]]; try (exfalso; exact Q2);
        try (destruct o as [[|[|[|[|]]]]|]; try (exfalso; exact Q2));
        (apply C54_self_contained; [exact R|exact S|exact Q1|cbn; discriminate|cbn; intros i Hi; try contradiction; subst i; exact Q2]). }
    pose proof (C54_foreign_calls_do_not_disturb _ _ _ R HB FO) as U. constructor; auto.
    apply IH; [now constructor|destruct U as (-> & _); exact HB|eapply C54_stays_self_contained; eauto|].
    revert Q3. apply Forall_impl. intros o' [A B]. split; auto. destruct o'; auto. destruct b as [|[|]]; auto.
    destruct o0 as [[|[|[|[|]]]]|]; auto. intros (x & Hx & Hi). apply B. destruct U as (U & _). exists x. split; congruence. }
  apply H; [exact two_bps_reachable|discriminate|exact S0|]. repeat (constructor; [split; cbn; auto|]); [|constructor].
  intros (x & Hx & Hi). injection Hx as <-. cbn in Hi. intuition discriminate.
Qed.
(** a wire to an entity of another blueprint makes the document depend on it: adding a chest there
    changes the number this document gives for the far end *)
Definition tangled : world := Eval vm_compute in fst (step (OConnect 0 (Some 3%nat) (VInt 1) (VInt 1) "green") two_bps).
Example C54_ex_tangled :
  ~ self_contained tangled 0 /\ snd (bp_json 0 (fst (step (OMake 1 (thing "wooden-chest" 2 0)) tangled))) <> snd (bp_json 0 tangled).
Proof.
  split; [|vm_compute; discriminate]. intros S. destruct (S 3%nat) as (x & Hx & Hi).
  - eexists. split; [reflexivity|]. right; left. eexists. split; [right; left; reflexivity|]. right. reflexivity.
  - injection Hx as <-. cbn in Hi. intuition discriminate.
Qed.
