(** * Theorems about round trips: what an exported entity says about the description it was
      made from: C34, C36. *)
From Verif Require Import Py Num Util Classes Mixins Entity World SpecWorld SpecDoc SpecEntity SpecTrip DictFacts EntProofs EntTrip EntityData Demo Props_Doc Props_Entity.
Open Scope Z_scope.

(** ** C34 *)
(** Entity(blueprint_layer=layer, ...) of any well-formed description of any prototype type,
    exported: the same keys with the same values; the number as given, no wires *)
Theorem C34_new_entity_says_the_same :
  forall w b x kw s (ty : string) own cbk, reachable w -> blu w b = Some x -> dget ty (b_custom x) = None -> In (ty, (own, cbk)) formats ->
  well_formed (w_protos w) kw s ty ->
  exists w1 i w2 d, new_entity (Some b) kw w = (w1, Ok i) /\ ent_json i w1 = (w2, Ok (VDict d)) /\ says_again kw d /\
    dget "entity_number" d = Some (odflt VNone (dget "entity_number" kw)) /\ dget "connections" d = None.
Proof. exact p_C34_new. Qed.
Print Assumptions C34_new_entity_says_the_same.
(** layer.make(...): the same, with a new number *)
Theorem C34_made_entity_says_the_same :
  forall w b x kw s (ty : string) own cbk w1 i, reachable w -> blu w b = Some x -> dget ty (b_custom x) = None -> In (ty, (own, cbk)) formats ->
  well_formed (w_protos w) kw s ty -> layer_make b kw w = (w1, Ok i) ->
  exists w2 d n, ent_json i w1 = (w2, Ok (VDict d)) /\ says_again kw d /\ dget "entity_number" d = Some (VInt n) /\ dget "connections" d = None.
Proof. exact p_C34_make. Qed.
Print Assumptions C34_made_entity_says_the_same.
(** and layer.make(...) does make one when everything stands somewhere *)
Theorem C34_well_formed_is_made :
  forall w b x kw s (ty : string) own cbk, reachable w -> blu w b = Some x -> dget ty (b_custom x) = None -> In (ty, (own, cbk)) formats ->
  well_formed (w_protos w) kw s ty -> (forall i, In i (b_objs x) -> placed w i) -> (forall v, dget "position" kw = Some v -> no_nan v) ->
  exists w1 i, layer_make b kw w = (w1, Ok i).
Proof. exact p_C34_made. Qed.
Print Assumptions C34_well_formed_is_made.

(** a filter inserter with a circuit condition, its keys in another order than the export's *)
Definition picker : dict :=
  [(KS "direction", VInt 6);
   (KS "control_behavior", VDict [(KS "circuit_read_hand_contents", VBool true);
      (KS "circuit_condition", VDict [(KS "first_signal", sig "signal-A" "virtual"); (KS "constant", VInt 3); (KS "comparator", VStr "≥")])]);
   (KS "filters", VList [VDict [(KS "name", VStr "iron-plate"); (KS "index", VInt 2)]]);
   (KS "filter_mode", VStr "blacklist");
   (KS "name", VStr "filter-inserter"); (KS "position", ipt 3 4)].
Ltac keys := let k := fresh "k" in let v := fresh "v" in let H := fresh "H" in
  intros k v H; cbn [dget] in H;
  repeat match type of H with (if key_eqb k ?x then _ else _) = _ => destruct (key_eqb k x) eqn:?; [match goal with E : key_eqb k x = true |- _ => apply key_eqb_eq in E; subst k; injection H as <- end|] end;
  try discriminate H.
Ltac within := intros ? ?; match goal with N : dget ?k ?d <> None |- _ => cbn [dget] in N;
  repeat match type of N with (if key_eqb k ?x then _ else _) <> None => destruct (key_eqb k x) eqn:?; [match goal with E : key_eqb k x = true |- _ => apply key_eqb_eq in E; subst k; eexists; split; [reflexivity|cbn; auto 20] end|] end; congruence end.
Lemma known_signal p (s ty : string) data : s <> "" -> dget s (p_signal p) = Some (VDict data) -> dget "type" data = Some (VStr ty) -> signal_doc p (sig s ty).
Proof.
  intros N D T. exists [(KS "name", VStr s); (KS "type", VStr ty)], s, data, (VStr ty). repeat split; auto. within.
Qed.
Example C34_ex :
  well_formed (w_protos booted) picker "filter-inserter" "inserter" /\
  (let '(w1, r) := layer_make 0 picker booted in
   match r with
   | Ok i => snd (ent_json i w1) = Ok (VDict
       [(KS "entity_number", VInt 1); (KS "name", VStr "filter-inserter"); (KS "position", ipt 3 4);
        (KS "filter_mode", VStr "blacklist"); (KS "filters", VList [VDict [(KS "index", VInt 2); (KS "name", VStr "iron-plate")]]);
        (KS "direction", VInt 6);
        (KS "control_behavior", VDict [
           (KS "circuit_condition", VDict [(KS "comparator", VStr "≥"); (KS "first_signal", sig "signal-A" "virtual"); (KS "constant", VInt 3)]);
           (KS "circuit_read_hand_contents", VBool true)])])
   | Err _ => False
   end).
Proof.
  split; [|vm_compute; reflexivity].
  assert (IN : exists own cbk, In ("inserter", (own, cbk)) formats /\ In "filters" own /\ In "filter_mode" own /\ In "circuit_read_hand_contents" cbk /\ In "circuit_condition" cbk).
  { eexists. eexists. split; [cbn; do 20 right; left; reflexivity|cbn; auto 10]. }
  destruct IN as (own & cbk & I & O1 & O2 & B1 & B2).
  split; [|split; [reflexivity|split]].
  - split; [|split; [intros v H; discriminate H|eexists; split; vm_compute; reflexivity]]. repeat split; try (vm_compute; congruence).
  - unfold picker; keys; eexists; (split; [reflexivity|]); (split; [eexists; exists own, cbk; split; [exact I|split; [reflexivity|cbn; auto 10]]|]); try (left; cbn; auto; fail); right.
    + split; [cbn; auto 20|]. exists 6. split; [reflexivity|]. split; discriminate.
    + eexists. split; [reflexivity|]. split; [discriminate|]. split; [|intros ? []].
      keys; eexists; (split; [reflexivity|]); (split; [eexists; exists own, cbk; split; [exact I|split; [reflexivity|auto]]|]).
      * discriminate.
      * eexists. split; [reflexivity|]. split; [discriminate|]. split; [within|]. repeat split.
        -- intros v H. injection H as <-. eapply known_signal; [discriminate|vm_compute; reflexivity|reflexivity].
        -- intros v H. discriminate H.
        -- intros v H. injection H as <-. eauto.
        -- left. reflexivity.
        -- intros v H. injection H as <-. cbn. auto.
    + exists [(KS "name", VStr "iron-plate"); (KS "index", VInt 2)], []. split; [reflexivity|]. constructor; [|constructor]. split; [within|].
      intros s [<-|[<-|[]]]; eexists; (split; [reflexivity|]).
      * exact Logic.I.
      * exists "iron-plate". split; [reflexivity|]. split; [discriminate|]. vm_compute. discriminate.
    + cbn. auto.
    + exists [(KS "x", VInt 3); (KS "y", VInt 4)], (VInt 3), (VInt 4). repeat split; try (left; eauto; fail). within.
  - intros s [].
Qed.

(** ** C36 *)
(** conditions that load come back as they are *)
Theorem C36_conditions_round_trip :
  forall w b x kw s (f : string) d (ty : string), reachable w -> blu w b = Some x -> dget ty (b_custom x) = None -> well_formed (w_protos w) kw s ty ->
  (ty = "arithmetic-combinator" /\ f = "arithmetic_conditions" /\ arithmetic_doc (w_protos w) (VDict d) \/
   ty = "decider-combinator" /\ f = "decider_conditions" /\ decider_doc (w_protos w) (VDict d)) ->
  exists w1 i w2 o cb u, new_entity (Some b) (with_conditions f d [] kw) w = (w1, Ok i) /\ ent_json i w1 = (w2, Ok (VDict o)) /\
    dget "control_behavior" o = Some (VDict cb) /\ dget (KS f) cb = Some u /\ jeq (VDict d) u /\ forall k, k <> KS f -> dget k cb = None.
Proof. exact p_C36_round. Qed.
Print Assumptions C36_conditions_round_trip.
(** conditions that would be fine but for a first signal beside the constant: TypeError, no change *)
Theorem C36_normal_form_type_error :
  forall w b x kw s d c, blu w b = Some x -> dget "decider-combinator" (b_custom x) = None ->
  well_formed (w_protos w) kw s "decider-combinator" -> decider_doc (w_protos w) (VDict (ddel "first_signal" d)) ->
  dget "first_signal" d <> None -> dget "constant" d = Some (VInt c) ->
  step (OMake b (with_conditions "decider_conditions" d [] kw)) w = (w, Err EType).
Proof. exact p_C36_normal. Qed.
Print Assumptions C36_normal_form_type_error.
Definition compare_ab : dict :=
  [(KS "comparator", VStr "<"); (KS "first_signal", sig "signal-A" "virtual"); (KS "second_signal", sig "signal-B" "virtual");
   (KS "output_signal", sig "signal-C" "virtual"); (KS "copy_count_from_input", VBool false)].
Example C36_ex_round :
  decider_doc (w_protos booted) (VDict compare_ab) /\
  (let '(w1, r) := new_entity (Some 0%nat) (with_conditions "decider_conditions" compare_ab [] (thing "decider-combinator" 1 1)) booted in
   match r with
   | Ok i => snd (ent_json i w1) = Ok (VDict
       [(KS "entity_number", VNone); (KS "name", VStr "decider-combinator"); (KS "position", ipt 1 1);
        (KS "control_behavior", VDict [(KS "decider_conditions", VDict
          [(KS "comparator", VStr "<"); (KS "first_signal", sig "signal-A" "virtual"); (KS "second_signal", sig "signal-B" "virtual");
           (KS "output_signal", sig "signal-C" "virtual"); (KS "copy_count_from_input", VBool false)])])])
   | Err _ => False
   end).
Proof.
  split; [|vm_compute; reflexivity]. exists compare_ab, (VStr "<"), (VBool false). split; [reflexivity|]. split; [unfold compare_ab; within|].
  repeat split; try (cbn; auto; fail); try (intros v H; injection H as <-; eapply known_signal; [discriminate|vm_compute; reflexivity|reflexivity]).
  - intros v H. discriminate H.
  - right. reflexivity.
Qed.
