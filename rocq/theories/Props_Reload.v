(** * Theorems about blueprints made from exported strings: C55. *)
From Coq Require Import Permutation Lia.
From Verif Require Import Py Num SpecCodec Codec CodecProofs BpString Util Classes Mixins Entity World EntityData Demo SpecWorld SpecDoc SpecEntity SpecTrip SpecBlueprint
  SpecReload TurnProofs ShapeProofs KeyedProofs KeyedLoad ReloadTrip StringTrip Props_Codec Props_Doc Props_Trip Props_Blue.
Open Scope Z_scope.

(** ** C55 *)
(** a well-formed document loaded into an empty blueprint is exported as a JSON document, and
    Blueprint(string=blueprint.to_string()) exists and can be exported again *)
Theorem C55_string_loads :
  forall z w b doc d kws, lossless z -> reachable w -> ready_for w b d -> holds doc d -> fine_document (w_protos w) d kws ->
  exists o, json_like (wrap o) /\ forall strict, exists o2, generations z w b doc strict o o2.
Proof. exact p_C55_reload. Qed.
Print Assumptions C55_string_loads.

(** the copy is the same blueprint when every wire joins sides with the same number (side 1 of an
    entity that has one side only) *)
Theorem C55_same_blueprint :
  forall z w b doc d kws strict o o2, lossless z -> reachable w -> ready_for w b d -> holds doc d -> fine_document (w_protos w) d kws ->
  generations z w b doc strict o o2 -> faithful (w_protos w) kws -> same_blueprint (w_protos w) d kws o2.
Proof. exact p_C55_same. Qed.
Print Assumptions C55_same_blueprint.

(** whatever the wires, the copy has the same entities in the same order under the same numbers *)
Theorem C55_entities_in_place :
  forall z w b doc d kws strict o o2 es es2, lossless z -> reachable w -> ready_for w b d -> holds doc d -> fine_document (w_protos w) d kws ->
  generations z w b doc strict o o2 -> lists_short o "entities" (map VDict es) -> lists_short o2 "entities" (map VDict es2) ->
  length es2 = length es /\ forall k (e e2 : dict), nth_error es k = Some e -> nth_error es2 k = Some e2 ->
    says_again e e2 /\ dget "entity_number" e2 = dget "entity_number" e.
Proof. exact p_C55_in_place. Qed.
Print Assumptions C55_entities_in_place.

(** the wires of the copy: each end of a wire of the document, with the near side of that end taken
    for the far side too *)
Theorem C55_wires_as_read :
  forall z w b doc d kws strict o o2 es, lossless z -> reachable w -> ready_for w b d -> holds doc d -> fine_document (w_protos w) d kws ->
  generations z w b doc strict o o2 -> lists_short o "entities" (map VDict es) ->
  same_blueprint (w_protos w) (as_document o) (map as_document es) o2 /\
  exists order, by_place kws order /\ forall k s m t col, says_wire (map as_document es) k s m t col <->
    exists i j t' kw, nth_error order k = Some i /\ nth_error order m = Some j /\ nth_error kws j = Some kw /\
      SpecBlueprint.wired kws i s j t' col /\ read_side (w_protos w) kw s t.
Proof. exact p_C55_wires. Qed.
Print Assumptions C55_wires_as_read.

(** the same, starting from an exchange string *)
Theorem C55_from_string :
  forall z w s doc d kws, lossless z -> reachable w -> decode z s = Ok doc -> holds doc d ->
  whole (w_protos w) d kws -> string_types (w_protos w) -> proper_sides kws ->
  forall strict, exists w1 w2 o, bp_construct z strict [] (Some s) None w = (w1, Ok (length (w_bps w))) /\
    bp_json (length (w_bps w)) w1 = (w2, Ok (wrap o)) /\ same_blueprint (w_protos w) d kws o /\
    exists s2, bp_to_string z (length (w_bps w)) w1 = (w2, Ok s2) /\ forall strict2, exists w3 w4 o2,
      bp_construct z strict2 [] (Some s2) None w2 = (w3, Ok (length (w_bps w2))) /\ bp_json (length (w_bps w2)) w3 = (w4, Ok (wrap o2)) /\
      (faithful (w_protos w) kws -> same_blueprint (w_protos w) d kws o2).
Proof. exact p_C55_from_string. Qed.
Print Assumptions C55_from_string.

Lemma booted_reachable : reachable booted.
Proof. change booted with (run boot start). apply run_reach; [reflexivity|constructor]. Qed.
Lemma booted_types : string_types (w_protos booted).
Proof.
  assert (C : forallb (fun kv => match snd kv with VDict d => match dget "type" d with Some (VStr _) | None => true | _ => false end | _ => true end) (p_signal (w_protos booted)) = true)
    by (vm_compute; reflexivity).
  intros s data t E T. rewrite forallb_forall in C. specialize (C _ (dget_in _ _ _ E)). cbn in C. rewrite T in C. destruct t; try discriminate. eauto.
Qed.
Lemma yard_says t i s j u col : says_wire (yard_ents_to t) i s j u col <-> i = 1%nat /\ s = 1 /\ j = 2%nat /\ u = t /\ col = "red".
Proof.
  split.
  - intros (kw & kw' & n & raw & sk & cols & l & v & Hi & Hj & N & C & I1 & SK & I2 & Iv & (e & -> & EI & EC)).
    destruct i as [|[|[|i]]]; cbn in Hi; try (destruct i; discriminate); injection Hi as <-; try discriminate C.
    injection C as <-. destruct I1 as [[= <- <-]|[]]. destruct I2 as [[= <- <-]|[]]. destruct Iv as [[= <-]|[]].
    injection EI as <-. cbn in EC. injection EC as <-. destruct SK as [(_ & ->)|([=] & _)].
    destruct j as [|[|[|j]]]; cbn in Hj; try (destruct j; discriminate); injection Hj as <-; try discriminate N. auto 6.
  - intros (-> & -> & -> & -> & ->). do 2 eexists. exists 9. do 5 eexists. split; [reflexivity|]. split; [reflexivity|]. split; [reflexivity|]. split; [reflexivity|].
    split; [left; reflexivity|]. split; [left; auto|]. split; [left; reflexivity|]. split; [left; reflexivity|]. eexists. split; [reflexivity|]. split; reflexivity.
Qed.
Lemma yard_fine t : t = 1 \/ t = 2 -> ready_for booted 0 (yard_to t) /\ holds (doc_of (yard_to t)) (yard_to t) /\ fine_document (w_protos booted) (yard_to t) (yard_ents_to t).
Proof.
  intros T. split; [eexists; split; [reflexivity|]; repeat split; left; reflexivity|]. split; [right; eexists; split; reflexivity|].
  split; [apply whole_yard|]. split; [cbn; repeat split; eauto|]. split; [apply booted_types|]. split.
  - intros i s j u col [W|W]; apply yard_says in W as (_ & -> & _ & -> & _); auto.
  - apply likeb_like. destruct T as [-> | ->]; vm_compute; reflexivity.
Qed.
(** the theorems apply to the yard of C35, and so does C55_same_blueprint when the wire of its lamp
    leads to the input of the decider *)
Example C55_ex_applies : lossless stored /\ reachable booted /\
  ready_for booted 0 (yard_to 1) /\ holds (doc_of (yard_to 1)) (yard_to 1) /\ fine_document (w_protos booted) (yard_to 1) (yard_ents_to 1) /\
  faithful (w_protos booted) (yard_ents_to 1).
Proof.
  split; [intros ?; reflexivity|]. split; [apply booted_reachable|]. destruct (yard_fine 1 (or_introl eq_refl)) as (A & B & C). split; auto. split; auto. split; auto.
  assert (D : two_port (w_protos booted) (numbered_thing 9 "decider-combinator" 0 0)).
  { do 3 eexists. split; [reflexivity|]. split; [vm_compute; reflexivity|]. split; [vm_compute; reflexivity|]. cbn. auto. }
  assert (LP : forall cs, ~ two_port (w_protos booted) (cs :: numbered_thing 3 "small-lamp" 1 4) \/ fst cs = KS "name").
  { intros [ck cv]. destruct (key_eqb "name" ck) eqn:Q; [right; apply DictFacts.key_eqb_eq in Q; auto|left]. intros (s & data & ty & N & E & Ty & I). unfold numbered_thing, thing in N. cbn [dget] in N. rewrite Q in N. cbn in N. injection N as <-.
    vm_compute in E. injection E as <-. vm_compute in Ty. injection Ty as <-. cbn in I. intuition discriminate. }
  intros i s j t col kw [W|W]; apply yard_says in W as (-> & -> & -> & -> & ->); cbn [nth_error yard_ents_to]; intros [= <-].
  - left. auto.
  - right. split; auto. destruct (LP (KS "connections", VDict [(KS "1", VDict [(KS "red", VList [wire_to 9 1])])])) as [H|H]; [exact H|discriminate].
Qed.
(** C55_from_string applies to the exchange string of the yard *)
Definition yard_text : string := Eval vm_compute in match encode stored (doc_of (yard_to 1)) with Ok s => s | Err _ => EmptyString end.
Example C55_ex_from_string : decode stored yard_text = Ok (doc_of (yard_to 1)) /\ whole (w_protos booted) (yard_to 1) (yard_ents_to 1) /\
  string_types (w_protos booted) /\ proper_sides (yard_ents_to 1).
Proof. split; [vm_compute; reflexivity|]. destruct (yard_fine 1 (or_introl eq_refl)) as (_ & _ & W & _ & T & S & _). auto. Qed.

(** ** C55, without the condition on the wires *)
(** the copy of the yard of C35, whose lamp is wired to the output of the decider: a second wire
    between them has come up, from the lamp to the input *)
Definition of_res (r : res val) : dict := match r with Ok (VDict [(_, VDict o)]) => o | _ => [] end.
Definition first_out : dict := Eval vm_compute in
  of_res (snd (bp_json 0 (fst (fst (load 0 (doc_of yard) booted))))).
Definition second_world : world * res nat := Eval vm_compute in
  (do s <- bp_to_string stored 0; bp_construct stored true [] (Some s) None) (fst (fst (load 0 (doc_of yard) booted))).
Definition second_out : dict := Eval vm_compute in of_res (snd (bp_json 1 (fst second_world))).
Example C55_ex_second_wire :
  dget "entities" second_out = Some (VList [
        VDict [(KS "entity_number", VInt 1); (KS "name", VStr "decider-combinator"); (KS "position", ipt 0 0);
               (KS "connections", VDict [(KI 2, VDict [(KS "red", VList [VDict [(KS "entity_id", VInt 2)]])]);
                                         (KI 1, VDict [(KS "red", VList [VDict [(KS "entity_id", VInt 2)]])])])];
        VDict [(KS "entity_number", VInt 2); (KS "name", VStr "small-lamp"); (KS "position", ipt 1 4);
               (KS "connections", VDict [(KI 1, VDict [(KS "red", VList [wire_to 1 1; wire_to 1 1])])])];
        VDict [(KS "entity_number", VInt 3); (KS "name", VStr "locomotive"); (KS "position", ipt 5 9)]]).
Proof. reflexivity. Qed.
Definition w1 : world := Eval vm_compute in fst (fst (load 0 (doc_of yard) booted)).
Definition w2 : world := Eval vm_compute in fst (bp_json 0 w1).
Definition w3 : world := Eval vm_compute in fst second_world.
Definition yard_string : string := Eval vm_compute in match snd (bp_to_string stored 0 w1) with Ok s => s | Err _ => EmptyString end.
Lemma second_generation : generations stored booted 0 (doc_of yard) true first_out second_out.
Proof.
  exists w1, (snd (fst (load 0 (doc_of yard) booted))), w2, yard_string, w3, (fst (bp_json 1 w3)).
  split; [vm_compute; reflexivity|]. split; [vm_compute; reflexivity|]. split; [vm_compute; reflexivity|]. split; vm_compute; reflexivity.
Qed.
Theorem C55_skewed_wire_refuted : exists z w b doc d kws strict o o2, lossless z /\ reachable w /\ ready_for w b d /\ holds doc d /\
  fine_document (w_protos w) d kws /\ generations z w b doc strict o o2 /\ ~ same_blueprint (w_protos w) d kws o2.
Proof.
  exists stored, booted, 0%nat, (doc_of yard), yard, yard_ents, true, first_out, second_out.
  destruct (yard_fine 2 (or_intror eq_refl)) as (A & B & C).
  split; [intros ?; reflexivity|]. split; [apply booted_reachable|]. split; auto. split; auto. split; auto. split; [apply second_generation|].
  intros S. destruct (sb_entities _ _ _ _ S) as (order & es & BP & LS & LEN & EA & _).
  destruct es as [|e es]; [discriminate LS|]. injection LS as LE _.
  destruct order as [|i order]; [discriminate LEN|]. destruct (EA 0%nat i e eq_refl eq_refl) as (_ & _ & P & _).
  assert (Q : forall s, s = 1 \/ s = 2 -> exists j t, SpecBlueprint.wired yard_ents i s j t "red").
  { intros s Hs. destruct (P s "red") as (ends & vs & _ & IN & PE & F). destruct ends as [|(j, t) ends].
    - inversion F; subst vs. apply Permutation_sym, Permutation_nil in PE. rewrite <- LE in PE. destruct Hs as [-> | ->]; discriminate PE.
    - exists j, t. apply IN. left. reflexivity. }
  destruct (Q 1 (or_introl eq_refl)) as (j & t & W). destruct (Q 2 (or_intror eq_refl)) as (j' & t' & W').
  destruct W as [W|W]; apply yard_says in W as (? & ? & ? & ? & _); destruct W' as [W'|W']; apply yard_says in W' as (? & ? & ? & ? & _); lia.
Qed.
Print Assumptions C55_skewed_wire_refuted.
