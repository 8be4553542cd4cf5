(** * Theorem about the round trip of whole blueprints: C35. *)
From Coq Require Import Permutation Sorting.Sorted.
From Verif Require Import Py Num Util Classes Mixins Entity World SpecWorld SpecDoc SpecEntity SpecTrip SpecBlueprint DictFacts EntProofs BlueTrip EntityData Demo Props_Doc Props_Entity Props_Trip.
Open Scope Z_scope.

(** ** C35 *)
(** blueprint.load(doc) of a well-formed document into an empty blueprint succeeds, and so does
    blueprint.to_json() afterwards: it gives the same blueprint with its entities in (y, x) order *)
Theorem C35_blueprint_round_trip :
  forall w b x doc d kws, reachable w -> blu w b = Some x -> b_objs x = [] -> b_custom x = [] ->
  b_label_color x = None \/ dget "label_color" d <> None -> holds doc d -> whole (w_protos w) d kws ->
  exists w' doc' w2 o, load b doc w = (w', doc', Ok tt) /\ bp_json b w' = (w2, Ok (VDict [(KS "blueprint", VDict o)])) /\
    same_blueprint (w_protos w) d kws o.
Proof. exact p_C35. Qed.
Print Assumptions C35_blueprint_round_trip.

(** a locomotive with a schedule, a lamp with a red wire to the output of a decider combinator,
    not in order; icons not in order either; a key that is not known *)
Definition wire_to (n t : Z) : val := VDict [(KS "entity_id", VInt n); (KS "circuit_id", VInt t)].
Definition yard_ents_to (t : Z) : list dict :=
  [numbered_thing 7 "locomotive" 5 9;
   (KS "connections", VDict [(KS "1", VDict [(KS "red", VList [wire_to 9 t])])]) :: numbered_thing 3 "small-lamp" 1 4;
   numbered_thing 9 "decider-combinator" 0 0].
Definition yard_icon (z : Z) (s ty : string) : val := VDict [(KS "signal", sig s ty); (KS "index", VInt z)].
Definition yard_plan : val := VList [VDict [(KS "station", VStr "Outpost")]].
Definition yard_to (t : Z) : dict :=
  [(KS "description", VStr "lost"); (KS "entities", VList (map VDict (yard_ents_to t)));
   (KS "icons", VList [yard_icon 2 "iron-plate" "item"; yard_icon 1 "signal-A" "virtual"]);
   (KS "schedules", VList [VDict [(KS "schedule", yard_plan); (KS "locomotives", VList [VInt 7])]]);
   (KS "item", VStr "blueprint"); (KS "label", VStr "yard");
   (KS "label_color", VDict [(KS "r", VInt 1); (KS "g", half); (KS "b", VInt 0); (KS "a", VInt 1)]);
   (KS "version", VInt 281479276344320)].
Definition yard_ents := yard_ents_to 2.
Definition yard := yard_to 2.
Example C35_ex :
  let '(w1, _, r) := load 0 (doc_of yard) booted in
  r = Ok tt /\ snd (bp_json 0 w1) = Ok (doc_of
    [(KS "item", VStr "blueprint"); (KS "label", VStr "yard");
     (KS "label_color", VDict [(KS "r", VInt 1); (KS "g", half); (KS "b", VInt 0); (KS "a", VInt 1)]);
     (KS "entities", VList [
        VDict [(KS "entity_number", VInt 1); (KS "name", VStr "decider-combinator"); (KS "position", ipt 0 0);
               (KS "connections", VDict [(KI 2, VDict [(KS "red", VList [VDict [(KS "entity_id", VInt 2)]])])])];
        VDict [(KS "entity_number", VInt 2); (KS "name", VStr "small-lamp"); (KS "position", ipt 1 4);
               (KS "connections", VDict [(KI 1, VDict [(KS "red", VList [wire_to 1 1])])])];
        VDict [(KS "entity_number", VInt 3); (KS "name", VStr "locomotive"); (KS "position", ipt 5 9)]]);
     (KS "icons", VList [VDict [(KS "index", VInt 1); (KS "signal", sig "signal-A" "virtual")];
                        VDict [(KS "index", VInt 2); (KS "signal", sig "iron-plate" "item")]]);
     (KS "version", VInt 281479276344320);
     (KS "schedules", VList [VDict [(KS "locomotives", VList [VInt 3]); (KS "schedule", yard_plan)]])]).
Proof. vm_compute. auto. Qed.
(** the theorem applies to it *)
Lemma fine_thing p kws n (name : string) x y cs (ty : string) own cbk : In (ty, (own, cbk)) formats -> required ty = [] ->
  (exists data, dget name (p_entity p) = Some (VDict data) /\ dget "type" data = Some (VStr ty)) ->
  (cs = [] \/ exists v, cs = [(KS "connections", v)]) -> wires_doc kws (cs ++ numbered_thing n name x y) ->
  entity_doc p kws (cs ++ numbered_thing n name x y).
Proof.
  intros I RQ T C W. exists name, ty, own, cbk, n. split; auto. split.
  - split; [|split; [|split]].
    + split; [|split; [|exact T]]; destruct C as [->|(v & ->)]; repeat split; try discriminate; intros u E; discriminate E.
    + destruct C as [->|(v & ->)]; reflexivity.
    + assert (U : forall k : string, In k general_keys -> understood ty k).
      { intros k K. exists k, own, cbk. split; auto. }
      assert (P : field_doc p ty "position" (ipt x y)).
      { exists [(KS "x", VInt x); (KS "y", VInt y)], (VInt x), (VInt y). repeat split; try (left; eauto; fail). within. }
      destruct C as [->|(v & ->)]; cbn [app]; unfold numbered_thing, thing; keys; eexists; (split; [reflexivity|]);
        (split; [apply U; cbn; auto 10|]); try (left; cbn; auto; fail); right; exact P.
    + rewrite RQ. intros ? [].
  - split; [destruct C as [->|(v & ->)]; reflexivity|]. split; auto.
    intros v E. assert (v = ipt x y) as -> by (destruct C as [->|(u & ->)]; cbn in E; congruence).
    intros d k [= <-]. cbn [dget]. destruct (key_eqb k "x"); [discriminate|]. destruct (key_eqb k "y"); discriminate.
Qed.
Lemma whole_yard t : whole (w_protos booted) (yard_to t) (yard_ents_to t).
Proof.
  constructor.
  - left. reflexivity.
  - assert (NW : forall n name x y, wires_doc (yard_ents_to t) (numbered_thing n name x y)) by (intros; left; reflexivity).
    intros kw [<-|[<-|[<-|[]]]].
    + eapply (fine_thing _ _ 7 "locomotive" 5 9 [] "locomotive"); [cbn; repeat first [left; reflexivity|right]|reflexivity|eexists; split; vm_compute; reflexivity|auto|apply NW].
    + eapply (fine_thing _ _ 3 "small-lamp" 1 4 [_] "lamp"); [cbn; repeat first [left; reflexivity|right]|reflexivity|eexists; split; vm_compute; reflexivity|eauto|].
      right. eexists. split; [reflexivity|]. intros sk cv [[= <- <-]|[]]. exists 1. eexists. split; [left; auto|]. split; [reflexivity|].
      intros ck lv [[= <- <-]|[]]. eexists. eexists. split; [reflexivity|]. split; [reflexivity|]. intros v [<-|[]]. exists 9, t.
      split; [eexists; repeat split|]. split; [discriminate|]. eexists. split; [right; right; left; reflexivity|reflexivity].
    + eapply (fine_thing _ _ 9 "decider-combinator" 0 0 [] "decider-combinator"); [cbn; repeat first [left; reflexivity|right]|reflexivity|eexists; split; vm_compute; reflexivity|auto|apply NW].
  - intros i j kw kw' n Hi Hj. destruct i as [|[|[|i]]], j as [|[|[|j]]]; cbn in Hi, Hj; try (destruct i; discriminate); try (destruct j; discriminate);
      injection Hi as <-; injection Hj as <-; intros [= E1] [= E2]; (reflexivity || (exfalso; congruence)).
  - right. split; reflexivity.
  - discriminate.
  - intros v [= <-]. eexists. split; [reflexivity|]. split; [within|].
    intros s [<-|[<-|[<-|[<-|[]]]]]; eexists; (split; [reflexivity|]); try (left; reflexivity); right; try (left; reflexivity).
    right. eexists. split; [reflexivity|]. right. eexists. eexists. split; [reflexivity|]. split; vm_compute; reflexivity.
  - eexists. exists [2; 1]. split; [left; reflexivity|]. split; [|repeat constructor; cbn; intuition discriminate].
    repeat constructor; (eexists; eexists; split; [reflexivity|]; split; [within|]; split; [reflexivity|]; split; [split; discriminate|]; split; [reflexivity|]);
      (eapply known_signal; [discriminate|vm_compute; reflexivity|reflexivity]).
  - eexists. split; [left; reflexivity|]. repeat constructor. eexists. exists [7]. eexists. split; [reflexivity|]. split; [within|]. split; [reflexivity|]. split; [reflexivity|].
    intros n [<-|[]]. eexists. split; [left; reflexivity|reflexivity].
Qed.
Example C35_ex_applies : exists x, blu booted 0 = Some x /\ b_objs x = [] /\ b_custom x = [] /\ b_label_color x = None /\
  holds (doc_of yard) yard /\ whole (w_protos booted) yard yard_ents.
Proof. eexists. split; [reflexivity|]. repeat (split; [reflexivity|]). split; [right; eexists; split; reflexivity|apply whole_yard]. Qed.
