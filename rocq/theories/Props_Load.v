(** * Theorems about repeated and failing calls of load: C60, C61. *)
From Coq Require Import Permutation.
From Verif Require Import Py Num Util Classes Mixins Entity World SpecUtil SpecWorld SpecDoc SpecLoad LoadProofs Demo EntityData.
Open Scope Z_scope.

(** ** C60 *)
(** a call that returns adds the entities of the document to those already there, puts all of them
    in order, and replaces the heading *)
Theorem C60_load_adds_to_what_is_there :
  forall w b x doc d w' doc', reachable w -> blu w b = Some x -> holds doc d -> load b doc w = (w', doc', Ok tt) ->
  elsewhere w w' b /\ exists x', blu w' b = Some x' /\ fixed x x' /\ merged w w' b d x x'.
Proof. exact p_C60_merge. Qed.
Print Assumptions C60_load_adds_to_what_is_there.
(** a wire that was drawn between two entities without wires in their documents is gone *)
Theorem C60_drawn_wires_are_lost :
  forall w b x doc d w' doc' x' c i j ei ej, reachable w -> blu w b = Some x -> holds doc d -> load b doc w = (w', doc', Ok tt) ->
  blu w' b = Some x' -> c_from c = Some i -> c_to c = Some j -> ent w i = Some ei -> ent w j = Some ej ->
  e_raw ei = VNone -> e_raw ej = VNone -> forall c', In c' (b_conns x') -> ~ same_wire c c'.
Proof. exact p_C60_lost. Qed.
Print Assumptions C60_drawn_wires_are_lost.
(** a number that an entity has which was there before, and that lies no later than those of the
    document with the same number, denotes an entity that was there before *)
Theorem C60_earlier_entities_take_the_numbers :
  forall w b x doc d w' doc' z j ej p, reachable w -> blu w b = Some x -> holds doc d -> load b doc w = (w', doc', Ok tt) ->
  In j (b_objs x) -> ent w j = Some ej -> denotes (e_number ej) z -> e_pos ej = Some p ->
  (forall v e, In v (doc_list d "entities") -> made_of w x b v e -> denotes (e_number e) z -> exists u, e_pos e = Some u /\ pos_le p u) ->
  exists i, get_entity_by_id w' b (VInt z) = Some i /\ In i (b_objs x).
Proof. exact p_C60_wins. Qed.
Print Assumptions C60_earlier_entities_take_the_numbers.
(** a document loaded twice: every entity is there twice, and no wire joins two entities of the second copy *)
Theorem C60_second_copy_is_wired_to_the_first :
  forall w b x doc d w1 doc1 w2 doc2 x1, reachable w -> blu w b = Some x -> b_objs x = [] -> holds doc d ->
  load b doc w = (w1, doc1, Ok tt) -> load b doc w1 = (w2, doc2, Ok tt) -> blu w1 b = Some x1 ->
  exists x2, blu w2 b = Some x2 /\ Permutation (b_objs x1 ++ seq (length (w_ents w1)) (length (b_objs x1))) (b_objs x2) /\
    forall c, In c (b_conns x2) -> exists i, (c_from c = Some i \/ c_to c = Some i) /\ In i (b_objs x1).
Proof. exact p_C60_twice. Qed.
Print Assumptions C60_second_copy_is_wired_to_the_first.

Definition red_to (n : Z) : val := VDict [(KS "1", VDict [(KS "red", VList [VDict [(KS "entity_id", VInt n)]])])].
Definition lamp (n x other : Z) : dict := numbered_thing n "small-lamp" x 0 ++ [(KS "connections", red_to other)].
(** two lamps joined by a red wire *)
Definition lamps : val := doc_of [(KS "label", VStr "lamps"); (KS "entities", VList [VDict (lamp 1 0 2); VDict (lamp 2 5 1)])].
Definition once : world := Eval vm_compute in run (boot ++ [OLoad 0 lamps]) start.
Definition twice : world := Eval vm_compute in run [OLoad 0 lamps] once.
(** the second copy of each lamp (2 and 3) is wired to the first copy of the other *)
Example C60_ex :
  objs once = [[0; 1]%nat] /\ map (map (fun c => (c_from c, c_to c))) (wires once) = [[(Some 1%nat, Some 0%nat)]] /\
  objs twice = [[0; 2; 1; 3]%nat] /\
  map (map (fun c => (c_from c, c_to c))) (wires twice) =
    [[(Some 1%nat, Some 0%nat); (Some 1%nat, Some 2%nat); (Some 3%nat, Some 0%nat)]].
Proof. vm_compute. auto. Qed.
(** a document with nothing but a label: the four entities stay, the wire drawn between 1 and 0 does not *)
Example C60_ex_lost :
  let w := run [OLoad 0 (doc_of [(KS "label", VStr "bare")])] wired in
  map (@length conn) (wires wired) = [1]%nat /\ wires w = [[]] /\ objs w = objs wired /\ map b_label (w_bps w) = [VStr "bare"].
Proof. vm_compute. auto. Qed.

(** ** C61 *)
(** what a call that raises has done by then *)
Theorem C61_what_a_failed_load_leaves :
  forall w b x doc d w' doc' err, reachable w -> blu w b = Some x -> holds doc d -> load b doc w = (w', doc', Err err) ->
  elsewhere w w' b /\ exists x', blu w' b = Some x' /\ fixed x x' /\ b_scheds x' = b_scheds x /\ left_behind w w' b d x x' err.
Proof. exact p_C61. Qed.
Print Assumptions C61_what_a_failed_load_leaves.
(** two lamps and an entity with an unknown name *)
Definition broken : val :=
  doc_of [(KS "label", VStr "broken"); (KS "entities", VList [VDict (lamp 1 0 2); VDict (lamp 2 5 1); VDict (thing "warp-core" 1 1)])].
Definition after_broken : world := Eval vm_compute in fst (step (OLoad 0 broken) wired).
(** so a failed call is not as if it had not been made *)
Theorem C61_failed_load_changes_nothing_refuted :
  ~ (forall w b doc err, reachable w -> snd (step (OLoad b doc) w) = Err err ->
     snd (bp_json b (fst (step (OLoad b doc) w))) = snd (bp_json b w)).
Proof. exact p_C61_refuted. Qed.
Print Assumptions C61_failed_load_changes_nothing_refuted.
(** the lamps stay, at the end of the list and with the numbers 1 and 2 that two chests have as
    well; the second attempt, without the unknown entity, adds two more *)
Example C61_ex :
  snd (step (OLoad 0 broken) wired) = Err EUnknownEntity /\
  objs wired = [[2; 1; 0; 3]%nat] /\ objs after_broken = [[2; 1; 0; 3; 4; 5]%nat] /\ wires after_broken = wires wired /\
  autos after_broken = [VInt 3; VInt 2; VInt 1; VInt 4; VInt 1; VInt 2] /\ map b_label (w_bps after_broken) = [VStr "broken"] /\
  objs (run [OLoad 0 lamps] after_broken) = [[4; 6; 2; 5; 7; 1; 0; 3]%nat].
Proof. vm_compute. auto 10. Qed.
(** stopped by its tiles: here the entities are sorted and the wire between the chests is lost *)
Example C61_ex_tiles :
  let doc := doc_of [(KS "entities", VList [VDict (lamp 1 0 2); VDict (lamp 2 5 1)]); (KS "tiles", VList [VDict (thing "concrete" 0 0)])] in
  let w := fst (step (OLoad 0 doc) wired) in
  snd (step (OLoad 0 doc) wired) = Err EType /\ objs w = [[4; 2; 5; 1; 0; 3]%nat] /\
  map (map (fun c => (c_from c, c_to c))) (wires w) = [[(Some 5%nat, Some 4%nat)]].
Proof. vm_compute. auto. Qed.
