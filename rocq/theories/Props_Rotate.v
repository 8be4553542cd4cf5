(** * Theorems about rotation: C25 - C30. *)
From Coq Require Import Lqa Permutation QArith.
From Verif Require Import Py Num NumFacts Util SpecUtil Classes Mixins Entity World SpecWorld SpecRotate RotateProofs TurnProofs
  EntityData Demo.
Open Scope Z_scope.

(** an inserter, a belt, a chest and a wagon; the floats are 0.25, 0.1 and 0.7 *)
Definition f25 : val := VFlt (S754_finite false 4503599627370496 (-54)).
Definition f01 : spec_float := S754_finite false 7205759403792794 (-56).
Definition f07 : spec_float := S754_finite false 6305039478318694 (-53).
Definition yard_ops : list op :=
  boot ++ [OMake 0 (thing "inserter" 0 0); OMake 0 (thing "transport-belt" 3 1 ++ [(KS "direction", VInt 2)]);
           OMake 0 ([(KS "name", VStr "iron-chest"); (KS "position", pt half (VInt 7))]);
           OMake 0 (thing "cargo-wagon" 9 9 ++ [(KS "orientation", f25)])].
Definition yard : world := Eval vm_compute in run yard_ops start.
Example yard_reachable : reachable yard.
Proof. change yard with (run yard_ops start). apply run_reach; [reflexivity|constructor]. Qed.
Definition poses (w : world) : list (option vec * Z) := map (fun e => (e_pos e, e_dir e)) (w_ents w).
Definition orients (w : world) : list (option val) := map (fun e => dget "orientation" (e_at e)) (w_ents w).

(** ** C25 *)
(** rotate(n) about any point turns every entity of the blueprint and nothing else *)
Theorem C25_rotation_turns_every_entity :
  forall w b x n c r, reachable w -> blu w b = Some x -> ent_cw r = true ->
  (forall i e, In i (b_objs x) -> ent w i = Some e -> can_turn c e) ->
  exists w' l, step (ORotate b n c r) w = (w', Ok tt) /\
    w_protos w' = w_protos w /\ blu w' b = Some (b_set_objs l x) /\ (forall d, d <> b -> blu w' d = blu w d) /\
    sorted_layer w' b (b_objs x) /\
    (forall i, ~ In i (b_objs x) -> ent w' i = ent w i) /\
    (forall i e, In i (b_objs x) -> ent w i = Some e ->
       exists e', ent w' i = Some e' /\ turned (Z.to_nat (n mod 4)) c e e').
Proof. exact p_C25. Qed.
Print Assumptions C25_rotation_turns_every_entity.
(** any sequence of rotations about one point turns every entity by the total *)
Theorem C25_rotations_add_up :
  forall b c ns n w x, reachable w -> blu w b = Some x ->
  (forall i e, In i (b_objs x) -> ent w i = Some e -> can_turn c e) ->
  exists l, let w' := run (map (fun n => ORotate b n c RDefault) (n :: ns)) w in
    Permutation (b_objs x) l /\ w_protos w' = w_protos w /\ blu w' b = Some (b_set_objs l x) /\ (forall d, d <> b -> blu w' d = blu w d) /\
    (forall i, ~ In i (b_objs x) -> ent w' i = ent w i) /\
    (forall i e, In i (b_objs x) -> ent w i = Some e ->
       exists e', ent w' i = Some e' /\ turned (quarters (n :: ns)) c e e').
Proof. exact p_C25_turns. Qed.
Print Assumptions C25_rotations_add_up.
(** the belt at (3, 1) facing right ends at (-1, 3) facing down; the chest at (0.5, 7) at (-7, 0.5) *)
Example C25_quarter :
  let w := fst (step (ORotate 0 1 vzero RDefault) yard) in
  poses w = [(Some (mkVec (NI 0) (NI 0)), 2); (Some (mkVec (NI (-1)) (NI 3)), 4);
             (Some (mkVec (NI (-7)) (NF (S754_finite false 4503599627370496 (-53)))), 0); (Some (mkVec (NI (-9)) (NI 9)), 0)] /\
  objs yard = [[0; 1; 2; 3]]%nat /\ objs w = [[0; 2; 1; 3]]%nat.
Proof. vm_compute. repeat split; reflexivity. Qed.

(** ** C26 *)
(** the whole program state is the same *)
Theorem C26_rotations_compose :
  forall w b x n m, reachable w -> blu w b = Some x ->
  (forall i e, In i (b_objs x) -> ent w i = Some e -> can_turn vzero e) ->
  run [ORotate b n vzero RDefault; ORotate b m vzero RDefault] w = run [ORotate b (n + m) vzero RDefault] w.
Proof. exact p_C26_compose. Qed.
Print Assumptions C26_rotations_compose.
Theorem C26_any_number_of_rotations :
  forall w b x, reachable w -> blu w b = Some x ->
  (forall i e, In i (b_objs x) -> ent w i = Some e -> can_turn vzero e) -> forall ns n,
  run (map (fun n => ORotate b n vzero RDefault) (n :: ns)) w = run [ORotate b (fold_right Z.add 0 (n :: ns)) vzero RDefault] w.
Proof. exact p_C26_sequence. Qed.
Print Assumptions C26_any_number_of_rotations.
(** a whole turn of a sorted blueprint without -0.0 coordinates changes nothing at all *)
Theorem C26_whole_turn_is_identity :
  forall w b x n, reachable w -> blu w b = Some x ->
  (forall i e, In i (b_objs x) -> ent w i = Some e -> can_turn vzero e) -> tidy w x ->
  (forall i e, In i (b_objs x) -> ent w i = Some e -> plain e) -> n mod 4 = 0 ->
  step (ORotate b n vzero RDefault) w = (w, Ok tt).
Proof. exact p_C26_identity. Qed.
Print Assumptions C26_whole_turn_is_identity.
Definition same (w w' : world) : Prop := w_ents w = w_ents w' /\ w_bps w = w_bps w'.
Example C26_yard :
  same (run [ORotate 0 1 vzero RDefault; ORotate 0 3 vzero RDefault] yard) yard /\
  same (run [ORotate 0 5 vzero RDefault; ORotate 0 (-3) vzero RDefault] yard) (run [ORotate 0 2 vzero RDefault] yard) /\
  poses (run [ORotate 0 2 vzero RDefault] yard) <> poses yard.
Proof. split; [|split]; [split; vm_compute; reflexivity|split; vm_compute; reflexivity|vm_compute; discriminate]. Qed.
(** -0.0 becomes 0.0 and is then exported without the sign *)
Example C26_negative_zero :
  let w := run [OMake 0 [(KS "name", VStr "iron-chest"); (KS "position", pt (VFlt (S754_zero true)) (VInt 7))]] yard in
  poses (run [ORotate 0 4 vzero RDefault] w) <> poses w.
Proof. vm_compute. discriminate. Qed.

(** ** C27 *)
(** any direction argument other than the default or 0 *)
Theorem C27_counter_clockwise_entities :
  forall w b n c r, reachable w -> ent_cw r = false ->
  step (ORotate b n c r) w = step (ORotate b (if n mod 4 =? 1 then 1 else 0) c RDefault) w.
Proof. exact p_C27_entities. Qed.
Print Assumptions C27_counter_clockwise_entities.
(** tiles turn back *)
Theorem C27_tiles_turn_back :
  forall t n c, game_pos (t_pos t) -> game_pos c ->
  exists t1 t2 p, tile_rotate t n c true = Ok t1 /\ tile_rotate t1 n c false = Ok t2 /\ t_name t2 = t_name t /\
    at_point (t_pos t) p /\ at_point (t_pos t2) p.
Proof. exact p_C27_tiles. Qed.
Print Assumptions C27_tiles_turn_back.
(** so counter-clockwise rotation is not the inverse *)
Theorem C27_inverse_refuted :
  exists w, reachable w /\ poses (run [ORotate 0 1 vzero RDefault; ORotate 0 1 vzero ROther] w) <> poses w /\
    poses (run [ORotate 0 1 vzero RDefault; ORotate 0 1 vzero ROther] w) = poses (run [ORotate 0 2 vzero RDefault] w) /\
    poses (run [ORotate 0 3 vzero RDefault; ORotate 0 3 vzero ROther] w) = poses (run [ORotate 0 3 vzero RDefault] w).
Proof.
  exists yard. split; [exact yard_reachable|].
  vm_compute. repeat split; try reflexivity. discriminate.
Qed.
Print Assumptions C27_inverse_refuted.
(** the string 'clockwise' itself counts as counter-clockwise for entities *)
Example C27_clockwise_string : ent_cw RClockwiseStr = false /\ ent_cw RDefault = true.
Proof. split; reflexivity. Qed.
Example C27_tile :
  tile_rotate (mkTile "concrete" (mkVec (NI 3) (NI 1))) 3 (mkVec (NI 1) (NI 1)) true =
    Ok (mkTile "concrete" (mkVec (NI 1) (NI (-1)))) /\
  tile_rotate (mkTile "concrete" (mkVec (NI 1) (NI (-1)))) 3 (mkVec (NI 1) (NI 1)) false =
    Ok (mkTile "concrete" (mkVec (NI 3) (NI 1))).
Proof. split; reflexivity. Qed.

(** ** C28 *)
(** the distance to the centre; exactness of the position is in [turned], see C25 *)
Theorem C28_distance_is_kept :
  forall k c e e', turned k c e e' ->
  exists v v' p p' pc, e_pos e = Some v /\ e_pos e' = Some v' /\ at_point v p /\ at_point v' p' /\ at_point c pc /\
    (dist2 p' pc == dist2 p pc)%Q.
Proof. exact p_C28_distance. Qed.
Print Assumptions C28_distance_is_kept.
(** rotations about one point adding up to whole turns restore every position *)
Theorem C28_whole_turns_restore_positions :
  forall b c ns n w x, reachable w -> blu w b = Some x ->
  (forall i e, In i (b_objs x) -> ent w i = Some e -> can_turn c e) ->
  fold_right Z.add 0 (n :: ns) mod 4 = 0 ->
  forall i e, In i (b_objs x) -> ent w i = Some e ->
    exists e' v v' p, ent (run (map (fun n => ORotate b n c RDefault) (n :: ns)) w) i = Some e' /\
      e_pos e = Some v /\ e_pos e' = Some v' /\ at_point v p /\ at_point v' p.
Proof. exact p_C28_turns. Qed.
Print Assumptions C28_whole_turns_restore_positions.
(** not so for other floats: x = 0.1, centre 0.7 *)
Definition tenth : world := Eval vm_compute in
  run [OMake 0 [(KS "name", VStr "iron-chest"); (KS "position", pt (VFlt f01) (VInt 0))]] (run boot start).
Theorem C28_any_float_refuted :
  exists w e e', reachable w /\ ent w 0 = Some e /\
    ent (run [ORotate 0 4 (mkVec (NF f07) (NI 0)) RDefault] w) 0 = Some e' /\
    ~ exists v v' p, e_pos e = Some v /\ e_pos e' = Some v' /\ at_point v p /\ at_point v' p.
Proof.
  exists tenth. eexists _, _. split.
  { change tenth with (run [OMake 0 [(KS "name", VStr "iron-chest"); (KS "position", pt (VFlt f01) (VInt 0))]] (run boot start)).
    apply run_reach; [reflexivity|]. apply run_reach; [reflexivity|constructor]. }
  split; [vm_compute; reflexivity|]. split; [vm_compute; reflexivity|].
  intros (v & v' & p & A & B & [C _] & [D _]). injection A as <-. injection B as <-. cbn [vx] in C, D.
  pose proof (Qeq_trans _ _ _ C (Qeq_sym _ _ D)) as E. apply Qeq_bool_iff in E. vm_compute in E. discriminate.
Qed.
Print Assumptions C28_any_float_refuted.
Example C28_offset :
  poses (run [ORotate 0 1 (mkVec (NI 1) (NI 1)) RDefault] yard) =
    [(Some (mkVec (NI 2) (NI 0)), 2); (Some (mkVec (NI 1) (NI 3)), 4);
     (Some (mkVec (NI (-5)) (NF (S754_finite false 4503599627370496 (-53)))), 0); (Some (mkVec (NI (-7)) (NI 9)), 0)].
Proof. vm_compute. reflexivity. Qed.

(** ** C29 *)
(** a box reaching equally far to both sides covers, after the rotation, exactly the turned points *)
Theorem C29_symmetric_boxes_turn :
  forall w b x n c r, reachable w -> blu w b = Some x -> ent_cw r = true ->
  (forall i e, In i (b_objs x) -> ent w i = Some e -> can_turn c e) ->
  forall i e bx h pt pt' q pc, In i (b_objs x) -> ent w i = Some e -> 0 <= e_dir e < 8 ->
    proto_box (w_protos w) (e_name e) = Ok bx -> symmetric_box bx h -> (rotatable e \/ (fst h == snd h)%Q) ->
    at_point c pc -> at_point pt q -> at_point pt' (qturn (Z.to_nat (n mod 4)) pc q) ->
    (covers w pt i <-> covers (fst (step (ORotate b n c r) w)) pt' i).
Proof. exact p_C29. Qed.
Print Assumptions C29_symmetric_boxes_turn.
(** half a turn leaves any box as it is, also one that reaches further to one side *)
Theorem C29_half_turn_keeps_the_box :
  forall k c e e' p, turned k c e e' -> (k mod 4 = 2)%nat -> 0 <= e_dir e < 8 -> selection_box p e' = selection_box p e.
Proof. exact p_C29_half_turn. Qed.
Print Assumptions C29_half_turn_keeps_the_box.
(** so the shipped inserter turned half a turn no longer covers the point that turned with it *)
Definition tip : spec_float := S754_finite false 7247980650299392 (-54).
Theorem C29_asymmetric_refuted :
  exists w pt pt' q, reachable w /\ at_point pt q /\ at_point pt' (qturn 2 (0, 0)%Q q) /\
    covers w pt 0 /\ ~ covers (fst (step (ORotate 0 2 vzero RDefault) w)) pt' 0.
Proof.
  exists yard, (mkVec (NI 0) (NF tip)), (mkVec (NI 0) (nneg (NF tip))), (0, 103 # 256)%Q.
  split; [exact yard_reachable|]. split; [split; vm_compute; reflexivity|]. split; [split; vm_compute; reflexivity|]. split.
  - eexists _, _, _, _. split; [vm_compute; reflexivity|]. split; [vm_compute; reflexivity|]. split; [reflexivity|].
    exists 0%Q, 0%Q, 0%Q, (103 # 256). repeat split; vm_compute; reflexivity.
  - intros (e & tl & br & pos & A & B & C & (px & py & x & y & P & Q & U & V & W & X & Y & Z)).
    vm_compute in A. injection A as <-. vm_compute in B. injection B as <- <-. injection C as <-.
    cbn [vx vy] in *.
    assert (Hy : (py == 0)%Q) by (symmetry; exact Q).
    assert (Ht : nfin (nneg (NF tip)) (- (103 # 256))) by (vm_compute; reflexivity).
    pose proof (nfin_fun _ _ _ V Ht) as Hv.
    assert (Hb : nfin (NF (S754_finite true 6262818231812096 (-54))) (- (89 # 256))) by (vm_compute; reflexivity).
    rewrite (nfin_xlt_l _ _ _ Hb) in Y. lra.
Qed.
Print Assumptions C29_asymmetric_refuted.
(** a belt's box is symmetric *)
Example C29_belt : exists bx h, proto_box (w_protos yard) (VStr "transport-belt") = Ok bx /\ symmetric_box bx h /\ (fst h == snd h)%Q.
Proof. eexists _, (1 # 2, 1 # 2)%Q. split; [vm_compute; reflexivity|]. split; [split; split; vm_compute; reflexivity|reflexivity]. Qed.

(** ** C30 *)
(** j/256 becomes (j + 64 n)/256 modulo 1, exactly *)
Theorem C30_orientation_turns :
  forall w b x n c r, reachable w -> blu w b = Some x -> ent_cw r = true ->
  (forall i e, In i (b_objs x) -> ent w i = Some e -> can_turn c e) ->
  forall i e j, In i (b_objs x) -> ent w i = Some e -> oriented e -> oriented_at e j ->
    exists e', ent (fst (step (ORotate b n c r) w)) i = Some e' /\ oriented_at e' ((j + 64 * (n mod 4)) mod 256).
Proof. exact p_C30_orientation. Qed.
Print Assumptions C30_orientation_turns.
(** a wagon without orientation: TypeError; the entities before it are turned, the wagon is moved,
    those after it are untouched and the layer is not sorted *)
Theorem C30_no_orientation_stops_halfway :
  forall w b x n c r pre i post e v, reachable w -> blu w b = Some x -> ent_cw r = true ->
  b_objs x = pre ++ i :: post ->
  (forall j ej, In j pre -> ent w j = Some ej -> can_turn c ej) ->
  ent w i = Some e -> e_pos e = Some v -> exact_about c v -> oriented e -> dget "orientation" (e_at e) = Some VNone ->
  exists w', step (ORotate b n c r) w = (w', Err EType) /\
    (forall d, blu w' d = blu w d) /\ w_protos w' = w_protos w /\
    (forall j, ~ In j pre -> j <> i -> ent w' j = ent w j) /\
    (forall j ej, In j pre -> ent w j = Some ej -> exists e', ent w' j = Some e' /\ turned (Z.to_nat (n mod 4)) c ej e') /\
    (exists e' v' p pc, ent w' i = Some e' /\ e_pos e' = Some v' /\ at_point v p /\ at_point c pc /\
       at_point v' (qturn (Z.to_nat (n mod 4)) pc p) /\ still e' = still e /\ e_auto e' = e_auto e /\ e_at e' = e_at e).
Proof. exact p_C30_none. Qed.
Print Assumptions C30_no_orientation_stops_halfway.
Example C30_wagon :
  orients yard = [None; None; None; Some f25] /\
  orients (run [ORotate 0 1 vzero RDefault] yard) = [None; None; None; Some half] /\
  orients (run [ORotate 0 3 vzero RDefault] yard) = [None; None; None; Some (VFlt (S754_zero false))].
Proof. vm_compute. repeat split; reflexivity. Qed.
Example C30_halfway :
  let w := run [OMake 0 (thing "cargo-wagon" 2 0)] yard in
  let r := step (ORotate 0 1 vzero RDefault) w in
  snd r = Err EType /\ objs w = [[0; 4; 1; 2; 3]]%nat /\ objs (fst r) = objs w /\
  map fst (poses (fst r)) = [Some (mkVec (NI 0) (NI 0)); Some (mkVec (NI 3) (NI 1));
    Some (mkVec (NF (S754_finite false 4503599627370496 (-53))) (NI 7)); Some (mkVec (NI 9) (NI 9)); Some (mkVec (NI 0) (NI 2))].
Proof. vm_compute. repeat split; reflexivity. Qed.
(** an orientation of 0.1 drifts to 0.10000000000000009 in four quarter turns *)
Example C30_drift :
  let w := run [OMake 0 (thing "cargo-wagon" 2 0 ++ [(KS "orientation", VFlt f01)])] (run boot start) in
  orients (run [ORotate 0 1 vzero RDefault; ORotate 0 1 vzero RDefault; ORotate 0 1 vzero RDefault; ORotate 0 1 vzero RDefault] w) =
    [Some (VFlt (S754_finite false 7205759403792800 (-56)))].
Proof. vm_compute. reflexivity. Qed.
