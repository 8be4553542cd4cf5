(** * Theorems about the geometry of a blueprint: C42 - C44, C52. *)
From Coq Require Import Lqa Permutation QArith.
From Verif Require Import Py Num NumFacts Util UtilFacts SpecUtil Classes Mixins Entity World Inv LayerProofs SpecWorld SpecRotate RotateProofs TurnProofs
  SpecGeom GeomProofs EntityData Demo Props_Rotate.
Open Scope Z_scope.

(** ** C42 *)
Theorem C42_extremes_of_the_corners :
  forall w b x, blu w b = Some x -> b_objs x <> [] -> (forall i, In i (b_objs x) -> exists tl br, corner_points w i tl br) ->
  exists x2 x1 y2 y1, maximum_values b w = (w, Ok (NI x2, NI x1, NI y2, NI y1)) /\
    largest_cut w (b_objs x) (fun _ br => fst br) x2 /\ smallest_cut w (b_objs x) (fun tl _ => fst tl) x1 /\
    largest_cut w (b_objs x) (fun _ br => snd br) y2 /\ smallest_cut w (b_objs x) (fun tl _ => snd tl) y1.
Proof. exact p_C42. Qed.
Print Assumptions C42_extremes_of_the_corners.
Theorem C42_empty_blueprint :
  forall w b x, blu w b = Some x -> b_objs x = [] -> maximum_values b w = (w, Ok (ninf, pinf, ninf, pinf)).
Proof. exact p_C42_empty. Qed.
Print Assumptions C42_empty_blueprint.
(** integer corners are contained, others overshoot by less than one *)
Theorem C42_contains_the_high_corners :
  forall w l f m, largest_cut w l f m -> forall i tl br, In i l -> corner_points w i tl br ->
  (f tl br < inject_Z (m + 1))%Q /\ ((exists z, f tl br == inject_Z z)%Q -> (f tl br <= inject_Z m)%Q).
Proof. exact p_C42_contains. Qed.
Print Assumptions C42_contains_the_high_corners.
Theorem C42_contains_the_low_corners :
  forall w l f m, smallest_cut w l f m -> forall i tl br, In i l -> corner_points w i tl br ->
  (inject_Z (m - 1) < f tl br)%Q /\ ((exists z, f tl br == inject_Z z)%Q -> (inject_Z m <= f tl br)%Q).
Proof. exact p_C42_contains_low. Qed.
Print Assumptions C42_contains_the_low_corners.
(** blueprints that list the same entities, in whatever order, have the same box *)
Theorem C42_order_is_irrelevant :
  forall w w' b b' x x', blu w b = Some x -> blu w' b' = Some x' -> w_protos w' = w_protos w -> w_ents w' = w_ents w ->
  (forall i, In i (b_objs x) <-> In i (b_objs x')) -> (forall i, In i (b_objs x) -> exists tl br, corner_points w i tl br) ->
  snd (maximum_values b' w') = snd (maximum_values b w).
Proof. exact p_C42_order. Qed.
Print Assumptions C42_order_is_irrelevant.
(** the belt reaches from (2.5, 0.5) to (3.5, 1.5), the wagon from (8, 6) to (10, 12) or so: the inserter's
    box around (0, 0) is cut to nothing *)
Example C42_yard :
  snd (maximum_values 0 yard) = Ok (NI 10, NI 0, NI 12, NI 0) /\
  snd (maximum_values 0 (run boot start)) = Ok (ninf, pinf, ninf, pinf) /\
  corners_of (NI 10, NI 0, NI 12, NI 0) =
    (mkVec (NI 0) (NI 0), mkVec (NI 10) (NI 0), mkVec (NI 0) (NI 12), mkVec (NI 10) (NI 12)).
Proof. vm_compute. repeat split; reflexivity. Qed.
(** the inserter sticks out of the box *)
Example C42_cuts_off :
  match ent yard 0 with Some e => snd (maximum_values 0 yard) = Ok (NI 10, NI 0, NI 12, NI 0) /\
    exists v, ent_top_left (w_protos yard) e = Ok v /\ nltb (vx v) (NI 0) = true /\ nltb (vy v) (NI 0) = true | None => False end.
Proof. vm_compute. split; [reflexivity|]. eexists. split; [reflexivity|]. split; reflexivity. Qed.

(** ** C43 *)
Theorem C43_success_changes_nothing :
  forall w b a w', recenter b a w = (w', Ok tt) -> w' = w.
Proof. exact p_C43_ok. Qed.
Print Assumptions C43_success_changes_nothing.
Theorem C43_origin_succeeds :
  forall w b x c, blu w b = Some x -> game_pos c -> at_origin c -> recenter b (Some c) w = (w, Ok tt).
Proof. exact p_C43_origin. Qed.
Print Assumptions C43_origin_succeeds.
Theorem C43_otherwise_moves_and_fails :
  forall w b x c, reachable w -> blu w b = Some x -> game_pos c -> ~ at_origin c ->
  (forall i, In i (b_objs x) -> exists e v, ent w i = Some e /\ e_pos e = Some v /\ game_pos v) ->
  exists w', recenter b (Some c) w = (w', Err EAttribute) /\ w_bps w' = w_bps w /\ w_protos w' = w_protos w /\
    (forall i, ~ In i (b_objs x) -> ent w' i = ent w i) /\
    (forall i e, In i (b_objs x) -> ent w i = Some e -> exists e', ent w' i = Some e' /\ moved_by c e e').
Proof. exact (fun w b x c R => p_C43_moves w b x c (reach_inv w R)). Qed.
Print Assumptions C43_otherwise_moves_and_fails.
(** without an argument: the middle of the bounding box, rounded up *)
Theorem C43_default_centre :
  forall w b x x2 x1 y2 y1, blu w b = Some x -> maximum_values b w = (w, Ok (NI x2, NI x1, NI y2, NI y1)) ->
  Z.abs (x2 + x1) < 2 ^ 53 -> Z.abs (y2 + y1) < 2 ^ 53 ->
  exists cx cy, is_ceil ((x2 + x1) # 2) cx /\ is_ceil ((y2 + y1) # 2) cy /\
    recenter b None w = recenter b (Some (mkVec (NI cx) (NI cy))) w.
Proof. exact p_C43_default. Qed.
Print Assumptions C43_default_centre.
Theorem C43_empty_blueprint :
  forall w b x, blu w b = Some x -> b_objs x = [] -> recenter b None w = (w, Err EValue).
Proof. exact p_C43_empty. Qed.
Print Assumptions C43_empty_blueprint.
Example C43_yard :
  let w' := fst (recenter 0 None yard) in
  snd (recenter 0 None yard) = Err EAttribute /\
  poses w' = [(Some (mkVec (NI (-5)) (NI (-6))), 0); (Some (mkVec (NI (-2)) (NI (-5))), 2);
              (Some (mkVec (NF (S754_finite true 5066549580791808 (-50))) (NI 1)), 0); (Some (mkVec (NI 4) (NI 3)), 0)] /\
  snd (recenter 0 (Some (mkVec (NI 0) (NF (S754_zero true)))) yard) = Ok tt.
Proof. vm_compute. repeat split; reflexivity. Qed.

(** ** C44 *)
Theorem C44_never_returns :
  forall w b, exists e, weighted_center b w = (w, Err e).
Proof. exact p_C44. Qed.
Print Assumptions C44_never_returns.
Theorem C44_two_errors :
  forall w b x, reachable w -> blu w b = Some x ->
  snd (weighted_center b w) = Err EType \/ snd (weighted_center b w) = Err EOverflow.
Proof. exact (fun w b x R => p_C44_errors w b x (reach_inv w R)). Qed.
Print Assumptions C44_two_errors.
Theorem C44_type_error :
  forall w b x, blu w b = Some x -> (length (b_objs x) < 2 ^ 12)%nat ->
  (forall i, In i (b_objs x) -> exists e v, ent w i = Some e /\ e_pos e = Some v /\ game_pos v) ->
  weighted_center b w = (w, Err EType).
Proof. exact p_C44_type. Qed.
Print Assumptions C44_type_error.
Example C44_yard : snd (weighted_center 0 yard) = Err EType /\ snd (weighted_center 0 (run boot start)) = Err EType.
Proof. vm_compute. split; reflexivity. Qed.

(** ** C52 *)
Theorem C52_corners_form_a_rectangle :
  forall p e tl br, ent_top_left p e = Ok tl -> ent_bottom_right p e = Ok br ->
  ent_top_right p e = Ok (mkVec (vx br) (vy tl)) /\ ent_bottom_left p e = Ok (mkVec (vx tl) (vy br)).
Proof. exact rect_corners. Qed.
Print Assumptions C52_corners_form_a_rectangle.
Theorem C52_corners_of_the_turned_box :
  forall p e v lt rb x y l t r b, e_pos e = Some v -> proto_box p (e_name e) = Ok (lt, rb) ->
  on_grid x (vx v) -> on_grid y (vy v) -> on_grid l (vx lt) -> on_grid t (vy lt) -> on_grid r (vx rb) -> on_grid b (vy rb) ->
  Z.abs x < 2 ^ 48 -> Z.abs y < 2 ^ 48 -> Z.abs l < 2 ^ 48 -> Z.abs t < 2 ^ 48 -> Z.abs r < 2 ^ 48 -> Z.abs b < 2 ^ 48 -> 0 <= e_dir e ->
  exists tl br, ent_top_left p e = Ok tl /\ ent_bottom_right p e = Ok br /\
    at_point tl (corner_at (e_dir e) x y l t) /\ at_point br (corner_at (e_dir e) x y r b).
Proof. exact corners_grid. Qed.
Print Assumptions C52_corners_of_the_turned_box.
(** the belt at (3, 1) *)
Example C52_belt :
  match ent yard 1 with
  | Some e => ent_top_left (w_protos yard) e = Ok (mkVec (NF (S754_finite false 5629499534213120 (-51))) (NF (S754_finite false 4503599627370496 (-53)))) /\
              corner_at (e_dir e) 768 256 (-128) (-128) = (640 # 256, 128 # 256)
  | None => False
  end.
Proof. vm_compute. split; reflexivity. Qed.
