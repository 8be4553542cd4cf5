(** * Theorems about layers, wires in the wire list, lookup and the prototype tables:
      C14, C15, C19-C24, C38, C45, C49. *)
From Coq Require Import QArith Permutation.
From Verif Require Import Py Num NumFacts Util SpecUtil Classes Mixins Entity World SpecWorld LayerProofs PersistProofs
  EntityData Demo.
Open Scope Z_scope.

(** the example worlds are reachable *)
Example demo_reachable : reachable_plain demo /\ reachable_plain wired.
Proof.
  assert (R : forall l w, reachable_plain w ->
            Forall (fun o => is_recolour o = false /\ forall w, op_ok w o) l -> reachable_plain (run l w)).
  { induction l as [|o r IH]; simpl; intros w H F; auto. inversion F as [|? ? [A B] F']; subst.
    apply IH; auto. constructor; auto. }
  assert (D : reachable_plain demo).
  { assert (E : demo = run demo_ops start) by (vm_compute; reflexivity). rewrite E. apply R; [constructor|].
    unfold demo_ops, boot. repeat constructor. }
  split; auto.
  assert (E : wired = fst (step (OConnect 1 (Some 0%nat) (VInt 1) (VStr "1") "red") demo)) by (vm_compute; reflexivity).
  rewrite E. constructor; auto. exists (match ent demo 0 with Some e => e | None => mkEnt true None VNone VNone VNone entity_cls None 0 VNone None [] end).
  vm_compute. reflexivity.
Qed.

(** ** C14 *)
(** no history of calls produces two entries for one wire (Connection.flip_color, which
    recolours a wire behind the blueprint's back, aside) *)
Theorem C14_wire_list_distinct :
  forall w b x, reachable_plain w -> blu w b = Some x -> distinct_wires (b_conns x).
Proof. exact p_C14_distinct. Qed.
Print Assumptions C14_wire_list_distinct.

Theorem C14_connect_adds_once :
  forall e t fs ts col w en b x fz tz,
  ent w e = Some en -> e_layer en = Some b -> blu w b = Some x -> py_int fs = Ok fz -> py_int ts = Ok tz ->
  let c := mkConn (Some e) t fz tz col in
  ((exists d, In d (b_conns x) /\ same_wire c d) -> connect e t fs ts col w = (w, Ok tt)) /\
  (~ (exists d, In d (b_conns x) /\ same_wire c d) ->
   snd (connect e t fs ts col w) = Ok tt /\
   conns_of (fst (connect e t fs ts col w)) b = Some (b_conns x ++ [c])).
Proof. exact p_C14_connect. Qed.
Print Assumptions C14_connect_adds_once.

(** once e is connected to f, connecting them again from either end changes nothing *)
Theorem C14_connect_either_way :
  forall e f fs ts col w ee ef b x fz tz,
  ent w e = Some ee -> e_layer ee = Some b -> ent w f = Some ef -> e_layer ef = Some b -> blu w b = Some x ->
  py_int fs = Ok fz -> py_int ts = Ok tz ->
  let w' := fst (connect e (Some f) fs ts col w) in
  connect e (Some f) fs ts col w' = (w', Ok tt) /\ connect f (Some e) ts fs col w' = (w', Ok tt).
Proof. exact p_C14_either_way. Qed.
Print Assumptions C14_connect_either_way.

Example C14_ex :
  wires wired = [[mkConn (Some 1%nat) (Some 0%nat) 1 1 "red"]] /\
  wires (run [OConnect 0 (Some 1%nat) (VInt 1) (VInt 1) "red"; OConnect 1 (Some 0%nat) (VInt 1) (VInt 1) "red"] wired) =
  wires wired /\
  length (concat (wires (run [OConnect 0 (Some 1%nat) (VInt 1) (VInt 1) "green"] wired))) = 2%nat.
Proof. vm_compute. auto. Qed.
(** with flip_color a duplicate can be produced: a red and a green wire, the green one recoloured *)
Example C14_recolour_refuted :
  let w := run [OConnect 0 (Some 1%nat) (VInt 1) (VInt 1) "green"; OFlipColor 0 1] wired in
  exists x, blu w 0 = Some x /\ ~ distinct_wires (b_conns x).
Proof.
  exists (match blu (run [OConnect 0 (Some 1%nat) (VInt 1) (VInt 1) "green"; OFlipColor 0 1] wired) 0 with
          | Some x => x | None => empty_bp true [] end). split; [vm_compute; reflexivity|].
  intros D. refine (D 0%nat 1%nat _ _ _ _ _ _); [vm_compute; reflexivity|vm_compute; reflexivity|discriminate|].
  split; [reflexivity|right; vm_compute; auto].
Qed.

(** ** C15 *)
Theorem C15_connect_sides :
  forall e t fs ts col w en b x,
  ent w e = Some en -> e_layer en = Some b -> blu w b = Some x ->
  (snd (connect e t fs ts col w) = Ok tt <-> (exists z, py_int fs = Ok z) /\ (exists z, py_int ts = Ok z)) /\
  (forall err, snd (connect e t fs ts col w) = Err err -> fst (connect e t fs ts col w) = w).
Proof. exact p_C15_accepts. Qed.
Print Assumptions C15_connect_sides.

(** which texts int() takes *)
Theorem C15_int_of_text :
  forall s z, all_ascii s = true -> (int_of_string s = Ok z <-> int_text s z).
Proof. exact int_of_string_spec. Qed.
Print Assumptions C15_int_of_text.

Theorem C15_default_side_fails :
  forall e t col w en, ent w e = Some en ->
  connect e t (VStr "in") (VStr "in") col w = (w, Err EValue).
Proof. exact p_C15_default. Qed.
Print Assumptions C15_default_side_fails.

Example C15_ex :
  snd (connect 0 (Some 1%nat) (VStr " +1_0 ") (VBool true) "red" demo) = Ok tt /\
  snd (connect 0 (Some 1%nat) (VStr "1.0") (VInt 1) "red" demo) = Err EValue /\
  snd (connect 0 (Some 1%nat) VNone (VInt 1) "red" demo) = Err EType.
Proof. vm_compute. auto. Qed.

(** ** C19 *)
Theorem C19_one_owner :
  forall w, reachable w -> forall b x i, blu w b = Some x -> In i (b_objs x) ->
  (exists e, ent w i = Some e /\ e_layer e = Some b) /\
  count_occ Nat.eq_dec (b_objs x) i = 1%nat /\
  (forall c y, blu w c = Some y -> In i (b_objs y) -> c = b).
Proof. exact p_C19. Qed.
Print Assumptions C19_one_owner.

Example C19_ex :
  objs demo = [[2; 1; 0; 3]%nat] /\ layers demo = [Some 0; Some 0; Some 0; Some 0]%nat /\
  objs (run [ONewBlueprint true []; ORemove 0 (OEnt 1); OAdd 1 (OEnt 1)] demo) = [[2; 0; 3]; [1]]%nat.
Proof. vm_compute. auto. Qed.

(** ** C20 *)
Theorem C20_add_foreign :
  forall b c i e x w, ent w i = Some e -> e_layer e = Some c -> c <> b -> blu w b = Some x ->
  step (OAdd b (OEnt i)) w = (w, Err EDuplicateEntity).
Proof. exact p_C20_foreign. Qed.
Print Assumptions C20_add_foreign.
Theorem C20_add_twice :
  forall b i x w, reachable w -> blu w b = Some x -> In i (b_objs x) ->
  step (OAdd b (OEnt i)) w = (w, Ok tt).
Proof. exact p_C20_twice. Qed.
Print Assumptions C20_add_twice.
Theorem C20_add_wrong_type :
  forall b w, step (OAdd b OForeign) w = (w, Err EType) /\ step (ORemove b OForeign) w = (w, Err EType).
Proof. exact p_C20_type. Qed.
Print Assumptions C20_add_wrong_type.

Example C20_ex :
  let w := run [ONewBlueprint true []] demo in
  snd (step (OAdd 1 (OEnt 0)) w) = Err EDuplicateEntity /\ snd (step (OAdd 0 (OEnt 0)) w) = Ok tt.
Proof. vm_compute. auto. Qed.

(** ** C21 *)
Theorem C21_after_add :
  forall w w' b i x, reachable w -> blu w b = Some x -> ~ In i (b_objs x) ->
  step (OAdd b (OEnt i)) w = (w', Ok tt) -> sorted_layer w' b (b_objs x ++ [i]).
Proof. exact p_C21_add. Qed.
Print Assumptions C21_after_add.
Theorem C21_after_make :
  forall w w' b kw x i, reachable w -> blu w b = Some x -> layer_make b kw w = (w', Ok i) ->
  sorted_layer w' b (b_objs x ++ [i]) /\ ent w i = None.
Proof. exact p_C21_make. Qed.
Print Assumptions C21_after_make.
Theorem C21_after_rotate :
  forall w w' b n a r x, reachable w -> blu w b = Some x ->
  step (ORotate b n a r) w = (w', Ok tt) -> sorted_layer w' b (b_objs x).
Proof. exact p_C21_rotate. Qed.
Print Assumptions C21_after_rotate.
Theorem C21_after_sort :
  forall w w' b x, reachable w -> blu w b = Some x ->
  step (OSort b) w = (w', Ok tt) -> sorted_layer w' b (b_objs x).
Proof. exact p_C21_sort. Qed.
Print Assumptions C21_after_sort.
(** the new entities enter in document order before sorting *)
Theorem C21_after_load :
  forall w w' d' b doc x, reachable w -> blu w b = Some x -> load b doc w = (w', d', Ok tt) ->
  sorted_layer w' b (b_objs x ++ seq (length (w_ents w)) (length (doc_list (inner_doc doc) "entities"))).
Proof. exact p_C21_load. Qed.
Print Assumptions C21_after_load.

Example C21_ex :
  objs demo = [[2; 1; 0; 3]%nat] /\ autos demo = [VInt 3; VInt 2; VInt 1; VInt 4] /\
  (* an entity at the position of another one comes after it *)
  objs (run [OMake 0 (thing "lab" 1 2)] demo) = [[2; 1; 4; 0; 3]%nat].
Proof. vm_compute. auto. Qed.

(** ** C22 *)
Theorem C22_remove :
  forall w b i x, reachable w -> blu w b = Some x -> In i (b_objs x) ->
  snd (step (ORemove b (OEnt i)) w) = Ok tt /\
  dropped w (fst (step (ORemove b (OEnt i)) w)) b (Nat.eqb i).
Proof. exact p_C22_remove. Qed.
Print Assumptions C22_remove.
Theorem C22_remove_absent :
  forall w b i x, blu w b = Some x -> ~ In i (b_objs x) ->
  step (ORemove b (OEnt i)) w = (w, Err EValue).
Proof. exact p_C22_absent. Qed.
Print Assumptions C22_remove_absent.

Example C22_ex :
  let w := run [ORemove 0 (OEnt 1)] wired in
  objs w = [[2; 0; 3]%nat] /\ autos w = autos wired /\ wires w = wires wired /\
  layers w = [Some 0%nat; None; Some 0%nat; Some 0%nat].
Proof. vm_compute. auto. Qed.

(** ** C23 *)
(** on the game grid (multiples of 1/256 below 2^40) the lookup is exact *)
Theorem C23_lookup :
  forall w b pt x, blu w b = Some x -> game_pos pt ->
  (forall i, In i (b_objs x) -> exists pos, has_pos w i pos /\ game_pos pos) ->
  fst (layer_at b pt w) = w /\
  (forall l, snd (layer_at b pt w) = Ok l ->
    exists f, l = filter f (b_objs x) /\ forall i, In i (b_objs x) -> (f i = true <-> covers w pt i)).
Proof. exact p_C23_lookup. Qed.
Print Assumptions C23_lookup.
Theorem C23_delete :
  forall w b pt x l, reachable w -> blu w b = Some x -> snd (layer_at b pt w) = Ok l ->
  snd (step (ODelAt b pt) w) = Ok tt /\
  dropped w (fst (step (ODelAt b pt) w)) b (fun i => existsb (Nat.eqb i) l).
Proof. exact p_C23_delete. Qed.
Print Assumptions C23_delete.
Theorem C23_delete_fails :
  forall w b pt x err, blu w b = Some x -> snd (layer_at b pt w) = Err err ->
  step (ODelAt b pt) w = (w, Err err).
Proof. exact p_C23_delete_fails. Qed.
Print Assumptions C23_delete_fails.

Example C23_ex :
  snd (layer_at 0 (mkVec (NI 4) (NI 2)) demo) = Ok [0%nat] /\
  (* the edge of the box does not count *)
  snd (layer_at 0 (mkVec (NF (S754_finite false 5066549580791808 (-50))) (NI 2)) demo) = Ok [] /\
  objs (run [ODelAt 0 (mkVec (NI 4) (NI 2))] demo) = [[2; 1; 3]%nat].
Proof. vm_compute. auto. Qed.
(** off the grid the subtraction rounds: an entity at (1e-20, 0) does not list the point (0.5, 0)
    although that point is strictly inside its box *)
Definition tiny : val := VFlt (S754_finite false 6646139978924579 (-119)).
Definition off_grid : world := Eval vm_compute in
  run (boot ++ [OMake 0 [(KS "name", VStr "iron-chest"); (KS "position", pt tiny (VInt 0))]]) start.
Example C23_float_refuted :
  let p := mkVec (NF (S754_finite false 4503599627370496 (-53))) (NI 0) in
  covers off_grid p 0 /\ snd (layer_at 0 p off_grid) = Ok [].
Proof.
  split; [|vm_compute; reflexivity].
  eexists _, _, _, _. split; [vm_compute; reflexivity|]. split; [vm_compute; reflexivity|].
  split; [vm_compute; reflexivity|].
  exists (6646139978924579 # 2 ^ 119), 0%Q, (1 # 2), 0%Q.
  split; [vm_compute; reflexivity|]. split; [vm_compute; reflexivity|].
  split; [vm_compute; reflexivity|]. split; [vm_compute; reflexivity|].
  split; [vm_compute; reflexivity|]. split; [vm_compute; reflexivity|].
  split; vm_compute; reflexivity.
Qed.

(** ** C24 *)
Theorem C24_failed_construction :
  forall w b kw x err, blu w b = Some x ->
  snd (construct (w_protos w) (b_custom x) (Some b) kw) = Err err -> step (OMake b kw) w = (w, Err err).
Proof. exact p_C24_construct. Qed.
Print Assumptions C24_failed_construction.
(** the constructor can also succeed and the call still fail: only when sorting finds an entity
    without coordinates, and then the new entity stays in the layer, unsorted *)
Theorem C24_late_failure :
  forall w b kw x e err, reachable w -> blu w b = Some x ->
  snd (construct (w_protos w) (b_custom x) (Some b) kw) = Ok e -> snd (step (OMake b kw) w) = Err err ->
  let w' := fst (step (OMake b kw) w) in
  (err = EAttribute \/ err = EUnmodelled) /\
  objs_of w' b = Some (b_objs x ++ [length (w_ents w)]) /\
  ent w' (length (w_ents w)) = Some e /\ (forall i, i <> length (w_ents w) -> ent w' i = ent w i).
Proof. exact p_C24_late. Qed.
Print Assumptions C24_late_failure.

Example C24_ex :
  snd (step (OMake 0 (thing "no-such-thing" 1 1)) demo) = Err EUnknownEntity /\
  snd (step (OMake 0 ((KS "bar", VInt 3) :: thing "iron-chest" 1 1)) demo) = Err EType /\
  let o := OMake 0 [(KS "name", VStr "iron-chest"); (KS "position", VNone)] in
  snd (step o demo) = Err EAttribute /\ objs (fst (step o demo)) = [[2; 1; 0; 3; 4]%nat].
Proof. vm_compute. auto. Qed.

(** ** C38 *)
Theorem C38_no_tiles :
  forall w b x, reachable w -> blu w b = Some x -> b_tiles x = [].
Proof. exact p_C38_empty. Qed.
Print Assumptions C38_no_tiles.
Theorem C38_add_fails :
  forall w b t x, blu w b = Some x ->
  step (OTilesAdd b (Some t)) w = (w, Err EAttribute) /\ step (OTilesAdd b None) w = (w, Err EType).
Proof. exact p_C38_add. Qed.
Print Assumptions C38_add_fails.
Theorem C38_make_fails :
  forall w b kw, fst (step (OTilesMake b kw) w) = w /\ exists err, snd (step (OTilesMake b kw) w) = Err err.
Proof. exact p_C38_make. Qed.
Print Assumptions C38_make_fails.
Theorem C38_make_type_error :
  forall w b x (name : string) (pos : val) v (kw : dict), blu w b = Some x ->
  dmem name (p_tile (w_protos w)) = true -> vec_of_val pos = Ok v ->
  dget "name" kw = Some (VStr name) -> dget "position" kw = Some pos ->
  step (OTilesMake b kw) w = (w, Err EType).
Proof. exact p_C38_make_type. Qed.
Print Assumptions C38_make_type_error.
Theorem C38_load_fails :
  forall w b doc w' d' r, doc_list (inner_doc doc) "tiles" <> [] -> load b doc w = (w', d', r) ->
  exists err, r = Err err.
Proof. exact p_C38_load. Qed.
Print Assumptions C38_load_fails.

Example C38_ex :
  snd (step (OTilesMake 0 (thing "concrete" 1 1)) demo) = Err EType /\
  snd (step (OLoad 0 (doc_of [(KS "tiles", VList [VDict (thing "concrete" 1 1)])])) demo) = Err EType /\
  snd (step (OTilesMake 0 (thing "iron-chest" 1 1)) demo) = Err EUnknownTile.
Proof. vm_compute. auto. Qed.

(** ** C45 *)
Theorem C45_set_table :
  forall w t append data, NoDup (map fst data) ->
  let w' := fst (step (OSetTable t append data) w) in
  snd (step (OSetTable t append data) w) = Ok tt /\ w_ents w' = w_ents w /\ w_bps w' = w_bps w /\
  (forall t', t' <> t -> table_of t' (w_protos w') = table_of t' (w_protos w)) /\
  (append = false -> table_of t (w_protos w') = data) /\
  (append = true -> forall k, dget k (table_of t (w_protos w')) =
     match dget k data with Some v => Some v | None => dget k (table_of t (w_protos w)) end).
Proof. exact p_C45_set. Qed.
Print Assumptions C45_set_table.
Theorem C45_import :
  forall w data append d, let file := VDict data in
  (forall t, dget (table_name t) data = Some (VDict (d t))) ->
  snd (step (OImport file append) w) = Ok tt /\
  forall t, table_of t (w_protos (fst (step (OImport file append) w))) =
            table_of t (w_protos (fst (step (OSetTable t append (d t)) w))).
Proof. exact p_C45_import. Qed.
Print Assumptions C45_import.
Theorem C45_failed_import :
  forall w data append d (n : nat), let file := VDict data in
  (n < 5)%nat ->
  (forall t, (table_rank t < n)%nat -> dget (table_name t) data = Some (VDict (d t))) ->
  (forall t, table_rank t = n -> dget (table_name t) data = None) ->
  snd (step (OImport file append) w) = Err EKey /\
  forall t, table_of t (w_protos (fst (step (OImport file append) w))) =
            if Nat.ltb (table_rank t) n then table_of t (w_protos (fst (step (OSetTable t append (d t)) w)))
            else table_of t (w_protos w).
Proof. exact p_C45_import_fails. Qed.
Print Assumptions C45_failed_import.

Example C45_ex :
  let t := [(KS "a", VInt 1); (KS "b", VInt 2)] in
  let w := fst (step (OSetTable TRecipe false t) start) in
  p_recipe (w_protos (fst (step (OSetTable TRecipe true [(KS "b", VInt 3); (KS "c", VInt 4)]) w))) =
    [(KS "a", VInt 1); (KS "b", VInt 3); (KS "c", VInt 4)] /\
  let '(w', r) := step (OImport (VDict [(KS "entity", VDict t); (KS "item", VDict t)]) false) start in
  r = Err EKey /\ p_entity (w_protos w') = t /\ p_item (w_protos w') = [].
Proof. vm_compute. auto. Qed.

(** ** C49 *)
Theorem C49_lookup_by_number :
  forall w b x z, blu w b = Some x ->
  (forall i, get_entity_by_id w b (VInt z) = Some i ->
     exists pre post e, b_objs x = pre ++ i :: post /\ ent w i = Some e /\ denotes (e_number e) z /\
       forall j f, In j pre -> ent w j = Some f -> ~ denotes (e_number f) z) /\
  (get_entity_by_id w b (VInt z) = None ->
     forall j f, In j (b_objs x) -> ent w j = Some f -> ~ denotes (e_number f) z).
Proof. exact p_C49_lookup. Qed.
Print Assumptions C49_lookup_by_number.
(** the number looked up is the one of the document, whatever happens later *)
Theorem C49_number_of_loaded :
  forall w b doc w' d' x k kw ops, blu w b = Some x -> load b doc w = (w', d', Ok tt) ->
  nth_error (doc_list (inner_doc doc) "entities") k = Some (VDict kw) ->
  exists e, ent (run ops w') (length (w_ents w) + k) = Some e /\
            e_number e = odflt VNone (dget "entity_number" kw).
Proof. exact p_C49_loaded. Qed.
Print Assumptions C49_number_of_loaded.
Theorem C49_number_of_made :
  forall w b kw w' i ops, layer_make b kw w = (w', Ok i) ->
  exists e, ent (run ops w') i = Some e /\ e_number e = odflt VNone (dget "entity_number" kw).
Proof. exact p_C49_made. Qed.
Print Assumptions C49_number_of_made.

Definition loaded : world := Eval vm_compute in
  run (boot ++ [OLoad 0 (ents_doc [numbered_thing 7 "iron-chest" 3 3; numbered_thing 5 "lab" 1 0;
                                   numbered_thing 7 "beacon" 0 0])]) start.
Example C49_ex :
  objs loaded = [[2; 1; 0]%nat] /\ autos loaded = [VInt 3; VInt 2; VInt 1] /\
  get_entity_by_id loaded 0 (VInt 7) = Some 2%nat /\ get_entity_by_id loaded 0 (VInt 5) = Some 1%nat /\
  get_entity_by_id loaded 0 (VInt 3) = None /\
  (* entities made without a number are found by no number at all *)
  get_entity_by_id (run [OMake 0 (thing "lab" 8 8)] loaded) 0 (VInt 4) = None.
Proof. vm_compute. auto 10. Qed.
