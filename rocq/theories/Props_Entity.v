(** * Theorems about entity descriptions: the keys each prototype type understands and the
      conditions of combinators: C32, C33, C36. *)
From Verif Require Import Py Num Util Classes Mixins Entity World SpecWorld SpecDoc SpecEntity DictFacts EntProofs CbProofs EntityData Demo Props_Doc.
Open Scope Z_scope.

(** ** C32 *)
(** the table of formats speaks about exactly the types the library knows *)
Theorem C32_formats_cover_types :
  forall ty, dget ty type_mixins <> None <-> exists s own cb, ty = KS s /\ In (s, (own, cb)) formats.
Proof. exact p_C32_formats. Qed.
Print Assumptions C32_formats_cover_types.
(** an entity is only ever made from a description all of whose keys its type understands *)
Theorem C32_only_understood_keys :
  forall p cust l kw s ty own cb e k, typed p kw s ty -> dget ty cust = None -> In (ty, (own, cb)) formats ->
  snd (construct p cust l kw) = Ok e -> dget k kw <> None -> understood ty k.
Proof. exact p_C32_keys. Qed.
Print Assumptions C32_only_understood_keys.
(** adding a key the type does not understand to a description that is fine raises TypeError *)
Theorem C32_unknown_key_is_a_type_error :
  forall p cust l kw s ty own cb e k, typed p (ddel k kw) s ty -> dget ty cust = None -> In (ty, (own, cb)) formats ->
  snd (construct p cust l (ddel k kw)) = Ok e -> dget k kw <> None -> ~ understood ty k ->
  snd (construct p cust l kw) = Err EType.
Proof. exact p_C32_rejected. Qed.
Print Assumptions C32_unknown_key_is_a_type_error.
(** the same for make: TypeError and no change *)
Theorem C32_make_unknown_key :
  forall w b x kw k s (ty : string) own cb, blu w b = Some x -> dget ty (b_custom x) = None -> In (ty, (own, cb)) formats ->
  typed (w_protos w) (ddel k kw) s ty -> snd (step (OMake b (ddel k kw)) w) = Ok tt ->
  dget k kw <> None -> ~ understood ty k -> step (OMake b kw) w = (w, Err EType).
Proof. exact p_C32_make. Qed.
Print Assumptions C32_make_unknown_key.
(** and for load: a document that loads has no such key in any of its entities *)
Theorem C32_load_only_understood_keys :
  forall w b x doc d w' doc' l kw s (ty : string) own cb k, blu w b = Some x -> holds doc d -> load b doc w = (w', doc', Ok tt) ->
  dget "entities" d = Some (VList l) -> In (VDict kw) l -> typed (w_protos w) kw s ty -> dget ty (b_custom x) = None ->
  In (ty, (own, cb)) formats -> dget k kw <> None -> understood ty k.
Proof. exact p_C32_load. Qed.
Print Assumptions C32_load_only_understood_keys.
(** 'bar' on a chest, 'items' on an assembling machine; a recipe is understood *)
Example C32_ex :
  snd (step (OMake 0 (thing "steel-chest" 1 1)) booted) = Ok tt /\
  snd (step (OMake 0 (thing "steel-chest" 1 1 ++ [(KS "bar", VInt 3)])) booted) = Err EType /\
  snd (step (OMake 0 (thing "assembling-machine-2" 1 1 ++ [(KS "recipe", VStr "iron-gear-wheel")])) booted) = Ok tt /\
  snd (step (OMake 0 (thing "assembling-machine-2" 1 1 ++ [(KS "items", VDict [(KS "speed-module", VInt 2)])])) booted) = Err EType /\
  typed (w_protos booted) (thing "steel-chest" 1 1) "steel-chest" "container" /\
  ~ understood "container" (KS "bar").
Proof.
  repeat match goal with |- _ /\ _ => split end; try (vm_compute; reflexivity).
  - repeat split; try (vm_compute; congruence). eexists. split; vm_compute; reflexivity.
  - intros (s & own & cb & I & [= <-] & H). change "container" with (fst ("container", ([] : list string, [] : list string))) in I.
    assert (J : In ("container", ([] : list string, [] : list string)) formats) by (cbn; auto 12).
    destruct (formats_fun _ _ _ _ _ J I) as (<- & <-). cbn in H. intuition discriminate.
Qed.

(** ** C33 *)
Theorem C33_only_understood_keys :
  forall p cust l kw s ty own cbk e cb k, typed p kw s ty -> dget ty cust = None -> In (ty, (own, cbk)) formats -> ty <> "inserter" ->
  snd (construct p cust l kw) = Ok e -> dget "control_behavior" kw = Some (VDict cb) -> dget k cb <> None -> cb_understood ty k.
Proof. exact p_C33_keys. Qed.
Print Assumptions C33_only_understood_keys.
Theorem C33_unknown_key_is_a_type_error :
  forall p cust l kw s ty own cbk e cb k, typed p kw s ty -> dget ty cust = None -> In (ty, (own, cbk)) formats -> ty <> "inserter" ->
  snd (construct p cust l (dset "control_behavior" (VDict (ddel k cb)) kw)) = Ok e ->
  dget k cb <> None -> ~ cb_understood ty k ->
  snd (construct p cust l (dset "control_behavior" (VDict cb) kw)) = Err EType.
Proof. exact p_C33_rejected. Qed.
Print Assumptions C33_unknown_key_is_a_type_error.
(** inserters: the entity (or the error) is the one without the key *)
Theorem C33_inserters_drop_unknown_keys :
  forall p cust l kw s cb (x : string), typed p kw s "inserter" -> dget "inserter" cust = None ->
  ~ cb_understood "inserter" x -> x <> "self" -> x <> "_entity" ->
  snd (construct p cust l (dset "control_behavior" (VDict cb) kw)) =
  snd (construct p cust l (dset "control_behavior" (VDict (ddel x cb)) kw)).
Proof. exact p_C33_inserter. Qed.
Print Assumptions C33_inserters_drop_unknown_keys.
(** the same inside the conditions of combinators *)
Theorem C33_only_understood_condition_keys :
  forall p cust l kw s ty f cb d e k, typed p kw s ty -> dget ty cust = None -> conditions_of ty = Some f ->
  snd (construct p cust l (with_conditions f d cb kw)) = Ok e -> dget k d <> None -> exists x, k = KS x /\ In x (cond_keys ty).
Proof. exact p_C33_conditions. Qed.
Print Assumptions C33_only_understood_condition_keys.
Theorem C33_unknown_condition_key_is_a_type_error :
  forall p cust l kw s ty f cb d e k, typed p kw s ty -> dget ty cust = None -> conditions_of ty = Some f ->
  snd (construct p cust l (with_conditions f (ddel k d) cb kw)) = Ok e -> dget k d <> None ->
  (forall x, k = KS x -> ~ In x (cond_keys ty)) ->
  snd (construct p cust l (with_conditions f d cb kw)) = Err EType.
Proof. exact p_C33_condition_rejected. Qed.
Print Assumptions C33_unknown_condition_key_is_a_type_error.

Definition with_cb (kw cb : dict) : dict := dset "control_behavior" (VDict cb) kw.
Example C33_ex :
  snd (step (OMake 0 (with_cb (thing "small-lamp" 1 1) [(KS "use_colors", VBool true)])) booted) = Ok tt /\
  snd (step (OMake 0 (with_cb (thing "small-lamp" 1 1) [(KS "use_colors", VBool true); (KS "colour", VInt 1)])) booted) = Err EType /\
  snd (step (OMake 0 (with_cb (thing "inserter" 1 1) [(KS "circuit_hand_read_mode", VInt 1); (KS "colour", VInt 1)])) booted) = Ok tt /\
  snd (step (OMake 0 (with_cb (thing "inserter" 1 1) [(KS "circuit_hand_read_mode", VInt 1); (KS "self", VInt 1)])) booted) = Err EType.
Proof. repeat split; vm_compute; reflexivity. Qed.
Definition sig (name ty : string) : val := VDict [(KS "name", VStr name); (KS "type", VStr ty)].
Example C33_ex_conditions :
  let arith d := with_conditions "arithmetic_conditions" d [] (thing "arithmetic-combinator" 1 1) in
  snd (step (OMake 0 (arith [(KS "operation", VStr "+"); (KS "first_signal", sig "signal-A" "virtual")])) booted) = Ok tt /\
  snd (step (OMake 0 (arith [(KS "operation", VStr "+"); (KS "third_signal", sig "signal-A" "virtual")])) booted) = Err EType.
Proof. repeat split; vm_compute; reflexivity. Qed.

(** ** C36 *)
(** a decider with a first signal and a constant is never made *)
Theorem C36_decider_with_constant_never_loads :
  forall p cust l kw s cb d c e, typed p kw s "decider-combinator" -> dget "decider-combinator" cust = None ->
  dget "first_signal" d <> None -> dget "constant" d = Some c -> c <> VNone ->
  snd (construct p cust l (with_conditions "decider_conditions" d cb kw)) <> Ok e.
Proof. exact p_C36_never. Qed.
Print Assumptions C36_decider_with_constant_never_loads.
(** when the same description without the first signal is fine, the error is TypeError *)
Theorem C36_decider_with_constant_type_error :
  forall p cust l kw s cb d c e, typed p kw s "decider-combinator" -> dget "decider-combinator" cust = None ->
  dget "first_signal" d <> None -> dget "constant" d = Some c -> c <> VNone ->
  snd (construct p cust l (with_conditions "decider_conditions" (ddel "first_signal" d) cb kw)) = Ok e ->
  snd (construct p cust l (with_conditions "decider_conditions" d cb kw)) = Err EType.
Proof. exact p_C36_only. Qed.
Print Assumptions C36_decider_with_constant_type_error.
Example C36_ex :
  let decid d := with_conditions "decider_conditions" d [] (thing "decider-combinator" 1 1) in
  snd (step (OMake 0 (decid [(KS "comparator", VStr ">"); (KS "first_signal", sig "signal-A" "virtual"); (KS "constant", VInt 3);
                             (KS "output_signal", sig "signal-B" "virtual"); (KS "copy_count_from_input", VBool true)])) booted) = Err EType /\
  snd (step (OMake 0 (decid [(KS "comparator", VStr ">"); (KS "constant", VInt 3);
                             (KS "output_signal", sig "signal-B" "virtual"); (KS "copy_count_from_input", VBool true)])) booted) = Ok tt.
Proof. repeat split; vm_compute; reflexivity. Qed.
