(** * Theorems about the values that the settings of an entity take: C67. *)
From Coq Require Import QArith.
From Verif Require Import Py Num Util Classes Mixins Entity Setters World SpecUtil SpecWorld SpecClass SpecEntity SpecAttr SpecRound SpecArith SpecSetting SpecWrite SettingProofs EntityData Demo Props_Attr.
Open Scope Z_scope. Open Scope list_scope.

(** ** C67 *)
(** [setting] says for each attribute which values are taken and what is exported for them, and
    which exception the others raise *)
Theorem C67_what_a_setting_takes_and_exports :
  forall i k v w e r, reachable w -> ent w i = Some e -> In (home k) (statics (e_cls e)) -> doubles v -> ~ is_part k ->
  setting (p_recipe (w_protos w)) (e_strict e) k v r ->
  match r with
  | Err x => snd (step (OSetAttr i k v) w) = Err x
  | Ok o => snd (step (OSetAttr i k v) w) = Ok tt /\
            forall d, snd (ent_json i (fst (step (OSetAttr i k v) w))) = Ok (VDict d) -> dget (KS (shown_at k)) d = o
  end.
Proof. exact p_C67_assigned. Qed.
Print Assumptions C67_what_a_setting_takes_and_exports.
(** It says so for every value inside the model, *)
Theorem C67_every_value_is_decided :
  forall i k v w e, ent w i = Some e -> In (home k) (statics (e_cls e)) -> doubles v -> ~ is_part k ->
  snd (step (OSetAttr i k v) w) <> Err EUnmodelled -> exists r, setting (p_recipe (w_protos w)) (e_strict e) k v r.
Proof. exact p_C67_decided. Qed.
Print Assumptions C67_every_value_is_decided.
(** and one thing only *)
Theorem C67_the_result_is_unique :
  forall recipes strict k v r r', doubles v -> ~ is_part k -> setting recipes strict k v r -> setting recipes strict k v r' -> r = r'.
Proof. exact p_C67_one. Qed.
Print Assumptions C67_the_result_is_unique.
(** The attributes for a part of what is exported *)
Theorem C67_what_a_part_takes :
  forall i k v w e, ent w i = Some e -> In (home k) (statics (e_cls e)) -> doubles v -> is_part k ->
  (forall r, part_setting k v r -> snd (step (OSetAttr i k v) w) = r) /\
  (snd (step (OSetAttr i k v) w) <> Err EUnmodelled -> part_setting k v (snd (step (OSetAttr i k v) w))).
Proof. exact p_C67_parts. Qed.
Print Assumptions C67_what_a_part_takes.
(** The constructors take the same values for their keywords *)
Theorem C67_keywords_take_the_same_values :
  forall p cust l kw (s ty : string) own cbk e k v r, typed p kw s ty -> dget ty cust = None -> In (ty, (own, cbk)) formats ->
  snd (construct p cust l kw) = Ok e -> In (attr_name k) own -> doubles v -> ~ is_part k -> setting (p_recipe p) (e_strict e) k v r ->
  match r with
  | Err x => snd (construct p cust l (dset (attr_name k) v kw)) = Err x
  | Ok _ => exists e', snd (construct p cust l (dset (attr_name k) v kw)) = Ok e'
  end.
Proof. exact p_C67_made. Qed.
Print Assumptions C67_keywords_take_the_same_values.

(** a wagon, an infinity chest, a speaker, a silo, a splitter, a requester, an inserter, a train
    stop, and a decoration with variations in a blueprint with a custom class: entities 0 to 8 *)
Definition yard_ops : list op :=
  boot ++ [OMake 0 (thing "cargo-wagon" 4 2);
           OMake 0 (thing "infinity-chest" 14 2 ++ [(KS "infinity_settings", VDict [(KS "remove_unfiltered_items", VBool false); (KS "filters", VList [])])]);
           OMake 0 (thing "programmable-speaker" 24 2); OMake 0 (thing "rocket-silo" 34 2); OMake 0 (thing "splitter" 44 2);
           OMake 0 (thing "logistic-chest-requester" 64 2); OMake 0 (thing "fast-inserter" 74 2); OMake 0 (thing "train-stop" 84 2);
           ONewBlueprint true [(KS "simple-entity-with-owner", [CVariation])];
           OMake 1 (thing "simple-entity-with-owner" 54 2 ++ [(KS "variation", VInt 1)])].
Definition yard : world := Eval vm_compute in run yard_ops start.
Definition told (i : nat) (k : mattr) (v : val) : res unit * option val :=
  let '(w', r) := step (OSetAttr i k v) yard in (r, match snd (ent_json i w') with Ok (VDict d) => dget (KS (shown_at k)) d | _ => None end).
Definition slot (n : Z) (s : string) : val := VDict [(KS "index", VInt n); (KS "name", VStr s)].
Definition half : float64 := S754_finite false 4503599627370496 (-53).
Definition minus_half : float64 := S754_finite true 4503599627370496 (-53).
Definition request (n : Z) (s : string) (c : val) : val := VDict [(KS "index", VInt n); (KS "name", VStr s); (KS "count", c)].
Example C67_ex :
  told 0 AInventory (VDict [(KS "bar", VInt 3); (KS "filters", VList [slot 2 "pipe"; slot 1 "iron-plate"; slot 2 "inserter"])]) =
    (Ok tt, Some (VDict [(KS "bar", VInt 3); (KS "filters", VList [slot 2 "inserter"; slot 1 "iron-plate"])])) /\
  told 0 AInventory (VDict [(KS "filters", VList [slot 2 "moon-dust"])]) = (Err EUnknownEntity, None) /\
  told 0 AOrientation (VFlt minus_half) = (Ok tt, Some (VFlt half)) /\
  fst (told 1 AInfinity VNone) = Err EType /\
  told 2 AAlert (VDict [(KS "show_alert", VInt 3); (KS "show_on_map", VNone); (KS "alert_message", VStr "out of iron"); (KS "icon_signal_id", VDict [(KS "name", VStr "iron-plate")])]) =
    (Ok tt, Some (VDict [(KS "show_alert", VBool true); (KS "show_on_map", VBool false); (KS "alert_message", VStr "out of iron");
                         (KS "icon_signal_id", VDict [(KS "name", VStr "iron-plate"); (KS "type", VStr "item")])])) /\
  told 2 AParameters (VDict [(KS "playback_volume", VInt 1)]) = (Err EKey, None) /\
  told 3 AAutoLaunch (VInt 2) = (Err EValue, None) /\ told 3 AAutoLaunch (VBool true) = (Ok tt, Some (VBool true)) /\
  told 4 AInputPriority (VStr "middle") = (Err EValue, None) /\
  told 5 ARequests (VList [request 1 "pipe" (VStr "12"); request 1 "pipe" (VFlt half)]) = (Ok tt, Some (VList [request 1 "pipe" (VInt 0)])) /\
  told 6 APickup (VDict [(KS "x", VInt 1); (KS "y", VFlt half)]) = (Ok tt, Some (VDict [(KS "x", VInt 1); (KS "y", VFlt half)])) /\
  told 7 AColor (VDict [(KS "r", VInt 2); (KS "g", VFlt half); (KS "b", VFlt minus_half)]) =
    (Ok tt, Some (VDict [(KS "r", VInt 1); (KS "g", VFlt half); (KS "b", VInt 0); (KS "a", VInt 1)])) /\
  told 7 AColor (VDict [(KS "red", VInt 2)]) = (Err EType, None) /\
  told 8 AVariation (VInt 255) = (Ok tt, Some (VInt 255)) /\ told 8 AVariation (VInt 256) = (Err EValue, Some (VInt 1)) /\
  told 8 AVariation VNone = (Err EType, Some (VInt 1)) /\ told 8 AVariation (VFlt S754_nan) = (Ok tt, Some (VFlt S754_nan)).
Proof. vm_compute. repeat split. Qed.
(** what the specification says about some of them *)
Example C67_spec_ex :
  reachable yard /\ (exists e, ent yard 8 = Some e /\ In (home AVariation) (statics (e_cls e))) /\
  setting [] false AVariation (VInt 255) (Ok (Some (VInt 255))) /\ setting [] false AVariation (VInt 256) (Err EValue) /\
  setting [] false ABar (VFlt minus_half) (Ok (Some (VInt 0))) /\ setting [] false AType (VStr "output") (Ok (Some (VStr "output"))) /\
  setting [] true ARecipe (VStr "moon-dust") (Err EUnknownRecipe) /\
  part_setting AInventoryBar (VList []) (Err EType).
Proof.
  assert (H : forall ops, Forall (fun o => forall w, op_ok w o) ops -> forall w, reachable w -> reachable (run ops w)).
  { induction ops as [|o ops IH]; intros F w R; [exact R|]. inversion F as [|? ? O F']; subst. cbn [run]. apply IH; [exact F'|]. apply reach_step; auto. }
  split; [assert (E : yard = run yard_ops start) by (vm_compute; reflexivity); rewrite E; apply H; [|apply reach_start]; repeat constructor|].
  split; [eexists; split; [vm_compute; reflexivity|vm_compute; auto]|].
  split; [apply (vr_number (NI 255) 255); vm_compute; intuition discriminate|].
  split; [apply (vr_outside (NI 256) 256); [reflexivity|right; reflexivity]|].
  split; [right; split; [discriminate|]; right; exists 0; split; [apply (wn_float minus_half); [reflexivity|exact I]|reflexivity]|].
  split; [left; split; [exists "output"%string; cbn; auto|reflexivity]|].
  split; [right; split; [discriminate|apply rk_unknown; [reflexivity|discriminate|exact I|intros s _; reflexivity]]|].
  right. split; [discriminate|]. left. exists EType. split; [apply wn_list|reflexivity].
Qed.
