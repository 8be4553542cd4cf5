(** * Theorem about the strict flag of blueprints: C53. *)
From Verif Require Import Py Num Util Classes Mixins Entity World SpecStrict StrictProofs EntityData Demo.
Open Scope Z_scope.

(** ** C53 *)
(** Blueprint(strict=...) has no effect: two histories that differ only in these arguments get
    the same answers and exceptions from every call, create the same entities, and every later
    export, query or measurement gives the same result *)
Theorem C53_strict_flag_has_no_effect :
  forall ops ops', Forall2 same_call ops ops' ->
  outcomes ops start = outcomes ops' start /\
  w_protos (run ops start) = w_protos (run ops' start) /\
  w_ents (run ops start) = w_ents (run ops' start) /\
  (forall b, snd (bp_json b (run ops start)) = snd (bp_json b (run ops' start))) /\
  (forall i, snd (ent_json i (run ops start)) = snd (ent_json i (run ops' start))) /\
  (forall i, snd (get_connections i (run ops start)) = snd (get_connections i (run ops' start))) /\
  (forall b pt, snd (layer_at b pt (run ops start)) = snd (layer_at b pt (run ops' start))) /\
  (forall b, snd (maximum_values b (run ops start)) = snd (maximum_values b (run ops' start))) /\
  (forall b n, get_entity_by_id (run ops start) b n = get_entity_by_id (run ops' start) b n).
Proof. exact p_C53. Qed.
Print Assumptions C53_strict_flag_has_no_effect.

(** a lenient blueprint refuses an unknown name exactly as a strict one does; only the entity's
    own strict argument switches the check off *)
Definition asks (s : bool) : list op :=
  [OImport shipped_file false; ONewBlueprint s []; OMake 0 (thing "warp-drive" 1 1); OMake 0 (thing "steel-chest" 1 1);
   OMake 0 ((KS "strict", VBool false) :: thing "warp-drive" 3 1)].
Example C53_ex :
  Forall2 same_call (asks true) (asks false) /\ asks true <> asks false /\
  outcomes (asks false) start = [Ok tt; Ok tt; Err EUnknownEntity; Ok tt; Ok tt] /\
  outcomes (asks true) start = outcomes (asks false) start.
Proof.
  split; [repeat constructor|]. split; [intros E; injection E; discriminate|]. vm_compute. repeat split.
Qed.
