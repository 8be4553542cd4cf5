(** * Theorems about the attributes of control behaviours: C68. *)
From Verif Require Import Py Num Util Classes Mixins Entity Setters World SpecUtil SpecWorld SpecClass SpecEntity SpecAttr SpecValues SpecSetting SpecBehaviour BehaviourProofs EntityData Demo Props_Entity Props_Attr.
Open Scope Z_scope. Open Scope list_scope.

(** ** C68 *)
(** [behaviour] lists the attributes of every class of control behaviours but the combinators,
    and [taken] says which values they take and which exception the others raise *)
Theorem C68_what_a_behaviour_takes :
  forall i k v w e cb c g, ent w i = Some e -> e_cb e = Some cb -> In c (cb_cls cb) -> In (k, g) (behaviour c) ->
  (forall r, taken (p_signal (w_protos w)) g v r -> snd (step (OSetCb i k v) w) = match r with Ok _ => Ok tt | Err x => Err x end) /\
  (snd (step (OSetCb i k v) w) <> Err EUnmodelled -> exists r, taken (p_signal (w_protos w)) g v r).
Proof. exact p_C68_taken. Qed.
Print Assumptions C68_what_a_behaviour_takes.
(** What is exported then: the places of the attribute hold what [shown_as] says and everything
    else in the document of the entity is as before, or the export raises *)
Theorem C68_what_a_behaviour_exports :
  forall i k v w e cb c g d x r, reachable w -> ent w i = Some e -> e_cb e = Some cb -> In c (cb_cls cb) -> In (k, g) (behaviour c) -> alone (cb_cls cb) c k ->
  snd (ent_json i w) = Ok (VDict d) -> taken (p_signal (w_protos w)) g v (Ok x) -> shown_as (p_signal (w_protos w)) g k x r ->
  match r with
  | Err y => snd (ent_json i (fst (step (OSetCb i k v) w))) = Err y
  | Ok fx => exists d', snd (ent_json i (fst (step (OSetCb i k v) w))) = Ok (VDict d') /\
      (forall q o, In (q, o) fx -> at_path ("control_behavior"%string :: q) (VDict d') = o) /\
      (forall q, (forall q' o, In (q', o) fx -> unrelated q ("control_behavior"%string :: q')) -> at_path q (VDict d') = at_path q (VDict d))
  end.
Proof. exact p_C68_exported. Qed.
Print Assumptions C68_what_a_behaviour_exports.
(** [shown_as] says so for everything that is taken, and [taken] one thing only *)
Theorem C68_every_export_is_decided :
  forall t g k v x, taken t g v (Ok x) -> exists r, shown_as t g k x r.
Proof. exact p_C68_decided. Qed.
Print Assumptions C68_every_export_is_decided.
Theorem C68_what_is_taken_is_unique :
  forall t g v r r', taken t g v r -> taken t g v r' -> r = r'.
Proof. exact p_C68_one. Qed.
Print Assumptions C68_what_is_taken_is_unique.

(** Arithmetic and decider combinators: operator, first, second, output and copy_count_from_input.
    The export before shows that the conditions are the ones of this class *)
Theorem C68_what_a_combinator_takes :
  forall i v w e cb c a, ent w i = Some e -> e_cb e = Some cb -> In c [CArithmetic; CDecider] -> cb_cls cb = [c; CCombinator; CBaseMixin] -> part_of c a ->
  (forall r, part_taken (p_signal (w_protos w)) c a v r -> snd (step (OSetCb i (part_name a) v) w) = match r with Ok _ => Ok tt | Err x => Err x end) /\
  (snd (step (OSetCb i (part_name a) v) w) <> Err EUnmodelled -> exists r, part_taken (p_signal (w_protos w)) c a v r).
Proof. exact p_C68_part_taken. Qed.
Print Assumptions C68_what_a_combinator_takes.
Theorem C68_what_a_combinator_exports :
  forall i v w e cb c a d x r field op ops, reachable w -> ent w i = Some e -> e_cb e = Some cb -> In c [CArithmetic; CDecider] -> cb_cls cb = [c; CCombinator; CBaseMixin] ->
  conditions c = (field, op, ops) -> snd (ent_json i w) = Ok (VDict d) -> at_path ["control_behavior"%string; field; op] (VDict d) <> None -> part_of c a ->
  (c = CDecider -> (exists s, a = PSide s) -> at_path ["control_behavior"%string; field; "constant"%string] (VDict d) = None) ->
  part_taken (p_signal (w_protos w)) c a v (Ok x) -> part_shown (p_signal (w_protos w)) c a x r ->
  match r with
  | Err y => snd (ent_json i (fst (step (OSetCb i (part_name a) v) w))) = Err y
  | Ok fx => exists d', snd (ent_json i (fst (step (OSetCb i (part_name a) v) w))) = Ok (VDict d') /\
      (forall q o, In (q, o) fx -> at_path ("control_behavior"%string :: q) (VDict d') = o) /\
      (forall q, (forall q' o, In (q', o) fx -> unrelated q ("control_behavior"%string :: q')) -> at_path q (VDict d') = at_path q (VDict d))
  end.
Proof. exact p_C68_part_exported. Qed.
Print Assumptions C68_what_a_combinator_exports.
Theorem C68_every_combinator_export_is_decided :
  forall t c a v x, In c [CArithmetic; CDecider] -> part_taken t c a v (Ok x) -> exists r, part_shown t c a x r.
Proof. exact p_C68_part_decided. Qed.
Print Assumptions C68_every_combinator_export_is_decided.

(** an accumulator, a roboport, a lamp with a condition, a belt, a chain signal, a constant
    combinator: entities 0 to 5 *)
Definition wired_ops : list op :=
  boot ++ [OMake 0 (thing "accumulator" 4 2 ++ [(KS "control_behavior", VDict [])]); OMake 0 (thing "roboport" 14 2 ++ [(KS "control_behavior", VDict [])]);
           OMake 0 (thing "small-lamp" 24 2 ++ [(KS "control_behavior", lamp_cb)]); OMake 0 (thing "transport-belt" 34 2 ++ [(KS "control_behavior", VDict [])]);
           OMake 0 (thing "rail-chain-signal" 44 2 ++ [(KS "control_behavior", VDict [])]); OMake 0 (thing "constant-combinator" 54 2 ++ [(KS "control_behavior", VDict [(KS "is_on", VBool true)])])].
Definition wired : world := Eval vm_compute in run wired_ops start.
Example wired_reachable : reachable wired.
Proof.
  assert (H : forall ops, Forall (fun o => forall w, op_ok w o) ops -> forall w, reachable w -> reachable (run ops w)).
  { induction ops as [|o ops IH]; intros F w R; [exact R|]. inversion F as [|? ? O F']; subst. cbn [run]. apply IH; [exact F'|]. apply reach_step; auto. }
  assert (E : wired = run wired_ops start) by (vm_compute; reflexivity). rewrite E. apply H; [|apply reach_start]. repeat constructor.
Qed.
Definition put_cb (i : nat) (k : string) (v : val) : res unit * res (option val) :=
  let '(w', r) := step (OSetCb i k v) wired in (r, let! x := snd (ent_json i w') in Ok (at_path ["control_behavior"%string] x)).
Example C68_ex :
  put_cb 0 "output_signal" (VStr "iron-plate") = (Ok tt, Ok (Some (VDict [(KS "output_signal", sig "iron-plate" "item")]))) /\
  put_cb 0 "output_signal" (VDict [(KS "type", VStr "fluid"); (KS "name", VStr "water")]) = (Ok tt, Ok (Some (VDict [(KS "output_signal", sig "water" "fluid")]))) /\
  put_cb 0 "output_signal" (VInt 12) = (Ok tt, Ok (Some (VDict [(KS "output_signal", VInt 12)]))) /\
  put_cb 0 "output_signal" (VStr "moon-dust") = (Err EUnknownSignal, Ok None) /\
  put_cb 0 "output_signal" (VStr "") = (Ok tt, Err EKey) /\
  put_cb 0 "output_signal" (VList [VInt 1]) = (Err EType, Ok None) /\
  put_cb 1 "total_construction_output_signal" (VInt 12) = (Ok tt, Err EAttribute) /\
  put_cb 1 "total_construction_output_signal" (VStr "") = (Ok tt, Ok None) /\
  put_cb 1 "read_logistics" (VInt 3) = (Ok tt, Ok (Some (VDict [(KS "read_logistics", VInt 3)]))) /\
  put_cb 2 "second" (VStr "water") =
    (Ok tt, Ok (Some (VDict [(KS "circuit_condition", VDict [(KS "comparator", VStr ">"); (KS "first_signal", sig "signal-A" "virtual"); (KS "second_signal", sig "water" "fluid")])]))) /\
  put_cb 2 "comparator" (VStr "=>") =
    (Err EValue, Ok (Some (VDict [(KS "circuit_condition", VDict [(KS "comparator", VStr ">"); (KS "first_signal", sig "signal-A" "virtual"); (KS "constant", VInt 3)])]))) /\
  put_cb 4 "blue_output_signal" (VStr "signal-A") = (Ok tt, Ok (Some (VDict [(KS "blue_output_signal", sig "signal-A" "virtual")]))) /\
  put_cb 5 "is_on" (VList []) = (Ok tt, Ok (Some (VDict [(KS "is_on", VBool false)]))) /\
  put_cb 5 "is_on" (VStr "off") = (Ok tt, Ok None).
Proof. vm_compute. repeat split. Qed.
(** the premises hold for the lamp, and what the specification says there *)
Example C68_spec_ex :
  (exists e cb d, ent wired 2 = Some e /\ e_cb e = Some cb /\ In CCircuitCondition (cb_cls cb) /\ alone (cb_cls cb) CCircuitCondition "second" /\ snd (ent_json 2 wired) = Ok (VDict d)) /\
  In ("second"%string, KSecond) (behaviour CCircuitCondition) /\
  taken (p_signal (w_protos wired)) KSecond (VInt 5) (Ok (VInt 5)) /\
  shown_as (p_signal (w_protos wired)) KSecond "second" (VInt 5) (Ok [(["circuit_condition"; "second_signal"]%string, None); (["circuit_condition"; "constant"]%string, Some (VInt 5))]) /\
  unrelated ["control_behavior"; "circuit_condition"; "comparator"]%string ["control_behavior"; "circuit_condition"; "constant"]%string /\
  taken (p_signal (w_protos wired)) KSecond (VStr "moon-dust") (Err EUnknownSignal).
Proof.
  split.
  { eexists. eexists. eexists. split; [vm_compute; reflexivity|]. split; [reflexivity|]. split; [vm_compute; auto|]. split; [|vm_compute; reflexivity].
    cbn [cb_cls]. repeat split; try (vm_compute; intuition discriminate). intros c' g I H. vm_compute in I. repeat (destruct I as [<-|I]; [try reflexivity; cbn in H; intuition discriminate|]). destruct I. }
  split; [cbn; auto|]. split; [constructor|]. split; [right; eexists; split; [constructor|reflexivity]|].
  split; [split; intros (r & E); discriminate|].
  apply sk_other; [discriminate|discriminate|]. apply lu_unknown; [|exact I|intros s [= <-]; vm_compute; reflexivity]. intros [H|(s & H)]; [cbn in H; intuition discriminate|discriminate].
Qed.
(** the attributes of all types of entities but the combinators belong to one class each *)
Definition owners (l : list scls) (k : string) : list scls := filter (fun c => existsb (fun r => String.eqb (fst r) k) (behaviour c)) l.
Example C68_alone_ex :
  forallb (fun tm => match add_mixins entity_cls (snd tm) with
    | Ok ic => let l := cb_chain ic in existsb (scls_eqb CCombinator) l || existsb (scls_eqb CDecider) l ||
        forallb (fun c => forallb (fun r => Nat.eqb (length (owners l (fst r))) 1) (behaviour c)) l
    | Err _ => false end) type_mixins = true /\
  existsb (fun tm => match add_mixins entity_cls (snd tm) with Ok ic => existsb (scls_eqb CStation) (cb_chain ic) | Err _ => false end) type_mixins = true.
Proof. vm_compute. split; reflexivity. Qed.

(** an arithmetic and a decider combinator *)
Definition times : val := VDict [(KS "operation", VStr "*"); (KS "first_signal", sig "water" "fluid"); (KS "second_constant", VInt 2); (KS "output_signal", sig "signal-A" "virtual")].
Definition more : val := VDict [(KS "comparator", VStr ">"); (KS "first_signal", sig "water" "fluid"); (KS "second_signal", sig "iron-plate" "item"); (KS "output_signal", sig "signal-A" "virtual")].
Definition combined_ops : list op :=
  boot ++ [OMake 0 (thing "arithmetic-combinator" 4 2 ++ [(KS "control_behavior", VDict [(KS "arithmetic_conditions", times)])]);
           OMake 0 (thing "decider-combinator" 14 2 ++ [(KS "control_behavior", VDict [(KS "decider_conditions", more)])])].
Definition combined : world := Eval vm_compute in run combined_ops start.
Example combined_reachable : reachable combined.
Proof.
  assert (H : forall ops, Forall (fun o => forall w, op_ok w o) ops -> forall w, reachable w -> reachable (run ops w)).
  { induction ops as [|o ops IH]; intros F w R; [exact R|]. inversion F as [|? ? O F']; subst. cbn [run]. apply IH; [exact F'|]. apply reach_step; auto. }
  assert (E : combined = run combined_ops start) by (vm_compute; reflexivity). rewrite E. apply H; [|apply reach_start]. repeat constructor.
Qed.
Definition put_in (w : world) (i : nat) (field k : string) (v : val) : res unit * res (option val) :=
  let '(w', r) := step (OSetCb i k v) w in (r, let! x := snd (ent_json i w') in Ok (at_path ["control_behavior"%string; field] x)).
Example C68_combinator_ex :
  put_in combined 0 "arithmetic_conditions" "operator" (VStr "AND") = (Ok tt, Ok (Some (VDict
    [(KS "operation", VStr "AND"); (KS "first_signal", sig "water" "fluid"); (KS "second_constant", VInt 2); (KS "output_signal", sig "signal-A" "virtual")]))) /\
  fst (put_in combined 0 "arithmetic_conditions" "operator" (VStr ">")) = Err EValue /\
  put_in combined 0 "arithmetic_conditions" "second" (VStr "iron-plate") = (Ok tt, Ok (Some (VDict
    [(KS "operation", VStr "*"); (KS "first_signal", sig "water" "fluid"); (KS "second_signal", sig "iron-plate" "item"); (KS "output_signal", sig "signal-A" "virtual")]))) /\
  put_in combined 1 "decider_conditions" "second" (VInt 7) = (Ok tt, Ok (Some (VDict
    [(KS "comparator", VStr ">"); (KS "first_signal", sig "water" "fluid"); (KS "constant", VInt 7); (KS "output_signal", sig "signal-A" "virtual"); (KS "copy_count_from_input", VBool false)]))) /\
  put_in combined 1 "decider_conditions" "copy_count_from_input" (VBool true) = (Ok tt, Ok (Some (VDict
    [(KS "comparator", VStr ">"); (KS "first_signal", sig "water" "fluid"); (KS "second_signal", sig "iron-plate" "item"); (KS "output_signal", sig "signal-A" "virtual"); (KS "copy_count_from_input", VBool true)]))).
Proof. vm_compute. repeat split. Qed.
Example C68_combinator_spec_ex :
  exists e cb d, ent combined 1 = Some e /\ e_cb e = Some cb /\ cb_cls cb = [CDecider; CCombinator; CBaseMixin] /\ snd (ent_json 1 combined) = Ok (VDict d) /\
  at_path ["control_behavior"; "decider_conditions"; "comparator"]%string (VDict d) <> None /\ at_path ["control_behavior"; "decider_conditions"; "constant"]%string (VDict d) = None /\
  part_of CDecider (PSide "second") /\ part_taken (p_signal (w_protos combined)) CDecider (PSide "second") (VInt 7) (Ok (VInt 7)) /\
  part_shown (p_signal (w_protos combined)) CDecider (PSide "second") (VInt 7) (Ok [(["decider_conditions"; "second_signal"]%string, None); (["decider_conditions"; "constant"]%string, Some (VInt 7))]).
Proof.
  eexists. eexists. eexists. split; [vm_compute; reflexivity|]. split; [reflexivity|]. split; [reflexivity|]. split; [vm_compute; reflexivity|]. split; [discriminate|]. split; [reflexivity|].
  split; [cbn; auto|]. split; [constructor|]. right. eexists. split; [constructor|reflexivity].
Qed.
(** A decider exports one constant only: with second = 7, assigning first = 5 is accepted and the
    export still says 7, without a first signal *)
Theorem C68_a_decider_loses_a_constant_refuted :
  exists w i d, reachable w /\ snd (step (OSetCb i "first" (VInt 5)) w) = Ok tt /\
  snd (ent_json i (fst (step (OSetCb i "first" (VInt 5)) w))) = Ok (VDict d) /\
  at_path ["control_behavior"; "decider_conditions"; "constant"]%string (VDict d) = Some (VInt 7) /\
  at_path ["control_behavior"; "decider_conditions"; "first_signal"]%string (VDict d) = None /\
  forall k : string, at_path ["control_behavior"%string; "decider_conditions"%string; k] (VDict d) <> Some (VInt 5).
Proof.
  exists (fst (step (OSetCb 1 "second" (VInt 7)) combined)), 1%nat. eexists. split; [apply reach_step; [apply combined_reachable|exact I]|].
  split; [vm_compute; reflexivity|]. split; [vm_compute; reflexivity|]. split; [reflexivity|]. split; [reflexivity|]. intros k.
  assert (Q : forall d : list (key * val), dget (KS k) d <> Some (VInt 5) -> match dget (KS k) d with Some x => Some x | None => None end <> Some (VInt 5)) by (intros d D; destruct (dget (KS k) d); exact D).
  cbn - [dget]. change (match dget (KS k) [(KS "comparator", VStr ">"); (KS "constant", VInt 7); (KS "output_signal", sig "signal-A" "virtual"); (KS "copy_count_from_input", VBool false)]
    with Some x => Some x | None => None end <> Some (VInt 5)). apply Q. clear Q. cbn - [String.eqb].
  repeat (match goal with |- context [if ?b then _ else _] => destruct b end; [discriminate|]). discriminate.
Qed.
Print Assumptions C68_a_decider_loses_a_constant_refuted.
