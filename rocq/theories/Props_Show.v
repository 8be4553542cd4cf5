(** * Theorems about when an entity that was made can be exported: C72. *)
From Verif Require Import Py Num Util SpecUtil Classes Mixins Entity Setters World SpecWorld SpecEntity SpecAttr SpecSetting SpecBehaviour SpecMake SpecWrite SpecExport SpecShow DictFacts Demo Props_Doc Props_Make Props_Reload.
From Verif Require Import ShowProofs.
Open Scope string_scope. Open Scope Z_scope. Open Scope list_scope.

(** the export of an entity that was just made fails only for what its description says *)
Theorem C72_failure : forall mk w kw s ty own cbk e, made_entity mk w kw s ty own cbk -> export_of mk w kw = Err e -> unshown mk (p_signal (w_protos w)) kw ty e.
Proof. exact p_C72_fails. Qed.
Print Assumptions C72_failure.
(** and with none of that it succeeds *)
Theorem C72_success : forall mk w kw s ty own cbk v e, made_entity mk w kw s ty own cbk -> export_of mk w kw = Ok v -> ~ unshown mk (p_signal (w_protos w)) kw ty e.
Proof. exact p_C72_succeeds. Qed.
Print Assumptions C72_success.
(** when all signals have types: an attribute error, or a key error and some text of the description is empty *)
Theorem C72_sound_tables : forall mk w kw s ty own cbk e, made_entity mk w kw s ty own cbk -> sound_table (p_signal (w_protos w)) -> export_of mk w kw = Err e ->
  e = EAttribute \/ (e = EKey /\ inside (VStr "") (VDict kw)).
Proof. exact p_C72_sound_tables. Qed.
Print Assumptions C72_sound_tables.

(** ** Examples *)
Definition exports (kw : dict) : res val := export_of (OMake 0) booted kw.
Example C72_tables_ex : sound_table (p_signal (w_protos booted)).
Proof. apply sound_b_ok. vm_compute. reflexivity. Qed.
(** an accumulator whose signal has no name: it is made, but has no export *)
Definition blank_accumulator : dict := behaving "accumulator" [(KS "output_signal", VStr "")].
Example C72_ex : made_entity (OMake 0) booted blank_accumulator "accumulator" "accumulator" [] ["output_signal"] /\
  exports blank_accumulator = Err EKey /\ unshown (OMake 0) (p_signal (w_protos booted)) blank_accumulator "accumulator" EKey.
Proof.
  split; [constructor|split].
  - exact booted_reachable.
  - left. now exists 0%nat.
  - intros b x kw' E B. destruct E as [E|E]; [|discriminate E]. injection E as <-. vm_compute in B. injection B as <-. reflexivity.
  - repeat split; try (vm_compute; congruence). eexists. split; vm_compute; reflexivity.
  - cbn. auto 60.
  - repeat (constructor; cbn).
  - vm_compute. reflexivity.
  - vm_compute. reflexivity.
  - apply (us_behaviour _ _ _ _ [(KS "output_signal", VStr "")] CAccumulator "output_signal" KSignal (VStr "")); try reflexivity.
    + cbn. intuition discriminate.
    + now left.
    + now left.
    + cbn. apply sk_other; try discriminate. constructor.
    + right. right. exists "". split; [reflexivity|]. left. exists EKey. split; [|reflexivity]. apply sd_unknown. vm_compute. reflexivity.
Qed.
(** so it is false that what was accepted can be exported *)
Theorem C72_accepted_refuted : exists mk w kw s ty own cbk, made_entity mk w kw s ty own cbk /\ sound_table (p_signal (w_protos w)) /\ export_of mk w kw = Err EKey.
Proof. do 7 eexists. exact (conj (proj1 C72_ex) (conj C72_tables_ex (proj1 (proj2 C72_ex)))). Qed.
Print Assumptions C72_accepted_refuted.
(** other descriptions that are accepted and cannot be exported, and ones that can *)
Example C72_more_ex :
  exports (behaving "roboport" [(KS "available_logistic_output_signal", VInt 3)]) = Err EAttribute /\
  exports (behaving "constant-combinator" [(KS "filters", VList [VDict [(KS "count", VInt 7); (KS "index", VInt 1)]])]) = Err EAttribute /\
  exports (behaving "arithmetic-combinator" [(KS "arithmetic_conditions", VDict [(KS "operation", VStr "*"); (KS "first_signal", named_signal "")])]) = Err EKey /\
  export_of (ONewEntity None) booted (thing "iron-chest" 1 1) = Err EAttribute /\
  export_of (ONewEntity (Some 0%nat)) booted [(KS "name", VStr "iron-chest"); (KS "position", VNone)] = Err EAttribute /\
  (exists v, export_of (ONewEntity (Some 0%nat)) booted (thing "iron-chest" 1 1) = Ok v) /\
  (exists v, exports (behaving "roboport" [(KS "available_logistic_output_signal", VStr "")]) = Ok v) /\
  exists v, exports (behaving "accumulator" [(KS "output_signal", VStr "coal")]) = Ok v.
Proof. repeat split; try (vm_compute; reflexivity); eexists; vm_compute; reflexivity. Qed.
