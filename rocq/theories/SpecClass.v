(** * Independent specifications for classes: linear orders and inheritance. *)
From Verif Require Import Py Classes.

(** [l] is obtained from [m] by leaving elements out *)
Inductive subseq {A} : list A -> list A -> Prop :=
| sub_nil m : subseq [] m
| sub_skip x l m : subseq l m -> subseq l (x :: m)
| sub_take x l m : subseq l m -> subseq (x :: l) (x :: m).

(** [r] lists exactly the elements of the lists [ls], each once, and in the order of each *)
Definition linearises {A} (ls : list (list A)) (r : list A) : Prop :=
  NoDup r /\ (forall x, In x r <-> exists l, In l ls /\ In x l) /\ (forall l, In l ls -> subseq l r).

(** [x] occurs before [y] *)
Definition before {A} (x y : A) (l : list A) : Prop := subseq [x; y] l.

(** class inheritance, from the class statements (reflexive, transitive) *)
Inductive inherits : scls -> scls -> Prop :=
| inh_refl c : inherits c c
| inh_step c d e : In d (sbases c) -> inherits d e -> inherits c e.

(** ** What a class may be expected to look like *)
(** the classes of the source in the method resolution order of an instance's class: every
    class once, with all its base classes and before them *)
Definition well_ordered (l : list scls) : Prop :=
  NoDup l /\ forall c d, In c l -> inherits c d -> c <> d -> before c d l.
(** the bodies [class ControlBehavior] likewise *)
Definition cb_well_ordered (l : list scls) : Prop :=
  NoDup l /\ forall c d, In c l -> own_cb d = true -> inherits c d -> c <> d -> before c d l.

(** the class [ic] created from a class with source classes [base] and the mixins [ms] *)
Record composed (base ms : list scls) (ic : icls) : Prop := {
  cp_order : well_ordered (statics ic);
  cp_shape : exists l, statics ic = CEntity :: l ++ [CBaseMixin; CBase; CObject];
  cp_elements : forall c, In c (statics ic) <-> In c base \/ exists m, In m ms /\ inherits m c;
  cp_mixins : subseq ms (statics ic);
  cp_base : subseq base (statics ic);
  cp_cb_order : cb_well_ordered (cb_chain ic);
  cp_cb_elements : forall c, In c (cb_chain ic) <-> In c (statics ic) /\ own_cb c = true }.
