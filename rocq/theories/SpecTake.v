(** * Taking entities out of a blueprint, and putting them back (C75). *)
From Verif Require Import Py Num NumFacts Util SpecUtil Classes Mixins Entity Setters World SpecWorld SpecDoc SpecEntity SpecAttr SpecValues SpecSetting SpecBehaviour SpecParts.
Open Scope string_scope. Open Scope Z_scope. Open Scope list_scope.

(** the call takes the entities [gone] out of the blueprint [b] *)
Inductive takes_out (w : world) (b : nat) : op -> (nat -> bool) -> Prop :=
| to_remove i x : blu w b = Some x -> In i (b_objs x) -> takes_out w b (ORemove b (OEnt i)) (Nat.eqb i)
| to_delete pt l x : blu w b = Some x -> snd (layer_at b pt w) = Ok l -> takes_out w b (ODelAt b pt) (fun i => existsb (Nat.eqb i) l).

(** the documents [ds] of the entities [l] without those of [gone] *)
Fixpoint leave_out (gone : nat -> bool) (l : list nat) (ds : list val) : list val :=
  match l, ds with
  | i :: r, d :: s => if gone i then leave_out gone r s else d :: leave_out gone r s
  | _, _ => []
  end.

(** [i] stands alone: no other entity of the list has its position *)
Definition alone_there (w : world) (l : list nat) (i : nat) : Prop :=
  forall j v u, In j l -> j <> i -> has_pos w i v -> has_pos w j u -> ~ (xeq (nval (vx u)) (nval (vx v)) /\ xeq (nval (vy u)) (nval (vy v))).
(** the entities are where sorting puts them and have the numbers it gives *)
Record in_place (w : world) (l : list nat) : Prop := mkInPlace {
  ip_pos : forall i, In i l -> exists v, has_pos w i v /\ nval (vx v) <> XNaN /\ nval (vy v) <> XNaN;
  ip_order : in_order w l;
  ip_numbers : numbered w l }.
