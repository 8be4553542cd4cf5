(** * Independent specification of the operators of Vector. *)
From Verif Require Import Py Num Util.
Open Scope Z_scope.

(** The vector an operand of a vector operator stands for. *)
Inductive stands_for : operand -> vec -> Prop :=
| st_vec w : stands_for (OVec w) w
| st_num n : stands_for (ONum n) (mkVec n n)
| st_tup x y : stands_for (OTup [x; y]) (mkVec x y).
(** [r] is [f] applied to the components of [v] and [w], x first. *)
Inductive pairwise {A : Type} (f : num -> num -> res num) (g : vec -> A) (v w : vec) : res A -> Prop :=
| pw_ok x y : f (vx v) (vx w) = Ok x -> f (vy v) (vy w) = Ok y -> pairwise f g v w (Ok (g (mkVec x y)))
| pw_x e : f (vx v) (vx w) = Err e -> pairwise f g v w (Err e)
| pw_y x e : f (vx v) (vx w) = Ok x -> f (vy v) (vy w) = Err e -> pairwise f g v w (Err e).
(** operands no operator is defined for: tuples of another length and other types *)
Inductive bad_operand : operand -> exn -> Prop :=
| bad_tup l : length l <> 2%nat -> bad_operand (OTup l) EValue
| bad_other : bad_operand OOther EType.
