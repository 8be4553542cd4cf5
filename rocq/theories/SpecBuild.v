(** * Blueprints built entity by entity (C74). *)
From Coq Require Import Permutation.
From Verif Require Import Py Num Util SpecUtil Classes Mixins Entity Setters World SpecWorld SpecDoc SpecEntity SpecAttr SpecValues SpecSetting SpecBehaviour SpecMake SpecWrite SpecExport SpecShow SpecParts.
Open Scope string_scope. Open Scope Z_scope. Open Scope list_scope.

(** the descriptions are made into entities of the blueprint [b], one after the other; with each goes the position
    it got and what it exported when it was new *)
Inductive builds (b : nat) : world -> list dict -> list (vec * res val) -> world -> Prop :=
| bu_none w : builds b w [] [] w
| bu_next w kw v kws l w' : snd (step (OMake b kw) w) = Ok tt -> has_pos (fst (step (OMake b kw) w)) (length (w_ents w)) v ->
    builds b (fst (step (OMake b kw) w)) kws l w' -> builds b w (kw :: kws) ((v, export_of (OMake b) w kw) :: l) w'.

(** [p] is [l] in the order of (y, x), those at one place in the order of [l] *)
Definition here (v : vec) (a : vec * res val) : bool := neqb (vx (fst a)) (vx v) && neqb (vy (fst a)) (vy v).
Record arranged (l p : list (vec * res val)) : Prop := mkArranged {
  ar_all : Permutation l p;
  ar_order : forall k m a c, (k < m)%nat -> nth_error p k = Some a -> nth_error p m = Some c -> pos_le (fst a) (fst c);
  ar_stable : forall v, filter (here v) p = filter (here v) l }.

(** [out] are the documents of [p] with the numbers n, n+1, ... *)
Inductive numbered_docs : Z -> list (vec * res val) -> list val -> Prop :=
| nd_none n : numbered_docs n [] []
| nd_next n v d p out : numbered_docs (n + 1) p out -> numbered_docs n ((v, Ok (VDict d)) :: p) (VDict (dset "entity_number" (VInt n) d) :: out).
(** the first that could not be exported *)
Definition first_bad (p : list (vec * res val)) (e : exn) : Prop :=
  exists pre v post, p = pre ++ (v, Err e) :: post /\ forall a, In a pre -> exists d, snd a = Ok d.
