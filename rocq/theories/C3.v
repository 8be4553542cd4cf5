(** * Python's method resolution order: the C3 linearisation.

    This is CPython's [type.mro] (Objects/typeobject.c, pmerge); the repository relies
    on it through [super()] in every mixin (entity_mixins.py) and through the classes
    that [Entity.add_mixins] and [ControlBehaviorMeta] create at run time. *)
From Coq Require Import List Bool Arith.
Import ListNotations.

Section C3.
  Context {A : Type}.
  Variable eqb : A -> A -> bool.

  (** a candidate is acceptable when it is in the tail of no remaining list *)
  Definition c3_good (h : A) (ls : list (list A)) : bool :=
    forallb (fun l => negb (existsb (eqb h) (tl l))) ls.

  (** the first head that is acceptable *)
  Fixpoint c3_pick (cands ls : list (list A)) : option A :=
    match cands with
    | [] => None
    | [] :: r => c3_pick r ls
    | (h :: _) :: r => if c3_good h ls then Some h else c3_pick r ls
    end.

  Definition c3_drop (h : A) (ls : list (list A)) : list (list A) :=
    map (fun l => match l with
                  | x :: r => if eqb h x then r else l
                  | [] => []
                  end) ls.

  Definition c3_empty (ls : list (list A)) : bool :=
    forallb (fun l => match l with [] => true | _ => false end) ls.

  (** [fuel] bounds the number of rounds; the total length of the lists suffices. *)
  Fixpoint c3_merge (fuel : nat) (ls : list (list A)) : option (list A) :=
    if c3_empty ls then Some []
    else match fuel with
         | O => None
         | S f => match c3_pick ls ls with
                  | None => None
                  | Some h => option_map (cons h) (c3_merge f (c3_drop h ls))
                  end
         end.

  Definition c3_size (ls : list (list A)) : nat := list_sum (map (@length A) ls).

  (** The MRO of a new class [c] with the given bases; None is the TypeError
      "Cannot create a consistent method resolution order". *)
  Definition c3_mro (c : A) (mros : list (list A)) (bases : list A) : option (list A) :=
    let ls := mros ++ [bases] in
    option_map (cons c) (c3_merge (c3_size ls) ls).
End C3.
