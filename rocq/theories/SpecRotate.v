(** * Independent specifications for rotation. *)
From Coq Require Import QArith.
From Verif Require Import Py Num NumFacts Util SpecUtil Classes Mixins Entity World SpecWorld.
Open Scope Z_scope.

(** the point [p] turned [k] quarters about [c], (x, y) -> (-y, x) relative to the centre *)
Definition qturn (k : nat) (c p : Q * Q) : Q * Q :=
  let d := qrot k ((fst p - fst c)%Q, (snd p - snd c)%Q) in ((fst c + fst d)%Q, (snd c + snd d)%Q).
(** the exact coordinates of a position are those of the point [p] *)
Definition at_point (v : vec) (p : Q * Q) : Prop := nfin (vx v) (fst p) /\ nfin (vy v) (snd p).
Definition vec_valid (v : vec) : Prop := nvalid (vx v) /\ nvalid (vy v).
(** either the centre is the default one and the position any finite one, or both are multiples
    of 1/256 below 2^40 *)
Definition exact_about (c v : vec) : Prop :=
  (c = vzero /\ vec_valid v /\ exists p, at_point v p) \/ (game_pos v /\ game_pos c).

Definition rotatable (e : entity) : Prop := In CRotatable (statics (e_cls e)).
Definition oriented (e : entity) : Prop := In COrientation (statics (e_cls e)).
(** the orientation is j/256, 0 <= j/256 < 1 *)
Definition oriented_at (e : entity) (j : Z) : Prop :=
  0 <= j < 256 /\ exists f, dget "orientation" (e_at e) = Some (VFlt f) /\ on_grid j (NF f).
(** what rotation needs *)
Definition can_turn (c : vec) (e : entity) : Prop :=
  (exists v, e_pos e = Some v /\ exact_about c v) /\ (oriented e -> exists j, oriented_at e j).

(** everything about an entity that rotation leaves alone (its number aside) *)
Definition still (e : entity) :=
  (e_strict e, e_layer e, e_number e, e_name e, e_cls e, e_raw e, e_cb e).
(** [e'] is [e] turned [k] quarters clockwise about [c] *)
Record turned (k : nat) (c : vec) (e e' : entity) : Prop := {
  tu_still : still e' = still e;
  tu_pos : exists v v' p pc, e_pos e = Some v /\ e_pos e' = Some v' /\ at_point v p /\ at_point c pc /\
             vec_valid v' /\ at_point v' (qturn k pc p);
  tu_dir : (rotatable e -> e_dir e' = (e_dir e + 2 * Z.of_nat k) mod 8) /\ (~ rotatable e -> e_dir e' = e_dir e);
  tu_at : forall key, key <> KS "orientation" -> dget key (e_at e') = dget key (e_at e);
  tu_plain : ~ oriented e -> e_at e' = e_at e;
  tu_orient : forall j, oriented e -> oriented_at e j -> oriented_at e' ((j + 64 * Z.of_nat k) mod 256) }.

(** ** Sequences of turns *)
(** quarters in all, each amount taken modulo 4 *)
Definition quarters (ns : list Z) : nat := fold_right (fun n a => (Z.to_nat (n mod 4) + a)%nat) 0%nat ns.
(** no coordinate is -0.0 *)
Definition no_neg_zero (v : vec) : Prop := vx v <> NF (S754_zero true) /\ vy v <> NF (S754_zero true).
(** a layer as [sort] leaves it *)
Definition tidy (w : world) (x : bp) : Prop := in_order w (b_objs x) /\ numbered w (b_objs x).
(** directions and numbers as Direction and json give them *)
Definition plain (e : entity) : Prop :=
  (rotatable e -> 0 <= e_dir e < 8) /\
  (forall v, e_pos e = Some v -> no_neg_zero v) /\
  (oriented e -> dget "orientation" (e_at e) <> Some (VFlt (S754_zero true))).
(** squared distance *)
Definition dist2 (p c : Q * Q) : Q :=
  ((fst p - fst c) * (fst p - fst c) + (snd p - snd c) * (snd p - snd c))%Q.

(** ** Selection boxes *)
(** the prototype's box reaches as far left as right, and as far up as down *)
Definition symmetric_box (b : vec * vec) (h : Q * Q) : Prop :=
  at_point (snd b) h /\ at_point (fst b) ((- fst h)%Q, (- snd h)%Q).
