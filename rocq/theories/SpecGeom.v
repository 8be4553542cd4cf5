(** * Independent specifications for the geometry of a blueprint. *)
From Coq Require Import QArith.
From Verif Require Import Py Num NumFacts Util SpecUtil Classes Mixins Entity World SpecWorld SpecRotate.
Open Scope Z_scope.

(** [z] is [q] with its fraction cut off *)
Definition cut (q : Q) (z : Z) : Prop :=
  ((0 <= q)%Q -> (inject_Z z <= q)%Q /\ (q < inject_Z (z + 1))%Q) /\
  ((q <= 0)%Q -> (inject_Z (z - 1) < q)%Q /\ (q <= inject_Z z)%Q).
(** the corners the library computes for entity [i]: top left and bottom right *)
Definition corner_points (w : world) (i : nat) (tl br : Q * Q) : Prop :=
  exists e u v, ent w i = Some e /\ ent_top_left (w_protos w) e = Ok u /\ ent_bottom_right (w_protos w) e = Ok v /\
    at_point u tl /\ at_point v br.
(** [m] is the largest (smallest) of the cut values of [f] over the entities *)
Definition largest_cut (w : world) (l : list nat) (f : Q * Q -> Q * Q -> Q) (m : Z) : Prop :=
  (exists i tl br, In i l /\ corner_points w i tl br /\ cut (f tl br) m) /\
  (forall i tl br z, In i l -> corner_points w i tl br -> cut (f tl br) z -> z <= m).
Definition smallest_cut (w : world) (l : list nat) (f : Q * Q -> Q * Q -> Q) (m : Z) : Prop :=
  (exists i tl br, In i l /\ corner_points w i tl br /\ cut (f tl br) m) /\
  (forall i tl br z, In i l -> corner_points w i tl br -> cut (f tl br) z -> m <= z).
(** [e'] is [e] with its position moved by minus [c], exactly, and nothing else changed *)
Definition moved_by (c : vec) (e e' : entity) : Prop :=
  still e' = still e /\ e_auto e' = e_auto e /\ e_dir e' = e_dir e /\ e_at e' = e_at e /\
  exists v v' p pc, e_pos e = Some v /\ e_pos e' = Some v' /\ at_point v p /\ at_point c pc /\
    vec_valid v' /\ at_point v' ((fst p - fst pc)%Q, (snd p - snd pc)%Q).
(** the vector is (0, 0) *)
Definition at_origin (v : vec) : Prop := at_point v (0%Q, 0%Q).
(** the corner at ([dx], [dy]) of the prototype's box, seen from an entity at ([x], [y]) with
    direction [d], on the 1/256 grid: the coordinates are exchanged for the directions 2, 3, 6, 7 *)
Definition corner_at (d x y dx dy : Z) : Q * Q :=
  if Z.odd (d / 2) then ((x + dy) # 256, (y + dx) # 256) else ((x + dx) # 256, (y + dy) # 256).
