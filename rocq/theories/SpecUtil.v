(** * Independent specifications for the util value classes.

    Only exact values ([nval], Num.v) and plain integer arithmetic are used. *)
From Coq Require Import QArith.
From Verif Require Import Py Num NumFacts Util.
Open Scope Z_scope.

(** A number whose exact value lies in the closed unit interval. *)
Definition in_unit (n : num) : Prop := exists q, nfin n q /\ (0 <= q)%Q /\ (q <= 1)%Q.

(** What a channel assigned [v] must read as. *)
Definition clamped (v w : num) : Prop :=
  match nval v with
  | XNaN => w = NI 1
  | XNInf => w = NI 0
  | XPInf => w = NI 1
  | XFin q => ((q < 0)%Q -> w = NI 0) /\ ((1 <= q)%Q -> w = NI 1) /\
              ((0 <= q)%Q -> (q < 1)%Q -> w = v)
  end.

(** Unordered wire identity. *)
Definition wire_end : Type := option nat * Z.
Definition ends (c : conn) : wire_end * wire_end := ((c_from c, c_fs c), (c_to c, c_ts c)).
Definition same_wire (a b : conn) : Prop :=
  c_color a = c_color b /\
  (ends a = ends b \/ ends a = (snd (ends b), fst (ends b))).

(** Exact rotation of rational points by quarter turns, (x,y) -> (-y,x). *)
Fixpoint qrot (n : nat) (p : Q * Q) : Q * Q :=
  match n with O => p | S k => qrot k ((- snd p)%Q, fst p) end.
(** the same on integer (grid unit) points *)
Fixpoint zrot (n : nat) (p : Z * Z) : Z * Z :=
  match n with O => p | S k => zrot k (- snd p, fst p) end.
