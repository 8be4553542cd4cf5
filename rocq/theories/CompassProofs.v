(** * Proofs about the texts of Directions (C65). *)
From Verif Require Import Py Num Util Values SpecCompass.
From Verif Require Import ValuesProofs.
Open Scope Z_scope.
Lemma p_C65_compass d : 0 <= d < 8 -> exists s x y, dir_repr d = Ok s /\ dir_vector d = Some (mkVec (NI x) (NI y)) /\ names_step s x y.
Proof.
  intros D. apply dir_cases in D.
  destruct D as [->|[->|[->|[->|[->|[->|[->| ->]]]]]]]; do 3 eexists; (split; [reflexivity|split; reflexivity]).
Qed.
