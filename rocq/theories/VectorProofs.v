(** * Proofs about the operators of Vector. *)
From Verif Require Import Py Num NumFacts Util UtilFacts SpecVector.
Open Scope Z_scope.

(** ** C10: every operator, component by component *)
Lemma vlift_pairwise f v w : pairwise f (fun u => u) v w (vlift f v w).
Proof.
  unfold vlift. destruct (f (vx v) (vx w)) as [x|e] eqn:E; cbn [bind].
  - destruct (f (vy v) (vy w)) as [y|e] eqn:E'; cbn [bind]; [now apply (pw_ok f (fun u => u))|now apply (pw_y _ _ _ _ x)].
  - now apply pw_x.
Qed.
Lemma vop_pairwise f v o w : stands_for o w -> pairwise f (fun u => u) v w (vop f v o).
Proof. intros S. destruct S; apply vlift_pairwise. Qed.
Lemma vrop_pairwise f v o w : stands_for o w -> pairwise f (fun u => u) w v (vrop f o v).
Proof. intros S. destruct S; apply vlift_pairwise. Qed.
Lemma pairwise_comm f v w r : (forall a b, f a b = f b a) -> pairwise f (fun u => u) v w r -> pairwise f (fun u => u) w v r.
Proof.
  intros C H. destruct H as [x y A B|e A|x e A B]; rewrite (C (vx v)) in A; try rewrite (C (vy v)) in B;
    [now apply (pw_ok f (fun u => u))|now apply pw_x|now apply (pw_y _ _ _ _ x)].
Qed.
Lemma pairwise_some f v w r : pairwise f (fun u => u) v w r -> pairwise f Some v w (let! x := r in Ok (Some x)).
Proof. intros [x y A B|e A|x e A B]; cbn [bind]; [now apply (pw_ok f Some)|now apply pw_x|now apply (pw_y _ _ _ _ x)]. Qed.
Lemma p_C10_each v o w : stands_for o w ->
  pairwise nadd (fun u => u) v w (vadd v o) /\ pairwise nsub (fun u => u) v w (vsub v o) /\
  pairwise nmul (fun u => u) v w (vmul v o) /\ pairwise ntruediv (fun u => u) v w (vtruediv v o) /\
  pairwise nfloordiv (fun u => u) v w (vfloordiv v o) /\ pairwise nmod (fun u => u) v w (vmod v o) /\
  pairwise nadd (fun u => u) w v (vradd o v) /\ pairwise nsub (fun u => u) w v (vrsub o v) /\
  pairwise nmul (fun u => u) w v (vrmul o v) /\ pairwise ntruediv (fun u => u) w v (vrtruediv o v) /\
  pairwise nfloordiv (fun u => u) w v (vrfloordiv o v) /\
  ((forall u, o <> OVec u) -> (forall f, o <> ONum (NF f)) -> pairwise nmod Some w v (vrmod o v)).
Proof.
  intros S. repeat (split; [first [now apply vop_pairwise|now apply vrop_pairwise
    |apply pairwise_comm; [exact nadd_comm|now apply vop_pairwise]|apply pairwise_comm; [exact nmul_comm|now apply vop_pairwise]]|]).
  intros N N'. destruct S as [u|[z|f]|x y]; [now destruct (N u)| |now destruct (N' f)|]; cbn [vrmod]; apply pairwise_some, vlift_pairwise.
Qed.
Lemma p_C10_bad v o e : bad_operand o e ->
  vadd v o = Err e /\ vsub v o = Err e /\ vmul v o = Err e /\ vtruediv v o = Err e /\ vfloordiv v o = Err e /\ vmod v o = Err e /\
  vradd o v = Err e /\ vrsub o v = Err e /\ vrmul o v = Err e /\ vrtruediv o v = Err e /\ vrfloordiv o v = Err e.
Proof.
  intros [l L|]; [|repeat split; reflexivity].
  assert (E : operand_vec (OTup l) = Err EValue) by (destruct l as [|a [|b [|c l]]]; cbn in *; congruence).
  unfold vradd, vrmul, vadd, vsub, vmul, vtruediv, vfloordiv, vmod, vrsub, vrtruediv, vrfloordiv, vop, vrop. rewrite E. repeat split; reflexivity.
Qed.
Lemma p_C10_rmod_rest v o : vrmod o v = Ok None <-> o = OOther \/ (exists u, o = OVec u) \/ exists f, o = ONum (NF f).
Proof.
  split.
  - destruct o as [u|[z|f]|[|a [|b [|c l]]]|]; eauto; cbn; try discriminate; destruct (vlift _ _ _); discriminate.
  - intros [->|[(u & ->)|(f & ->)]]; reflexivity.
Qed.
