(** * Equality of blueprints: proofs. *)
From Verif Require Import Py Num Text Json Codec SpecCodec CodecProofs BpString Util Classes Mixins Entity World WorldFacts SpecWorld Inv LayerProofs ExportProofs SpecEqual.
Open Scope Z_scope.

Section Eq.
  Context (z : zlib) (w : world) (R : reachable w).
  Lemma unlooped_plain b : unlooped w b -> plain_layer w b.
  Proof. intros (x & Hx & N) y c Hy. rewrite Hx in Hy. injection Hy as <-. apply N. Qed.
  Lemma after_sim b w' : unlooped w b -> sim w w' -> snd (bp_json b w') = snd (bp_json b w).
  Proof. intros U S. apply bp_json_sim; [apply reach_inv; auto|auto|apply unlooped_plain; auto]. Qed.
  Lemma to_string_sims b : sims (bp_to_string z b).
  Proof. unfold bp_to_string. apply sims_bind; [apply sims_bp_json|intros; apply sims_gets]. Qed.
  Lemma to_string_snd b w' : snd (bp_to_string z b w') = bind (snd (bp_json b w')) (encode z).
  Proof. unfold bp_to_string. rewrite mbind_snd. destruct (snd (bp_json b w')); reflexivity. Qed.
  Lemma bp_eq_snd a b : unlooped w b ->
    snd (bp_eq z a b w) = bind (bind (snd (bp_json a w)) (encode z)) (fun s => bind (bind (snd (bp_json b w)) (encode z)) (fun t => Ok (String.eqb s t))).
  Proof.
    intros U. unfold bp_eq. rewrite mbind_snd, to_string_snd. destruct (bind (snd (bp_json a w)) (encode z)) as [s|] eqn:E; [|reflexivity]. cbn [bind].
    rewrite mbind_snd, to_string_snd. rewrite (after_sim b _ U (to_string_sims a w)). destruct (bind (snd (bp_json b w)) (encode z)); reflexivity.
  Qed.
  Lemma bp_eq_sim a b : sim w (fst (bp_eq z a b w)).
  Proof. apply sims_bind; [apply to_string_sims|intros]. apply sims_bind; [apply to_string_sims|intros]. intros ?. apply sim_refl. Qed.
  Lemma p_C56_iff a b va vb : lossless z -> unlooped w b -> document w a va -> document w b vb -> json_like va -> json_like vb ->
    exists t, snd (bp_eq z a b w) = Ok t /\ (t = true <-> as_json va = as_json vb).
  Proof.
    intros L U A B Ja Jb. rewrite (bp_eq_snd a b U), A, B. cbn [bind].
    destruct (p_C01_roundtrip z va L Ja) as (s & Es & _). destruct (p_C01_roundtrip z vb L Jb) as (t & Et & _).
    rewrite Es, Et. cbn [bind]. eexists. split; [reflexivity|]. rewrite String.eqb_eq, <- (p_C03_injective z va vb L Ja Jb), Es, Et. split; congruence.
  Qed.
  Lemma p_C56_sym a b t : unlooped w a -> unlooped w b -> snd (bp_eq z a b w) = Ok t -> snd (bp_eq z b a w) = Ok t.
  Proof.
    intros Ua Ub. rewrite (bp_eq_snd a b Ub), (bp_eq_snd b a Ua).
    destruct (bind (snd (bp_json a w)) (encode z)), (bind (snd (bp_json b w)) (encode z)); cbn [bind]; try discriminate. intros [= <-]. rewrite String.eqb_sym. reflexivity.
  Qed.
  Lemma p_C56_refl a s : unlooped w a -> snd (bp_to_string z a w) = Ok s -> snd (bp_eq z a a w) = Ok true.
  Proof. intros U. rewrite to_string_snd, (bp_eq_snd a a U). intros ->. cbn [bind]. rewrite String.eqb_refl. reflexivity. Qed.
  Lemma p_C56_trans a b c : unlooped w b -> unlooped w c -> snd (bp_eq z a b w) = Ok true -> snd (bp_eq z b c w) = Ok true -> snd (bp_eq z a c w) = Ok true.
  Proof.
    intros Ub Uc. rewrite (bp_eq_snd a b Ub), (bp_eq_snd b c Uc), (bp_eq_snd a c Uc).
    destruct (bind (snd (bp_json a w)) (encode z)), (bind (snd (bp_json b w)) (encode z)), (bind (snd (bp_json c w)) (encode z)); cbn [bind]; try discriminate.
    intros [= Q1] [= Q2]. apply String.eqb_eq in Q1, Q2. subst. rewrite String.eqb_refl. reflexivity.
  Qed.
  Lemma p_C56_raises a b : unlooped w a -> unlooped w b ->
    (exists e, snd (bp_eq z a b w) = Err e) <-> (exists e, snd (bp_to_string z a w) = Err e) \/ (exists e, snd (bp_to_string z b w) = Err e).
  Proof.
    intros Ua Ub. rewrite (bp_eq_snd a b Ub), !to_string_snd.
    destruct (bind (snd (bp_json a w)) (encode z)), (bind (snd (bp_json b w)) (encode z)); cbn [bind]; split; intros H; eauto;
      repeat match goal with H : _ \/ _ |- _ => destruct H | H : exists _, _ |- _ => destruct H end; try discriminate; eauto.
  Qed.
  Lemma p_C56_looks a b c : unlooped w c -> snd (bp_json c (fst (bp_eq z a b w))) = snd (bp_json c w).
  Proof. intros U. apply after_sim; auto. apply bp_eq_sim. Qed.
End Eq.
