(** * Proofs for C79. *)
From Coq Require Import Lia Permutation.
From Verif Require Import Py Num NumFacts Util SpecUtil Classes Mixins Entity Setters World SpecWorld SpecDoc SpecEntity SpecAttr SpecValues SpecSetting SpecBehaviour SpecParts SpecMove.
From Verif Require Import DictFacts WorldFacts SortFacts Inv LayerProofs WireProofs ExportProofs PartsProofs BuildProofs.
From Verif Require RenameProofs.
Open Scope string_scope. Open Scope Z_scope. Open Scope list_scope.
Import RenameProofs.

Lemma no_mine x i : no_wire_at x i -> mine i (b_conns x) = [].
Proof.
  unfold no_wire_at, mine. induction (b_conns x) as [|c r IH]; intros H; [reflexivity|]. cbn [filter]. destruct (H c (or_introl eq_refl)) as [F T].
  assert (A : attached_to c i = false).
  { unfold attached_to. destruct (c_from c) as [f|], (c_to c) as [t|]; cbn; rewrite ?orb_false_iff; rewrite ?Nat.eqb_neq; repeat split; try reflexivity; congruence. }
  rewrite A. apply IH. intros d Hd. apply H. now right.
Qed.
Lemma alone_unwired w i e b x : ent w i = Some e -> e_layer e = Some b -> blu w b = Some x -> no_wire_at x i -> entity_alone w i = bare (w_protos w) e.
Proof.
  intros He Hl Hx C. unfold entity_alone, bare. rewrite ent_json_eq, He. destruct (e_pos e) as [v|]; [|reflexivity].
  rewrite (connections_to_json_eq _ _ _ _ _ He Hl Hx). unfold my_wires. rewrite (no_mine _ _ C). reflexivity.
Qed.
Lemma bare_layer p l e : bare p (with_layer l e) = bare p e.
Proof. reflexivity. Qed.
Lemma bare_same p n e : same_but_number n (bare p e) (bare p (with_auto (VInt n) e)).
Proof.
  rewrite bare_number. unfold bare. destruct (e_pos e) as [v|]; [|right; eexists; split; reflexivity]. destruct (json_chain _ _ _ _ _ _ _) as [d|err]; [left; exists d; split; reflexivity|right; exists err; split; reflexivity].
Qed.

Section Move.
Variables (w : world) (a b i : nat) (xa xb : bp) (w2 : world).
Hypothesis (R : reachable w) (N : a <> b) (Ha : blu w a = Some xa) (Hb : blu w b = Some xb) (Hi : In i (b_objs xa)) (M : moves w a b i w2).
(** the state after the two calls *)
Lemma moved_world : exists lo e, ent w i = Some e /\ e_layer e = Some a /\ ~ In i (b_objs xb) /\ NoDup lo /\ Permutation (b_objs xb ++ [i]) lo /\
  w_protos w2 = w_protos w /\ blu w2 b = Some (b_set_objs lo xb) /\ blu w2 a = Some (b_set_objs (remove1 i (b_objs xa)) xa) /\
  (forall k j f, nth_error lo k = Some j -> j <> i -> ent w j = Some f -> ent w2 j = Some (with_auto (VInt (Z.of_nat k + 1)) f)) /\
  (forall k, nth_error lo k = Some i -> ent w2 i = Some (with_auto (VInt (Z.of_nat k + 1)) (with_layer (Some b) e))) /\
  (forall j, ~ In j lo -> ent w2 j = ent w j).
Proof using R N Ha Hb Hi M.
  pose proof (reach_inv _ R) as I. destruct (inv_owner _ I _ _ _ Ha Hi) as (e & He & Hl).
  assert (NI : ~ In i (b_objs xb)). { intros Q. destruct (inv_owner _ I _ _ _ Hb Q) as (e' & He' & Hl'). congruence. }
  destruct M as (w1 & S1 & S2). assert (R1 : reachable w1). { replace w1 with (fst (step (ORemove a (OEnt i)) w)) by now rewrite S1. apply reach_step; [exact R|exact Logic.I]. }
  assert (R2 : reachable w2). { replace w2 with (fst (step (OAdd b (OEnt i)) w1)) by now rewrite S2. apply reach_step; [exact R1|exact Logic.I]. }
  cbn [step layer_remove] in S1. rewrite (drop_ok _ _ _ _ Ha Hi) in S1. injection S1 as <-. cbn [step] in S2.
  set (w1 := upd_ent i (with_layer None) _) in *.
  assert (E1 : ent w1 i = Some (with_layer None e)). { unfold w1. rewrite ent_upd, Nat.eqb_refl, ent_upd_bp, He. reflexivity. }
  assert (B1 : blu w1 b = Some xb). { unfold w1. change (blu (upd_bp a (b_set_objs (remove1 i (b_objs xa))) w) b = Some xb). rewrite blu_upd. destruct (Nat.eqb_spec a b); [congruence|exact Hb]. }
  apply (add_ok _ _ _ _ _ _ E1 B1 NI) in S2. destruct (sort_layer_ok _ _ _ _ S2) as (x & lo & Hx & SO & EW).
  assert (EX : x = b_set_objs (b_objs xb ++ [i]) xb).
  { revert Hx. match goal with |- blu (upd_ent _ _ ?W) b = _ -> _ => change (blu W b = Some x -> x = b_set_objs (b_objs xb ++ [i]) xb) end. rewrite blu_upd, Nat.eqb_refl, B1. cbn [option_map]. now intros [= <-]. }
  subst x. cbn [b_objs b_set_objs] in SO. destruct (sorted_objs_spec _ _ _ SO) as (PM & _).
  assert (B2 : blu w2 b = Some (b_set_objs lo xb)). { rewrite EW, blu_reindex, blu_upd, Nat.eqb_refl, Hx. reflexivity. }
  assert (ND : NoDup lo). { exact (inv_nodup _ (reach_inv _ R2) _ _ B2). }
  exists lo, e. split; [exact He|]. split; [exact Hl|]. split; [exact NI|]. split; [exact ND|]. split; [exact PM|]. split; [rewrite EW, reindex_protos; reflexivity|]. split; [exact B2|]. split.
  { rewrite EW, blu_reindex, blu_upd. destruct (Nat.eqb_spec b a); [congruence|]. match goal with |- blu (upd_ent _ _ ?W) a = _ => change (blu W a = Some (b_set_objs (remove1 i (b_objs xa)) xa)) end.
    rewrite blu_upd. destruct (Nat.eqb_spec b a); [congruence|]. unfold w1. change (blu (upd_bp a (b_set_objs (remove1 i (b_objs xa))) w) a = Some (b_set_objs (remove1 i (b_objs xa)) xa)). rewrite blu_upd, Nat.eqb_refl, Ha. reflexivity. }
  assert (PRE : forall j, j <> i -> ent (upd_bp b (b_set_objs lo) (upd_ent i (with_layer (Some b)) (upd_bp b (b_set_objs (b_objs xb ++ [i])) w1))) j = ent w j).
  { intros j J. rewrite ent_upd_bp, ent_upd. destruct (Nat.eqb_spec i j); [congruence|]. rewrite ent_upd_bp. unfold w1. rewrite ent_upd. destruct (Nat.eqb_spec i j); [congruence|]. now rewrite ent_upd_bp. }
  split; [|split].
  - intros k j f Hk J Hf. rewrite EW, (reindex_nth _ ND k _ _ j f Hk); [|rewrite PRE by exact J; exact Hf]. do 3 f_equal. lia.
  - intros k Hk. rewrite EW, (reindex_nth _ ND k _ _ i (with_layer (Some b) (with_layer None e)) Hk); [|rewrite ent_upd_bp, ent_upd, Nat.eqb_refl, ent_upd_bp, E1; reflexivity]. f_equal. replace (1 + Z.of_nat k) with (Z.of_nat k + 1) by lia. reflexivity.
  - intros j Hj. rewrite EW, reindex_not_in by exact Hj. apply PRE. intros ->. apply Hj, (Permutation_in i PM), in_or_app. right. now left.
Qed.
Lemma p_C79_moved : no_wire_at xa i -> no_wire_at xb i -> exists x2 k, blu w2 b = Some x2 /\ nth_error (b_objs x2) k = Some i /\ same_but_number (Z.of_nat k + 1) (entity_alone w i) (entity_alone w2 i).
Proof using R N Ha Hb Hi M.
  intros F1 F2. destruct moved_world as (lo & e & He & Hl & NI & ND & PM & P & B2 & A2 & _ & ME & _).
  assert (IN : In i lo) by (apply (Permutation_in i PM), in_or_app; right; now left). apply In_nth_error in IN as [k Hk].
  exists (b_set_objs lo xb), k. split; [exact B2|]. split; [exact Hk|].
  rewrite (alone_unwired _ _ _ _ _ He Hl Ha F1), (alone_unwired w2 i _ b _ (ME k Hk) eq_refl B2 F2), P. apply (bare_same (w_protos w) (Z.of_nat k + 1) (with_layer (Some b) e)).
Qed.
Lemma p_C79_there j : In j (b_objs xb) -> no_wire_at xb j -> exists x2 k, blu w2 b = Some x2 /\ nth_error (b_objs x2) k = Some j /\ same_but_number (Z.of_nat k + 1) (entity_alone w j) (entity_alone w2 j).
Proof using R N Ha Hb Hi M.
  intros Hj F. destruct moved_world as (lo & e & He & Hl & NI & ND & PM & P & B2 & A2 & OT & _ & _).
  assert (IN : In j lo) by (apply (Permutation_in j PM), in_or_app; now left). apply In_nth_error in IN as [k Hk].
  destruct (inv_owner _ (reach_inv _ R) _ _ _ Hb Hj) as (f & Hf & Lf). assert (J : j <> i) by (intros ->; tauto).
  exists (b_set_objs lo xb), k. split; [exact B2|]. split; [exact Hk|].
  rewrite (alone_unwired _ _ _ _ _ Hf Lf Hb F), (alone_unwired w2 j _ b _ (OT k j f Hk J Hf) Lf B2 F), P. apply bare_same.
Qed.
Lemma p_C79_left j : In j (b_objs xa) -> j <> i -> no_wire_at xa j -> entity_alone w2 j = entity_alone w j.
Proof using R N Ha Hb Hi M.
  intros Hj J F. destruct moved_world as (lo & e & He & Hl & NI & ND & PM & P & B2 & A2 & _ & _ & RE).
  destruct (inv_owner _ (reach_inv _ R) _ _ _ Ha Hj) as (f & Hf & Lf).
  assert (E2 : ent w2 j = Some f).
  { rewrite RE; [exact Hf|]. intros Q. apply (Permutation_in j (Permutation_sym PM)), in_app_or in Q as [Q|[Q|[]]]; [|congruence].
    destruct (inv_owner _ (reach_inv _ R) _ _ _ Hb Q) as (f' & Hf' & Lf'). congruence. }
  rewrite (alone_unwired _ _ _ _ _ Hf Lf Ha F), (alone_unwired w2 j _ a _ E2 Lf A2 F), P. reflexivity.
Qed.
End Move.

(** for the examples *)
Lemma moves_done w a b i : snd (step (ORemove a (OEnt i)) w) = Ok tt -> snd (step (OAdd b (OEnt i)) (fst (step (ORemove a (OEnt i)) w))) = Ok tt ->
  moves w a b i (fst (step (OAdd b (OEnt i)) (fst (step (ORemove a (OEnt i)) w)))).
Proof.
  destruct (step (ORemove a (OEnt i)) w) as [w1 r1] eqn:E1. cbn [fst snd]. intros ->. destruct (step (OAdd b (OEnt i)) w1) as [w2 r2] eqn:E2. cbn [fst snd]. intros ->. exists w1. auto.
Qed.
