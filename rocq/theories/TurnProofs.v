(** * Rotation of blueprints: statements proved for the theorems in Props_Rotate.v. *)
From Coq Require Import Lia Lqa Permutation QArith.
From Verif Require Import Py Num NumFacts Util UtilFacts UtilProofs SpecUtil Classes SpecClass C3Proofs Mixins Entity World WorldFacts Inv SortFacts
  SpecWorld LayerProofs PersistProofs EntInv ClassProofs WireProofs SpecRotate RotateProofs.
Open Scope Z_scope.

(** ** C25 *)
Definition all_can_turn (c : vec) (w : world) (x : bp) : Prop :=
  forall i e, In i (b_objs x) -> ent w i = Some e -> can_turn c e.
Lemma p_C25 w b x n c r : reachable w -> blu w b = Some x -> ent_cw r = true -> all_can_turn c w x ->
  exists w' l, step (ORotate b n c r) w = (w', Ok tt) /\
    w_protos w' = w_protos w /\ blu w' b = Some (b_set_objs l x) /\ (forall d, d <> b -> blu w' d = blu w d) /\
    sorted_layer w' b (b_objs x) /\
    (forall i, ~ In i (b_objs x) -> ent w' i = ent w i) /\
    (forall i e, In i (b_objs x) -> ent w i = Some e ->
       exists e', ent w' i = Some e' /\ turned (Z.to_nat (n mod 4)) c e e').
Proof.
  intros R Hx CW H. destruct (rotate_step w b x n c r R Hx) as (w' & l & E & W & S & T).
  { intros i e Hi He. apply can_turn_turnable. eauto. }
  exists w', l. split; auto. split; [apply W|]. split; [apply W|]. split; [apply W|]. split; auto. split; [apply W|].
  intros i e Hi He. destruct (T _ _ Hi He) as (e' & He' & Tu & _). rewrite CW in Tu. exists e'. auto.
Qed.
Lemma ent_cw_turn n r : ent_cw r = true -> turn_amount n (ent_cw r) = n mod 4.
Proof. intros ->. reflexivity. Qed.
(** any number of turns about one centre *)
Lemma turns_run b c : forall ns n w x, reachable w -> blu w b = Some x ->
  (forall i e, In i (b_objs x) -> ent w i = Some e -> turnable c e) ->
  exists l, let w' := run (map (fun n => ORotate b n c RDefault) (n :: ns)) w in
    Permutation (b_objs x) l /\ w_protos w' = w_protos w /\ blu w' b = Some (b_set_objs l x) /\ (forall d, d <> b -> blu w' d = blu w d) /\
    (forall i, ~ In i (b_objs x) -> ent w' i = ent w i) /\
    (forall i e, In i (b_objs x) -> ent w i = Some e ->
       exists e', ent w' i = Some e' /\ turned (quarters (n :: ns)) c e e').
Proof.
  induction ns as [|m ns IH]; intros n w x R Hx H;
    destruct (rotate_step w b x n c RDefault R Hx H) as (w1 & l1 & E & W & S & T).
  - exists l1. cbn [map run]. rewrite E. cbn zeta. cbn [fst].
    split; [apply (rw_order _ _ _ _ _ _ _ _ W)|]. split; [apply W|]. split; [apply W|]. split; [apply W|]. split; [apply W|].
    intros i e Hi He. destruct (T _ _ Hi He) as (e' & He' & Tu & _). exists e'. split; auto.
    unfold quarters; cbn [fold_right]. rewrite Nat.add_0_r. exact Tu.
  - assert (R1 : reachable w1).
    { change w1 with (fst (w1, @Ok unit tt)). rewrite <- E. apply reach_step; simpl; auto. }
    pose proof (rw_order _ _ _ _ _ _ _ _ W) as (P1 & _).
    pose proof (reach_inv _ R) as I.
    assert (ME : forall i, In i l1 <-> In i (b_objs x)) by (intros i; split; apply Permutation_in; [symmetry|]; exact P1).
    destruct (IH m w1 (b_set_objs l1 x) R1 (rw_bp _ _ _ _ _ _ _ _ W)) as (l & P & A & B & C & D & F).
    { intros i e Hi He. cbn in Hi. apply ME in Hi. destruct (inv_owner _ I _ _ _ Hx Hi) as (e0 & He0 & _).
      destruct (T _ _ Hi He0) as (e' & He' & _ & Tb). congruence. }
    cbn [b_objs b_set_objs] in P, D, F.
    exists l. cbn zeta. change (map (fun n => ORotate b n c RDefault) (n :: m :: ns))
      with (ORotate b n c RDefault :: map (fun n => ORotate b n c RDefault) (m :: ns)).
    cbn [run]. change (run (map (fun n => ORotate b n c RDefault) ns) (fst (step (ORotate b m c RDefault) (fst (step (ORotate b n c RDefault) w)))))
      with (run (map (fun n => ORotate b n c RDefault) (m :: ns)) (fst (step (ORotate b n c RDefault) w))).
    rewrite E. cbn [fst].
    split; [transitivity l1; auto|]. split; [rewrite A; apply W|]. split; [exact B|].
    split; [intros d Hd; rewrite C by auto; apply W; auto|].
    split; [intros i Hi; rewrite D by (rewrite ME; auto); apply W; auto|].
    intros i e Hi He. destruct (T _ _ Hi He) as (e1 & He1 & Tu & _). apply ME in Hi.
    destruct (F _ _ Hi He1) as (e2 & He2 & Tu2). exists e2. split; auto.
    change (quarters (n :: m :: ns)) with (Z.to_nat (n mod 4) + quarters (m :: ns))%nat.
    eapply turned_trans; eauto.
Qed.
Lemma p_C25_turns b c ns n w x : reachable w -> blu w b = Some x -> all_can_turn c w x ->
  exists l, let w' := run (map (fun n => ORotate b n c RDefault) (n :: ns)) w in
    Permutation (b_objs x) l /\ w_protos w' = w_protos w /\ blu w' b = Some (b_set_objs l x) /\ (forall d, d <> b -> blu w' d = blu w d) /\
    (forall i, ~ In i (b_objs x) -> ent w' i = ent w i) /\
    (forall i e, In i (b_objs x) -> ent w i = Some e ->
       exists e', ent w' i = Some e' /\ turned (quarters (n :: ns)) c e e').
Proof. intros R Hx H. apply turns_run; auto. intros i e Hi He. apply can_turn_turnable; eauto. Qed.

(** ** C26 *)
Lemma p_C26_compose w b x n m : reachable w -> blu w b = Some x -> all_can_turn vzero w x ->
  run [ORotate b n vzero RDefault; ORotate b m vzero RDefault] w = run [ORotate b (n + m) vzero RDefault] w.
Proof. intros R Hx H. apply (rotate_compose w b x n m); auto. intros i e Hi He. apply can_turn_turnable; eauto. Qed.
Lemma turn0_id n e v : cls_inv (e_cls e) -> can_turn vzero e -> plain e -> n mod 4 = 0 -> e_pos e = Some v -> turn0 n e = e.
Proof.
  intros C T (PD & PP & PO) N P. pose proof (can_turn_turnable _ _ T) as Tb. rewrite (turn0_eq n e v) by auto. rewrite N.
  destruct Tb as (_ & O). unfold after_turn.
  assert (A : (if has_cls COrientation (chain (e_cls e)) then
             match turned_orientation 0 (e_at e) with Ok v => dset "orientation" v (e_at e) | Err _ => e_at e end
           else e_at e) = e_at e).
  { destruct (has_cls COrientation (chain (e_cls e))) eqn:I; auto. apply has_cls_In in I.
    apply chain_statics in I; [|auto|discriminate]. destruct (O I) as (j & B & f & D & G).
    destruct (orient_grid 0 (e_at e) f j ltac:(lia) D G B) as (f' & -> & G' & N').
    apply dset_get. rewrite D. do 2 f_equal. specialize (PO I). rewrite D in PO.
    rewrite Z.mul_0_r, Z.add_0_r, Z.mod_small in G' by lia. eapply grid_unique0; eauto. congruence. }
  match goal with |- with_at ?a _ = _ => replace a with (e_at e) by (symmetry; exact A) end.
  assert (Dr : (if has_cls CRotatable (chain (e_cls e)) then dir_rotate (e_dir e) 0 true else e_dir e) = e_dir e).
  { destruct (has_cls CRotatable (chain (e_cls e))) eqn:I; auto. apply has_cls_In in I.
    apply chain_statics in I; [|auto|discriminate]. rewrite dir_rotate_mod, Z.add_0_r, Z.mod_small; auto. }
  match goal with |- with_at _ (with_dir ?a _) = _ => replace a with (e_dir e) by (symmetry; exact Dr) end.
  cbn [Z.to_nat rotn].
  assert (vnorm v = v) as ->.
  { destruct (PP v P) as [X Y]. destruct v as [x y]. unfold vnorm; cbn in *.
    f_equal; [destruct x as [z|[[]| | |]]|destruct y as [z|[[]| | |]]]; try reflexivity; congruence. }
  destruct e; unfold with_at, with_dir, with_pos; cbn in *. now rewrite P.
Qed.
Lemma p_C26_identity w b x n : reachable w -> blu w b = Some x -> all_can_turn vzero w x -> tidy w x ->
  (forall i e, In i (b_objs x) -> ent w i = Some e -> plain e) -> n mod 4 = 0 ->
  step (ORotate b n vzero RDefault) w = (w, Ok tt).
Proof.
  intros R Hx H [O Nu] PL N. pose proof (reach_inv _ R) as I.
  destruct (rotate_step w b x n vzero RDefault R Hx) as (w' & l & E & W & S & T).
  { intros i e Hi He. apply can_turn_turnable; eauto. }
  rewrite E. f_equal.
  assert (OW : forall i, In i (b_objs x) -> exists e u, ent w i = Some e /\ e_pos e = Some u /\ exactly vzero u /\ turn0 n e = e).
  { intros i Hi. destruct (inv_owner _ I _ _ _ Hx Hi) as (e & He & _). pose proof (H _ _ Hi He) as Ht.
    pose proof Ht as ((u & Pu & X) & _). exists e, u. split; auto. split; auto. split; [now apply exact_about_exactly|].
    eapply turn0_id; eauto. eapply reach_cls; eauto. }
  pose proof (rw_order _ _ _ _ _ _ _ _ W) as RO.
  assert (ME : forall i, In i l <-> In i (b_objs x)).
  { intros i. destruct RO as (P & _). split; apply Permutation_in; [symmetry|]; exact P. }
  assert (EN : forall k i e, nth_error l k = Some i -> ent w i = Some e -> ent w' i = Some (with_auto (VInt (1 + Z.of_nat k)) e)).
  { intros k i e Hk He. assert (Hi : In i (b_objs x)) by (apply ME; eapply nth_error_In; eauto).
    destruct (OW i Hi) as (e0 & u & He0 & _ & _ & Te). assert (e0 = e) as -> by congruence.
    rewrite (rw_ents _ _ _ _ _ _ _ _ W _ _ _ Hk He). cbn [ent_cw]. fold (turn0 n e). now rewrite Te. }
  assert (SP : same_pos w' w).
  { intros i. destruct (in_dec Nat.eq_dec i (b_objs x)) as [Hi|Ni].
    - destruct (OW i Hi) as (e & u & He & _). assert (In i l) as Hl by (now apply ME). apply In_nth_error in Hl as (k & Hk).
      rewrite (EN _ _ _ Hk He), He. reflexivity.
    - now rewrite (rw_others _ _ _ _ _ _ _ _ W i Ni). }
  assert (L : l = b_objs x).
  { apply (reordered_unique w (b_objs x)).
    - eapply reordered_pos; eauto.
    - split; [reflexivity|split; auto].
    - intros i Hi. destruct (OW i Hi) as (e & u & He & Pu & X & _). exists u. split; [exists e; auto|].
      destruct X as [(_ & _ & p & Pp)|(p & pc & Gp & _)]; [eapply at_point_key; eauto|].
      apply grid_point in Gp as [Pp _]. eapply at_point_key; eauto. }
  subst l. apply world_ext.
  - apply W.
  - intros i. destruct (in_dec Nat.eq_dec i (b_objs x)) as [Hi|Ni]; [|now apply W].
    apply In_nth_error in Hi as (k & Hk). destruct (Nu k i Hk) as (e & He & A). rewrite (EN _ _ _ Hk He), He. f_equal.
    replace (1 + Z.of_nat k) with (Z.of_nat k + 1) by lia. rewrite <- A. destruct e; reflexivity.
  - intros c. destruct (Nat.eq_dec c b) as [->|Nc]; [|now apply W]. rewrite (rw_bp _ _ _ _ _ _ _ _ W), Hx. f_equal.
    destruct x; reflexivity.
Qed.
Lemma p_C26_sequence w b x : reachable w -> blu w b = Some x -> all_can_turn vzero w x -> forall ns n,
  run (map (fun n => ORotate b n vzero RDefault) (n :: ns)) w = run [ORotate b (fold_right Z.add 0 (n :: ns)) vzero RDefault] w.
Proof.
  intros R Hx H ns. induction ns as [|m ns IH]; intros n.
  - cbn [map run fold_right]. now rewrite Z.add_0_r.
  - transitivity (run (map (fun n => ORotate b n vzero RDefault) (n + m :: ns)) w).
    + pose proof (p_C26_compose w b x n m R Hx H) as E. cbn [run] in E. cbn [map run]. rewrite E. reflexivity.
    + rewrite IH. cbn [fold_right]. do 3 f_equal. lia.
Qed.

(** ** C27 *)
Lemma turn_ccw n : turn_amount n false = if n mod 4 =? 1 then 1 else 0.
Proof.
  unfold turn_amount. pose proof (Z.mod_pos_bound n 4 ltac:(lia)).
  assert (n mod 4 = 0 \/ n mod 4 = 1 \/ n mod 4 = 2 \/ n mod 4 = 3) as [-> | [-> | [-> | ->]]] by lia; reflexivity.
Qed.
Lemma rotate_ccw n c e : entity_rotate n c false e = entity_rotate (if n mod 4 =? 1 then 1 else 0) c true e.
Proof.
  unfold entity_rotate. rewrite turn_ccw.
  assert (turn_amount (if n mod 4 =? 1 then 1 else 0) true = if n mod 4 =? 1 then 1 else 0) as ->.
  { rewrite turn_amount_cw. destruct (n mod 4 =? 1); reflexivity. }
  reflexivity.
Qed.
Lemma foldE_ext {A X} (f g : A -> X -> A * res unit) l : (forall a x, f a x = g a x) -> forall a, foldE f l a = foldE g l a.
Proof. intros H. induction l as [|x l IH]; intros a; simpl; auto. rewrite H. destruct (g a x) as [a' []]; auto. Qed.
Lemma p_C27_entities w b n c r : reachable w -> ent_cw r = false ->
  step (ORotate b n c r) w = step (ORotate b (if n mod 4 =? 1 then 1 else 0) c RDefault) w.
Proof.
  intros R CW. pose proof (reach_inv _ R) as I. cbn [step]. unfold bp_rotate.
  set (k := if n mod 4 =? 1 then 1 else 0).
  assert (E : layer_rotate b n c r w = layer_rotate b k c RDefault w).
  { unfold layer_rotate, mbind, get_bp, gets. destruct (blu w b) as [x|]; auto.
    assert (forM (rotate_ent n c r) (b_objs x) w = forM (rotate_ent k c RDefault) (b_objs x) w) as ->; auto.
    unfold forM. apply foldE_ext. intros a i. unfold rotate_ent. rewrite CW. destruct (ent a i) as [e|]; auto.
    cbn [ent_cw]. now rewrite rotate_ccw. }
  unfold mbind. rewrite E. destruct (layer_rotate b k c RDefault w) as [w1 [[]|err]] eqn:L; auto.
  assert (T : forall m rr, tiles_rotate b m c rr w1 = (w1, Ok tt)).
  { assert (B : exists x1, blu w1 b = Some x1 /\ b_tiles x1 = []).
    { unfold layer_rotate in L. apply mbind_ok in L as (x & w0 & G & L). unfold get_bp, gets in G.
      destruct (blu w b) as [x'|] eqn:Hx; [|discriminate]. injection G as <- <-.
      apply mbind_ok in L as (u & wr & Hr & Hs). pose proof (keeps_rotate_bps (fun l => l = w_bps w) k c RDefault (b_objs x') w eq_refl) as B.
      rewrite Hr in B. cbn [fst] in B. apply sort_layer_ok in Hs as (y & l & Hy & _ & ->).
      assert (y = x') as -> by (unfold blu in *; congruence).
      exists (b_set_objs l x'). rewrite blu_reindex, blu_upd, Nat.eqb_refl, Hy. split; auto. exact (inv_tiles _ I _ _ Hx). }
    destruct B as (x1 & B1 & B2). intros m rr. eapply tiles_rotate_nop; eauto. }
  now rewrite !T.
Qed.
(** tiles *)
Lemma zrot_back n p : zrot (Z.to_nat (4 - n mod 4)) (zrot (Z.to_nat (n mod 4)) p) = p.
Proof.
  pose proof (Z.mod_pos_bound n 4 ltac:(lia)). destruct p as [a b].
  assert (n mod 4 = 0 \/ n mod 4 = 1 \/ n mod 4 = 2 \/ n mod 4 = 3) as [-> | [-> | [-> | ->]]] by lia;
    match goal with |- zrot ?x (zrot ?y _) = _ => let x' := eval vm_compute in x in let y' := eval vm_compute in y in
      change x with x'; change y with y' end; simpl; rewrite ?Z.opp_involutive; reflexivity.
Qed.
Lemma tile_rotate_grid t n c cw p pc : at_grid (t_pos t) p -> at_grid c pc -> near pc p ->
  exists t', tile_rotate t n c cw = Ok t' /\ t_name t' = t_name t /\
    at_grid (t_pos t') (zturn (Z.to_nat (if cw then n mod 4 else 4 - n mod 4)) pc p).
Proof.
  intros G Gc Nr. set (k := Z.to_nat (if cw then n mod 4 else 4 - n mod 4)).
  destruct (rotated_grid k c (t_pos t) p pc G Gc Nr) as (v' & E & G'). unfold rotated_pos in E.
  unfold tile_rotate. destruct (vsub (t_pos t) (OVec c)) as [q|]; [|discriminate]. cbn [bind] in *.
  fold k. rewrite E. cbn [bind]. eexists. split; [reflexivity|]. split; auto.
Qed.
Lemma p_C27_tiles t n c : game_pos (t_pos t) -> game_pos c ->
  exists t1 t2 p, tile_rotate t n c true = Ok t1 /\ tile_rotate t1 n c false = Ok t2 /\ t_name t2 = t_name t /\
    at_point (t_pos t) p /\ at_point (t_pos t2) p.
Proof.
  intros Gv Gc. destruct (exact_about_exactly c (t_pos t)) as [(-> & V & p & P)|(p & pc & G & Gpc & Nr)]; [right; auto| |].
  - apply game_pos_grid in Gv as (p' & Gp & [A B]). apply game_pos_grid in Gc as (pc & Gpc & [C D]).
    assert (Nr : near pc p') by (repeat split; auto; lia).
    destruct (tile_rotate_grid t n vzero true p' pc Gp Gpc Nr) as (t1 & E1 & N1 & G1).
    destruct (tile_rotate_grid t1 n vzero false _ pc G1 Gpc (near_turn _ _ _ Nr)) as (t2 & E2 & N2 & G2).
    exists t1, t2, (fst p' # 256, snd p' # 256)%Q. split; auto. split; auto. split; [congruence|]. split; [apply grid_point; auto|].
    cbn iota in G1, G2. replace (zturn _ pc (zturn _ pc p')) with p' in G2; [apply grid_point; auto|].
    unfold zturn; cbn [fst snd]. set (d := (fst p' - fst pc, snd p' - snd pc)).
    assert (Q : forall d : Z * Z, (fst pc + fst d - fst pc, snd pc + snd d - snd pc) = d) by (intros [? ?]; f_equal; cbn; lia).
    rewrite Q, zrot_back. unfold d; cbn. destruct p'; f_equal; cbn; lia.
  - destruct (tile_rotate_grid t n c true p pc G Gpc Nr) as (t1 & E1 & N1 & G1).
    destruct (tile_rotate_grid t1 n c false _ pc G1 Gpc (near_turn _ _ _ Nr)) as (t2 & E2 & N2 & G2).
    exists t1, t2, (fst p # 256, snd p # 256)%Q. split; auto. split; auto. split; [congruence|]. split; [apply grid_point; auto|].
    cbn iota in G1, G2. replace (zturn _ pc (zturn _ pc p)) with p in G2; [apply grid_point; auto|].
    unfold zturn; cbn [fst snd]. set (d := (fst p - fst pc, snd p - snd pc)).
    assert (Q : forall d : Z * Z, (fst pc + fst d - fst pc, snd pc + snd d - snd pc) = d) by (intros [? ?]; f_equal; cbn; lia).
    rewrite Q, zrot_back. unfold d; cbn. destruct p; f_equal; cbn; lia.
Qed.

(** ** C28 *)
Lemma qturn_dist k c p : (dist2 (qturn k c p) c == dist2 p c)%Q.
Proof.
  unfold dist2, qturn; cbn [fst snd]. pose proof (qrot_norm k ((fst p - fst c)%Q, (snd p - snd c)%Q)) as N.
  cbn zeta in N. cbn [fst snd] in N. set (d := qrot k _) in *. rewrite <- N. ring.
Qed.
Lemma qrot_4 m p : (fst (qrot (4 * m) p) == fst p)%Q /\ (snd (qrot (4 * m) p) == snd p)%Q.
Proof.
  revert p. induction m as [|m IH]; intros [a b]; [split; reflexivity|].
  replace (4 * S m)%nat with (S (S (S (S (4 * m)))))%nat by lia. cbn [qrot fst snd].
  destruct (IH (- - a, - - b)%Q) as [X Y]. rewrite X, Y. cbn [fst snd]. split; ring.
Qed.
Lemma qturn_4 m c p : (fst (qturn (4 * m) c p) == fst p)%Q /\ (snd (qturn (4 * m) c p) == snd p)%Q.
Proof. unfold qturn; cbn [fst snd]. destruct (qrot_4 m (fst p - fst c, snd p - snd c)%Q) as [X Y]. rewrite X, Y. cbn [fst snd]. split; ring. Qed.
Lemma p_C28_distance k c e e' : turned k c e e' ->
  exists v v' p p' pc, e_pos e = Some v /\ e_pos e' = Some v' /\ at_point v p /\ at_point v' p' /\ at_point c pc /\
    (dist2 p' pc == dist2 p pc)%Q.
Proof.
  intros [_ (v & v' & p & pc & A & B & C & D & E & F) _ _ _ _]. exists v, v', p, (qturn k pc p), pc.
  split; auto. split; auto. split; auto. split; auto. split; auto. apply qturn_dist.
Qed.
Lemma p_C28_whole_turn k c e e' : turned k c e e' -> (k mod 4 = 0)%nat ->
  exists v v' p, e_pos e = Some v /\ e_pos e' = Some v' /\ at_point v p /\ at_point v' p.
Proof.
  intros [_ (v & v' & p & pc & A & B & C & D & E & F) _ _ _ _] K. exists v, v', p.
  split; auto. split; auto. split; auto. apply Nat.div_exact in K; [|lia]. rewrite K in F.
  eapply at_point_eq; [apply qturn_4|apply qturn_4|exact F].
Qed.
Lemma quarters_cons n ns : quarters (n :: ns) = (Z.to_nat (n mod 4) + quarters ns)%nat.
Proof. reflexivity. Qed.
Lemma quarters_mod ns : Z.of_nat (quarters ns) mod 4 = fold_right Z.add 0 ns mod 4.
Proof.
  induction ns as [|n ns IH]; [reflexivity|]. rewrite quarters_cons. cbn [fold_right].
  rewrite Nat2Z.inj_add, Z2Nat.id by (apply Z.mod_pos_bound; lia).
  rewrite Zplus_mod, IH, Z.mod_mod, <- Zplus_mod by lia. reflexivity.
Qed.
Lemma p_C28_turns b c ns n w x : reachable w -> blu w b = Some x -> all_can_turn c w x ->
  fold_right Z.add 0 (n :: ns) mod 4 = 0 ->
  forall i e, In i (b_objs x) -> ent w i = Some e ->
    exists e' v v' p, ent (run (map (fun n => ORotate b n c RDefault) (n :: ns)) w) i = Some e' /\
      e_pos e = Some v /\ e_pos e' = Some v' /\ at_point v p /\ at_point v' p.
Proof.
  intros R Hx H Z i e Hi He. destruct (p_C25_turns b c ns n w x R Hx H) as (l & _ & _ & _ & _ & _ & T).
  destruct (T i e Hi He) as (e' & He' & Tu). rewrite <- quarters_mod in Z.
  destruct (p_C28_whole_turn _ _ _ _ Tu) as (v & v' & p & A & B & C & D); [|exists e', v, v', p; auto].
  change 4 with (Z.of_nat 4) in Z. rewrite <- Nat2Z.inj_mod in Z. lia.
Qed.

(** ** C29 *)
Lemma swap_boxn_even m b : swap_boxn (2 * m) b = b.
Proof.
  revert b. induction m as [|m IH]; intros [[a1 a2] [b1 b2]]; [reflexivity|].
  replace (2 * S m)%nat with (S (S (2 * m))) by lia. cbn [swap_boxn]. rewrite IH. reflexivity.
Qed.
Lemma swap_boxn_parity n b : swap_boxn n b = if Nat.even n then b else swap_box b.
Proof.
  destruct (Nat.even n) eqn:E.
  - apply Nat.even_spec in E as [m ->]. apply swap_boxn_even.
  - assert (O : Nat.odd n = true) by (rewrite <- Nat.negb_even, E; reflexivity). apply Nat.odd_spec in O as [m ->].
    replace (2 * m + 1)%nat with (S (2 * m)) by lia. cbn [swap_boxn]. apply swap_boxn_even.
Qed.
Lemma dir_parity d k : 0 <= d < 8 ->
  Nat.even (Z.to_nat (((d + 2 * Z.of_nat k) mod 8) / 2)) = Bool.eqb (Nat.even (Z.to_nat (d / 2))) (Nat.even k).
Proof.
  intros B.
  assert (E : forall z, 0 <= z -> Nat.even (Z.to_nat z) = Z.even z).
  { intros z Hz. apply eq_true_iff_eq. rewrite Nat.even_spec, Z.even_spec. split; intros [m Hm].
    - exists (Z.of_nat m). lia.
    - exists (Z.to_nat m). lia. }
  assert (Ek : Nat.even k = Z.even (Z.of_nat k)) by (rewrite <- E, Nat2Z.id; [reflexivity|lia]).
  pose proof (Z.mod_pos_bound (d + 2 * Z.of_nat k) 8 ltac:(lia)).
  rewrite !E, Ek by (apply Z.div_pos; lia).
  assert (D : ((d + 2 * Z.of_nat k) mod 8) / 2 = d / 2 + Z.of_nat k - 2 * (2 * ((d + 2 * Z.of_nat k) / 8))).
  { rewrite Z.mod_eq by lia. replace (d + 2 * Z.of_nat k - 8 * ((d + 2 * Z.of_nat k) / 8))
      with (d + (Z.of_nat k - 4 * ((d + 2 * Z.of_nat k) / 8)) * 2) by lia. rewrite Z.div_add by lia. lia. }
  rewrite D. rewrite Z.even_sub, Z.even_add, Z.even_mul. cbn [Z.even orb].
  destruct (Z.even (d / 2)), (Z.even (Z.of_nat k)); reflexivity.
Qed.
Definition sym_in (h d : Q * Q) : Prop := (- fst h < fst d /\ fst d < fst h /\ - snd h < snd d /\ snd d < snd h)%Q.
Definition flip (h : Q * Q) : Q * Q := (snd h, fst h).
Lemma sym_in_eq h d d' : (fst d == fst d')%Q -> (snd d == snd d')%Q -> sym_in h d -> sym_in h d'.
Proof. intros A B. unfold sym_in. now rewrite A, B. Qed.
Lemma sym_in_rot1 h d : sym_in h d <-> sym_in (flip h) ((- snd d)%Q, fst d).
Proof. unfold sym_in, flip; cbn [fst snd]. split; intros (A & B & C & D); repeat split; lra. Qed.
Lemma sym_in_rot k : forall h d, sym_in h d <-> sym_in (if Nat.even k then h else flip h) (qrot k d).
Proof.
  induction k as [|k IH]; intros h d; [reflexivity|]. cbn [qrot]. rewrite sym_in_rot1, IH.
  replace (Nat.even (S k)) with (negb (Nat.even k)) by (rewrite Nat.even_succ, <- Nat.negb_even; reflexivity).
  destruct (Nat.even k); cbn [negb]; [reflexivity|]. destruct h; reflexivity.
Qed.
Lemma nfin_xlt_l n a q : nfin n a -> (xlt (nval n) (XFin q) <-> (a < q)%Q).
Proof.
  unfold nfin, xfin, xlt. destruct (nval n); try tauto. intros <-. simpl. rewrite Qlt_alt. split; [intros E; now injection E|intros ->; auto].
Qed.
Lemma nfin_xlt_r n a q : nfin n a -> (xlt (XFin q) (nval n) <-> (q < a)%Q).
Proof.
  unfold nfin, xfin, xlt. destruct (nval n); try tauto. intros <-. simpl. rewrite Qlt_alt. split; [intros E; now injection E|intros ->; auto].
Qed.
Lemma nfin_fun n a b : nfin n a -> nfin n b -> (a == b)%Q.
Proof. unfold nfin, xfin. destruct (nval n); try tauto. intros <- <-. reflexivity. Qed.
Lemma inside_sym b h pos pt p q : symmetric_box b h -> at_point pos p -> at_point pt q ->
  (strictly_inside (fst b) (snd b) pos pt <-> sym_in h (fst q - fst p, snd q - snd p)%Q).
Proof.
  intros [[R1 R2] [L1 L2]] [P1 P2] [Q1 Q2]. cbn [fst snd] in L1, L2. unfold sym_in; cbn [fst snd]. split.
  - intros (px & py & x & y & A & B & C & D & E & F & G & H).
    rewrite (nfin_xlt_l _ _ _ L1) in E. rewrite (nfin_xlt_r _ _ _ R1) in F. rewrite (nfin_xlt_l _ _ _ L2) in G. rewrite (nfin_xlt_r _ _ _ R2) in H.
    pose proof (nfin_fun _ _ _ P1 A). pose proof (nfin_fun _ _ _ P2 B). pose proof (nfin_fun _ _ _ Q1 C). pose proof (nfin_fun _ _ _ Q2 D).
    repeat split; lra.
  - intros (E & F & G & H). exists (fst p), (snd p), (fst q), (snd q). split; auto. split; auto. split; auto. split; auto.
    rewrite (nfin_xlt_l _ _ _ L1), (nfin_xlt_r _ _ _ R1), (nfin_xlt_l _ _ _ L2), (nfin_xlt_r _ _ _ R2). auto.
Qed.
Lemma swap_sym b h : symmetric_box b h -> symmetric_box (swap_box b) (flip h).
Proof. unfold symmetric_box, at_point, swap_box, flip, vyx; cbn. tauto. Qed.
Lemma qrot_sub k : forall p q, let d := qrot k (fst p - fst q, snd p - snd q)%Q in
  (fst d == fst (qrot k p) - fst (qrot k q))%Q /\ (snd d == snd (qrot k p) - snd (qrot k q))%Q.
Proof.
  induction k as [|k IH]; intros [a b] [c d]; cbn zeta; [split; reflexivity|]. cbn [qrot fst snd].
  destruct (IH (- b, a)%Q (- d, c)%Q) as [X Y]. cbn zeta in X, Y. cbn [fst snd] in X, Y. rewrite <- X, <- Y.
  apply qrot_eq; cbn [fst snd]; ring.
Qed.
Lemma qturn_sub k c p q : let d := qrot k (fst q - fst p, snd q - snd p)%Q in
  (fst d == fst (qturn k c q) - fst (qturn k c p))%Q /\ (snd d == snd (qturn k c q) - snd (qturn k c p))%Q.
Proof.
  cbn zeta. unfold qturn; cbn [fst snd].
  destruct (qrot_sub k (fst q - fst c, snd q - snd c)%Q (fst p - fst c, snd p - snd c)%Q) as [X Y]. cbn zeta in X, Y. cbn [fst snd] in X, Y.
  destruct (qrot_eq k (fst q - fst p, snd q - snd p)%Q (fst q - fst c - (fst p - fst c), snd q - snd c - (snd p - snd c))%Q) as [U V];
    cbn [fst snd]; [ring|ring|]. rewrite U, V, X, Y. split; ring.
Qed.
Lemma turned_box k c e e' p b h pt pt' pc q : turned k c e e' -> 0 <= e_dir e < 8 ->
  proto_box p (e_name e) = Ok b -> symmetric_box b h -> (rotatable e \/ (fst h == snd h)%Q) ->
  at_point c pc -> at_point pt q -> at_point pt' (qturn k pc q) ->
  exists tl br tl' br' pos pos', selection_box p e = Ok (tl, br) /\ selection_box p e' = Ok (tl', br') /\
    e_pos e = Some pos /\ e_pos e' = Some pos' /\
    (strictly_inside tl br pos pt <-> strictly_inside tl' br' pos' pt').
Proof.
  intros [S (v & v' & a & pc0 & A & B & C & D & _ & F) [DR DN] _ _ _] Bd Hb Sy Cond Pc Pq Pq'.
  assert (N : e_name e' = e_name e) by (unfold still in S; congruence).
  set (m := Nat.even (Z.to_nat (e_dir e / 2))). set (m' := Nat.even (Z.to_nat (e_dir e' / 2))).
  set (b1 := if m then b else swap_box b). set (b2 := if m' then b else swap_box b).
  set (h1 := if m then h else flip h). set (h2 := if m' then h else flip h).
  assert (S1 : symmetric_box b1 h1) by (unfold b1, h1; destruct m; [auto|now apply swap_sym]).
  assert (S2 : symmetric_box b2 h2) by (unfold b2, h2; destruct m'; [auto|now apply swap_sym]).
  exists (fst b1), (snd b1), (fst b2), (snd b2), v, v'.
  split; [unfold selection_box; rewrite Hb; cbn [bind]; rewrite swap_boxn_parity; fold m; fold b1; now destruct b1|].
  split; [unfold selection_box; rewrite N, Hb; cbn [bind]; rewrite swap_boxn_parity; fold m'; fold b2; now destruct b2|].
  split; auto. split; auto.
  rewrite (inside_sym b1 h1 v pt a q) by auto.
  assert (F' : at_point v' (qturn k pc a)).
  { destruct (at_point_unique _ _ _ D Pc) as [X Y]. eapply at_point_eq; [| |exact F]; apply qturn_eq; auto; reflexivity. }
  rewrite (inside_sym b2 h2 v' pt' (qturn k pc a) (qturn k pc q)) by auto.
  rewrite (sym_in_rot k). destruct (qturn_sub k pc a q) as [X Y]. cbn zeta in X, Y.
  assert (HH : forall d, sym_in (if Nat.even k then h1 else flip h1) d <-> sym_in h2 d).
  { intros d. destruct (in_dec scls_eq_dec CRotatable (statics (e_cls e))) as [Ro|Nr].
    - assert (M : m' = Bool.eqb m (Nat.even k)) by (unfold m'; rewrite (DR Ro), dir_parity by auto; reflexivity).
      unfold h2, h1. rewrite M. destruct m, (Nat.even k); cbn [Bool.eqb]; destruct h; reflexivity.
    - destruct Cond as [Ro|Sq]; [contradiction|]. unfold h2, h1, sym_in, flip.
      destruct m, m', (Nat.even k); cbn [fst snd]; rewrite ?Sq; reflexivity. }
  rewrite HH. split; apply sym_in_eq; cbn [fst snd]; auto; symmetry; auto.
Qed.
Lemma p_C29 w b x n c r : reachable w -> blu w b = Some x -> ent_cw r = true -> all_can_turn c w x ->
  forall i e bx h pt pt' q pc, In i (b_objs x) -> ent w i = Some e -> 0 <= e_dir e < 8 ->
    proto_box (w_protos w) (e_name e) = Ok bx -> symmetric_box bx h -> (rotatable e \/ (fst h == snd h)%Q) ->
    at_point c pc -> at_point pt q -> at_point pt' (qturn (Z.to_nat (n mod 4)) pc q) ->
    (covers w pt i <-> covers (fst (step (ORotate b n c r) w)) pt' i).
Proof.
  intros R Hx CW H i e bx h pt pt' q pc Hi He Bd Hb Sy Cond Pc Pq Pq'.
  destruct (p_C25 w b x n c r R Hx CW H) as (w' & l & E & P & _ & _ & _ & _ & T). rewrite E; cbn [fst].
  destruct (T i e Hi He) as (e' & He' & Tu).
  destruct (turned_box _ _ _ _ _ _ _ _ _ _ _ Tu Bd Hb Sy Cond Pc Pq Pq') as (tl & br & tl' & br' & po & po' & A & B & C & D & F).
  split.
  - intros (e0 & tl0 & br0 & po0 & X & Y & Z & W). rewrite He in X; injection X as <-. rewrite A in Y; injection Y as <- <-. rewrite C in Z; injection Z as <-.
    exists e', tl', br', po'. rewrite P. split; auto. split; auto. split; auto. now apply F.
  - intros (e0 & tl0 & br0 & po0 & X & Y & Z & W). rewrite He' in X; injection X as <-. rewrite P, B in Y; injection Y as <- <-. rewrite D in Z; injection Z as <-.
    exists e, tl, br, po. split; auto. split; auto. split; auto. now apply F.
Qed.
(** half a turn does not change the box *)
Lemma p_C29_half_turn k c e e' p : turned k c e e' -> (k mod 4 = 2)%nat -> 0 <= e_dir e < 8 -> selection_box p e' = selection_box p e.
Proof.
  intros [S _ [DR DN] _ _ _] K B. unfold selection_box. assert (e_name e' = e_name e) as -> by (unfold still in S; congruence).
  destruct (proto_box p (e_name e)) as [bx|]; auto. cbn [bind]. f_equal. rewrite !swap_boxn_parity.
  destruct (in_dec scls_eq_dec CRotatable (statics (e_cls e))) as [Ro|Nr]; [|now rewrite (DN Nr)].
  rewrite (DR Ro), dir_parity by auto. assert (Nat.even k = true) as ->; [|now destruct (Nat.even (Z.to_nat (e_dir e / 2)))].
  apply Nat.even_spec. exists (2 * (k / 4) + 1)%nat. pose proof (Nat.div_mod k 4 ltac:(lia)). lia.
Qed.

(** ** C30 *)
Lemma p_C30_orientation w b x n c r : reachable w -> blu w b = Some x -> ent_cw r = true -> all_can_turn c w x ->
  forall i e j, In i (b_objs x) -> ent w i = Some e -> oriented e -> oriented_at e j ->
    exists e', ent (fst (step (ORotate b n c r) w)) i = Some e' /\ oriented_at e' ((j + 64 * (n mod 4)) mod 256).
Proof.
  intros R Hx CW H i e j Hi He O J. destruct (p_C25 w b x n c r R Hx CW H) as (w' & l & E & P & _ & _ & _ & _ & T). rewrite E; cbn [fst].
  destruct (T i e Hi He) as (e' & He' & Tu). exists e'. split; auto. pose proof (tu_orient _ _ _ _ Tu j O J) as X.
  rewrite Z2Nat.id in X by (apply Z.mod_pos_bound; lia). exact X.
Qed.
Lemma rotate_chain_none n : forall l d a, dget "orientation" a = Some VNone -> In COrientation l ->
  exists d', rotate_chain n l (d, a) = ((d', a), Err EType).
Proof.
  induction l as [|c l IH]; intros d a D; [intros []|]. cbn [rotate_chain].
  destruct (scls_eq_dec c COrientation) as [->|N].
  - intros _. exists d. unfold rotate_link, orientation_of, aget. rewrite D. reflexivity.
  - intros [E|I]; [congruence|].
    destruct c; try congruence; cbn [rotate_link]; apply IH; auto.
Qed.
Lemma foldE_app {A X} (f : A -> X -> A * res unit) l1 l2 a a1 : foldE f l1 a = (a1, Ok tt) -> foldE f (l1 ++ l2) a = foldE f l2 a1.
Proof.
  revert a. induction l1 as [|x l1 IH]; intros a; simpl; [intros E; now injection E as ->|].
  destruct (f a x) as [a' [[]|err]]; [apply IH|discriminate].
Qed.
Lemma p_C30_none w b x n c r pre i post e v : reachable w -> blu w b = Some x -> ent_cw r = true ->
  b_objs x = pre ++ i :: post ->
  (forall j ej, In j pre -> ent w j = Some ej -> can_turn c ej) ->
  ent w i = Some e -> e_pos e = Some v -> exact_about c v -> oriented e -> dget "orientation" (e_at e) = Some VNone ->
  exists w', step (ORotate b n c r) w = (w', Err EType) /\
    (forall d, blu w' d = blu w d) /\ w_protos w' = w_protos w /\
    (forall j, ~ In j pre -> j <> i -> ent w' j = ent w j) /\
    (forall j ej, In j pre -> ent w j = Some ej -> exists e', ent w' j = Some e' /\ turned (Z.to_nat (n mod 4)) c ej e') /\
    (exists e' v' p pc, ent w' i = Some e' /\ e_pos e' = Some v' /\ at_point v p /\ at_point c pc /\
       at_point v' (qturn (Z.to_nat (n mod 4)) pc p) /\ still e' = still e /\ e_auto e' = e_auto e /\ e_at e' = e_at e).
Proof.
  intros R Hx CW Ho Hp He Pe X O D. pose proof (reach_inv _ R) as I.
  pose proof (inv_nodup _ I _ _ Hx) as N. rewrite Ho in N.
  assert (NP : NoDup pre) by (clear - N; induction pre as [|a pre IH]; simpl in *; [constructor|]; inversion_clear N; constructor; [|auto]; intros Q; apply H, in_or_app; auto).
  assert (Ni : ~ In i pre) by (apply NoDup_remove_2 in N; intros Q; apply N, in_or_app; auto).
  assert (EP : forall j, In j pre -> exists ej e', ent w j = Some ej /\ entity_rotate n c (ent_cw r) ej = (e', Ok tt) /\
                turned (Z.to_nat (turn_amount n (ent_cw r))) c ej e').
  { intros j Hj. assert (Q : In j (b_objs x)) by (rewrite Ho; apply in_or_app; auto).
    destruct (inv_owner _ I _ _ _ Hx Q) as (ej & Hej & _).
    destruct (entity_turns n c (ent_cw r) ej) as (e' & E' & T & _); eauto using reach_cls, can_turn_turnable. }
  destruct (forM_rotate n c r pre NP w) as (w1 & E1 & B1 & P1 & O1 & I1).
  { intros j Hj. destruct (EP j Hj) as (ej & e' & A & B & _). eauto. }
  assert (He1 : ent w1 i = Some e) by (rewrite O1; auto).
  destruct (rotated_exact (Z.to_nat (turn_amount n (ent_cw r))) c v (exact_about_exactly _ _ X)) as (q & p & pc & Rp & Pp & Pc & Vq & Pq & _).
  assert (ER : exists e', entity_rotate n c (ent_cw r) e = (e', Err EType) /\ e_pos e' = Some q /\ still e' = still e /\ e_auto e' = e_auto e /\ e_at e' = e_at e).
  { unfold entity_rotate. rewrite Pe. fold (rotated_pos (Z.to_nat (turn_amount n (ent_cw r))) c v). rewrite Rp.
    cbn [with_pos e_cls e_dir e_at].
    destruct (rotate_chain_none (turn_amount n (ent_cw r)) (chain (e_cls e)) (e_dir e) (e_at e) D) as (d' & Q).
    { apply chain_statics; [eapply reach_cls; eauto|discriminate|exact O]. }
    match goal with |- context [rotate_chain ?a ?b ?c] => replace (rotate_chain a b c) with ((d', e_at e), @Err unit EType) by (symmetry; exact Q) end. eexists. split; [reflexivity|]. repeat split. }
  destruct ER as (e' & ER & Pe' & Se & Au & At).
  set (w2 := upd_ent i (fun _ => e') w1).
  assert (F : forM (rotate_ent n c r) (b_objs x) w = (w2, Err EType)).
  { unfold forM in *. rewrite Ho. rewrite (foldE_app _ _ _ _ _ E1). cbn [foldE]. unfold rotate_ent at 1. rewrite He1, ER. reflexivity. }
  exists w2. split.
  { cbn [step]. unfold bp_rotate, layer_rotate. unfold mbind at 1 2. unfold get_bp, gets. rewrite Hx. unfold mbind at 1. now rewrite F. }
  assert (TA : turn_amount n (ent_cw r) = n mod 4) by (now apply ent_cw_turn).
  split; [intros d; unfold blu; cbn; now rewrite B1|]. split; [exact P1|].
  split; [intros j J1 J2; unfold w2; rewrite ent_upd; destruct (Nat.eqb_spec i j); [congruence|auto]|].
  split.
  - intros j ej Hj Hej. destruct (EP j Hj) as (ej0 & ej' & A & B & T). assert (ej0 = ej) as -> by congruence.
    exists ej'. split; [|rewrite <- TA; exact T]. unfold w2. rewrite ent_upd.
    destruct (Nat.eqb_spec i j) as [<-|_]; [contradiction|]. rewrite I1, Hej by auto. simpl. now rewrite B.
  - exists e', q, p, pc. split; [unfold w2; rewrite ent_upd, Nat.eqb_refl, He1; reflexivity|].
    split; auto. split; auto. split; auto. split; [rewrite <- TA; exact Pq|]. auto.
Qed.

(** programs without OConnect *)
Lemma run_reach ops : forallb (fun o => match o with OConnect _ (Some _) _ _ _ => false | _ => true end) ops = true ->
  forall w, reachable w -> reachable (run ops w).
Proof.
  induction ops as [|o ops IH]; intros H w R; [exact R|]. cbn [forallb] in H. apply andb_true_iff in H as [A B].
  cbn [run]. apply IH; auto. apply reach_step; auto. destruct o; simpl; auto. match goal with |- alive _ ?t => destruct t; [discriminate|exact I] end.
Qed.
