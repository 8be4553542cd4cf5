(** * Rotation of entities and blueprints. *)
From Coq Require Import Lia Permutation Sorted QArith.
From Verif Require Import Py Num NumFacts Util UtilFacts UtilProofs SpecUtil Classes SpecClass C3Proofs Mixins Entity World WorldFacts Inv SortFacts
  SpecWorld LayerProofs PersistProofs EntInv ClassProofs WireProofs SpecRotate.
Open Scope Z_scope.

(** ** numbers *)
(** adding 0 turns -0.0 into 0.0 and leaves everything else alone *)
Definition nnorm (n : num) : num := match n with NF (S754_zero _) => NF (S754_zero false) | _ => n end.
Lemma nsub_0 n : nsub n (NI 0) = Ok n.
Proof. destruct n as [z|[s|s| |s m e]]; simpl; try reflexivity; [unfold nsub; simpl; now rewrite Z.sub_0_r|destruct s; reflexivity]. Qed.
Lemma nadd_0 n : nadd n (NI 0) = Ok (nnorm n).
Proof. destruct n as [z|[s|s| |s m e]]; simpl; try reflexivity; [unfold nadd; simpl; now rewrite Z.add_0_r|destruct s; reflexivity]. Qed.
Lemma nnorm_idem n : nnorm (nnorm n) = nnorm n.
Proof. destruct n as [z|[]]; reflexivity. Qed.
Lemma nnorm_neg n : nnorm (nneg (nnorm n)) = nnorm (nneg n).
Proof. destruct n as [z|[]]; reflexivity. Qed.
Lemma nnorm_val n : nval (nnorm n) = nval n.
Proof. destruct n as [z|[]]; reflexivity. Qed.
Lemma nnorm_valid n : nvalid n -> nvalid (nnorm n).
Proof. destruct n as [z|[]]; auto. Qed.
Definition vnorm (v : vec) : vec := mkVec (nnorm (vx v)) (nnorm (vy v)).
Lemma vnorm_rot k v : vnorm (rotn k (vnorm v)) = vnorm (rotn k v).
Proof.
  revert v. induction k as [|k IH]; intros v; simpl.
  - unfold vnorm; simpl. now rewrite !nnorm_idem.
  - rewrite <- (IH (rot1 (vnorm v))), <- (IH (rot1 v)). do 2 f_equal. unfold vnorm, rot1; simpl.
    now rewrite nnorm_neg, nnorm_idem.
Qed.
Lemma rotn_add k m v : rotn m (rotn k v) = rotn (k + m) v.
Proof. revert v. induction k as [|k IH]; intros v; simpl; auto. Qed.
Lemma rotn_4 v : rotn 4 v = v.
Proof. destruct v; unfold rotn, rot1; simpl. now rewrite !nneg_involutive. Qed.
Lemma rotn_mod4 k v : rotn k v = rotn (k mod 4) v.
Proof.
  pose proof (Nat.div_mod k 4 ltac:(lia)) as E. rewrite E at 1. rewrite Nat.add_comm, <- rotn_add.
  generalize (rotn (k mod 4) v). intros u. clear. induction (k / 4)%nat as [|d IH]; [reflexivity|].
  replace (4 * S d)%nat with (4 + 4 * d)%nat by lia. rewrite <- rotn_add, rotn_4. exact IH.
Qed.
Lemma rotn_comp n m v :
  rotn (Z.to_nat (m mod 4)) (rotn (Z.to_nat (n mod 4)) v) = rotn (Z.to_nat ((n + m) mod 4)) v.
Proof. rewrite Z.add_comm. pose proof (vrotate_compose v n m) as C. unfold vrotate in C. rewrite C. do 3 f_equal. lia. Qed.

Definition rotated_pos (k : nat) (c v : vec) : res vec := let! q := vsub v (OVec c) in vadd (rotn k q) (OVec c).
Lemma rotated_origin k v : rotated_pos k vzero v = Ok (vnorm (rotn k v)).
Proof.
  unfold rotated_pos, vsub, vadd, vop, vlift, vzero; cbn [operand_vec vx vy bind].
  rewrite !nsub_0; cbn [bind vx vy]. rewrite !nadd_0. cbn [bind]. destruct v; reflexivity.
Qed.
Lemma repr_opp q : repr q -> repr (- q).
Proof. intros (m & e & B & He & E). exists (- m), e. split; [lia|split; [lia|]]. now rewrite E, dyadic_opp. Qed.

(** game coordinates *)
Lemma zrot_abs k p : Z.abs (fst (zrot k p)) <= Z.max (Z.abs (fst p)) (Z.abs (snd p)) /\
  Z.abs (snd (zrot k p)) <= Z.max (Z.abs (fst p)) (Z.abs (snd p)).
Proof. revert p. induction k as [|k IH]; intros p; simpl; [lia|]. specialize (IH (- snd p, fst p)). simpl in IH. lia. Qed.
Lemma rotn_grid k v a b : on_grid a (vx v) -> on_grid b (vy v) ->
  on_grid (fst (zrot k (a, b))) (vx (rotn k v)) /\ on_grid (snd (zrot k (a, b))) (vy (rotn k v)).
Proof.
  revert v a b. induction k as [|k IH]; intros v a b Ha Hb; simpl; auto. apply IH; [now apply grid_neg|exact Ha].
Qed.
(** the grid point [p] turned about [c] *)
Definition zturn (k : nat) (c p : Z * Z) : Z * Z :=
  let d := zrot k (fst p - fst c, snd p - snd c) in (fst c + fst d, snd c + snd d).
Definition at_grid (v : vec) (p : Z * Z) : Prop := on_grid (fst p) (vx v) /\ on_grid (snd p) (vy v).
Definition small (p : Z * Z) : Prop := Z.abs (fst p) < 2 ^ 48 /\ Z.abs (snd p) < 2 ^ 48.
Lemma game_pos_grid v : game_pos v <-> exists p, at_grid v p /\ small p.
Proof.
  split.
  - intros ((a & Ga & Ba) & (b & Gb & Bb)). exists (a, b). repeat split; simpl; auto; try apply Ga; try apply Gb.
  - intros ((a & b) & (Ga & Gb) & (Ba & Bb)). split; [exists a|exists b]; auto.
Qed.
(** distance from the centre, and the centre, are bounded *)
Definition near (c p : Z * Z) : Prop :=
  Z.abs (fst p - fst c) < 2 ^ 49 /\ Z.abs (snd p - snd c) < 2 ^ 49 /\ small c.
Lemma rotated_grid k c v p pc : at_grid v p -> at_grid c pc -> near pc p ->
  exists v', rotated_pos k c v = Ok v' /\ at_grid v' (zturn k pc p).
Proof.
  intros [Gx Gy] [Cx Cy] (Bx & By & Bc & Bd). unfold rotated_pos, vsub, vadd, vop, vlift; cbn [operand_vec bind].
  destruct (grid_sub _ _ _ _ Gx Cx) as (x & -> & Hx); try lia.
  destruct (grid_sub _ _ _ _ Gy Cy) as (y & -> & Hy); try lia. cbn [bind].
  destruct (rotn_grid k (mkVec x y) _ _ Hx Hy) as [Rx Ry].
  pose proof (zrot_abs k (fst p - fst pc, snd p - snd pc)) as [Ax Ay]. cbn [fst snd] in Ax, Ay.
  destruct (grid_add _ _ _ _ Rx Cx) as (x' & -> & Hx'); try lia.
  destruct (grid_add _ _ _ _ Ry Cy) as (y' & -> & Hy'); try lia. cbn [bind].
  exists (mkVec x' y'). split; auto. split; simpl; rewrite Z.add_comm; auto.
Qed.
Lemma zrot_qrot k p : let z := zrot k p in let q := qrot k (fst p # 256, snd p # 256)%Q in
  (fst q == fst z # 256)%Q /\ (snd q == snd z # 256)%Q.
Proof.
  cbn zeta. revert p.
  assert (G : forall (p : Z * Z) (q : Q * Q), (fst q == fst p # 256)%Q -> (snd q == snd p # 256)%Q ->
     (fst (qrot k q) == fst (zrot k p) # 256)%Q /\ (snd (qrot k q) == snd (zrot k p) # 256)%Q).
  { induction k as [|k IH]; intros p q H1 H2; simpl; auto. apply IH; simpl; auto. rewrite H2. reflexivity. }
  intros p. apply G; simpl; reflexivity.
Qed.
Lemma qrot_eq k p q : (fst p == fst q)%Q -> (snd p == snd q)%Q ->
  (fst (qrot k p) == fst (qrot k q))%Q /\ (snd (qrot k p) == snd (qrot k q))%Q.
Proof. revert p q. induction k as [|k IH]; intros p q H1 H2; simpl; auto. apply IH; simpl; auto. now rewrite H2. Qed.
Lemma grid_point v p : at_grid v p -> at_point v (fst p # 256, snd p # 256)%Q /\ vec_valid v.
Proof. intros [[V1 F1] [V2 F2]]. repeat split; auto. Qed.
Lemma grid_q (a b : Z) : ((a # 256) - (b # 256) == (a - b # 256))%Q.
Proof. unfold Qeq, Qminus, Qplus, Qopp; cbn [Qnum Qden]; lia. Qed.
Lemma grid_q' (a b : Z) : ((a # 256) + (b # 256) == (a + b # 256))%Q.
Proof. unfold Qeq, Qplus; cbn [Qnum Qden]; lia. Qed.
Lemma zturn_qturn k c p : let z := zturn k c p in
  let q := qturn k (fst c # 256, snd c # 256)%Q (fst p # 256, snd p # 256)%Q in
  (fst q == fst z # 256)%Q /\ (snd q == snd z # 256)%Q.
Proof.
  cbn zeta. unfold zturn, qturn; cbn [fst snd].
  pose proof (zrot_qrot k (fst p - fst c, snd p - snd c)) as [A B]. cbn [fst snd] in A, B.
  destruct (qrot_eq k ((fst p # 256) - (fst c # 256), (snd p # 256) - (snd c # 256))%Q (fst p - fst c # 256, snd p - snd c # 256)%Q) as [C D];
    cbn [fst snd]; try apply grid_q.
  rewrite C, D, A, B, !grid_q'. split; reflexivity.
Qed.
Lemma at_point_eq v p q : (fst p == fst q)%Q -> (snd p == snd q)%Q -> at_point v p -> at_point v q.
Proof. intros E1 E2 [A B]. split; [rewrite <- E1|rewrite <- E2]; auto. Qed.
Lemma rotn_valid k v : vec_valid v -> vec_valid (rotn k v).
Proof. revert v. induction k as [|k IH]; intros v [A B]; simpl; [split; auto|]. apply IH. split; simpl; auto. now apply nneg_valid. Qed.

(** where rotation about [c] is exact, however often it is done *)
Definition exactly (c v : vec) : Prop :=
  (c = vzero /\ vec_valid v /\ exists p, at_point v p) \/
  (exists p pc, at_grid v p /\ at_grid c pc /\ near pc p).
Lemma exact_about_exactly c v : exact_about c v -> exactly c v.
Proof.
  intros [H|[Gv Gc]]; [left; auto|right]. apply game_pos_grid in Gv as (p & Gp & [A B]). apply game_pos_grid in Gc as (pc & Gpc & [C D]).
  exists p, pc. split; auto. split; auto. repeat split; auto; lia.
Qed.
Lemma near_turn k c p : near c p -> near c (zturn k c p).
Proof.
  intros (A & B & C). unfold near, zturn; cbn [fst snd].
  pose proof (zrot_abs k (fst p - fst c, snd p - snd c)) as [X Y]. cbn [fst snd] in X, Y. repeat split; try apply C; lia.
Qed.
Lemma rotated_exact k c v : exactly c v -> exists v' p pc, rotated_pos k c v = Ok v' /\
  at_point v p /\ at_point c pc /\ vec_valid v' /\ at_point v' (qturn k pc p) /\ exactly c v'.
Proof.
  intros [(-> & V & p & P)|(p & pc & Gp & Gpc & Nr)].
  - rewrite rotated_origin. destruct P as [Px Py]. pose proof (rotn_exact k v _ _ Px Py) as [A B].
    exists (vnorm (rotn k v)), p, (0, 0)%Q.
    assert (V' : vec_valid (vnorm (rotn k v))) by (destruct (rotn_valid k v V); split; now apply nnorm_valid).
    assert (Q' : at_point (vnorm (rotn k v)) (qrot k p)).
    { destruct p; split; unfold nfin, vnorm in *; cbn [vx vy fst snd] in *; rewrite nnorm_val; auto. }
    split; auto. split; [split; auto|]. split; [split; unfold nfin, xfin; simpl; reflexivity|]. split; auto.
    split; [|left; eauto].
    unfold qturn. cbn [fst snd].
    assert (E : forall q : Q, (q - 0 == q)%Q) by (intros; ring).
    destruct (qrot_eq k (fst p - 0, snd p - 0)%Q p) as [C D]; cbn [fst snd]; try apply E.
    eapply at_point_eq; [| |exact Q']; cbn [fst snd]; [rewrite C|rewrite D]; ring.
  - destruct (rotated_grid k c v p pc Gp Gpc Nr) as (v' & E & G').
    exists v', (fst p # 256, snd p # 256)%Q, (fst pc # 256, snd pc # 256)%Q.
    destruct (grid_point _ _ Gp) as [Pp _]. destruct (grid_point _ _ Gpc) as [Ppc _]. destruct (grid_point _ _ G') as [Pp' V'].
    split; auto. split; auto. split; auto. split; auto.
    destruct (zturn_qturn k pc p) as [Z1 Z2]. split.
    + eapply at_point_eq; [| |exact Pp']; symmetry; assumption.
    + right. exists (zturn k pc p), pc. split; auto. split; auto. now apply near_turn.
Qed.
Lemma at_point_key v p : at_point v p -> finite_key v.
Proof. intros [A B]. unfold finite_key, nanb, nfin, xfin in *. destruct (nval (vx v)), (nval (vy v)); try tauto; auto. Qed.

(** ** orientations *)
Lemma grid_mod1 k f : on_grid k (NF f) -> 0 <= k < 2 ^ 53 ->
  exists f', nmod (NF f) (NF fone) = Ok (NF f') /\ on_grid (k mod 256) (NF f') /\ f' <> S754_zero true.
Proof.
  intros [V F] B. unfold nmod. cbn [to_float bind fzerob fone]. fold fone. exists (fmodulo f fone). split; auto.
  unfold nfin in F. cbn [nval] in F.
  destruct f as [s|s| |s m e]; cbn [fval xfin] in F; try tauto.
  - assert (k = 0) as -> by (unfold Qeq in F; cbn [Qnum Qden] in F; lia). split; [|discriminate]. split; [reflexivity|]. unfold nfin; simpl; reflexivity.
  - destruct s; destruct F.
  - destruct (Z.eq_dec k 0) as [->|K].
    { exfalso. change (dyadic (cond_Zopp s (Zpos m)) e == 0 # 256)%Q in F.
      assert (dyadic (cond_Zopp s (Zpos m)) e == 0)%Q as F' by (rewrite F; reflexivity).
      apply dyadic_eq0 in F'. destruct s; discriminate. }
    assert (F' : (dyadic (cond_Zopp s (Zpos m)) e == dyadic k (-8))%Q) by (rewrite F; reflexivity).
    assert (s = false) as ->.
    { pose proof (dyadic_sgn _ _ _ _ F') as Sg. destruct s; auto. exfalso. cbn [cond_Zopp] in Sg.
      rewrite (Z.sgn_pos k) in Sg by lia. discriminate. }
    cbn [cond_Zopp] in F'. apply dyadic_Qeq in F'.
    set (ez := Z.min e (-52)).
    apply (veq_base ez) in F'; [|lia|lia].
    assert (R : Z.rem (Zpos m * 2 ^ (e - ez)) (4503599627370496 * 2 ^ (-52 - ez)) = (k mod 256) * 2 ^ (-8 - ez)).
    { rewrite F'. assert (P : 0 < 2 ^ (-8 - ez)) by (apply Z.pow_pos_nonneg; lia).
      assert (E : 4503599627370496 * 2 ^ (-52 - ez) = 256 * 2 ^ (-8 - ez)).
      { change 4503599627370496 with (2 ^ 52). change 256 with (2 ^ 8). rewrite <- !Z.pow_add_r by lia. f_equal. lia. }
      rewrite E. rewrite Z.rem_mod_nonneg by nia. rewrite Z.mul_mod_distr_r by lia. reflexivity. }
    assert (N : ffmod (S754_finite false m e) fone = fnormalize ((k mod 256) * 2 ^ (-8 - ez)) ez false).
    { unfold ffmod, fone. cbn [cond_Zopp]. fold ez. rewrite R. reflexivity. }
    assert (M : 0 <= k mod 256 < 256) by (apply Z.mod_pos_bound; lia).
    destruct (fnormalize_exact ((k mod 256) * 2 ^ (-8 - ez)) ez false (k mod 256 # 256)) as [X1 X2].
    + pose proof (dyadic_shift (k mod 256) (-8) (-8 - ez) ltac:(lia)) as D.
      replace (-8 - (-8 - ez)) with ez in D by lia. rewrite D. reflexivity.
    + apply repr_grid. lia.
    + unfold fmodulo. rewrite N. set (r := fnormalize _ _ _) in *.
      assert (P : forall s0 m0 e0, r = S754_finite s0 m0 e0 -> s0 = false).
      { intros s0 m0 e0 Er. rewrite Er in X1. destruct s0; auto. exfalso. unfold ffin in X1. cbn [fval xfin cond_Zopp] in X1.
        change (dyadic (Zneg m0) e0 == dyadic (k mod 256) (-8))%Q in X1.
        pose proof (dyadic_sgn _ _ _ _ X1) as Sg. cbn [Z.sgn] in Sg. destruct (k mod 256); simpl in Sg; lia. }
      destruct r as [s0|s0| |s0 m0 e0] eqn:Er; cbn [flt0 fone fsign].
      * split; [|discriminate]. split; [reflexivity|exact X1].
      * exfalso. destruct s0; destruct X1.
      * exfalso. destruct X1.
      * rewrite (P _ _ _ eq_refl) in *. cbn [Bool.eqb]. split; [|discriminate]. split; [exact X2|exact X1].
Qed.
(** the new orientation, as computed by Orientation.rotate *)
Definition turned_orientation (n : Z) (a : dict) : res val :=
  let! o := orientation_of a in
  let! o := match o with VInt _ | VFlt _ => num_of_val o | _ => Err EType end in
  let! q := nmul (NF quarter) (NI n) in
  let! q := nmod q (NI 1) in
  let! s := nadd o q in
  orientation_set (val_of_num s).
Lemma orient_grid n a f j : 0 <= n < 4 -> dget "orientation" a = Some (VFlt f) -> on_grid j (NF f) -> 0 <= j < 256 ->
  exists f', turned_orientation n a = Ok (VFlt f') /\ on_grid ((j + 64 * n) mod 256) (NF f') /\
    f' <> S754_zero true.
Proof.
  intros Hn Ho G B. unfold turned_orientation, orientation_of, aget. rewrite Ho. cbn [bind num_of_val].
  assert (exists q, (let! q := nmul (NF quarter) (NI n) in nmod q (NI 1)) = Ok (NF q) /\ on_grid (64 * n) (NF q)) as (q & E & Gq).
  { assert (n = 0 \/ n = 1 \/ n = 2 \/ n = 3) as [-> | [-> | [-> | ->]]] by lia; (eexists; split; [vm_compute; reflexivity|]);
      (split; [vm_compute; reflexivity|unfold nfin; vm_compute; reflexivity]). }
  destruct (nmul (NF quarter) (NI n)) as [q0|]; [|discriminate]. cbn [bind] in *. rewrite E. cbn [bind].
  destruct (grid_add _ _ _ _ G Gq) as (s & Es & Gs); try lia. rewrite Es. cbn [bind].
  assert (exists fs, s = NF fs) as (fs & ->) by (unfold nadd, arith in Es; cbn [to_float bind] in Es; injection Es as <-; eauto).
  cbn [val_of_num orientation_set num_of_val bind].
  destruct (grid_mod1 _ _ Gs ltac:(lia)) as (f' & -> & G'). cbn [bind val_of_num]. eauto.
Qed.

(** ** the chain of rotate methods *)
Lemma rotate_chain_eq n l d a : NoDup l -> (In COrientation l -> exists v, turned_orientation n a = Ok v) ->
  rotate_chain n l (d, a) =
  ((if has_cls CRotatable l then dir_rotate d n true else d,
    if has_cls COrientation l then match turned_orientation n a with Ok v => dset "orientation" v a | Err _ => a end else a), Ok tt).
Proof.
  intros N. revert d a. induction N as [|c l Nc N IH]; intros d a H; [reflexivity|].
  cbn [rotate_chain].
  assert (Ex : forall c', In c' l <-> has_cls c' l = true).
  { intros c'. unfold has_cls. rewrite existsb_exists. split; [intros; exists c'; split; [auto|now apply scls_eqb_eq]|intros (y & Y & Q); apply scls_eqb_eq in Q; congruence]. }
  assert (Hc : forall c', has_cls c' (c :: l) = scls_eqb c' c || has_cls c' l) by reflexivity. rewrite !Hc.
  destruct (scls_eq_dec c COrientation) as [->|NO]; [|destruct (scls_eq_dec c CRotatable) as [->|NR]].
  - assert (O : has_cls COrientation l = false) by (apply not_true_iff_false; rewrite <- Ex; auto).
    destruct (H (or_introl eq_refl)) as (v & V).
    unfold rotate_link. fold (turned_orientation n a). rewrite V. rewrite IH by tauto. rewrite O. reflexivity.
  - assert (O : has_cls CRotatable l = false) by (apply not_true_iff_false; rewrite <- Ex; auto).
    cbn [rotate_link]. rewrite IH by (intros; apply H; right; auto). rewrite O. reflexivity.
  - assert (rotate_link n c (d, a) = ((d, a), Ok tt)) as -> by (destruct c; try reflexivity; congruence).
    rewrite IH by (intros; apply H; right; auto).
    assert (scls_eqb CRotatable c = false /\ scls_eqb COrientation c = false) as [-> ->]
      by (split; apply not_true_iff_false; rewrite scls_eqb_eq; congruence). reflexivity.
Qed.
Lemma has_cls_In c l : has_cls c l = true <-> In c l.
Proof.
  unfold has_cls. rewrite existsb_exists. split; [intros (y & Y & Q); apply scls_eqb_eq in Q; congruence|].
  intros; exists c; split; [auto|now apply scls_eqb_eq].
Qed.
Lemma chain_statics ic c : cls_inv ic -> c <> CEntity -> (In c (chain ic) <-> In c (statics ic)).
Proof. intros C N. rewrite (statics_shape _ C). simpl. split; [auto|intros [E|H]; [congruence|auto]]. Qed.
Lemma chain_nodup ic : cls_inv ic -> NoDup (chain ic).
Proof. intros C. pose proof (statics_ordered _ C) as [N _]. rewrite (statics_shape _ C) in N. now inversion N. Qed.
Lemma turn_amount_cw n : turn_amount n true = n mod 4.
Proof. reflexivity. Qed.
Lemma turn_amount_bound n cw : 0 <= turn_amount n cw < 4.
Proof.
  unfold turn_amount. pose proof (Z.mod_pos_bound n 4 ltac:(lia)). destruct cw; auto.
  pose proof (Z.mod_pos_bound (n mod 4) (4 - n mod 4) ltac:(lia)).
  assert (n mod 4 = 0 \/ n mod 4 = 1 \/ n mod 4 = 2 \/ n mod 4 = 3) as [-> | [-> | [-> | ->]]] by lia; cbv; split; congruence.
Qed.
(** the entity after a turn that raises nothing *)
Definition after_turn (k : Z) (q : vec) (e : entity) : entity :=
  with_at (if has_cls COrientation (chain (e_cls e)) then
             match turned_orientation k (e_at e) with Ok v => dset "orientation" v (e_at e) | Err _ => e_at e end
           else e_at e)
    (with_dir (if has_cls CRotatable (chain (e_cls e)) then dir_rotate (e_dir e) k true else e_dir e)
      (with_pos (Some q) e)).
Lemma entity_rotate_eq n c cw e v q : NoDup (chain (e_cls e)) -> e_pos e = Some v ->
  rotated_pos (Z.to_nat (turn_amount n cw)) c v = Ok q ->
  (In COrientation (chain (e_cls e)) -> exists o, turned_orientation (turn_amount n cw) (e_at e) = Ok o) ->
  entity_rotate n c cw e = (after_turn (turn_amount n cw) q e, Ok tt).
Proof.
  intros N P R O. unfold entity_rotate. rewrite P. fold (rotated_pos (Z.to_nat (turn_amount n cw)) c v). rewrite R.
  cbn [with_pos e_cls e_dir e_at]. rewrite rotate_chain_eq; auto.
Qed.
Lemma dir_rotate_mod d k : dir_rotate d k true = (d + 2 * k) mod 8.
Proof. unfold dir_rotate, dir_add, dir_new. rewrite Z.mod_mod by lia. f_equal. lia. Qed.

Definition turnable (c : vec) (e : entity) : Prop :=
  (exists v, e_pos e = Some v /\ exactly c v) /\ (oriented e -> exists j, oriented_at e j).
Lemma can_turn_turnable c e : can_turn c e -> turnable c e.
Proof. intros ((v & P & X) & O). split; auto. exists v. split; auto. now apply exact_about_exactly. Qed.
Lemma entity_turns n c cw e : cls_inv (e_cls e) -> turnable c e ->
  exists e', entity_rotate n c cw e = (e', Ok tt) /\ turned (Z.to_nat (turn_amount n cw)) c e e' /\
    (exists v, e_pos e' = Some v /\ finite_key v) /\ turnable c e'.
Proof.
  intros C ((v & P & X) & O). set (k := turn_amount n cw).
  pose proof (turn_amount_bound n cw) as Bk. fold k in Bk.
  destruct (rotated_exact (Z.to_nat k) c v X) as (q & p & pc & R & Pp & Pc & Vq & Pq & Xq).
  assert (CO : In COrientation (chain (e_cls e)) <-> oriented e) by (apply chain_statics; [auto|discriminate]).
  assert (CR : In CRotatable (chain (e_cls e)) <-> rotatable e) by (apply chain_statics; [auto|discriminate]).
  assert (T : forall j, oriented e -> oriented_at e j ->
     exists f, turned_orientation k (e_at e) = Ok (VFlt f) /\ on_grid ((j + 64 * k) mod 256) (NF f)).
  { intros j _ (B & f & D & G). destruct (orient_grid _ _ _ _ Bk D G B) as (f' & E & G' & _). eauto. }
  assert (TU : turned (Z.to_nat k) c e (after_turn k q e)).
  { split.
    + reflexivity.
    + exists v, q, p, pc. repeat split; auto; try apply Pp; try apply Pc; try apply Vq; apply Pq.
    + unfold after_turn. cbn [e_dir with_at with_dir]. split; intros H.
      * rewrite (proj2 (has_cls_In _ _) (proj2 CR H)), dir_rotate_mod. f_equal. lia.
      * destruct (has_cls CRotatable (chain (e_cls e))) eqn:E; auto. apply has_cls_In, CR in E. tauto.
    + intros key K. unfold after_turn. cbn [e_at with_at]. destruct (has_cls COrientation _); auto.
      destruct (turned_orientation k (e_at e)); auto. now apply dget_dset_other.
    + intros H. unfold after_turn. cbn [e_at with_at]. destruct (has_cls COrientation (chain (e_cls e))) eqn:E; auto.
      apply has_cls_In, CO in E. tauto.
    + intros j I J. destruct (T j I J) as (f & E & G). pose proof (Z.mod_pos_bound (j + 64 * k) 256 ltac:(lia)).
      rewrite Z2Nat.id by lia. split; auto. exists f. split; auto. unfold after_turn. cbn [e_at with_at].
      rewrite (proj2 (has_cls_In _ _) (proj2 CO I)), E. apply dget_dset_same. }
  exists (after_turn k q e). split; [|split; [exact TU|split]].
  - apply (entity_rotate_eq n c cw e v); auto; [now apply chain_nodup|].
    intros I. apply CO in I. destruct (O I) as (j & J). destruct (T _ I J) as (f & E & _). fold k. eauto.
  - exists q; split; [reflexivity|eapply at_point_key; eauto].
  - split; [exists q; split; auto|]. intros I. destruct (O I) as (j & J). eexists. apply (tu_orient _ _ _ _ TU j I J).
Qed.

(** ** all entities of a list *)
Lemma upd_ents_world i f w : w_bps (upd_ent i f w) = w_bps w /\ w_protos (upd_ent i f w) = w_protos w.
Proof. split; reflexivity. Qed.
Lemma forM_rotate n c r l : NoDup l -> forall w,
  (forall i, In i l -> exists e e', ent w i = Some e /\ entity_rotate n c (ent_cw r) e = (e', Ok tt)) ->
  exists w', forM (rotate_ent n c r) l w = (w', Ok tt) /\ w_bps w' = w_bps w /\ w_protos w' = w_protos w /\
    (forall i, ~ In i l -> ent w' i = ent w i) /\
    (forall i, In i l -> ent w' i = option_map (fun e => fst (entity_rotate n c (ent_cw r) e)) (ent w i)).
Proof.
  induction 1 as [|i l Ni N IH]; intros w H.
  - exists w. split; [reflexivity|]. split; auto. split; auto. split; [auto|intros i []].
  - destruct (H i (or_introl eq_refl)) as (e & e' & He & R).
    set (w1 := upd_ent i (fun _ => e') w).
    assert (D : forall j, j <> i -> ent w1 j = ent w j).
    { intros j J. unfold w1. rewrite ent_upd. destruct (Nat.eqb_spec i j); congruence. }
    destruct (IH w1) as (w' & E & B & P & O & I).
    { intros j J. rewrite D by (intros ->; tauto). apply H; right; auto. }
    exists w'. split.
    + unfold forM in *. cbn [foldE]. unfold rotate_ent at 1. rewrite He, R. fold w1. exact E.
    + split; [exact B|]. split; [exact P|]. split.
      * intros j J. rewrite O, D; auto; intros X; apply J; simpl; auto.
      * intros j [<-|J].
        -- rewrite O by auto. unfold w1. rewrite ent_upd, Nat.eqb_refl, He. simpl. now rewrite R.
        -- rewrite I by auto. rewrite D by (intros ->; tauto). reflexivity.
Qed.
Lemma sorted_objs_total w l : (forall i, In i l -> exists e v, ent w i = Some e /\ e_pos e = Some v /\ finite_key v) ->
  exists l', sorted_objs w l = Ok l'.
Proof.
  intros H. unfold sorted_objs.
  match goal with |- context [mapM ?f l] => assert (K : exists ks, mapM f l = Ok ks) end.
  { induction l as [|i l IH]; cbn [mapM]; eauto. destruct (H i) as (e & v & -> & P & [F1 F2]); [simpl; auto|].
    assert (pos_key e = Ok v) as -> by (unfold pos_key; now rewrite P, F1, F2). cbn [bind].
    destruct IH as (ks & ->); [intros; apply H; right; auto|]. cbn [bind]. eauto. }
  destruct K as (ks & K). rewrite K. cbn [bind]. eauto.
Qed.
Lemma b_set_tiles_nil x : b_tiles x = [] -> b_set_tiles [] x = x.
Proof. destruct x; simpl; intros ->. reflexivity. Qed.
Lemma lupd_same {X} (l : list X) i f : (forall x, nth_error l i = Some x -> f x = x) -> lupd i f l = l.
Proof.
  revert i. induction l as [|y l IH]; intros [|i] H; simpl; auto.
  - f_equal. apply H. reflexivity.
  - f_equal. apply IH. auto.
Qed.
Lemma upd_bp_same b f w : (forall x, blu w b = Some x -> f x = x) -> upd_bp b f w = w.
Proof. intros H. unfold upd_bp. rewrite lupd_same; [destruct w; reflexivity|exact H]. Qed.
Lemma tiles_rotate_nop b n c r w x : blu w b = Some x -> b_tiles x = [] -> tiles_rotate b n c r w = (w, Ok tt).
Proof.
  intros Hx T. unfold tiles_rotate, mbind, get_bp, gets, modify. rewrite Hx, T. cbn [rotate_tiles].
  rewrite (upd_bp_same b (b_set_tiles [])).
  - rewrite upd_bp_same; auto. intros y Hy. assert (y = x) as -> by congruence. rewrite T. now apply b_set_tiles_nil.
  - intros y Hy. assert (y = x) as -> by congruence. now apply b_set_tiles_nil.
Qed.

(** the world after a successful rotation *)
Record rotated_world (n : Z) (c : vec) (cw : bool) (b : nat) (x : bp) (l : list nat) (w w' : world) : Prop := {
  rw_protos : w_protos w' = w_protos w;
  rw_bp : blu w' b = Some (b_set_objs l x);
  rw_bps : forall d, d <> b -> blu w' d = blu w d;
  rw_order : reordered w' (b_objs x) l;
  rw_others : forall i, ~ In i (b_objs x) -> ent w' i = ent w i;
  rw_ents : forall k i e, nth_error l k = Some i -> ent w i = Some e ->
     ent w' i = Some (with_auto (VInt (1 + Z.of_nat k)) (fst (entity_rotate n c cw e))) }.
Lemma rotate_run w b x n c r : inv w -> blu w b = Some x ->
  (forall i, In i (b_objs x) -> exists e e' v, ent w i = Some e /\ entity_rotate n c (ent_cw r) e = (e', Ok tt) /\
     e_pos e' = Some v /\ finite_key v) ->
  exists w' l, step (ORotate b n c r) w = (w', Ok tt) /\ rotated_world n c (ent_cw r) b x l w w'.
Proof.
  intros I Hx H. pose proof (inv_nodup _ I _ _ Hx) as N.
  destruct (forM_rotate n c r (b_objs x) N w) as (w1 & E1 & B1 & P1 & O1 & I1).
  { intros i Hi. destruct (H i Hi) as (e & e' & v & He & R & _). eauto. }
  assert (Hx1 : blu w1 b = Some x) by (unfold blu; rewrite B1; exact Hx).
  destruct (sorted_objs_total w1 (b_objs x)) as (l & Es).
  { intros i Hi. destruct (H i Hi) as (e & e' & v & He & R & Pe & F). rewrite I1, He by auto. simpl. rewrite R. simpl; eauto. }
  pose proof (sorted_objs_spec _ _ _ Es) as RO.
  set (w2 := reindex 1 l (upd_bp b (b_set_objs l) w1)).
  assert (Hx2 : blu w2 b = Some (b_set_objs l x)).
  { unfold w2. rewrite blu_reindex, blu_upd, Nat.eqb_refl, Hx1. reflexivity. }
  exists w2, l. split.
  - cbn [step]. unfold bp_rotate, layer_rotate. unfold mbind at 1 2. unfold get_bp, gets. rewrite Hx.
    unfold mbind at 1. rewrite E1. rewrite (sort_layer_eq _ _ _ Hx1), Es. fold w2.
    apply tiles_rotate_nop with (x := b_set_objs l x); auto. exact (inv_tiles _ I _ _ Hx).
  - assert (ME : forall i, In i l <-> In i (b_objs x)).
    { intros i. destruct RO as (P & _). split; apply Permutation_in; [symmetry|]; exact P. }
    split; auto.
    + unfold w2. rewrite reindex_protos. exact P1.
    + intros d D. unfold w2. rewrite blu_reindex, blu_upd. destruct (Nat.eqb_spec b d); [congruence|]. unfold blu. now rewrite B1.
    + eapply reordered_pos; [|exact RO]. intros i. unfold w2. rewrite reindex_pos. reflexivity.
    + intros i Ni. unfold w2. rewrite reindex_not_in by (rewrite ME; auto). rewrite ent_upd_bp. apply O1; auto.
    + intros k i e Hk He. unfold w2.
      apply reindex_nth; auto; [eapply Permutation_NoDup; [apply RO|exact N]|].
      rewrite ent_upd_bp, I1, He; [reflexivity|]. apply ME. eapply nth_error_In; eauto.
Qed.

(** ** sequences of turns *)
Lemma qturn_add k m c p : let q := qturn m c (qturn k c p) in let r := qturn (k + m) c p in
  (fst q == fst r)%Q /\ (snd q == snd r)%Q.
Proof.
  cbn zeta. unfold qturn; cbn [fst snd].
  assert (A : forall k m d, qrot m (qrot k d) = qrot (k + m) d).
  { clear. induction k as [|k IH]; intros m d; simpl; auto. }
  rewrite <- A. set (d := qrot k _).
  destruct (qrot_eq m (fst c + fst d - fst c, snd c + snd d - snd c)%Q d) as [X Y]; cbn [fst snd]; try ring.
  rewrite X, Y. split; reflexivity.
Qed.
Lemma at_point_unique v p q : at_point v p -> at_point v q -> (fst p == fst q)%Q /\ (snd p == snd q)%Q.
Proof.
  assert (U : forall n a b, nfin n a -> nfin n b -> (a == b)%Q).
  { intros n a b. unfold nfin, xfin. destruct (nval n); try tauto. intros <- <-. reflexivity. }
  intros [A B] [C D]. split; eapply U; eauto.
Qed.
Lemma qturn_eq k c c' p p' : (fst c == fst c')%Q -> (snd c == snd c')%Q -> (fst p == fst p')%Q -> (snd p == snd p')%Q ->
  (fst (qturn k c p) == fst (qturn k c' p'))%Q /\ (snd (qturn k c p) == snd (qturn k c' p'))%Q.
Proof.
  intros A B C D. unfold qturn; cbn [fst snd].
  destruct (qrot_eq k (fst p - fst c, snd p - snd c)%Q (fst p' - fst c', snd p' - snd c')%Q) as [X Y]; cbn [fst snd].
  - now rewrite A, C.
  - now rewrite B, D.
  - rewrite X, Y, A, B. split; reflexivity.
Qed.
Lemma still_parts e e' : still e' = still e -> e_cls e' = e_cls e.
Proof. unfold still. congruence. Qed.
Lemma turned_trans k m c e e1 e2 : turned k c e e1 -> turned m c e1 e2 -> turned (k + m) c e e2.
Proof.
  intros [S1 P1 D1 A1 L1 O1] [S2 P2 D2 A2 L2 O2].
  assert (C : e_cls e1 = e_cls e) by (now apply still_parts).
  assert (R : rotatable e1 <-> rotatable e) by (unfold rotatable; rewrite C; tauto).
  assert (O : oriented e1 <-> oriented e) by (unfold oriented; rewrite C; tauto).
  split.
  - congruence.
  - destruct P1 as (v & v1 & p & pc & E & E1 & Pv & Pc & V1 & Pv1). destruct P2 as (v1' & v2 & p1 & pc' & E1' & E2 & Pv1' & Pc' & V2 & Pv2).
    assert (v1' = v1) as -> by congruence.
    destruct (at_point_unique _ _ _ Pv1' Pv1) as [X Y]. destruct (at_point_unique _ _ _ Pc' Pc) as [X' Y'].
    exists v, v2, p, pc. split; auto. split; auto. split; auto. split; auto. split; auto.
    destruct (qturn_eq m _ _ _ _ X' Y' X Y) as [U W]. destruct (qturn_add k m pc p) as [U' W'].
    eapply at_point_eq; [| |exact Pv2]; [rewrite U; exact U'|rewrite W; exact W'].
  - destruct D1 as [Da Db], D2 as [Dc Dd]. split; intros H.
    + rewrite Dc, Da by tauto. rewrite Z.add_mod_idemp_l by lia. f_equal. lia.
    + rewrite Dd, Db by tauto. reflexivity.
  - intros key K. now rewrite A2, A1.
  - intros H. rewrite L2, L1; tauto.
  - intros j I J. apply O1 in J; auto. apply O2 in J; [|tauto]. rewrite Z.add_mod_idemp_l in J by lia.
    replace (j + 64 * Z.of_nat (k + m)) with (j + 64 * Z.of_nat k + 64 * Z.of_nat m) by lia. exact J.
Qed.
Lemma turned_refl c e v p pc : e_pos e = Some v -> at_point v p -> at_point c pc -> vec_valid v ->
  (rotatable e -> 0 <= e_dir e < 8) -> turned 0 c e e.
Proof.
  intros P Pp Pc V D. split; auto.
  - exists v, v, p, pc. split; auto. split; auto. split; auto. split; auto. split; auto.
    eapply at_point_eq; [| |exact Pp]; unfold qturn; cbn [qrot fst snd]; ring.
  - split; auto. intros R. rewrite Z.add_0_r, Z.mod_small; auto.
  - intros j _ [B J]. rewrite Z.add_0_r, Z.mod_small by lia. split; auto.
Qed.
Lemma turned_auto k c e e' v : turned k c e e' -> turned k c e (with_auto v e').
Proof. intros [S P D A L O]. split; auto. Qed.
Lemma turned_from_auto k c e e' v : turned k c (with_auto v e) e' -> turned k c e e'.
Proof. intros [S P D A L O]. split; auto. Qed.
Lemma turnable_auto c e v : turnable c e -> turnable c (with_auto v e).
Proof. auto. Qed.

Lemma rotate_step w b x n c r : reachable w -> blu w b = Some x ->
  (forall i e, In i (b_objs x) -> ent w i = Some e -> turnable c e) ->
  exists w' l, step (ORotate b n c r) w = (w', Ok tt) /\ rotated_world n c (ent_cw r) b x l w w' /\
    sorted_layer w' b (b_objs x) /\
    (forall i e, In i (b_objs x) -> ent w i = Some e -> exists e', ent w' i = Some e' /\
       turned (Z.to_nat (turn_amount n (ent_cw r))) c e e' /\ turnable c e').
Proof.
  intros R Hx H. pose proof (reach_inv _ R) as I.
  assert (T : forall i e, In i (b_objs x) -> ent w i = Some e ->
     exists e', entity_rotate n c (ent_cw r) e = (e', Ok tt) /\ turned (Z.to_nat (turn_amount n (ent_cw r))) c e e' /\
       (exists v, e_pos e' = Some v /\ finite_key v) /\ turnable c e').
  { intros i e Hi He. apply entity_turns; eauto. eapply reach_cls; eauto. }
  destruct (rotate_run w b x n c r I Hx) as (w' & l & E & RW).
  { intros i Hi. destruct (inv_owner _ I _ _ _ Hx Hi) as (e & He & _).
    destruct (T _ _ Hi He) as (e' & Er & _ & (v & Pv & F) & _). exists e, e', v. auto. }
  exists w', l. split; auto. split; auto. split; [eapply p_C21_rotate; eauto|].
  intros i e Hi He. destruct (T _ _ Hi He) as (e' & Er & Tu & _ & Tb).
  assert (In i l) as Hl by (eapply Permutation_in; [apply (rw_order _ _ _ _ _ _ _ _ RW)|exact Hi]).
  apply In_nth_error in Hl as (k & Hk). pose proof (rw_ents _ _ _ _ _ _ _ _ RW _ _ _ Hk He) as E'.
  rewrite Er in E'. cbn [fst] in E'. eexists. split; [exact E'|]. split; [now apply turned_auto|now apply turnable_auto].
Qed.

(** ** turning about the origin, as an equation between worlds *)
Definition turn0 (n : Z) (e : entity) : entity := fst (entity_rotate n vzero true e).
Lemma turn0_eq n e v : cls_inv (e_cls e) -> turnable vzero e -> e_pos e = Some v ->
  turn0 n e = after_turn (n mod 4) (vnorm (rotn (Z.to_nat (n mod 4)) v)) e.
Proof.
  intros C (_ & O) P. unfold turn0. rewrite (entity_rotate_eq n vzero true e v (vnorm (rotn (Z.to_nat (n mod 4)) v))); auto.
  - now apply chain_nodup.
  - apply rotated_origin.
  - intros I. apply chain_statics in I; [|auto|discriminate]. destruct (O I) as (j & B & f & D & G).
    destruct (orient_grid (turn_amount n true) (e_at e) f j) as (f' & E & _); auto; [apply turn_amount_bound|eauto].
Qed.
Lemma grid_unique0 j f g : on_grid j (NF f) -> on_grid j (NF g) -> f <> S754_zero true -> g <> S754_zero true -> f = g.
Proof.
  intros F G Nf Ng. destruct (Z.eq_dec j 0) as [->|J]; [|eapply grid_unique; eauto].
  assert (Z : forall f, on_grid 0 (NF f) -> f <> S754_zero true -> f = S754_zero false).
  { clear. intros f [V F] N. unfold nfin in F. cbn [nval] in F. destruct f as [s|s| |s m e]; cbn [fval xfin] in F.
    - destruct s; congruence.
    - destruct s; destruct F.
    - destruct F.
    - exfalso. change (dyadic (cond_Zopp s (Zpos m)) e == 0 # 256)%Q in F.
      assert (dyadic (cond_Zopp s (Zpos m)) e == 0)%Q as F' by (rewrite F; reflexivity).
      apply dyadic_eq0 in F'. destruct s; discriminate. }
  rewrite (Z f), (Z g); auto.
Qed.
Lemma dset_dset {V} k (u v : V) d : dset k v (dset k u d) = dset k v d.
Proof.
  induction d as [|[k' v'] d IH]; simpl.
  - destruct (key_eqb k k) eqn:E; auto. assert (key_eqb k k = true) by (now apply key_eqb_eq). congruence.
  - destruct (key_eqb k k') eqn:E; simpl; rewrite E; congruence.
Qed.
Lemma dset_get {V} k (v : V) d : dget k d = Some v -> dset k v d = d.
Proof.
  induction d as [|[k' v'] d IH]; simpl; [discriminate|]. destruct (key_eqb k k'); [congruence|]. intros H. now rewrite IH.
Qed.
Lemma orient_twice n m a f j g : 0 <= n < 4 -> 0 <= m < 4 -> dget "orientation" a = Some (VFlt f) -> on_grid j (NF f) -> 0 <= j < 256 ->
  turned_orientation n a = Ok g -> turned_orientation m (dset "orientation" g a) = turned_orientation ((n + m) mod 4) a.
Proof.
  intros Hn Hm D G B E. destruct (orient_grid n a f j Hn D G B) as (f1 & E1 & G1 & _).
  assert (g = VFlt f1) as -> by congruence.
  assert (MB : forall z, 0 <= z mod 256 < 256) by (intros; apply Z.mod_pos_bound; lia).
  assert (MB4 : forall z, 0 <= z mod 4 < 4) by (intros; apply Z.mod_pos_bound; lia).
  destruct (orient_grid m (dset "orientation" (VFlt f1) a) f1 _ Hm (dget_dset_same _ _ _) G1 (MB _)) as (f2 & -> & G2 & N2).
  destruct (orient_grid ((n + m) mod 4) a f j (MB4 _) D G B) as (f3 & -> & G3 & N3).
  do 2 f_equal. eapply grid_unique0; eauto.
  replace ((j + 64 * ((n + m) mod 4)) mod 256) with (((j + 64 * n) mod 256 + 64 * m) mod 256) in G3; auto.
  rewrite Z.add_mod_idemp_l by lia. pose proof (Z.div_mod (n + m) 4 ltac:(lia)) as DM.
  rewrite <- (Z.mod_add (j + 64 * ((n + m) mod 4)) ((n + m) / 4) 256) by lia. f_equal. lia.
Qed.
Lemma turn0_compose n m e : cls_inv (e_cls e) -> turnable vzero e -> turn0 m (turn0 n e) = turn0 (n + m) e.
Proof.
  intros C T. pose proof T as ((v & P & X) & O).
  destruct (entity_turns n vzero true e C T) as (e1 & E1 & TU & _ & T1).
  assert (TE : turn0 n e = e1) by (unfold turn0; rewrite E1; reflexivity).
  rewrite (turn0_eq (n + m) e v) by auto. pose proof TE as TE'. rewrite (turn0_eq n e v) in TE' by auto.
  rewrite TE. rewrite (turn0_eq m e1 (vnorm (rotn (Z.to_nat (n mod 4)) v))); auto; [|rewrite <- TE'; exact C|rewrite <- TE'; reflexivity].
  rewrite vnorm_rot, rotn_comp. clear E1 TU T1 TE. subst e1.
  unfold after_turn.
  cbn [e_cls e_at e_dir with_at with_dir with_pos e_strict e_layer e_number e_auto e_name e_raw e_cb].
  set (R := has_cls CRotatable (chain (e_cls e))). set (OO := has_cls COrientation (chain (e_cls e))).
  assert (HD : (if R then dir_rotate (if R then dir_rotate (e_dir e) (n mod 4) true else e_dir e) (m mod 4) true
               else if R then dir_rotate (e_dir e) (n mod 4) true else e_dir e) =
               (if R then dir_rotate (e_dir e) ((n + m) mod 4) true else e_dir e)).
  { destruct R; auto. rewrite !dir_rotate_mod. rewrite Z.add_mod_idemp_l by lia.
    pose proof (Z.div_mod n 4 ltac:(lia)). pose proof (Z.div_mod m 4 ltac:(lia)). pose proof (Z.div_mod (n + m) 4 ltac:(lia)).
    rewrite <- (Z.mod_add (e_dir e + 2 * (n mod 4) + 2 * (m mod 4)) (n / 4 + m / 4 - (n + m) / 4) 8) by lia. f_equal. lia. }
  assert (MB4 : forall z, 0 <= z mod 4 < 4) by (intros; apply Z.mod_pos_bound; lia).
  assert (HO : OO = true -> exists f j g, dget "orientation" (e_at e) = Some (VFlt f) /\ on_grid j (NF f) /\ 0 <= j < 256 /\
               turned_orientation (n mod 4) (e_at e) = Ok g).
  { intros I. apply has_cls_In in I. apply chain_statics in I; [|auto|discriminate]. destruct (O I) as (j & B & f & D & G).
    destruct (orient_grid (n mod 4) (e_at e) f j (MB4 _) D G B) as (f' & E & _).
    exists f, j, (VFlt f'). auto. }
  unfold with_at, with_dir, with_pos; cbn. f_equal; [exact HD|].
  destruct OO; auto. destruct (HO eq_refl) as (f & j & g & D & G & B & Eg). rewrite Eg.
  rewrite (orient_twice (n mod 4) (m mod 4) (e_at e) f j g); auto; try (apply Z.mod_pos_bound; lia).
  replace ((n mod 4 + m mod 4) mod 4) with ((n + m) mod 4) by (rewrite Z.add_mod by lia; reflexivity).
  destruct (orient_grid ((n + m) mod 4) (e_at e) f j (MB4 _) D G B) as (f' & -> & _).
  apply dset_dset.
Qed.
(** ** a stable order is unique *)
Lemma pos_le_antisym u v : pos_le u v -> pos_le v u -> neqb (vx u) (vx v) = true /\ neqb (vy u) (vy v) = true.
Proof.
  intros [A|[A A']] [B|[B B']].
  - exfalso. eapply xlt_irrefl, xlt_trans; eauto.
  - exfalso. eapply xlt_irrefl, xlt_eq_r; [exact A|exact B].
  - exfalso. eapply xlt_irrefl, xlt_eq_r; [exact B|exact A].
  - split; apply neqb_spec; auto. destruct A' as [A'|A'], B' as [B'|B']; auto.
    + exfalso. eapply xlt_irrefl, xlt_trans; eauto.
    + apply xeq_sym; auto.
Qed.
Lemma has_pos_fun w i u v : has_pos w i u -> has_pos w i v -> u = v.
Proof. intros (e & A & B) (e' & A' & B'). congruence. Qed.
Lemma at_pos_has w i u v : has_pos w i u -> at_pos w v i = neqb (vx u) (vx v) && neqb (vy u) (vy v).
Proof. intros (e & A & B). unfold at_pos. rewrite A, B. reflexivity. Qed.
Lemma in_order_tail w a l : in_order w (a :: l) -> in_order w l.
Proof. intros H k m i j L Hi Hj. apply (H (S k) (S m) i j); auto. lia. Qed.
Lemma in_order_head w a l j : in_order w (a :: l) -> In j l -> exists u v, has_pos w a u /\ has_pos w j v /\ pos_le u v.
Proof. intros H I. apply In_nth_error in I as (k & Hk). apply (H 0%nat (S k) a j); auto. lia. Qed.
Lemma stable_unique w l1 : forall l2, Permutation l1 l2 -> in_order w l1 -> in_order w l2 ->
  (forall i, In i l1 -> exists u, has_pos w i u /\ neqb (vx u) (vx u) = true /\ neqb (vy u) (vy u) = true) ->
  (forall v, filter (at_pos w v) l1 = filter (at_pos w v) l2) -> l1 = l2.
Proof.
  induction l1 as [|a l1 IH]; intros l2 P O1 O2 F E.
  - apply Permutation_nil in P. auto.
  - destruct l2 as [|b l2]; [symmetry in P; apply Permutation_nil in P; discriminate|].
    assert (a = b) as ->.
    { destruct (Nat.eq_dec a b) as [|N]; auto. exfalso.
      assert (Ia : In a l2) by (assert (In a (b :: l2)) as [X|X] by (eapply Permutation_in; [exact P|simpl; auto]); congruence || auto).
      assert (Ib : In b l1) by (assert (In b (a :: l1)) as [X|X] by (eapply Permutation_in; [symmetry; exact P|simpl; auto]); congruence || auto).
      destruct (in_order_head _ _ _ _ O1 Ib) as (u & v & Hu & Hv & L1).
      destruct (in_order_head _ _ _ _ O2 Ia) as (v' & u' & Hv' & Hu' & L2).
      assert (v' = v) as -> by (eapply has_pos_fun; eauto). assert (u' = u) as -> by (eapply has_pos_fun; eauto).
      destruct (pos_le_antisym _ _ L1 L2) as [X Y]. destruct (F a (or_introl eq_refl)) as (u2 & Hu2 & Rx & Ry).
      assert (u2 = u) as -> by (eapply has_pos_fun; eauto).
      specialize (E u). cbn [filter] in E. rewrite (at_pos_has _ _ _ u Hu), (at_pos_has _ _ _ u Hv), Rx, Ry in E.
      rewrite (neqb_sym (vx v)), (neqb_sym (vy v)), X, Y in E. cbn [andb] in E. congruence. }
    f_equal. apply IH.
    + eapply Permutation_cons_inv; eauto.
    + eapply in_order_tail; eauto.
    + eapply in_order_tail; eauto.
    + intros i Hi. apply F. right; auto.
    + intros v. specialize (E v). cbn [filter] in E. destruct (at_pos w v b); congruence.
Qed.
Lemma finite_refl u : finite_key u -> neqb (vx u) (vx u) = true /\ neqb (vy u) (vy u) = true.
Proof.
  intros [A B]. split; apply neqb_spec, xcmp_refl; now apply nanb_false.
Qed.
Lemma reordered_unique w l l1 l2 : reordered w l l1 -> reordered w l l2 ->
  (forall i, In i l -> exists u, has_pos w i u /\ finite_key u) -> l1 = l2.
Proof.
  intros (P1 & O1 & F1) (P2 & O2 & F2) H. apply (stable_unique w); auto.
  - transitivity l; auto. now symmetry.
  - intros i Hi. destruct (H i) as (u & Hu & K); [eapply Permutation_in; [symmetry; exact P1|exact Hi]|].
    exists u. split; auto. now apply finite_refl.
  - intros v. now rewrite F1, F2.
Qed.
Lemma nval_nneg a : nval (nneg a) = match nval a with XFin q => nval (nneg a) | XPInf => XNInf | XNInf => XPInf | XNaN => XNaN end.
Proof. destruct a as [z|[s|[]| |s m e]]; reflexivity. Qed.
Lemma neqb_neg a b : neqb (nneg a) b = neqb a (nneg b).
Proof.
  assert (G : forall a b, neqb (nneg a) b = true -> neqb a (nneg b) = true).
  { clear. intros a b. rewrite !neqb_spec. unfold xeq.
    assert (K : forall n, match nval n with XFin q => exists q', nval (nneg n) = XFin q' /\ (q' == - q)%Q
                         | XPInf => nval (nneg n) = XNInf | XNInf => nval (nneg n) = XPInf | XNaN => nval (nneg n) = XNaN end).
    { clear. intros n. destruct (nval n) eqn:E; try (rewrite nval_nneg, E; reflexivity).
      assert (F : nfin n q) by (unfold nfin; rewrite E; simpl; reflexivity).
      apply nneg_exact in F. unfold nfin, xfin in F. destruct (nval (nneg n)); try tauto. eauto. }
    pose proof (K a) as Ka. pose proof (K b) as Kb. destruct (nval a), (nval b);
      repeat match goal with H : exists _, _ |- _ => destruct H as (? & ? & ?) end;
      repeat match goal with H : nval (nneg _) = _ |- _ => rewrite H; clear H end; simpl; auto; try discriminate.
    intros H. injection H as H. f_equal. apply Qeq_alt in H. apply Qeq_alt.
    match goal with H1 : (?x == - ?u)%Q, H2 : (?y == - ?v)%Q |- _ => rewrite ?H1, ?H2 in *; clear H1 H2 end.
    first [rewrite <- H; ring|rewrite H; ring]. }
  destruct (neqb (nneg a) b) eqn:E; [symmetry; now apply G|].
  destruct (neqb a (nneg b)) eqn:E'; auto. rewrite neqb_sym in E'. apply G in E'. rewrite neqb_sym in E'. congruence.
Qed.
Lemma neqb_nnorm a b : neqb (nnorm a) b = neqb a b.
Proof. destruct a as [z|[]]; reflexivity. Qed.
Definition veq2 (u v : vec) : bool := neqb (vx u) (vx v) && neqb (vy u) (vy v).
Lemma veq2_rot k u v : veq2 (rotn k u) v = veq2 u (rotn (3 * k) v).
Proof.
  revert u v. induction k as [|k IH]; intros u v; [reflexivity|].
  cbn [rotn]. rewrite IH. replace (3 * S k)%nat with (3 * k + 3)%nat by lia. rewrite <- rotn_add.
  set (t := rotn (3 * k) v). destruct u as [a b], t as [c d]. unfold veq2; cbn. rewrite nneg_involutive, neqb_neg, andb_comm. reflexivity.
Qed.
Lemma veq2_norm u v : veq2 (vnorm u) v = veq2 u v.
Proof. unfold veq2, vnorm; simpl. now rewrite !neqb_nnorm. Qed.

Lemma nth_ext_opt {X} (l : list X) : forall l', (forall i, nth_error l i = nth_error l' i) -> l = l'.
Proof.
  induction l as [|x l IH]; intros [|y l'] H; auto; try (specialize (H 0%nat); discriminate).
  f_equal; [specialize (H 0%nat); simpl in H; congruence|apply IH; intros i; apply (H (S i))].
Qed.
Lemma world_ext w w' : w_protos w = w_protos w' -> (forall i, ent w i = ent w' i) -> (forall b, blu w b = blu w' b) -> w = w'.
Proof.
  destruct w as [p es bs], w' as [p' es' bs']. unfold ent, blu; simpl. intros -> H1 H2.
  now rewrite (nth_ext_opt es es'), (nth_ext_opt bs bs').
Qed.
Lemma after_turn_auto k q e v : after_turn k q (with_auto v e) = with_auto v (after_turn k q e).
Proof. reflexivity. Qed.
Lemma turn0_auto n e v u : cls_inv (e_cls e) -> turnable vzero e -> e_pos e = Some u ->
  turn0 n (with_auto v e) = with_auto v (turn0 n e).
Proof. intros C T P. rewrite (turn0_eq n e u), (turn0_eq n (with_auto v e) u) by auto. reflexivity. Qed.
Lemma turn0_pos n e u : cls_inv (e_cls e) -> turnable vzero e -> e_pos e = Some u ->
  e_pos (turn0 n e) = Some (vnorm (rotn (Z.to_nat (n mod 4)) u)).
Proof. intros C T P. rewrite (turn0_eq n e u) by auto. reflexivity. Qed.

Definition turn_op (b : nat) (n : Z) : op := ORotate b n vzero RDefault.
Lemma rotate_compose w b x n m : reachable w -> blu w b = Some x ->
  (forall i e, In i (b_objs x) -> ent w i = Some e -> turnable vzero e) ->
  fst (step (turn_op b m) (fst (step (turn_op b n) w))) = fst (step (turn_op b (n + m)) w).
Proof.
  intros R Hx T. unfold turn_op.
  destruct (rotate_step w b x n vzero RDefault R Hx T) as (w1 & l1 & E1 & W1 & S1 & T1).
  assert (R1 : reachable w1).
  { change w1 with (fst (w1, @Ok unit tt)). rewrite <- E1. apply reach_step; simpl; auto. }
  rewrite E1. cbn [fst].
  set (x1 := b_set_objs l1 x). assert (Hx1 : blu w1 b = Some x1) by apply (rw_bp _ _ _ _ _ _ _ _ W1).
  pose proof (rw_order _ _ _ _ _ _ _ _ W1) as RO1.
  assert (ME1 : forall i, In i l1 <-> In i (b_objs x)).
  { intros i. destruct RO1 as (P & _). split; apply Permutation_in; [symmetry|]; exact P. }
  pose proof (reach_inv _ R) as I.
  assert (OW : forall i, In i (b_objs x) -> exists e u, ent w i = Some e /\ e_pos e = Some u /\ turnable vzero e /\ cls_inv (e_cls e)).
  { intros i Hi. destruct (inv_owner _ I _ _ _ Hx Hi) as (e & He & _). pose proof (T _ _ Hi He) as Te.
    pose proof Te as ((u & Pu & X) & O). exists e, u. exact (conj He (conj Pu (conj Te (reach_cls w i e R He)))). }
  destruct (rotate_step w1 b x1 m vzero RDefault R1 Hx1) as (w2 & l2 & E2 & W2 & S2 & T2).
  { intros i e Hi He. apply ME1 in Hi. destruct (OW i Hi) as (e0 & u & He0 & _ & Te0 & _).
    destruct (T1 _ _ Hi He0) as (e' & He' & _ & Te'). congruence. }
  rewrite E2. cbn [fst].
  destruct (rotate_step w b x (n + m) vzero RDefault R Hx T) as (w3 & l3 & E3 & W3 & S3 & T3).
  rewrite E3. cbn [fst].
  pose proof (rw_order _ _ _ _ _ _ _ _ W2) as RO2. pose proof (rw_order _ _ _ _ _ _ _ _ W3) as RO3.
  assert (ME2 : forall i, In i l2 <-> In i l1).
  { intros i. destruct RO2 as (P & _). split; apply Permutation_in; [symmetry|]; exact P. }
  assert (ME3 : forall i, In i l3 <-> In i (b_objs x)).
  { intros i. destruct RO3 as (P & _). split; apply Permutation_in; [symmetry|]; exact P. }
  (* the entities *)
  assert (EN1 : forall k i e, nth_error l1 k = Some i -> ent w i = Some e ->
     ent w1 i = Some (with_auto (VInt (1 + Z.of_nat k)) (turn0 n e))).
  { intros k i e Hk He. apply (rw_ents _ _ _ _ _ _ _ _ W1 _ _ _ Hk He). }
  assert (EN2 : forall k i e, nth_error l2 k = Some i -> ent w i = Some e ->
     ent w2 i = Some (with_auto (VInt (1 + Z.of_nat k)) (turn0 (n + m) e))).
  { intros k i e Hk He. assert (Hi : In i (b_objs x)) by (apply ME1, ME2; eapply nth_error_In; eauto).
    destruct (OW i Hi) as (e0 & u & He0 & Pu & Te & Ce). assert (e0 = e) as -> by congruence.
    assert (In i l1) as Hl by (now apply ME1). apply In_nth_error in Hl as (k1 & Hk1).
    pose proof (EN1 _ _ _ Hk1 He) as H1. pose proof (rw_ents _ _ _ _ _ _ _ _ W2 _ _ _ Hk H1) as H2.
    cbn [ent_cw] in H2. rewrite H2. f_equal.
    change (fst (entity_rotate m vzero true (with_auto (VInt (1 + Z.of_nat k1)) (turn0 n e))))
      with (turn0 m (with_auto (VInt (1 + Z.of_nat k1)) (turn0 n e))).
    destruct (entity_turns n vzero true e Ce Te) as (e1 & Ee1 & TU & (v1 & Pv1 & _) & Te1).
    assert (turn0 n e = e1) as Q by (unfold turn0; rewrite Ee1; reflexivity).
    rewrite (turn0_auto m (turn0 n e) _ v1); [|rewrite Q; rewrite (still_parts _ _ (tu_still _ _ _ _ TU)); auto|rewrite Q; auto|rewrite Q; auto].
    rewrite turn0_compose by auto. reflexivity. }
  assert (EN3 : forall k i e, nth_error l3 k = Some i -> ent w i = Some e ->
     ent w3 i = Some (with_auto (VInt (1 + Z.of_nat k)) (turn0 (n + m) e))).
  { intros k i e Hk He. apply (rw_ents _ _ _ _ _ _ _ _ W3 _ _ _ Hk He). }
  (* the order *)
  assert (SP : same_pos w2 w3).
  { intros i. destruct (in_dec Nat.eq_dec i (b_objs x)) as [Hi|Ni].
    - destruct (OW i Hi) as (e & u & He & Pu & Te & Ce).
      assert (In i l2) as H2 by (now apply ME2, ME1). assert (In i l3) as H3 by (now apply ME3).
      apply In_nth_error in H2 as (k2 & H2). apply In_nth_error in H3 as (k3 & H3).
      rewrite (EN2 _ _ _ H2 He), (EN3 _ _ _ H3 He). reflexivity.
    - rewrite (rw_others _ _ _ _ _ _ _ _ W3 i Ni), (rw_others _ _ _ _ _ _ _ _ W2 i), (rw_others _ _ _ _ _ _ _ _ W1 i Ni); auto.
      change (b_objs x1) with l1. rewrite ME1. auto. }
  assert (L : l2 = l3).
  { apply (reordered_unique w3 (b_objs x)); auto.
    - pose proof (reordered_pos _ _ _ _ SP RO2) as (Pa & Oa & Fa). change (b_objs x1) with l1 in *. destruct RO1 as (Pb & Ob & Fb).
      split; [transitivity l1; auto|]. split; auto. intros v. rewrite Fa.
      set (k := Z.to_nat (m mod 4)).
      assert (AP : forall i, In i (b_objs x) -> at_pos w3 v i = at_pos w1 (rotn (3 * k) v) i).
      { intros i Hi. destruct (OW i Hi) as (e & u & He & Pu & Te & Ce).
        assert (In i l1) as H1 by (now apply ME1). assert (In i l3) as H3 by (now apply ME3).
        apply In_nth_error in H1 as (k1 & H1). apply In_nth_error in H3 as (k3 & H3).
        assert (P1 : has_pos w1 i (vnorm (rotn (Z.to_nat (n mod 4)) u))).
        { eexists. split; [apply (EN1 _ _ _ H1 He)|]. apply turn0_pos; auto. }
        assert (P3 : has_pos w3 i (vnorm (rotn (Z.to_nat ((n + m) mod 4)) u))).
        { eexists. split; [apply (EN3 _ _ _ H3 He)|]. apply turn0_pos; auto. }
        rewrite (at_pos_has _ _ _ _ P1), (at_pos_has _ _ _ _ P3).
        change (veq2 (vnorm (rotn (Z.to_nat ((n + m) mod 4)) u)) v = veq2 (vnorm (rotn (Z.to_nat (n mod 4)) u)) (rotn (3 * k) v)).
        rewrite !veq2_norm, <- veq2_rot. unfold k. now rewrite rotn_comp. }
      rewrite (filter_ext_in _ _ l1 (fun i Hi => AP i (proj1 (ME1 i) Hi))), (filter_ext_in _ _ (b_objs x) AP). apply Fb.
    - intros i Hi. destruct (OW i Hi) as (e & u & He & Pu & Te & Ce). assert (In i l3) as H3 by (now apply ME3).
      apply In_nth_error in H3 as (k3 & H3).
      destruct (entity_turns (n + m) vzero true e Ce Te) as (e1 & Ee1 & TU & (v1 & Pv1 & F) & Te1).
      exists v1. split; auto. eexists. split; [apply (EN3 _ _ _ H3 He)|]. unfold turn0. rewrite Ee1. exact Pv1. }
  subst l3. apply world_ext.
  - rewrite (rw_protos _ _ _ _ _ _ _ _ W2), (rw_protos _ _ _ _ _ _ _ _ W1), (rw_protos _ _ _ _ _ _ _ _ W3). reflexivity.
  - intros i. destruct (in_dec Nat.eq_dec i (b_objs x)) as [Hi|Ni].
    + destruct (OW i Hi) as (e & u & He & _). assert (In i l2) as H2 by (now apply ME2, ME1).
      apply In_nth_error in H2 as (k & H2). rewrite (EN2 _ _ _ H2 He), (EN3 _ _ _ H2 He). reflexivity.
    + rewrite (rw_others _ _ _ _ _ _ _ _ W3 i Ni), (rw_others _ _ _ _ _ _ _ _ W2 i), (rw_others _ _ _ _ _ _ _ _ W1 i Ni); auto.
      change (b_objs x1) with l1. rewrite ME1. auto.
  - intros c. destruct (Nat.eq_dec c b) as [->|N].
    + rewrite (rw_bp _ _ _ _ _ _ _ _ W2), (rw_bp _ _ _ _ _ _ _ _ W3). reflexivity.
    + rewrite (rw_bps _ _ _ _ _ _ _ _ W2 c N), (rw_bps _ _ _ _ _ _ _ _ W1 c N), (rw_bps _ _ _ _ _ _ _ _ W3 c N). reflexivity.
Qed.
