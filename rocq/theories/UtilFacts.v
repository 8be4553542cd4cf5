(** * Lemmas about the util value classes. *)
From Coq Require Import QArith Lia ZifyBool.
From Verif Require Import Py Num NumFacts Util SpecUtil.
Open Scope Z_scope.

(** ** Color *)
Lemma clamp_clamped v : clamped v (clamp v).
Proof.
  unfold clamped, clamp, nmax, nmin, nltb, ngtb, ncmp.
  destruct (nval v) as [| |q|] eqn:E; cbn [nval xcmp].
  - reflexivity.
  - rewrite E. reflexivity.
  - destruct (q ?= inject_Z 1)%Q eqn:C1; cbn [nval xcmp]; rewrite ?E; cbn [xcmp].
    + change (inject_Z 0 ?= inject_Z 1)%Q with Lt.
      apply Qeq_alt in C1. split; [|split]; intros H; try reflexivity.
      * exfalso. rewrite C1 in H. discriminate.
      * intros H2. exfalso. rewrite C1 in H2. discriminate.
    + destruct (inject_Z 0 ?= q)%Q eqn:C2.
      * apply Qeq_alt in C2. apply Qlt_alt in C1. split; [|split]; intros H.
        -- exfalso. rewrite <- C2 in H. discriminate.
        -- exfalso. apply Qle_not_lt in H. contradiction.
        -- reflexivity.
      * apply Qlt_alt in C1, C2. split; [|split]; intros H.
        -- exfalso. exact (Qlt_irrefl _ (Qlt_trans _ _ _ H C2)).
        -- exfalso. apply Qle_not_lt in H. contradiction.
        -- reflexivity.
      * apply Qgt_alt in C2. apply Qlt_alt in C1. split; [|split]; intros H; try reflexivity.
        -- exfalso. apply Qle_not_lt in H. contradiction.
        -- exfalso. apply Qle_not_lt in H. contradiction.
    + apply Qgt_alt in C1. change (inject_Z 0 ?= inject_Z 1)%Q with Lt.
      split; [|split]; intros H; try reflexivity.
      * exfalso. assert (inject_Z 1 < 0)%Q by (eapply Qlt_trans; eassumption). discriminate.
      * intros H2. exfalso. exact (Qlt_irrefl _ (Qlt_trans _ _ _ H2 C1)).
  - reflexivity.
Qed.

Lemma clamped_in_unit v w : clamped v w -> in_unit w.
Proof.
  assert (U0 : in_unit (NI 0)) by (exists 0%Q; repeat split; discriminate).
  assert (U1 : in_unit (NI 1)) by (exists 1%Q; repeat split; discriminate).
  unfold clamped. destruct (nval v) as [| |q|] eqn:E; try (intros ->; assumption).
  intros (H1 & H2 & H3).
  destruct (Qlt_le_dec q 0) as [L|L]; [rewrite (H1 L); exact U0|].
  destruct (Qlt_le_dec q 1) as [M|M]; [|rewrite (H2 M); exact U1].
  rewrite (H3 L M). exists q. repeat split; [|assumption|now apply Qlt_le_weak].
  unfold nfin. rewrite E. simpl. reflexivity.
Qed.

Definition channel_eqb (a b : channel) : bool :=
  match a, b with ChR, ChR | ChG, ChG | ChB, ChB | ChA, ChA => true | _, _ => false end.

Lemma color_get_set c ch v ch' :
  color_get (color_set c ch v) ch' = if channel_eqb ch ch' then clamp v else color_get c ch'.
Proof. destruct ch, ch'; reflexivity. Qed.

Lemma color_new_unit r g b a ch : in_unit (color_get (color_new r g b a) ch).
Proof. destruct ch; eapply clamped_in_unit; apply clamp_clamped. Qed.

Lemma color_history_unit sets : forall c, (forall ch, in_unit (color_get c ch)) ->
  forall ch, in_unit (color_get (fold_left (fun c s => color_set c (fst s) (snd s)) sets c) ch).
Proof.
  induction sets as [|[ch v] sets IH]; intros c Hc; [exact Hc|]. cbn [fold_left fst snd].
  apply IH. intros ch'. rewrite color_get_set. destruct (channel_eqb ch ch'); [|apply Hc].
  eapply clamped_in_unit. apply clamp_clamped.
Qed.

(** ** Direction *)
Ltac mod8 := unfold dir_rotate, dir_rotate45, dir_add, dir_sub, dir_new in *;
             Z.div_mod_to_equations; lia.

Lemma dir_new_range z : 0 <= dir_new z < 8.
Proof. mod8. Qed.

(** congruence modulo 8 of every operation *)
Lemma dir_ops_mod d z n :
  dir_add d z = (d + z) mod 8 /\ dir_sub d z = (d - z) mod 8 /\
  dir_rotate d n true = (d + 2 * n) mod 8 /\ dir_rotate d n false = (d - 2 * n) mod 8 /\
  dir_rotate45 d n true = (d + n) mod 8 /\ dir_rotate45 d n false = (d - n) mod 8.
Proof. repeat split; mod8. Qed.

Lemma dir_rotate_inverse d n : 0 <= d < 8 ->
  dir_rotate (dir_rotate d n true) n false = d /\ dir_rotate (dir_rotate d n false) n true = d /\
  dir_rotate45 (dir_rotate45 d n true) n false = d /\ dir_rotate45 (dir_rotate45 d n false) n true = d.
Proof. intros H. repeat split; mod8. Qed.

Lemma dir_rotate_compose d n m : dir_rotate (dir_rotate d n true) m true = dir_rotate d (n + m) true.
Proof. mod8. Qed.
Lemma dir_rotate_four d : 0 <= d < 8 -> dir_rotate d 4 true = d.
Proof. intros H. mod8. Qed.

(** ** Vector rotation *)
Lemma rotn_add n m v : rotn (n + m) v = rotn m (rotn n v).
Proof. revert v; induction n as [|n IH]; intros v; [reflexivity|]. cbn [Nat.add rotn]. apply IH. Qed.
Lemma rotn_4 v : rotn 4 v = v.
Proof. destruct v as [x y]. cbn. unfold rot1; cbn. now rewrite !nneg_involutive. Qed.
Lemma rotn_mod n v : rotn (4 * n) v = v.
Proof.
  induction n as [|n IH]; [reflexivity|].
  replace (4 * S n)%nat with (4 + 4 * n)%nat by lia. rewrite rotn_add, rotn_4. exact IH.
Qed.
Lemma rotn_cong n m v : (Z.of_nat n) mod 4 = (Z.of_nat m) mod 4 -> rotn n v = rotn m v.
Proof.
  intros H. assert (A : forall k, rotn k v = rotn (Nat.modulo k 4) v).
  { intros k. rewrite (Nat.div_mod k 4) at 1 by lia. rewrite rotn_add, rotn_mod. reflexivity. }
  rewrite (A n), (A m). f_equal. apply Nat2Z.inj. rewrite !Nat2Z.inj_mod. exact H.
Qed.

Lemma vrotate_mod v a : vrotate v a = vrotate v (a mod 4).
Proof. unfold vrotate. now rewrite Z.mod_mod by lia. Qed.
Lemma vrotate_compose v a b : vrotate (vrotate v a) b = vrotate v (a + b).
Proof.
  unfold vrotate. rewrite <- rotn_add. apply rotn_cong.
  rewrite Nat2Z.inj_add, !Z2Nat.id by (apply Z.mod_pos_bound; lia).
  rewrite Z.mod_mod, <- Z.add_mod by lia. reflexivity.
Qed.
Lemma vrotate_period v k : vrotate v (4 * k) = v.
Proof. unfold vrotate. rewrite Z.mul_comm, Z.mod_mul by lia. reflexivity. Qed.
Lemma vrotate_2 v : vrotate v 2 = mkVec (nneg (vx v)) (nneg (vy v)).
Proof. reflexivity. Qed.

Lemma dir_vector_rotate d n v : dir_vector d = Some v ->
  dir_vector (dir_rotate d n true) = Some (vrotate v n).
Proof.
  intros H.
  assert (Hd : 0 <= d < 8).
  { unfold dir_vector in H. repeat match type of H with (if d =? ?b then _ else _) = _ => destruct (Z.eqb_spec d b); [lia|] end.
    discriminate. }
  rewrite vrotate_mod.
  assert (E : dir_rotate d n true = dir_rotate d (n mod 4) true) by mod8.
  rewrite E. assert (Hn : 0 <= n mod 4 < 4) by (apply Z.mod_pos_bound; lia).
  set (m := n mod 4) in *. clearbody m. clear E n.
  assert (Hd' : d = 0 \/ d = 1 \/ d = 2 \/ d = 3 \/ d = 4 \/ d = 5 \/ d = 6 \/ d = 7) by lia.
  assert (Hm' : m = 0 \/ m = 1 \/ m = 2 \/ m = 3) by lia. clear Hd Hn.
  repeat (destruct Hd' as [->|Hd']; [
    vm_compute in H; injection H as <-; repeat (destruct Hm' as [->|Hm']; [reflexivity|]); rewrite Hm'; reflexivity|]).
  subst d. vm_compute in H. injection H as <-. repeat (destruct Hm' as [->|Hm']; [reflexivity|]); rewrite Hm'; reflexivity.
Qed.

Lemma dir_vector_total d : 0 <= d < 8 -> exists v, dir_vector d = Some v.
Proof.
  intros H. unfold dir_vector. 
  repeat match goal with |- exists v, (if d =? ?b then _ else _) = _ =>
    destruct (Z.eqb_spec d b); [eexists; reflexivity|] end. lia.
Qed.
Lemma dir_vector_inj d d' v : dir_vector d = Some v -> dir_vector d' = Some v -> d = d'.
Proof.
  unfold dir_vector. intros H H'.
  repeat match type of H with
         | (if ?a =? ?b then _ else _) = _ =>
             destruct (Z.eqb_spec a b); [injection H as <-; subst;
               repeat match type of H' with
                      | (if ?a =? ?b then _ else _) = _ =>
                          destruct (Z.eqb_spec a b); [try discriminate H'; subst; try reflexivity|]
                      end; try discriminate H'|]
         end. discriminate H.
Qed.

(** exact values under rotation *)
Lemma rotn_exact n v qx qy : nfin (vx v) qx -> nfin (vy v) qy ->
  nfin (vx (rotn n v)) (fst (qrot n (qx, qy))) /\ nfin (vy (rotn n v)) (snd (qrot n (qx, qy))).
Proof.
  revert v qx qy; induction n as [|n IH]; intros v qx qy Hx Hy; [split; assumption|].
  cbn [rotn qrot fst snd]. apply IH; [|exact Hx]. cbn [vx rot1]. now apply nneg_exact.
Qed.
Lemma qrot_norm n p :
  let r := qrot n p in (fst r * fst r + snd r * snd r == fst p * fst p + snd p * snd p)%Q.
Proof.
  revert p; induction n as [|n IH]; intros p; cbn zeta; [reflexivity|].
  cbn [qrot]. pose proof (IH ((- snd p)%Q, fst p)) as H. cbn zeta in H. rewrite H. cbn [fst snd]. ring.
Qed.

(** ** Vector arithmetic *)
Lemma vadd_comm v w : vadd v (OVec w) = vadd w (OVec v).
Proof. unfold vadd, vop, vlift; cbn [operand_vec bind]. now rewrite (nadd_comm (vx v)), (nadd_comm (vy v)). Qed.
Lemma vmul_comm v w : vmul v (OVec w) = vmul w (OVec v).
Proof. unfold vmul, vop, vlift; cbn [operand_vec bind]. now rewrite (nmul_comm (vx v)), (nmul_comm (vy v)). Qed.

Definition ivec (a b : Z) : vec := mkVec (NI a) (NI b).

Lemma ivec_add a b c d : vadd (ivec a b) (OVec (ivec c d)) = Ok (ivec (a + c) (b + d)).
Proof. reflexivity. Qed.
Lemma ivec_sub a b c d : vsub (ivec a b) (OVec (ivec c d)) = Ok (ivec (a - c) (b - d)).
Proof. reflexivity. Qed.

Lemma ivec_divmod a b c d : c <> 0 -> d <> 0 ->
  exists q r, vfloordiv (ivec a b) (OVec (ivec c d)) = Ok q /\ vmod (ivec a b) (OVec (ivec c d)) = Ok r /\
    (let! p := vmul q (OVec (ivec c d)) in vadd p (OVec r)) = Ok (ivec a b) /\
    exists rx ry, r = ivec rx ry /\
      (0 <= rx < c \/ c < rx <= 0) /\ (0 <= ry < d \/ d < ry <= 0).
Proof.
  intros Hc Hd. exists (ivec (a / c) (b / d)), (ivec (a mod c) (b mod d)).
  unfold vfloordiv, vmod, vop, vlift; cbn [operand_vec bind ivec vx vy nfloordiv nmod].
  apply Z.eqb_neq in Hc as Hc', Hd as Hd'. rewrite ?Hc'.
  apply Z.eqb_neq in Hd as Hd''. rewrite ?Hd''. cbn [bind].
  repeat split; try reflexivity.
  - unfold vmul, vadd, vop, vlift; cbn. f_equal. unfold ivec. do 2 f_equal.
    + rewrite (Z.div_mod a c) at 3 by assumption. lia.
    + rewrite (Z.div_mod b d) at 3 by assumption. lia.
  - exists (a mod c), (b mod d). split; [reflexivity|].
    split; [destruct (Z.lt_ge_cases 0 c)|destruct (Z.lt_ge_cases 0 d)];
      try (left; apply Z.mod_pos_bound; lia); right; apply Z.mod_neg_bound; lia.
Qed.

Definition nzero (n : num) : Prop := nfin n 0.
Definition convertible (n : num) : bool := is_ok (to_float n).

Lemma nzero_cases n : nzero n -> n = NI 0 \/ exists s, n = NF (S754_zero s).
Proof.
  unfold nzero, nfin. destruct n as [z|[s|[]| |s m e]]; simpl; try tauto.
  - unfold Qeq; simpl. intros H. left. f_equal. lia.
  - intros _. right. now exists s.
  - intros H. apply dyadic_eq0 in H. destruct s; discriminate.
Qed.

Lemma nzero_to_float n : nzero n -> exists s, to_float n = Ok (S754_zero s).
Proof. intros H. destruct (nzero_cases n H) as [->|[s ->]]; eexists; reflexivity. Qed.

Inductive divop : (num -> num -> res num) -> Prop :=
| div_true : divop ntruediv | div_floor : divop nfloordiv | div_mod : divop nmod.

Lemma div_zero_raises f a b : divop f -> nzero b ->
  f a b = if convertible a then Err EZeroDiv else f a b.
Proof.
  intros Hf Hb. unfold convertible. destruct (to_float a) as [x|e] eqn:Ea; [|reflexivity].
  destruct (nzero_cases b Hb) as [->|[s ->]]; destruct Hf; destruct a as [z|g]; simpl in Ea;
    unfold ntruediv, nfloordiv, nmod, to_float; try rewrite Ea; reflexivity.
Qed.
Lemma div_zero_never f a b r : divop f -> nzero b -> f a b <> Ok r.
Proof.
  intros Hf Hb. destruct (nzero_cases b Hb) as [->|[s ->]]; destruct Hf; destruct a as [z|g];
    unfold ntruediv, nfloordiv, nmod, to_float; simpl; try discriminate;
    destruct (float_of_int z); simpl; discriminate.
Qed.

Lemma vdiv_zero f v w : divop f ->
  (nzero (vx w) \/ nzero (vy w) -> forall r, vop f v (OVec w) <> Ok r) /\
  (nzero (vx w) -> convertible (vx v) = true -> vop f v (OVec w) = Err EZeroDiv) /\
  (is_ok (f (vx v) (vx w)) = true -> nzero (vy w) -> convertible (vy v) = true ->
   vop f v (OVec w) = Err EZeroDiv).
Proof.
  intros Hf. unfold vop, vlift; cbn [operand_vec bind]. repeat split.
  - intros [H|H] r.
    + destruct (f (vx v) (vx w)) eqn:E; simpl; [|discriminate].
      exfalso. exact (div_zero_never f _ _ _ Hf H E).
    + destruct (f (vx v) (vx w)) eqn:E; simpl; [|discriminate].
      destruct (f (vy v) (vy w)) eqn:E'; simpl; [|discriminate].
      exfalso. exact (div_zero_never f _ _ _ Hf H E').
  - intros H C. rewrite (div_zero_raises f _ _ Hf H), C. reflexivity.
  - intros O H C. destruct (f (vx v) (vx w)); [|discriminate]. simpl.
    rewrite (div_zero_raises f _ _ Hf H), C. reflexivity.
Qed.

(** ** Order *)
Lemma vltb_spec v w : vltb v w = true <-> nltb (vx v) (vx w) = true /\ nltb (vy v) (vy w) = true.
Proof. unfold vltb. apply andb_true_iff. Qed.
Lemma vgtb_vltb v w : vgtb v w = vltb w v.
Proof. unfold vgtb, vltb. now rewrite !ngtb_nltb. Qed.
Lemma vltb_irrefl v : vltb v v = false.
Proof. unfold vltb. now rewrite nltb_irrefl. Qed.
Lemma vltb_trans u v w : vltb u v = true -> vltb v w = true -> vltb u w = true.
Proof. rewrite !vltb_spec. intros [A B] [C D]. split; eapply nltb_trans; eassumption. Qed.

(** ** Floor, ceil, round *)
Lemma zfloor_spec m e : (inject_Z (zfloor m e) <= dyadic m e)%Q /\ (dyadic m e < inject_Z (zfloor m e + 1))%Q.
Proof.
  unfold zfloor, dyadic. destruct e as [|p|p].
  - change (0 <=? 0) with true. unfold Qle, Qlt, inject_Z; cbn [Qnum Qden]. lia.
  - change (0 <=? Zpos p) with true. unfold Qle, Qlt, inject_Z; cbn [Qnum Qden]. lia.
  - change (0 <=? Zneg p) with false. cbn [Z.opp]. unfold inject_Z. unfold Qle, Qlt; cbn [Qnum Qden inject_Z].
    rewrite Pos2Z.inj_pow. assert (0 < 2 ^ Zpos p) by (apply Z.pow_pos_nonneg; lia).
    set (b := 2 ^ Zpos p) in *. pose proof (Z.div_mod m b ltac:(lia)).
    pose proof (Z.mod_pos_bound m b ltac:(lia)). nia.
Qed.
Lemma zceil_spec m e : (inject_Z (zceil m e - 1) < dyadic m e)%Q /\ (dyadic m e <= inject_Z (zceil m e))%Q.
Proof.
  unfold zceil. pose proof (zfloor_spec (- m) e) as [A B]. rewrite <- dyadic_opp in A, B.
  set (k := zfloor (- m) e) in *. set (q := dyadic m e) in *.
  split.
  - apply Qopp_lt_compat in B. rewrite Qopp_involutive in B.
    replace (- k - 1) with (- (k + 1)) by lia. exact B.
  - apply Qopp_le_compat in A. rewrite Qopp_involutive in A. exact A.
Qed.

(** [n] is the floor/ceiling of the exact value *)
Definition is_floor (q : Q) (n : Z) : Prop := (inject_Z n <= q)%Q /\ (q < inject_Z (n + 1))%Q.
Definition is_ceil (q : Q) (n : Z) : Prop := (inject_Z (n - 1) < q)%Q /\ (q <= inject_Z n)%Q.

#[global] Instance is_floor_proper : Proper (Qeq ==> eq ==> iff) is_floor.
Proof. intros a b E n m <-. unfold is_floor. now rewrite E. Qed.
#[global] Instance is_ceil_proper : Proper (Qeq ==> eq ==> iff) is_ceil.
Proof. intros a b E n m <-. unfold is_ceil. now rewrite E. Qed.

Lemma nfloor_spec n q : nfin n q -> exists k, nfloor n = Ok k /\ is_floor q k.
Proof.
  destruct n as [z|[s|[]| |s m e]]; unfold nfin; simpl; try tauto; intros H.
  - exists z. split; [reflexivity|]. rewrite <- H. unfold is_floor, Qle, Qlt; simpl. lia.
  - exists 0. split; [reflexivity|]. rewrite <- H. unfold is_floor, Qle, Qlt; simpl. lia.
  - eexists. split; [reflexivity|]. rewrite <- H. apply zfloor_spec.
Qed.
Lemma nceil_spec n q : nfin n q -> exists k, nceil n = Ok k /\ is_ceil q k.
Proof.
  destruct n as [z|[s|[]| |s m e]]; unfold nfin; simpl; try tauto; intros H.
  - exists z. split; [reflexivity|]. rewrite <- H. unfold is_ceil, Qle, Qlt; simpl. lia.
  - exists 0. split; [reflexivity|]. rewrite <- H. unfold is_ceil, Qle, Qlt; simpl. lia.
  - eexists. split; [reflexivity|]. rewrite <- H. apply zceil_spec.
Qed.
Lemma nfloor_nonfinite n : (forall q, ~ nfin n q) ->
  (exists e, nfloor n = Err e) /\ (exists e, nceil n = Err e) /\ (exists e, nint n = Err e).
Proof.
  intros H. destruct n as [z|[s|s| |s m e]]; unfold nfloor, nceil, nint; simpl;
    try (repeat split; eexists; reflexivity); exfalso; eapply H; simpl; reflexivity.
Qed.

Lemma half_grid : on_grid 128 (NF half).
Proof. split; [reflexivity|]. unfold nfin; simpl. unfold half; simpl. reflexivity. Qed.

Lemma nround_grid k n : on_grid k n -> Z.abs k < 2 ^ 52 ->
  exists z, nround n = Ok z /\ is_floor ((k # 256) + (1 # 2)) z.
Proof.
  intros G B. destruct (grid_add k 128 n (NF half) G half_grid) as (m & Hm & [Vm Gm]); try lia.
  unfold nround. rewrite Hm. cbn [bind].
  destruct (nfloor_spec m ((k + 128) # 256) Gm) as (z & Hz & Fz).
  exists z. split; [exact Hz|].
  assert (E : ((k # 256) + (1 # 2) == (k + 128) # 256)%Q) by (unfold Qeq, Qplus; cbn [Qnum Qden]; lia).
  now rewrite E.
Qed.

(** ** Connections *)
Lemma end_eqb_spec a b : end_eqb a b = true <-> a = b.
Proof.
  destruct a as [a|], b as [b|]; simpl; try (split; congruence).
  rewrite Nat.eqb_eq. split; congruence.
Qed.
Lemma conn_eqb_spec a b : conn_eqb a b = true <-> same_wire a b.
Proof.
  unfold conn_eqb, same_wire, ends. destruct (String.eqb_spec (c_color a) (c_color b)) as [E|E]; simpl.
  2: { split; [discriminate|intros [H _]; contradiction]. }
  destruct (end_eqb (c_from a) (c_from b) && end_eqb (c_to a) (c_to b) &&
            (c_fs a =? c_fs b) && (c_ts a =? c_ts b)) eqn:E1.
  - rewrite !andb_true_iff, !end_eqb_spec, !Z.eqb_eq in E1. destruct E1 as [[[-> ->] ->] ->].
    split; auto.
  - destruct (end_eqb (c_from a) (c_to b) && end_eqb (c_to a) (c_from b) &&
            (c_fs a =? c_ts b) && (c_ts a =? c_fs b)) eqn:E2.
    + rewrite !andb_true_iff, !end_eqb_spec, !Z.eqb_eq in E2. destruct E2 as [[[-> ->] ->] ->].
      split; auto.
    + split; [discriminate|]. intros [_ [H|H]]; injection H as H1 H2 H3 H4.
      * rewrite <- not_true_iff_false in E1. exfalso. apply E1.
        rewrite !andb_true_iff, !end_eqb_spec, !Z.eqb_eq. auto.
      * rewrite <- not_true_iff_false in E2. exfalso. apply E2.
        rewrite !andb_true_iff, !end_eqb_spec, !Z.eqb_eq. auto.
Qed.
Lemma same_wire_refl a : same_wire a a.
Proof. split; auto. Qed.
Lemma same_wire_sym a b : same_wire a b -> same_wire b a.
Proof.
  unfold same_wire, ends. intros [E [H|H]]; (split; [congruence|]); [left; congruence|right].
  simpl in *. injection H as -> -> -> ->. reflexivity.
Qed.
Lemma same_wire_trans a b c : same_wire a b -> same_wire b c -> same_wire a c.
Proof.
  unfold same_wire, ends. simpl. intros [E [H|H]] [E' [H'|H']]; (split; [congruence|]);
    injection H as -> -> -> ->; injection H' as -> -> -> ->; auto.
Qed.
Lemma same_wire_flip a : same_wire (conn_flip a) a.
Proof. split; [reflexivity|right; reflexivity]. Qed.
Lemma same_wire_orientate a e : same_wire (orientate a e) a.
Proof. unfold orientate. destruct (end_eqb _ _); [apply same_wire_flip|apply same_wire_refl]. Qed.
