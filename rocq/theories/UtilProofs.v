(** * Proofs of the util value class properties, in the form used by Props_Util.v. *)
From Coq Require Import QArith Lia.
From Verif Require Import Py Num NumFacts Util SpecUtil UtilFacts.
Open Scope Z_scope.

Lemma p_C06_unit r g b a sets ch :
  in_unit (color_get (fold_left (fun c s => color_set c (fst s) (snd s)) sets (color_new r g b a)) ch).
Proof. apply color_history_unit. intros; apply color_new_unit. Qed.

Lemma p_C06_assign r g b a v c ch ch' :
  clamped r (color_get (color_new r g b a) ChR) /\ clamped g (color_get (color_new r g b a) ChG) /\
  clamped b (color_get (color_new r g b a) ChB) /\ clamped a (color_get (color_new r g b a) ChA) /\
  clamped v (color_get (color_set c ch v) ch) /\
  (ch <> ch' -> color_get (color_set c ch v) ch' = color_get c ch').
Proof.
  repeat match goal with |- _ /\ _ => split end; try apply clamp_clamped.
  - rewrite color_get_set. destruct ch; apply clamp_clamped.
  - rewrite color_get_set. destruct ch, ch'; simpl; congruence.
Qed.

Lemma p_C07_mod z d n :
  0 <= dir_new z < 8 /\ (dir_new z - z) mod 8 = 0 /\
  dir_add d z = (d + z) mod 8 /\ dir_sub d z = (d - z) mod 8 /\
  dir_rotate d n true = (d + 2 * n) mod 8 /\ dir_rotate d n false = (d - 2 * n) mod 8 /\
  dir_rotate45 d n true = (d + n) mod 8 /\ dir_rotate45 d n false = (d - n) mod 8.
Proof.
  split; [apply dir_new_range|]. split; [mod8|]. apply dir_ops_mod.
Qed.
Lemma p_C07_inv d n m : 0 <= d < 8 ->
    dir_rotate (dir_rotate d n true) n false = d /\
    dir_rotate (dir_rotate d n false) n true = d /\
    dir_rotate45 (dir_rotate45 d n true) n false = d /\
    dir_rotate45 (dir_rotate45 d n false) n true = d /\
    dir_rotate (dir_rotate d n true) m true = dir_rotate d (n + m) true /\
    dir_rotate d 4 true = d /\ dir_rotate d 4 false = d.
Proof.
  intros H. destruct (dir_rotate_inverse d n H) as (A & B & C & D).
  repeat (split; [assumption|]). split; [apply dir_rotate_compose|]. split; mod8.
Qed.

Lemma p_C08 d n : 0 <= d < 8 ->
    exists v, dir_vector d = Some v /\
      dir_vector (dir_rotate d n true) = Some (vrotate v n) /\
      dir_vector (dir_rotate d n false) = Some (vrotate v (- n)) /\
      dir_vector (dir_add d 4) = Some (mkVec (nneg (vx v)) (nneg (vy v))) /\
      (forall d', 0 <= d' < 8 -> dir_vector d' = Some v -> d' = d).
Proof.
  intros H. destruct (dir_vector_total d H) as [v Hv]. exists v. split; [exact Hv|].
  split; [now apply dir_vector_rotate|]. split.
  - replace (dir_rotate d n false) with (dir_rotate d (- n) true) by mod8. now apply dir_vector_rotate.
  - split.
    + replace (dir_add d 4) with (dir_rotate d 2 true) by mod8.
      rewrite (dir_vector_rotate d 2 v Hv). reflexivity.
    + intros d' _ H'. eapply dir_vector_inj; eassumption.
Qed.

Lemma p_C09_action v a b k :
    vrotate (vrotate v a) b = vrotate v (a + b) /\
    vrotate v (a + 4 * k) = vrotate v a /\
    vrotate v (4 * k) = v /\
    vrotate v 1 = mkVec (nneg (vy v)) (vx v) /\
    vrotate v 2 = mkVec (nneg (vx v)) (nneg (vy v)).
Proof.
  split; [apply vrotate_compose|]. split; [now rewrite <- vrotate_compose, vrotate_period|].
  split; [apply vrotate_period|]. split; reflexivity.
Qed.
Lemma p_C09_length v a x y : nfin (vx v) x -> nfin (vy v) y ->
    exists x' y', nfin (vx (vrotate v a)) x' /\ nfin (vy (vrotate v a)) y' /\
      (x', y') = qrot (Z.to_nat (a mod 4)) (x, y) /\
      (x' * x' + y' * y' == x * x + y * y)%Q.
Proof.
  intros Hx Hy. unfold vrotate. set (n := Z.to_nat (a mod 4)).
  destruct (rotn_exact n v x y Hx Hy) as [A B].
  exists (fst (qrot n (x, y))), (snd (qrot n (x, y))). split; [exact A|]. split; [exact B|].
  split; [symmetry; apply surjective_pairing|]. apply (qrot_norm n (x, y)).
Qed.

Lemma p_C10_int a b c d e f :
    vadd (ivec a b) (OVec (ivec c d)) = vadd (ivec c d) (OVec (ivec a b)) /\
    (let! s := vadd (ivec a b) (OVec (ivec c d)) in vadd s (OVec (ivec e f))) =
    (let! s := vadd (ivec c d) (OVec (ivec e f)) in vadd (ivec a b) (OVec s)) /\
    (let! s := vadd (ivec a b) (OVec (ivec c d)) in vsub s (OVec (ivec c d))) = Ok (ivec a b) /\
    (c <> 0 -> d <> 0 ->
     exists q r, vfloordiv (ivec a b) (OVec (ivec c d)) = Ok q /\
       vmod (ivec a b) (OVec (ivec c d)) = Ok r /\
       (let! p := vmul q (OVec (ivec c d)) in vadd p (OVec r)) = Ok (ivec a b) /\
       exists rx ry, r = ivec rx ry /\
         (0 <= rx < c \/ c < rx <= 0) /\ (0 <= ry < d \/ d < ry <= 0)).
Proof.
  split; [apply vadd_comm|]. split; [|split].
  - rewrite !ivec_add. cbn [bind]. rewrite !ivec_add. f_equal. unfold ivec. f_equal; f_equal; lia.
  - rewrite !ivec_add. cbn [bind]. rewrite ivec_sub. f_equal. unfold ivec. f_equal; f_equal; lia.
  - apply ivec_divmod.
Qed.
Lemma p_C10_comm v w : vadd v (OVec w) = vadd w (OVec v) /\ vmul v (OVec w) = vmul w (OVec v).
Proof. split; [apply vadd_comm|apply vmul_comm]. Qed.
Lemma p_C10_operands (f : num -> num -> res num) (v w : vec) (n : num) (l : list num) :
    vop f v (ONum n) = vop f v (OVec (mkVec n n)) /\
    vop f v (OTup [vx w; vy w]) = vop f v (OVec w) /\
    vrop f (ONum n) v = vop f (mkVec n n) (OVec v) /\
    vrop f (OTup [vx w; vy w]) v = vop f w (OVec v) /\
    (length l <> 2%nat -> vop f v (OTup l) = Err EValue /\ vrop f (OTup l) v = Err EValue) /\
    vop f v OOther = Err EType /\ vrop f OOther v = Err EType.
Proof.
  repeat split; destruct l as [|x [|y [|z l]]]; try reflexivity; exfalso; simpl in *; lia.
Qed.
Lemma p_C10_rmod : exists n v, vrmod (ONum n) v = Ok None.
Proof. exists (NF half), (ivec 2 3). reflexivity. Qed.

Lemma p_C11 u v w :
    vltb v v = false /\
    (vltb u v = true -> vltb v u = false) /\
    (vltb u v = true -> vltb v w = true -> vltb u w = true) /\
    vgtb u v = vltb v u /\
    (vltb u v = true <-> xlt (nval (vx u)) (nval (vx v)) /\ xlt (nval (vy u)) (nval (vy v))) /\
    (veqb u v = true -> vltb u v = false).
Proof.
  split; [apply vltb_irrefl|]. split.
  - intros H. destruct (vltb v u) eqn:E; [|reflexivity].
    pose proof (vltb_trans _ _ _ H E) as F. now rewrite vltb_irrefl in F.
  - split; [apply vltb_trans|]. split; [apply vgtb_vltb|]. split.
    + rewrite vltb_spec, !nltb_spec. tauto.
    + unfold veqb, vltb. rewrite andb_true_iff. intros [H _]. now rewrite (neqb_nltb _ _ H).
Qed.
Lemma p_C11_not_total : exists u v, vltb u v = false /\ vltb v u = false /\ veqb u v = false.
Proof. exists (ivec 0 1), (ivec 1 0). repeat split; reflexivity. Qed.
Lemma p_C11_eq u v :
    veqb u v = veqb v u /\
    (veqb u v = true <-> xeq (nval (vx u)) (nval (vx v)) /\ xeq (nval (vy u)) (nval (vy v))) /\
    (~ is_nan (vx u) -> ~ is_nan (vy u) -> veqb u u = true).
Proof.
  unfold veqb. split; [now rewrite (neqb_sym (vx u)), (neqb_sym (vy u))|]. split.
  - rewrite andb_true_iff, !neqb_spec. tauto.
  - intros A B. now rewrite !neqb_refl.
Qed.

Lemma p_C12_floor_ceil v x y : nfin (vx v) x -> nfin (vy v) y ->
    exists fx fy cx cy,
      vfloor v = Ok (ivec fx fy) /\ vceil v = Ok (ivec cx cy) /\
      is_floor x fx /\ is_floor y fy /\ is_ceil x cx /\ is_ceil y cy.
Proof.
  intros Hx Hy.
  destruct (nfloor_spec _ _ Hx) as (fx & A1 & A2). destruct (nfloor_spec _ _ Hy) as (fy & B1 & B2).
  destruct (nceil_spec _ _ Hx) as (cx & C1 & C2). destruct (nceil_spec _ _ Hy) as (cy & D1 & D2).
  exists fx, fy, cx, cy. unfold vfloor, vceil. rewrite A1, B1, C1, D1. repeat split; auto; try apply A2;
    try apply B2; try apply C2; try apply D2.
Qed.
Lemma p_C12_nonfinite v : (forall q, ~ nfin (vx v) q) \/ (forall q, ~ nfin (vy v) q) ->
    is_ok (vfloor v) = false /\ is_ok (vceil v) = false.
Proof.
  unfold vfloor, vceil. intros [H|H]; destruct (nfloor_nonfinite _ H) as ((e1 & E1) & (e2 & E2) & _);
    rewrite E1, E2; [split; reflexivity|].
  split; [destruct (nfloor (vx v))|destruct (nceil (vx v))]; reflexivity.
Qed.
Lemma p_C12_round v a b :
    on_grid a (vx v) -> on_grid b (vy v) -> Z.abs a < 2 ^ 52 -> Z.abs b < 2 ^ 52 ->
    exists x y, vround v = Ok (ivec x y) /\
      is_floor ((a # 256) + (1 # 2)) x /\ is_floor ((b # 256) + (1 # 2)) y.
Proof.
  intros Ha Hb Ba Bb. destruct (nround_grid _ _ Ha Ba) as (x & X1 & X2).
  destruct (nround_grid _ _ Hb Bb) as (y & Y1 & Y2).
  exists x, y. unfold vround. rewrite X1, Y1. auto.
Qed.
Lemma p_C12_round_refuted :
  exists (v : vec) (q : Q) x y,
    nfin (vx v) q /\ (q < 1 # 2)%Q /\ vround v = Ok (ivec x y) /\ x = 1.
Proof.
  exists (mkVec (NF (S754_finite false 9007199254740991 (-54))) (NI 0)),
         (dyadic 9007199254740991 (-54)), 1, 0.
  repeat split; vm_compute; reflexivity.
Qed.

Lemma conn_eqb_congr a b c d : (same_wire a b <-> same_wire c d) -> conn_eqb a b = conn_eqb c d.
Proof. intros H. apply Bool.eq_true_iff_eq. now rewrite !conn_eqb_spec. Qed.
Lemma p_C13 a b c :
    (conn_eqb a b = true <-> same_wire a b) /\
    conn_eqb a a = true /\
    conn_eqb a b = conn_eqb b a /\
    (conn_eqb a b = true -> conn_eqb b c = true -> conn_eqb a c = true) /\
    conn_eqb (conn_flip a) b = conn_eqb a b /\
    conn_eqb a (conn_flip b) = conn_eqb a b.
Proof.
  split; [apply conn_eqb_spec|]. split; [apply conn_eqb_spec, same_wire_refl|].
  split; [apply conn_eqb_congr; split; apply same_wire_sym|].
  split; [rewrite !conn_eqb_spec; apply same_wire_trans|].
  split; apply conn_eqb_congr; split; intros H.
  - eapply same_wire_trans; [apply same_wire_sym, same_wire_flip|exact H].
  - eapply same_wire_trans; [apply same_wire_flip|exact H].
  - eapply same_wire_trans; [exact H|apply same_wire_flip].
  - eapply same_wire_trans; [exact H|apply same_wire_sym, same_wire_flip].
Qed.

Lemma p_C51_forms x y :
    let v := Ok (Some (mkVec x y)) in
    vector_make [PNum x; PNum y] [] = v /\
    vector_make [PTuple [x; y]] [] = v /\
    vector_make [PVec (mkVec x y)] [] = v /\
    (forall d, dget "x" d = Some x -> dget "y" d = Some y ->
       vector_make [PDict d] [] = v /\ vector_make [] d = v).
Proof.
  cbn zeta. split; [reflexivity|]. split; [reflexivity|]. split; [reflexivity|].
  intros d Hx Hy. destruct d as [|kv d]; [discriminate Hx|]. unfold vector_make.
  rewrite Hx, Hy. split; reflexivity.
Qed.
Lemma p_C51_rejects args kwargs :
    (vector_make args kwargs = Ok None <->
       kwargs = [] /\ (args = [] \/ exists r, args = PNone :: r)) /\
    (forall v, vector_make args kwargs = Ok (Some v) ->
       (kwargs = [] /\ (args = [PNum (vx v); PNum (vy v)] \/ args = [PTuple [vx v; vy v]] \/
                        args = [PVec v] \/
                        exists d, args = [PDict d] /\ dget "x" d = Some (vx v) /\ dget "y" d = Some (vy v)))
       \/ (args = [] /\ dget "x" kwargs = Some (vx v) /\ dget "y" kwargs = Some (vy v))).
Proof.
  split.
  - split.
    + destruct args as [|a args], kwargs as [|k kwargs]; unfold vector_make; try discriminate; auto.
      * destruct (dget "x" _); [|discriminate]. destruct (dget "y" _); discriminate.
      * intros H. split; [reflexivity|]. right.
        destruct a as [|n|l|d|v|]; [eexists; reflexivity|exfalso..];
          destruct args as [|a' [|a'' args]]; try discriminate H;
          try (destruct a'; discriminate H);
        try (match type of H with context[match ?l with [] => _ | _ => _ end] =>
               destruct l as [|x [|y [|z l']]]; discriminate H end);
        try (destruct (dget "x" d); [|discriminate]; destruct (dget "y" d); discriminate).
    + intros [-> [->|[r ->]]]; [reflexivity|]. unfold vector_make. destruct r as [|? [|]]; reflexivity.
  - intros v H. destruct args as [|a args], kwargs as [|k kwargs]; unfold vector_make in H; try discriminate H.
    + right. destruct (dget "x" _) as [x|]; [|discriminate]. destruct (dget "y" _) as [y|]; [|discriminate].
      injection H as <-. auto.
    + left. split; [reflexivity|].
      repeat (match type of H with context[match ?x with _ => _ end] => destruct x eqn:? end;
              try discriminate H); injection H as <-; cbn [vx vy]; auto.
      * do 3 right. eexists. split; [reflexivity|]. auto.
      * destruct v0; auto.
Qed.
