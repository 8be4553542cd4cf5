(** * Rounding yields proper binary64 floats. *)
From Coq Require Import Lia.
From Verif Require Import Py Num NumFacts Json.
Open Scope Z_scope.

Lemma digits2_log2 p : Zpos (digits2_pos p) = Z.log2 (Zpos p) + 1.
Proof.
  induction p as [p IH|p IH|]; cbn [digits2_pos]; [..|reflexivity]; rewrite Pos2Z.inj_succ, IH.
  - rewrite Pos2Z.inj_xI, Z.log2_succ_double by lia. lia.
  - rewrite Pos2Z.inj_xO, Z.log2_double by lia. lia.
Qed.
Lemma Zdigits_pos m : 0 < m -> Zdigits2 m = Z.log2 m + 1.
Proof. destruct m; try lia. intros _. cbn [Zdigits2]. apply digits2_log2. Qed.
Lemma Zdigits_mono a b : 0 <= a <= b -> Zdigits2 a <= Zdigits2 b.
Proof.
  intros H. destruct (Z.eq_dec a 0) as [->|N]; [|rewrite !Zdigits_pos by lia; pose proof (Z.log2_le_mono a b ltac:(lia)); lia].
  destruct (Z.eq_dec b 0) as [->|]; [lia|]. rewrite (Zdigits_pos b) by lia. pose proof (Z.log2_nonneg b). cbn. lia.
Qed.
Notation fx := (fexp prec64 emax64).
Lemma fx_max n : fx n = Z.max (n - 53) (-1074). Proof. reflexivity. Qed.

Lemma shr1_m r : 0 <= shr_m r -> shr_m (shr_1 r) = shr_m r / 2.
Proof.
  destruct r as [[|[p|p|]|p] a b]; cbn [shr_m shr_1]; intros H; try lia; try reflexivity.
  - rewrite Pos2Z.inj_xI. apply (Z.div_unique _ _ _ 1); lia.
  - rewrite Pos2Z.inj_xO. apply (Z.div_unique _ _ _ 0); lia.
Qed.
Lemma shr_iter_m p : forall r, 0 <= shr_m r -> shr_m (SpecFloat.iter_pos shr_1 p r) = shr_m r / 2 ^ Zpos p.
Proof.
  assert (N : forall r k, 0 <= r -> 0 <= k -> 0 <= r / 2 ^ k) by (intros; apply Z.div_pos; [lia|apply Z.pow_pos_nonneg; lia]).
  induction p as [p IH|p IH|]; intros r H; cbn [SpecFloat.iter_pos].
  - rewrite IH; rewrite IH; rewrite ?shr1_m by lia; try (apply N; [apply (N _ 1); lia|lia]); [|apply (N _ 1); lia|apply (N _ 1); lia].
    change 2 with (2 ^ 1) at 1. rewrite !Z.div_div by (try apply Z.pow_nonzero; try apply Z.pow_pos_nonneg; lia). rewrite <- !Z.pow_add_r by lia. f_equal. f_equal. lia.
  - rewrite IH; rewrite IH; try lia; [|apply N; lia].
    rewrite !Z.div_div by (try apply Z.pow_nonzero; try apply Z.pow_pos_nonneg; lia). rewrite <- !Z.pow_add_r by lia. f_equal. f_equal. lia.
  - rewrite shr1_m by lia. reflexivity.
Qed.
Lemma shr_loc m l : shr_m (shr_record_of_loc m l) = m.
Proof. destruct l as [|[]]; reflexivity. Qed.
Lemma shr_fexp_spec m e l : 0 <= m -> e <= fx (Zdigits2 m + e) ->
  exists r, shr_fexp prec64 emax64 m e l = (r, fx (Zdigits2 m + e)) /\ 0 <= shr_m r /\
    ((shr_m r = 0 /\ Zdigits2 m + e <= fx (Zdigits2 m + e)) \/ Zdigits2 (shr_m r) + fx (Zdigits2 m + e) = Zdigits2 m + e).
Proof.
  intros Hm He. unfold shr_fexp, shr. set (d := Zdigits2 m) in *. set (f := fx (d + e)) in *.
  destruct (f - e) as [|p|p] eqn:En; [| |lia].
  - exists (shr_record_of_loc m l). rewrite shr_loc. replace e with f by lia. split; [reflexivity|]. split; [exact Hm|]. right. unfold d. lia.
  - eexists. split; [rewrite <- En; replace (e + (f - e)) with f by lia; reflexivity|]. rewrite shr_iter_m by (rewrite shr_loc; lia). rewrite shr_loc.
    assert (P : 0 < 2 ^ Zpos p) by (apply Z.pow_pos_nonneg; lia). split; [apply Z.div_pos; lia|].
    destruct (Z.eq_dec (m / 2 ^ Zpos p) 0) as [E0|N0].
    { left. split; auto. destruct (Z.eq_dec m 0) as [->|Nm]; [unfold d in *; cbn [Zdigits2] in *; lia|].
      assert (m < 2 ^ Zpos p) by (destruct (Z.lt_ge_cases m (2 ^ Zpos p)) as [|C]; auto; pose proof (Z.div_le_mono _ _ (2 ^ Zpos p) P C) as C'; rewrite Z.div_same in C' by lia; lia).
      pose proof (Z.log2_lt_pow2 m (Zpos p) ltac:(lia)). unfold d in *. rewrite (Zdigits_pos m) in * by lia. lia. }
    right.
    assert (G : 0 < m / 2 ^ Zpos p) by (pose proof (Z.div_pos m (2 ^ Zpos p)); lia).
    assert (Hp : 0 < m) by (destruct (Z.eq_dec m 0) as [->|]; [rewrite Z.div_0_l in G by lia; lia|lia]).
    rewrite Zdigits_pos by lia. rewrite <- Z.shiftr_div_pow2 by lia. rewrite Z.log2_shiftr by lia.
    assert (2 ^ Zpos p <= m) by (destruct (Z.le_gt_cases (2 ^ Zpos p) m); auto; rewrite Z.div_small in G by lia; lia).
    pose proof (Z.log2_le_mono _ _ H). rewrite Z.log2_pow2 in H0 by lia. unfold d in *. rewrite (Zdigits_pos m) in * by lia. lia.
Qed.
Lemma round_up m l : 0 <= m -> m <= round_nearest_even m l <= m + 1.
Proof. intros H. unfold round_nearest_even. destruct l as [|[]]; [lia| | |]; try (destruct (Z.even m)); lia. Qed.
Lemma round_aux_valid s m e l : 0 <= m -> e <= fx (Zdigits2 m + e) -> fvalid (binary_round_aux prec64 emax64 s m e l) = true.
Proof.
  intros Hm He. unfold binary_round_aux. destruct (shr_fexp_spec m e l Hm He) as (r & -> & R0 & RD). set (e1 := fx (Zdigits2 m + e)) in *.
  pose proof (round_up (shr_m r) (loc_of_shr_record r) R0) as RU. set (m2 := round_nearest_even _ _) in *.
  assert (H2 : e1 <= fx (Zdigits2 m2 + e1)).
  { destruct RD as [Z|D].
    - destruct Z as [_ Z]. rewrite fx_max in *. unfold e1 in *. rewrite fx_max in *. pose proof (Zdigits_mono 0 m2 ltac:(lia)). cbn in H. lia.
    - pose proof (Zdigits_mono (shr_m r) m2 ltac:(lia)). rewrite fx_max in *. unfold e1 in *. rewrite fx_max in *. lia. }
  destruct (shr_fexp_spec m2 e1 loc_Exact ltac:(lia) H2) as (r2 & -> & R20 & RD2). set (e2 := fx (Zdigits2 m2 + e1)) in *.
  destruct (shr_m r2) as [|p|p] eqn:E2; [reflexivity| |reflexivity]. destruct (Zle_bool e2 (emax64 - prec64)) eqn:L; [|reflexivity].
  destruct RD2 as [[? _]|RD2]; [discriminate|]. unfold fvalid, valid_binary, bounded, canonical_mantissa. rewrite L, andb_true_r.
  apply Zeq_is_eq_bool. cbn [Zdigits2] in RD2. rewrite RD2. reflexivity.
Qed.

Lemma round_valid s m e : fvalid (binary_round prec64 emax64 s m e) = true.
Proof.
  unfold binary_round. set (f := fx (Zpos (digits2_pos m) + e)). destruct (Z.le_gt_cases f e) as [L|G].
  - pose proof (shl_align_fst m e f L) as H1. pose proof (shl_align_snd m e f L) as H2. destruct (shl_align m e f) as [mz ez]. cbn [fst snd] in *. subst ez.
    apply round_aux_valid; [lia|]. cbn [Zdigits2]. rewrite (digits2_mul m mz (e - f)) by (auto; lia).
    replace (Zpos (digits2_pos m) + (e - f) + f) with (Zpos (digits2_pos m) + e) by lia. fold f. lia.
  - rewrite shl_align_id by lia. apply round_aux_valid; [lia|]. cbn [Zdigits2]. fold f. lia.
Qed.
Lemma fnormalize_valid m e s : fvalid (fnormalize m e s) = true.
Proof. unfold fnormalize, binary_normalize. destruct m; [reflexivity|apply round_valid|apply round_valid]. Qed.
Lemma fdiv_valid x y : fvalid (fdiv x y) = true.
Proof.
  destruct x as [sx|sx| |sx mx ex], y as [sy|sy| |sy my ey]; try reflexivity. unfold fdiv, SFdiv.
  unfold SFdiv_core_binary. cbn [Zdigits2]. set (d1 := Zpos (digits2_pos mx)). set (d2 := Zpos (digits2_pos my)).
  set (e' := Z.min _ _). set (m' := match ex - ey - e' with Zpos _ => _ | Z0 => _ | Zneg _ => _ end).
  assert (M : m' = Zpos mx * 2 ^ (ex - ey - e')).
  { unfold m'. destruct (ex - ey - e') as [|p|p] eqn:E; [rewrite Z.mul_1_r; reflexivity| |unfold e' in E; lia]. rewrite Z.shiftl_mul_pow2 by lia. reflexivity. }
  assert (S0 : 0 <= ex - ey - e') by (unfold e'; lia). assert (P : 0 < 2 ^ (ex - ey - e')) by (apply Z.pow_pos_nonneg; lia).
  pose proof (Z_div_mod m' (Zpos my) ltac:(lia)) as DM. destruct (Z.div_eucl m' (Zpos my)) as [q r]. destruct DM as [DE DR].
  assert (Q0 : 0 <= q) by nia.
  assert (LM : Z.log2 m' = Z.log2 (Zpos mx) + (ex - ey - e')) by (rewrite M, Z.log2_mul_pow2 by lia; lia).
  assert (D : d1 + (ex - ey - e') - d2 <= Zdigits2 q).
  { unfold d1, d2. rewrite !digits2_log2. destruct (Z.eq_dec q 0) as [->|].
    - cbn [Zdigits2]. assert (L : m' <= Zpos my) by lia. pose proof (Z.log2_le_mono _ _ L). lia.
    - rewrite Zdigits_pos by lia. assert (L : m' < 2 ^ (Z.log2 (Zpos my) + 1 + (Z.log2 q + 1))).
      { rewrite Z.pow_add_r by (pose proof (Z.log2_nonneg (Zpos my)); pose proof (Z.log2_nonneg q); lia).
        pose proof (Z.log2_spec (Zpos my) ltac:(lia)) as B1. pose proof (Z.log2_spec q ltac:(lia)) as B2.
        unfold Z.succ in B1, B2. set (A := 2 ^ (Z.log2 (Zpos my) + 1)) in *. set (B := 2 ^ (Z.log2 q + 1)) in *. nia. }
      apply Z.log2_lt_pow2 in L; [lia|nia]. }
  apply round_aux_valid; auto. assert (E' : e' = Z.min (Z.max (d1 + ex - (d2 + ey) - 53) (-1074)) (ex - ey)) by reflexivity.
  rewrite fx_max. clear - D E'. clearbody e' d1 d2. lia.
Qed.
Lemma float_of_dec_valid neg d e : fvalid (Json.float_of_dec neg d e) = true.
Proof.
  unfold Json.float_of_dec. destruct (d =? 0); [reflexivity|]. destruct (0 <=? e); [apply fnormalize_valid|].
  destruct (_ =? 0); [apply fnormalize_valid|apply fdiv_valid].
Qed.
