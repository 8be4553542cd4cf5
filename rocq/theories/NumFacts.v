(** * Facts about the number model: order, commutativity, exactness on a grid. *)
From Coq Require Import QArith Lia Bool.
From Verif Require Import Py Num.
Open Scope Z_scope.

(** ** Order *)
Lemma xcmp_antisym a b : xcmp b a = option_map CompOpp (xcmp a b).
Proof.
  destruct a, b; simpl; try reflexivity.
  now rewrite <- Qcompare_antisym.
Qed.

Lemma xcmp_refl a : a <> XNaN -> xcmp a a = Some Eq.
Proof.
  destruct a as [| |q|]; simpl; try reflexivity; [congruence|intros _].
  f_equal. apply Qeq_alt. reflexivity.
Qed.

Definition xlt (a b : ext) := xcmp a b = Some Lt.
Definition xeq (a b : ext) := xcmp a b = Some Eq.

Lemma xlt_trans a b c : xlt a b -> xlt b c -> xlt a c.
Proof.
  unfold xlt; destruct a, b, c; simpl; try congruence.
  intros H1 H2. injection H1 as H1. injection H2 as H2. f_equal.
  apply Qlt_alt. apply Qlt_alt in H1, H2. eapply Qlt_trans; eassumption.
Qed.
Lemma xeq_sym a b : xeq a b -> xeq b a.
Proof. unfold xeq; intros H. rewrite xcmp_antisym, H. reflexivity. Qed.
Lemma xeq_trans a b c : xeq a b -> xeq b c -> xeq a c.
Proof.
  unfold xeq; destruct a, b, c; simpl; try congruence.
  intros H1 H2. injection H1 as H1. injection H2 as H2. f_equal.
  apply Qeq_alt. apply Qeq_alt in H1, H2. eapply Qeq_trans; eassumption.
Qed.
Lemma xlt_eq_l a b c : xeq a b -> xlt b c -> xlt a c.
Proof.
  unfold xlt, xeq; destruct a, b, c; simpl; try congruence.
  intros H1 H2. injection H1 as H1. injection H2 as H2. f_equal.
  apply Qlt_alt. apply Qlt_alt in H2. apply Qeq_alt in H1. rewrite H1. exact H2.
Qed.
Lemma xlt_eq_r a b c : xlt a b -> xeq b c -> xlt a c.
Proof.
  unfold xlt, xeq; destruct a, b, c; simpl; try congruence.
  intros H1 H2. injection H1 as H1. injection H2 as H2. f_equal.
  apply Qlt_alt. apply Qlt_alt in H1. apply Qeq_alt in H2. rewrite <- H2. exact H1.
Qed.
Lemma xlt_irrefl a : ~ xlt a a.
Proof.
  unfold xlt; destruct a; simpl; try congruence.
  intros H. injection H as H. apply Qlt_alt in H. exact (Qlt_irrefl _ H).
Qed.
Lemma xcmp_total a b : a <> XNaN -> b <> XNaN -> xlt a b \/ xeq a b \/ xlt b a.
Proof.
  intros Ha Hb. unfold xlt, xeq. rewrite (xcmp_antisym a b).
  destruct (xcmp a b) as [[]|] eqn:E; simpl; auto.
  exfalso. destruct a, b; simpl in E; congruence.
Qed.

Definition is_nan (n : num) : Prop := nval n = XNaN.

Lemma nltb_spec a b : nltb a b = true <-> xlt (nval a) (nval b).
Proof. unfold nltb, ncmp, xlt. destruct (xcmp _ _) as [[]|]; split; congruence. Qed.
Lemma neqb_spec a b : neqb a b = true <-> xeq (nval a) (nval b).
Proof. unfold neqb, ncmp, xeq. destruct (xcmp _ _) as [[]|]; split; congruence. Qed.
Lemma ngtb_nltb a b : ngtb a b = nltb b a.
Proof.
  unfold ngtb, nltb, ncmp. rewrite (xcmp_antisym (nval a) (nval b)).
  destruct (xcmp _ _) as [[]|]; reflexivity.
Qed.
Lemma nltb_irrefl a : nltb a a = false.
Proof.
  destruct (nltb a a) eqn:E; [|reflexivity]. apply nltb_spec in E. now apply xlt_irrefl in E.
Qed.
Lemma nltb_trans a b c : nltb a b = true -> nltb b c = true -> nltb a c = true.
Proof. rewrite !nltb_spec. apply xlt_trans. Qed.
Lemma nltb_asym a b : nltb a b = true -> nltb b a = false.
Proof.
  intros H. destruct (nltb b a) eqn:E; [|reflexivity].
  pose proof (nltb_trans _ _ _ H E) as F. now rewrite nltb_irrefl in F.
Qed.
Lemma neqb_sym a b : neqb a b = neqb b a.
Proof.
  apply eq_true_iff_eq. rewrite !neqb_spec. split; apply xeq_sym.
Qed.
Lemma neqb_trans a b c : neqb a b = true -> neqb b c = true -> neqb a c = true.
Proof. rewrite !neqb_spec. apply xeq_trans. Qed.
Lemma neqb_refl a : ~ is_nan a -> neqb a a = true.
Proof. intros H. apply neqb_spec. now apply xcmp_refl. Qed.
Lemma neqb_nltb a b : neqb a b = true -> nltb a b = false.
Proof. unfold neqb, nltb. destruct (ncmp a b) as [[]|]; congruence. Qed.
Lemma ncmp_total a b : ~ is_nan a -> ~ is_nan b ->
  nltb a b = true \/ neqb a b = true \/ nltb b a = true.
Proof. intros Ha Hb. rewrite !nltb_spec, neqb_spec. now apply xcmp_total. Qed.

(** integers compare as integers *)
Lemma ncmp_int x y : ncmp (NI x) (NI y) = Some (x ?= y).
Proof. unfold ncmp; simpl. unfold Qcompare; simpl. now rewrite !Z.mul_1_r. Qed.
Lemma nltb_int x y : nltb (NI x) (NI y) = (x <? y).
Proof. unfold nltb. rewrite ncmp_int. unfold Z.ltb. reflexivity. Qed.
Lemma neqb_int x y : neqb (NI x) (NI y) = (x =? y).
Proof.
  unfold neqb. rewrite ncmp_int. rewrite Z.eqb_compare. reflexivity.
Qed.

(** ** Commutativity (floats included) *)
Lemma fadd_comm x y : fadd x y = fadd y x.
Proof.
  unfold fadd, SFadd. destruct x as [sx|sx| |sx mx ex], y as [sy|sy| |sy my ey]; try reflexivity.
  - destruct sx, sy; reflexivity.
  - destruct sx, sy; reflexivity.
  - cbn zeta. rewrite Z.min_comm, Z.add_comm. reflexivity.
Qed.
Lemma fmul_comm x y : fmul x y = fmul y x.
Proof.
  unfold fmul, SFmul. destruct x as [sx|sx| |sx mx ex], y as [sy|sy| |sy my ey];
    try reflexivity; try (now rewrite xorb_comm).
  now rewrite xorb_comm, Pos.mul_comm, Z.add_comm.
Qed.

Lemma float_of_int_ok z f : float_of_int z = Ok f -> fnormalize z 0 false = f.
Proof. unfold float_of_int. destruct (fnormalize z 0 false); congruence. Qed.
Lemma float_of_int_err z e : float_of_int z = Err e -> e = EOverflow.
Proof. unfold float_of_int. destruct (fnormalize z 0 false); congruence. Qed.

Lemma arith_comm zi ff a b :
  (forall x y, zi x y = zi y x) -> (forall x y, ff x y = ff y x) ->
  arith zi ff a b = arith zi ff b a.
Proof.
  intros Hz Hf. unfold arith, to_float.
  destruct a as [x|x], b as [y|y]; simpl; try (now rewrite Hz); try (now rewrite Hf).
  - destruct (float_of_int x); simpl; [now rewrite Hf|reflexivity].
  - destruct (float_of_int y); simpl; [now rewrite Hf|reflexivity].
Qed.
Lemma nadd_comm a b : nadd a b = nadd b a.
Proof. apply arith_comm; [apply Z.add_comm|apply fadd_comm]. Qed.
Lemma nmul_comm a b : nmul a b = nmul b a.
Proof. apply arith_comm; [apply Z.mul_comm|apply fmul_comm]. Qed.

(** ** Negation *)
Lemma nneg_involutive a : nneg (nneg a) = a.
Proof.
  destruct a as [z|[]]; simpl; now rewrite ?Bool.negb_involutive, ?Z.opp_involutive.
Qed.

(** ** Binary digits *)
Lemma digits2_pos_bound p :
  2 ^ (Zpos (digits2_pos p) - 1) <= Zpos p < 2 ^ Zpos (digits2_pos p).
Proof.
  induction p as [p IH|p IH|]; cbn [digits2_pos].
  - rewrite Pos2Z.inj_succ.
    replace (Z.succ (Zpos (digits2_pos p)) - 1) with (Z.succ (Zpos (digits2_pos p) - 1)) by lia.
    rewrite !Z.pow_succ_r by lia. lia.
  - rewrite Pos2Z.inj_succ.
    replace (Z.succ (Zpos (digits2_pos p)) - 1) with (Z.succ (Zpos (digits2_pos p) - 1)) by lia.
    rewrite !Z.pow_succ_r by lia. lia.
  - simpl. lia.
Qed.

Lemma digits2_unique p d : 0 <= d -> 2 ^ (d - 1) <= Zpos p < 2 ^ d -> Zpos (digits2_pos p) = d.
Proof.
  intros Hd H. pose proof (digits2_pos_bound p) as B.
  set (k := Zpos (digits2_pos p)) in *.
  assert (Hk : 0 < k) by (unfold k; lia).
  destruct (Z.lt_trichotomy k d) as [Hlt|[Heq|Hgt]]; [exfalso|exact Heq|exfalso].
  - assert (2 ^ k <= 2 ^ (d - 1)) by (apply Z.pow_le_mono_r; lia). lia.
  - assert (2 ^ d <= 2 ^ (k - 1)) by (apply Z.pow_le_mono_r; lia). lia.
Qed.

Lemma digits2_mul p q k : 0 <= k -> Zpos q = Zpos p * 2 ^ k ->
  Zpos (digits2_pos q) = Zpos (digits2_pos p) + k.
Proof.
  intros Hk E. apply digits2_unique; [lia|].
  pose proof (digits2_pos_bound p) as B. rewrite E.
  replace (Zpos (digits2_pos p) + k - 1) with ((Zpos (digits2_pos p) - 1) + k) by lia.
  rewrite !Z.pow_add_r by lia. nia.
Qed.

Lemma digits2_le p n : 0 <= n -> Zpos p < 2 ^ n -> Zpos (digits2_pos p) <= n.
Proof.
  intros Hn H. pose proof (digits2_pos_bound p) as B.
  destruct (Z.le_gt_cases (Zpos (digits2_pos p)) n) as [|Hgt]; [assumption|exfalso].
  assert (2 ^ n <= 2 ^ (Zpos (digits2_pos p) - 1)) by (apply Z.pow_le_mono_r; lia). lia.
Qed.

(** ** Exact rounding *)
Lemma iter_pos_succ_comm {A} (f : A -> A) p x : iter_pos f p (f x) = f (iter_pos f p x).
Proof.
  revert x; induction p as [p IH|p IH|]; intros x; cbn [iter_pos]; now rewrite ?IH.
Qed.
Lemma iter_succ {A} (f : A -> A) n x : Nat.iter (S n) f x = f (Nat.iter n f x).
Proof. reflexivity. Qed.
Lemma iter_add {A} (f : A -> A) n m x : Nat.iter (n + m) f x = Nat.iter n f (Nat.iter m f x).
Proof. induction n as [|n IH]; [reflexivity|]. cbn [Nat.add]. now rewrite !iter_succ, IH. Qed.
Lemma iter_pos_nat {A} (f : A -> A) p x : iter_pos f p x = Nat.iter (Pos.to_nat p) f x.
Proof.
  revert x; induction p as [p IH|p IH|]; intros x; cbn [iter_pos].
  - rewrite !IH. replace (Pos.to_nat p~1) with (S (Pos.to_nat p + Pos.to_nat p)) by lia.
    rewrite iter_succ, iter_add. rewrite <- !IH. now rewrite !iter_pos_succ_comm.
  - rewrite !IH. replace (Pos.to_nat p~0) with (Pos.to_nat p + Pos.to_nat p)%nat by lia.
    now rewrite iter_add.
  - reflexivity.
Qed.

Lemma shr_1_exact m : shr_1 (Build_shr_record (2 * Zpos m) false false)
                      = Build_shr_record (Zpos m) false false.
Proof. reflexivity. Qed.

Lemma shr_iter_exact n m :
  Nat.iter n shr_1 (Build_shr_record (Zpos m * 2 ^ Z.of_nat n) false false)
  = Build_shr_record (Zpos m) false false.
Proof.
  revert m; induction n as [|n IH]; intros m.
  - simpl. now rewrite Pos.mul_1_r.
  - rewrite iter_succ.
    replace (Zpos m * 2 ^ Z.of_nat (S n)) with (Zpos (2 * m) * 2 ^ Z.of_nat n).
    + rewrite IH. apply shr_1_exact.
    + rewrite Nat2Z.inj_succ, Z.pow_succ_r by lia. lia.
Qed.

Lemma shift_pos_eq d m : Zpos (shift_pos d m) = Zpos m * 2 ^ Zpos d.
Proof.
  rewrite shift_pos_correct. unfold Zpower_pos. rewrite Z.mul_comm. reflexivity.
Qed.

Lemma shl_align_fst m e e' : e' <= e -> Zpos (fst (shl_align m e e')) = Zpos m * 2 ^ (e - e').
Proof.
  intros H. unfold shl_align. destruct (e' - e) as [|d|d] eqn:E.
  - replace (e - e') with 0 by lia. simpl. lia.
  - lia.
  - cbn [fst]. rewrite shift_pos_eq. f_equal. f_equal. lia.
Qed.
Lemma shl_align_snd m e e' : e' <= e -> snd (shl_align m e e') = e'.
Proof.
  intros H. unfold shl_align. destruct (e' - e) as [|d|d] eqn:E; simpl; lia.
Qed.
Lemma shl_align_id m e e' : e <= e' -> shl_align m e e' = (m, e).
Proof. intros H. unfold shl_align. destruct (e' - e) as [|d|d] eqn:E; try reflexivity; lia. Qed.

Notation fexp64 := (fexp prec64 emax64).

(** rounding a mantissa already at its target exponent *)
Lemma round_aux_canonical s m e :
  fexp64 (Zpos (digits2_pos m) + e) = e -> e <= 971 ->
  binary_round_aux prec64 emax64 s (Zpos m) e loc_Exact = S754_finite s m e.
Proof.
  intros Hf He. unfold binary_round_aux, shr_fexp. cbn [Zdigits2 shr_record_of_loc].
  rewrite Hf, Z.sub_diag. cbn [shr shr_m loc_of_shr_record round_nearest_even].
  cbn [Zdigits2 shr_record_of_loc]. rewrite Hf, Z.sub_diag. cbn [shr shr_m].
  change (emax64 - prec64) with 971. apply Zle_imp_le_bool in He. now rewrite He.
Qed.

(** [m * 2^e] where the target exponent is above [e], exactly divisible *)
Lemma round_aux_shift s m k e :
  fexp64 (Zpos (digits2_pos m) + (e + Zpos k)) = e + Zpos k -> e + Zpos k <= 971 ->
  binary_round_aux prec64 emax64 s (Zpos m * 2 ^ Zpos k) e loc_Exact
  = S754_finite s m (e + Zpos k).
Proof.
  intros Hf He.
  assert (Hp : exists q, Zpos m * 2 ^ Zpos k = Zpos q).
  { exists (m * 2 ^ k)%positive. rewrite Pos2Z.inj_mul, Pos2Z.inj_pow. reflexivity. }
  destruct Hp as [q Hq].
  assert (Hd : Zpos (digits2_pos q) = Zpos (digits2_pos m) + Zpos k).
  { apply digits2_mul; [lia|]. now rewrite Hq. }
  unfold binary_round_aux, shr_fexp. rewrite Hq. cbn [Zdigits2 shr_record_of_loc]. rewrite Hd.
  replace (Zpos (digits2_pos m) + Zpos k + e) with (Zpos (digits2_pos m) + (e + Zpos k)) by lia.
  rewrite Hf. replace (e + Zpos k - e) with (Zpos k) by lia. cbn [shr].
  rewrite iter_pos_nat, <- Hq.
  replace (Zpos m * 2 ^ Zpos k) with (Zpos m * 2 ^ Z.of_nat (Pos.to_nat k))
    by (now rewrite positive_nat_Z).
  rewrite shr_iter_exact. cbn [shr_m loc_of_shr_record round_nearest_even Zdigits2 shr_record_of_loc].
  rewrite Hf, Z.sub_diag. cbn [shr shr_m].
  change (emax64 - prec64) with 971. apply Zle_imp_le_bool in He. now rewrite He.
Qed.

(** A float is canonical iff [fvalid].  If [m * 2^e] equals the value of the
    canonical float [(m', e')], then normalising [m * 2^e] yields it. *)
Lemma normalize_pos_exact s m e m' e' :
  bounded prec64 emax64 m' e' = true ->
  Zpos m * 2 ^ (e - Z.min e e') = Zpos m' * 2 ^ (e' - Z.min e e') ->
  binary_round prec64 emax64 s m e = S754_finite s m' e'.
Proof.
  intros Hb E. unfold bounded, canonical_mantissa in Hb. apply andb_true_iff in Hb as [Hc He].
  apply Zeq_bool_eq in Hc. apply Zle_bool_imp_le in He. change (emax64 - prec64) with 971 in He.
  unfold binary_round.
  destruct (Z.le_gt_cases e e') as [Hle|Hgt].
  - rewrite Z.min_l in E by lia. rewrite Z.sub_diag, Z.pow_0_r, Z.mul_1_r in E.
    assert (Hd : Zpos (digits2_pos m) = Zpos (digits2_pos m') + (e' - e)).
    { apply digits2_mul; [lia|exact E]. }
    rewrite Hd. replace (Zpos (digits2_pos m') + (e' - e) + e) with (Zpos (digits2_pos m') + e') by lia.
    rewrite Hc. rewrite shl_align_id by lia. rewrite E.
    destruct (e' - e) as [|k|k] eqn:Ek; [| |lia].
    + replace e with e' in * by lia. rewrite Z.pow_0_r, Z.mul_1_r. now apply round_aux_canonical.
    + replace e' with (e + Zpos k) in * by lia. now apply round_aux_shift.
  - rewrite Z.min_r in E by lia. rewrite Z.sub_diag, Z.pow_0_r, Z.mul_1_r in E.
    assert (Hd : Zpos (digits2_pos m') = Zpos (digits2_pos m) + (e - e')).
    { apply digits2_mul; [lia|now rewrite E]. }
    replace (Zpos (digits2_pos m) + e) with (Zpos (digits2_pos m') + e') by lia.
    rewrite Hc.
    destruct (shl_align m e e') as [mz ez] eqn:Es.
    pose proof (shl_align_fst m e e' ltac:(lia)) as H1.
    pose proof (shl_align_snd m e e' ltac:(lia)) as H2.
    rewrite Es in H1, H2. cbn [fst snd] in H1, H2. subst ez.
    rewrite E in H1. injection H1 as H1. subst mz. now apply round_aux_canonical.
Qed.

(** ** Exactness in terms of rational values *)
Definition veq (m e m' e' : Z) : Prop :=
  m * 2 ^ (e - Z.min e e') = m' * 2 ^ (e' - Z.min e e').

Lemma pow2_pos k : 0 < 2 ^ k \/ 2 ^ k = 0.
Proof. destruct (Z.le_gt_cases 0 k); [left; apply Z.pow_pos_nonneg; lia|right; apply Z.pow_neg_r; lia]. Qed.

Lemma veq_base b m e m' e' : b <= e -> b <= e' ->
  (m * 2 ^ (e - b) = m' * 2 ^ (e' - b) <-> veq m e m' e').
Proof.
  intros H1 H2. unfold veq. set (c := Z.min e e').
  replace (e - b) with ((e - c) + (c - b)) by lia.
  replace (e' - b) with ((e' - c) + (c - b)) by lia.
  rewrite !Z.pow_add_r by lia. rewrite !Z.mul_assoc.
  assert (0 < 2 ^ (c - b)) by (apply Z.pow_pos_nonneg; lia).
  split; intros E; [|now rewrite E]. apply (Z.mul_reg_r _ _ (2 ^ (c - b))); [lia|exact E].
Qed.
Lemma veq_refl m e : veq m e m e.
Proof. reflexivity. Qed.
Lemma veq_sym m e m' e' : veq m e m' e' -> veq m' e' m e.
Proof. unfold veq. now rewrite (Z.min_comm e' e). Qed.
Lemma veq_trans m e m1 e1 m2 e2 : veq m e m1 e1 -> veq m1 e1 m2 e2 -> veq m e m2 e2.
Proof.
  intros H1 H2. set (b := Z.min e (Z.min e1 e2)).
  apply (veq_base b) in H1; [|lia|lia]. apply (veq_base b) in H2; [|lia|lia].
  apply (veq_base b); [lia|lia|congruence].
Qed.

Lemma dyadic_Qeq m e m' e' : (dyadic m e == dyadic m' e')%Q <-> veq m e m' e'.
Proof.
  Ltac fin := rewrite ?Z.pow_0_r, ?Z.mul_1_r; split; intros ?Hx; lia.
  assert (P : forall p, Zpos (2 ^ p) = 2 ^ Zpos p) by (intros; apply Pos2Z.inj_pow).
  unfold Qeq, dyadic.
  destruct e as [|p|p], e' as [|p'|p']; cbn [Qnum Qden]; rewrite ?P, ?Z.mul_1_r.
  - unfold veq. simpl. lia.
  - rewrite <- (veq_base 0) by lia. rewrite !Z.sub_0_r. fin.
  - rewrite <- (veq_base (Zneg p')) by lia. rewrite Z.sub_diag. rewrite !Z.pow_0_r, !Z.mul_1_r.
    replace (0 - Zneg p') with (Zpos p') by lia. fin.
  - rewrite <- (veq_base 0) by lia. rewrite !Z.sub_0_r. fin.
  - rewrite <- (veq_base 0) by lia. rewrite !Z.sub_0_r. fin.
  - rewrite <- (veq_base (Zneg p')) by lia. rewrite Z.sub_diag, Z.pow_0_r, Z.mul_1_r.
    replace (Zpos p - Zneg p') with (Zpos p + Zpos p') by lia.
    rewrite Z.pow_add_r by lia. rewrite Z.mul_assoc. fin.
  - rewrite <- (veq_base (Zneg p)) by lia. rewrite Z.sub_diag, !Z.pow_0_r, !Z.mul_1_r.
    replace (0 - Zneg p) with (Zpos p) by lia. fin.
  - rewrite <- (veq_base (Zneg p)) by lia. rewrite Z.sub_diag, Z.pow_0_r, Z.mul_1_r.
    replace (Zpos p' - Zneg p) with (Zpos p' + Zpos p) by lia.
    rewrite Z.pow_add_r by lia. rewrite Z.mul_assoc. fin.
  - rewrite <- (veq_base (Zneg p + Zneg p')) by lia.
    replace (Zneg p - (Zneg p + Zneg p')) with (Zpos p') by lia.
    replace (Zneg p' - (Zneg p + Zneg p')) with (Zpos p) by lia. fin.
Qed.

Lemma dyadic_shift m e k : 0 <= k -> (dyadic (m * 2 ^ k) (e - k) == dyadic m e)%Q.
Proof.
  intros Hk. apply dyadic_Qeq. apply (veq_base (e - k)); [lia|lia|].
  rewrite Z.sub_diag, Z.pow_0_r, Z.mul_1_r. f_equal. f_equal. lia.
Qed.
Lemma dyadic_add m m' e : (dyadic m e + dyadic m' e == dyadic (m + m') e)%Q.
Proof.
  unfold dyadic, Qeq, Qplus. destruct e; cbn [Qnum Qden]; lia.
Qed.
Lemma dyadic_opp m e : (- dyadic m e == dyadic (- m) e)%Q.
Proof. unfold dyadic, Qeq, Qopp. destruct e; cbn [Qnum Qden]; lia. Qed.
Lemma dyadic_mul m e m' e' : (dyadic m e * dyadic m' e' == dyadic (m * m') (e + e'))%Q.
Proof.
  set (k := Z.max 0 (Z.max (-e) (-e'))).
  assert (A : forall m e, -k <= e -> (dyadic m e == (m * 2 ^ (e + k)) # (Z.to_pos (2 ^ k)))%Q).
  { intros n f Hf. rewrite <- (dyadic_shift n f (f + k)) by lia.
    replace (f - (f + k)) with (-k) by lia.
    unfold dyadic. destruct k as [|p|p] eqn:Ek; [unfold Qeq; simpl; lia| |lia].
    cbn [Z.opp]. rewrite <- Pos2Z.inj_pow. reflexivity. }
  rewrite (A m e), (A m' e') by lia.
  rewrite <- (dyadic_shift (m * m') (e + e') (e + k + (e' + k))) by lia.
  replace (e + e' - (e + k + (e' + k))) with (- (k + k)) by lia.
  rewrite (Z.pow_add_r 2 (e + k) (e' + k)) by lia.
  unfold Qmult, Qeq; cbn [Qnum Qden].
  unfold dyadic. destruct k as [|p|p] eqn:Ek; [| |lia].
  - change (Z.to_pos (2 ^ 0)) with 1%positive. cbn [Z.opp Z.add Qnum Qden].
    change (Zpos (1 * 1)) with 1. change (2 ^ 0) with 1. ring.
  - cbn [Z.opp Z.add Qnum Qden]. rewrite <- Pos2Z.inj_pow. cbn [Z.to_pos].
    rewrite Pos2Z.inj_mul, !Pos2Z.inj_pow, Pos2Z.inj_add, (Z.pow_add_r 2 (Zpos p) (Zpos p)) by lia. ring.
Qed.

(** [fin f q] : the float has the exact finite value [q]. *)
Definition xfin (x : ext) (q : Q) : Prop := match x with XFin p => (p == q)%Q | _ => False end.
Definition ffin (f : float64) (q : Q) : Prop := xfin (fval f) q.
Definition nfin (n : num) (q : Q) : Prop := xfin (nval n) q.
Definition nvalid (n : num) : Prop := match n with NI _ => True | NF f => fvalid f = true end.

(** rationals exactly representable as doubles *)
Definition repr (q : Q) : Prop :=
  exists m e, Z.abs m < 2 ^ 53 /\ -1074 <= e <= 971 /\ (q == dyadic m e)%Q.

#[global] Instance repr_proper : Proper (Qeq ==> iff) repr.
Proof.
  intros a b E. split; intros (m & e & H1 & H2 & H3); exists m, e; repeat split; try lia;
    [rewrite <- E|rewrite E]; exact H3.
Qed.
#[global] Instance ffin_proper f : Proper (Qeq ==> iff) (ffin f).
Proof. intros a b E. unfold ffin, xfin. destruct (fval f); try tauto. now rewrite E. Qed.
#[global] Instance nfin_proper f : Proper (Qeq ==> iff) (nfin f).
Proof. intros a b E. unfold nfin, xfin. destruct (nval f); try tauto. now rewrite E. Qed.

Lemma canon_exists m e : Zpos m < 2 ^ 53 -> -1074 <= e <= 971 ->
  exists m' e', bounded prec64 emax64 m' e' = true /\ veq (Zpos m) e (Zpos m') e'.
Proof.
  intros Hm He. pose proof (digits2_le m 53 ltac:(lia) Hm) as Hd.
  set (d := Zpos (digits2_pos m)) in *. set (e' := fexp64 (d + e)).
  assert (Ee' : e' = Z.max (d + e - 53) (-1074)) by reflexivity.
  assert (Hle : e' <= e) by lia.
  set (q := Zpos m * 2 ^ (e - e')).
  assert (Hq : 0 < q) by (unfold q; apply Z.mul_pos_pos; [lia|apply Z.pow_pos_nonneg; lia]).
  exists (Z.to_pos q), e'. split.
  - unfold bounded, canonical_mantissa.
    assert (Hdq : Zpos (digits2_pos (Z.to_pos q)) = d + (e - e')).
    { apply digits2_mul; [lia|]. rewrite Z2Pos.id by lia. reflexivity. }
    rewrite Hdq. replace (d + (e - e') + e') with (d + e) by lia. fold e'.
    apply andb_true_iff. split; [now apply Zeq_is_eq_bool|].
    apply Zle_imp_le_bool. change (emax64 - prec64) with 971. lia.
  - apply (veq_base e'); [lia|lia|]. rewrite Z2Pos.id by lia.
    rewrite Z.sub_diag, Z.pow_0_r, Z.mul_1_r. reflexivity.
Qed.

Lemma dyadic_0 e : (dyadic 0 e == 0)%Q.
Proof. unfold dyadic, Qeq. destruct e; reflexivity. Qed.
Lemma dyadic_eq0 m e : (dyadic m e == 0)%Q -> m = 0.
Proof.
  unfold dyadic, Qeq. destruct e as [|p|p]; cbn [Qnum Qden]; try lia;
  assert (0 < 2 ^ Zpos p) by (apply Z.pow_pos_nonneg; lia); nia.
Qed.

Lemma dyadic_sgn m e m' e' : (dyadic m e == dyadic m' e')%Q -> Z.sgn m = Z.sgn m'.
Proof.
  intros H. apply dyadic_Qeq in H. unfold veq in H.
  assert (0 < 2 ^ (e - Z.min e e')) by (apply Z.pow_pos_nonneg; lia).
  assert (0 < 2 ^ (e' - Z.min e e')) by (apply Z.pow_pos_nonneg; lia).
  apply (f_equal Z.sgn) in H. rewrite !Z.sgn_mul in H.
  rewrite (Z.sgn_pos (2 ^ (e - _))), (Z.sgn_pos (2 ^ (e' - _))) in H by lia. lia.
Qed.

Lemma fnormalize_exact m e s q :
  (q == dyadic m e)%Q -> repr q -> ffin (fnormalize m e s) q /\ fvalid (fnormalize m e s) = true.
Proof.
  intros Hq (m0 & e0 & Hm0 & He0 & Hr).
  assert (Hv : veq m e m0 e0) by (apply dyadic_Qeq; rewrite <- Hq; exact Hr).
  pose proof (dyadic_sgn m e m0 e0 ltac:(rewrite <- Hq; exact Hr)) as Hs.
  destruct m as [|m|m].
  - simpl. split; [|reflexivity]. unfold ffin, xfin; simpl. rewrite Hq, dyadic_0. reflexivity.
  - destruct m0 as [|m0|m0]; simpl in Hs; try discriminate.
    destruct (canon_exists m0 e0 ltac:(lia) ltac:(lia)) as (m' & e' & Hb & Hv').
    assert (E : fnormalize (Zpos m) e s = S754_finite false m' e').
    { apply normalize_pos_exact; [exact Hb|]. exact (veq_trans _ _ _ _ _ _ Hv Hv'). }
    rewrite E. split; [|exact Hb]. unfold ffin; simpl. rewrite Hr. symmetry. now apply dyadic_Qeq.
  - destruct m0 as [|m0|m0]; simpl in Hs; try discriminate.
    destruct (canon_exists m0 e0 ltac:(lia) ltac:(lia)) as (m' & e' & Hb & Hv').
    assert (E : fnormalize (Zneg m) e s = S754_finite true m' e').
    { apply normalize_pos_exact; [exact Hb|]. apply (veq_trans _ _ (Zpos m0) e0); [|exact Hv'].
      unfold veq in *. lia. }
    rewrite E. split; [|exact Hb]. unfold ffin; simpl. rewrite Hr.
    change (Zneg m0) with (- Zpos m0). change (Zneg m') with (- Zpos m'). rewrite <- !dyadic_opp.
    apply Qopp_comp. symmetry. now apply dyadic_Qeq.
Qed.

(** two canonical floats with the same non-zero value are identical *)
Lemma canonical_unique x y q :
  fvalid x = true -> fvalid y = true -> ffin x q -> ffin y q -> ~ (q == 0)%Q -> x = y.
Proof.
  unfold ffin, fvalid.
  destruct x as [sx|[]| |sx mx ex], y as [sy|[]| |sy my ey]; simpl; try tauto;
    intros Vx Vy Hx Hy Hq; try (exfalso; apply Hq; rewrite <- Hx; reflexivity);
    try (exfalso; apply Hq; rewrite <- Hy; reflexivity).
  assert (E : (dyadic (cond_Zopp sx (Zpos mx)) ex == dyadic (cond_Zopp sy (Zpos my)) ey)%Q)
    by (rewrite Hx, Hy; reflexivity).
  pose proof (dyadic_sgn _ _ _ _ E) as Hs. apply dyadic_Qeq in E.
  assert (sx = sy) by (destruct sx, sy; simpl in Hs; congruence). subst sy.
  assert (E' : veq (Zpos mx) ex (Zpos my) ey) by (unfold veq in *; destruct sx; cbn [cond_Zopp] in E; nia).
  pose proof (normalize_pos_exact sx mx ex my ey Vy E') as A1.
  pose proof (normalize_pos_exact sx mx ex mx ex Vx (veq_refl _ _)) as A2. congruence.
Qed.

Lemma ffin_finite s m e q : ffin (S754_finite s m e) q <-> (dyadic (cond_Zopp s (Zpos m)) e == q)%Q.
Proof. reflexivity. Qed.

Lemma align_value s m e ez : ez <= e ->
  (dyadic (cond_Zopp s (Zpos (fst (shl_align m e ez)))) ez == dyadic (cond_Zopp s (Zpos m)) e)%Q.
Proof.
  intros H. rewrite shl_align_fst by lia.
  rewrite <- (dyadic_shift (cond_Zopp s (Zpos m)) e (e - ez)) by lia.
  replace (e - (e - ez)) with ez by lia.
  replace (cond_Zopp s (Zpos m * 2 ^ (e - ez))) with (cond_Zopp s (Zpos m) * 2 ^ (e - ez));
    [reflexivity|]. destruct s; cbn [cond_Zopp]; ring.
Qed.

Lemma fadd_exact x y a b :
  fvalid x = true -> fvalid y = true -> ffin x a -> ffin y b -> repr (a + b) ->
  ffin (fadd x y) (a + b) /\ fvalid (fadd x y) = true.
Proof.
  intros Vx Vy. unfold fadd.
  destruct x as [sx|[]| |sx mx ex], y as [sy|[]| |sy my ey]; unfold ffin at 1 2; simpl fval;
    unfold xfin; try tauto; intros Ha Hb Hr.
  - unfold SFadd. destruct (Bool.eqb sx sy); (split; [|reflexivity]);
      unfold ffin; simpl; rewrite <- Ha, <- Hb; reflexivity.
  - cbn [SFadd]. split; [|exact Vy]. unfold ffin; simpl. rewrite <- Ha, Hb. ring.
  - cbn [SFadd]. split; [|exact Vx]. unfold ffin; simpl. rewrite <- Hb, Ha. ring.
  - cbn [SFadd]. cbv zeta. apply fnormalize_exact; [|exact Hr].
    rewrite <- dyadic_add, !align_value by lia. now rewrite Ha, Hb.
Qed.

Lemma fopp_exact x a : ffin x a -> ffin (fopp x) (- a).
Proof.
  destruct x as [s|[]| |s m e]; unfold ffin; simpl; try tauto; intros H.
  - rewrite <- H. reflexivity.
  - rewrite <- H, dyadic_opp. destruct s; reflexivity.
Qed.
Lemma fopp_valid x : fvalid (fopp x) = fvalid x.
Proof. destruct x; reflexivity. Qed.

Lemma fsub_exact x y a b :
  fvalid x = true -> fvalid y = true -> ffin x a -> ffin y b -> repr (a - b) ->
  ffin (fsub x y) (a - b) /\ fvalid (fsub x y) = true.
Proof.
  intros Vx Vy. unfold fsub.
  destruct x as [sx|[]| |sx mx ex], y as [sy|[]| |sy my ey]; unfold ffin at 1 2; simpl fval;
    unfold xfin; try tauto; intros Ha Hb Hr.
  - unfold SFsub. destruct (Bool.eqb sx (negb sy)); (split; [|reflexivity]);
      unfold ffin; simpl; rewrite <- Ha, <- Hb; reflexivity.
  - cbn [SFsub]. split; [|exact Vy]. unfold ffin; simpl. rewrite <- Ha, <- Hb.
    destruct sy; cbn [negb cond_Zopp].
    + change (Zpos my) with (- - Zpos my). rewrite <- (dyadic_opp (- Zpos my)). ring_simplify. reflexivity.
    + rewrite <- dyadic_opp. ring.
  - cbn [SFsub]. split; [|exact Vx]. unfold ffin; simpl. rewrite <- Hb, Ha. ring.
  - cbn [SFsub]. cbv zeta. apply fnormalize_exact; [|exact Hr].
    unfold Z.sub. rewrite <- dyadic_add, <- dyadic_opp, !align_value by lia. rewrite Ha, Hb. reflexivity.
Qed.

Lemma dyadic_int z : (dyadic z 0 == inject_Z z)%Q.
Proof. unfold dyadic, Qeq; simpl. lia. Qed.

Lemma float_of_int_exact z : repr (inject_Z z) ->
  exists f, float_of_int z = Ok f /\ ffin f (inject_Z z) /\ fvalid f = true.
Proof.
  intros Hr. destruct (fnormalize_exact z 0 false (inject_Z z)) as [H1 H2];
    [now rewrite dyadic_int|exact Hr|].
  unfold float_of_int. exists (fnormalize z 0 false).
  destruct (fnormalize z 0 false) as [s|[]| |]; try (split; [reflexivity|split; assumption]).
  - destruct H1.
  - destruct H1.
Qed.

Lemma repr_int z : Z.abs z < 2 ^ 53 -> repr (inject_Z z).
Proof. intros H. exists z, 0. repeat split; try lia. now rewrite dyadic_int. Qed.

Lemma to_float_exact n q : nvalid n -> nfin n q -> repr q ->
  exists f, to_float n = Ok f /\ ffin f q /\ fvalid f = true.
Proof.
  destruct n as [z|f]; intros V H R; simpl.
  - unfold nfin, xfin in H; simpl in H.
    destruct (float_of_int_exact z) as (f & H1 & H2 & H3); [now rewrite H|].
    exists f. repeat split; auto. now rewrite <- H.
  - exists f. repeat split; auto.
Qed.

Definition exact2 (op : num -> num -> res num) (qop : Q -> Q -> Q) : Prop :=
  forall a b qa qb, nvalid a -> nvalid b -> nfin a qa -> nfin b qb ->
    repr qa -> repr qb -> repr (qop qa qb) ->
    exists c, op a b = Ok c /\ nvalid c /\ nfin c (qop qa qb).

Lemma nadd_exact : exact2 nadd Qplus.
Proof.
  intros a b qa qb Va Vb Ha Hb Ra Rb Rc.
  destruct (to_float_exact a qa Va Ha Ra) as (fa & Fa & Ga & Wa).
  destruct (to_float_exact b qb Vb Hb Rb) as (fb & Fb & Gb & Wb).
  destruct (fadd_exact fa fb qa qb Wa Wb Ga Gb Rc) as [H1 H2].
  unfold nadd, arith. destruct a as [x|x], b as [y|y].
  - exists (NI (x + y)). repeat split. unfold nfin, xfin in *; simpl in *.
    rewrite inject_Z_plus, Ha, Hb. reflexivity.
  - rewrite Fa, Fb. simpl. exists (NF (fadd fa fb)). repeat split; assumption.
  - rewrite Fa, Fb. simpl. exists (NF (fadd fa fb)). repeat split; assumption.
  - rewrite Fa, Fb. simpl. exists (NF (fadd fa fb)). repeat split; assumption.
Qed.
Lemma nsub_exact : exact2 nsub Qminus.
Proof.
  intros a b qa qb Va Vb Ha Hb Ra Rb Rc.
  destruct (to_float_exact a qa Va Ha Ra) as (fa & Fa & Ga & Wa).
  destruct (to_float_exact b qb Vb Hb Rb) as (fb & Fb & Gb & Wb).
  destruct (fsub_exact fa fb qa qb Wa Wb Ga Gb Rc) as [H1 H2].
  unfold nsub, arith. destruct a as [x|x], b as [y|y].
  - exists (NI (x - y)). repeat split. unfold nfin, xfin in *; simpl in *.
    rewrite <- Ha, <- Hb. unfold inject_Z, Qminus, Qplus, Qopp, Qeq; simpl. lia.
  - rewrite Fa, Fb. simpl. exists (NF (fsub fa fb)). repeat split; assumption.
  - rewrite Fa, Fb. simpl. exists (NF (fsub fa fb)). repeat split; assumption.
  - rewrite Fa, Fb. simpl. exists (NF (fsub fa fb)). repeat split; assumption.
Qed.
Lemma nneg_exact n q : nfin n q -> nfin (nneg n) (- q).
Proof.
  destruct n as [z|f]; [|apply fopp_exact].
  unfold nfin, xfin; simpl. intros H. rewrite <- H. reflexivity.
Qed.
Lemma nneg_valid n : nvalid n -> nvalid (nneg n).
Proof. destruct n as [z|f]; simpl; [auto|]. now rewrite fopp_valid. Qed.

Lemma nfin_xeq a b q : nfin a q -> nfin b q -> neqb a b = true.
Proof.
  unfold nfin, xfin. intros Ha Hb. apply neqb_spec. unfold xeq.
  destruct (nval a), (nval b); try tauto. simpl. f_equal. apply Qeq_alt. now rewrite Ha, Hb.
Qed.
Lemma nfin_neqb a b qa qb : nfin a qa -> nfin b qb -> (neqb a b = true <-> (qa == qb)%Q).
Proof.
  unfold nfin, xfin. intros Ha Hb. rewrite neqb_spec. unfold xeq.
  destruct (nval a), (nval b); try tauto. simpl. rewrite <- Ha, <- Hb.
  rewrite Qeq_alt. split; congruence.
Qed.
Lemma nfin_nltb a b qa qb : nfin a qa -> nfin b qb -> (nltb a b = true <-> (qa < qb)%Q).
Proof.
  unfold nfin, xfin. intros Ha Hb. rewrite nltb_spec. unfold xlt.
  destruct (nval a), (nval b); try tauto. simpl. rewrite <- Ha, <- Hb.
  rewrite Qlt_alt. split; congruence.
Qed.

(** multiples of 1/256 *)
Definition on_grid (k : Z) (n : num) : Prop := nvalid n /\ nfin n (k # 256).

Lemma repr_grid k : Z.abs k < 2 ^ 53 -> repr (k # 256).
Proof.
  intros H. exists k, (-8). repeat split; try lia.
Qed.
Lemma grid_add a b x y : on_grid a x -> on_grid b y ->
  Z.abs a < 2 ^ 53 -> Z.abs b < 2 ^ 53 -> Z.abs (a + b) < 2 ^ 53 ->
  exists z, nadd x y = Ok z /\ on_grid (a + b) z.
Proof.
  intros [Vx Hx] [Vy Hy] Ba Bb Bc.
  assert (E : ((a # 256) + (b # 256) == (a + b) # 256)%Q) by (unfold Qeq, Qplus; cbn [Qnum Qden]; lia).
  destruct (nadd_exact x y (a # 256) (b # 256)) as (z & H1 & H2 & H3);
    try assumption; try (now apply repr_grid); [rewrite E; now apply repr_grid|].
  exists z. repeat split; try assumption. now rewrite <- E.
Qed.
Lemma grid_sub a b x y : on_grid a x -> on_grid b y ->
  Z.abs a < 2 ^ 53 -> Z.abs b < 2 ^ 53 -> Z.abs (a - b) < 2 ^ 53 ->
  exists z, nsub x y = Ok z /\ on_grid (a - b) z.
Proof.
  intros [Vx Hx] [Vy Hy] Ba Bb Bc.
  assert (E : ((a # 256) - (b # 256) == (a - b) # 256)%Q)
    by (unfold Qeq, Qminus, Qopp, Qplus; cbn [Qnum Qden]; lia).
  destruct (nsub_exact x y (a # 256) (b # 256)) as (z & H1 & H2 & H3);
    try assumption; try (now apply repr_grid); [rewrite E; now apply repr_grid|].
  exists z. repeat split; try assumption. now rewrite <- E.
Qed.
Lemma grid_neg a x : on_grid a x -> on_grid (- a) (nneg x).
Proof.
  intros [V H]. split; [now apply nneg_valid|].
  assert (E : (- (a # 256) == (- a) # 256)%Q) by reflexivity.
  rewrite <- E. now apply nneg_exact.
Qed.
Lemma grid_neqb a b x y : on_grid a x -> on_grid b y -> (neqb x y = true <-> a = b).
Proof.
  intros [_ Hx] [_ Hy]. rewrite (nfin_neqb _ _ _ _ Hx Hy). unfold Qeq; cbn [Qnum Qden]. lia.
Qed.
Lemma grid_nltb a b x y : on_grid a x -> on_grid b y -> (nltb x y = true <-> a < b).
Proof.
  intros [_ Hx] [_ Hy]. rewrite (nfin_nltb _ _ _ _ Hx Hy). unfold Qlt; cbn [Qnum Qden]. lia.
Qed.
Lemma grid_unique a x y : on_grid a (NF x) -> on_grid a (NF y) -> a <> 0 -> x = y.
Proof.
  intros [Vx Hx] [Vy Hy] Ha. apply (canonical_unique x y (a # 256)); try assumption.
  unfold Qeq; cbn [Qnum Qden]. lia.
Qed.
