(** * Proofs of C62: the arithmetic of numbers is correctly rounded. *)
From Coq Require Import Lia.
From Verif Require Import Py Num NumFacts RoundFacts Util SpecRound RoundProofs SpecVector VectorProofs SpecArith.
Open Scope Z_scope.

Lemma one_unit_pos : 0 < one_unit.
Proof. unfold one_unit. apply Z.pow_pos_nonneg; lia. Qed.
Lemma pow_split e : -1074 <= e -> 2 ^ (e + 1074) * 2 ^ Z.max (- e) 0 = one_unit * 2 ^ Z.max e 0.
Proof. intros H. unfold one_unit. rewrite <- !Z.pow_add_r by lia. f_equal. lia. Qed.
Lemma units_abs s m e : Z.abs (units (S754_finite s m e)) = Zpos m * 2 ^ (e + 1074).
Proof.
  cbn [units]. pose proof (Z.pow_nonneg 2 (e + 1074) ltac:(lia)) as P.
  destruct s; [replace (-1 * Zpos m * 2 ^ (e + 1074)) with (- (Zpos m * 2 ^ (e + 1074))) by ring; rewrite Z.abs_opp|rewrite Z.mul_1_l];
  apply Z.abs_eq, Z.mul_nonneg_nonneg; lia.
Qed.
Lemma units_sgn s m e : -1074 <= e -> units (S754_finite s m e) <> 0 /\ (units (S754_finite s m e) <? 0) = s.
Proof.
  intros H. cbn [units]. assert (P : 0 < 2 ^ (e + 1074)) by (apply Z.pow_pos_nonneg; lia). set (u := 2 ^ (e + 1074)) in *. clearbody u.
  assert (Q : 0 < Zpos m * u) by nia. destruct s.
  - replace (-1 * Zpos m * u) with (- (Zpos m * u)) by ring. split; [lia|]. apply Z.ltb_lt. lia.
  - rewrite Z.mul_1_l. split; [lia|]. apply Z.ltb_ge. lia.
Qed.
Lemma units_pos_bound f : fvalid f = true -> finite f -> Z.abs (units f) < (2 ^ 54 - 1) * 2 ^ 970 * one_unit.
Proof.
  destruct f as [s| | |s m e]; intros V F; try contradiction.
  - cbn [units]. apply Z.mul_pos_pos; [reflexivity|apply one_unit_pos].
  - rewrite units_abs. destruct (float_parts _ _ _ V) as (E & M & _).
    assert (2 ^ (e + 1074) <= 2 ^ 971 * one_unit). { unfold one_unit. rewrite <- Z.pow_add_r by lia. apply Z.pow_le_mono_r; lia. }
    assert (P : 0 < 2 ^ 970 * one_unit) by (apply Z.mul_pos_pos; [reflexivity|apply one_unit_pos]).
    replace (2 ^ 971) with (2 * 2 ^ 970) in H by reflexivity.
    rewrite <- Z.mul_assoc in *. set (u := 2 ^ 970 * one_unit) in *. clearbody u.
    apply Z.le_lt_trans with (Zpos m * (2 * u)); [apply Z.mul_le_mono_nonneg_l; lia|].
    replace (2 ^ 54 - 1) with (2 * (2 ^ 53 - 1) + 1) by reflexivity. set (k := 2 ^ 53) in *. clearbody k. nia.
Qed.
Lemma rounded_self f : fvalid f = true -> finite f -> rounded (negative f) (Z.abs (units f)) one_unit f.
Proof.
  intros V F. assert (A : (if negative f then - Z.abs (units f) else Z.abs (units f)) = units f).
  { destruct f as [s| | |s m e]; try contradiction; [cbn [units negative]; destruct s; reflexivity|].
    destruct (float_parts _ _ _ V) as (E & _). destruct (units_sgn s m e ltac:(lia)) as [_ S]. cbn [negative]. destruct s; [apply Z.ltb_lt in S|apply Z.ltb_ge in S]; lia. }
  assert (D : distance (units f) one_unit f = 0) by (unfold distance; fold one_unit; rewrite Z.sub_diag; reflexivity).
  split; [|intros g _ _ _ N E; rewrite A, D in E].
  - split; [exact V|]. split; [reflexivity|]. right. split; [now apply units_pos_bound|]. split; [exact F|]. rewrite A. intros g Vg Fg. rewrite D. unfold distance. fold one_unit.
    split; [lia|]. intros E N. elim N. symmetry in E. apply Z.abs_0_iff in E. pose proof one_unit_pos. nia.
  - exfalso. apply N. unfold distance in E. fold one_unit in E. symmetry in E. apply Z.abs_0_iff in E. pose proof one_unit_pos. nia.
Qed.

Definition nearest_one (zs : bool) (n d : Z) (f : float64) : Prop := rounded (if n =? 0 then zs else n <? 0) (Z.abs n) d f.
Lemma nearest_one_to zs n d f : nearest_one zs n d f -> nearest_to zs n d f.
Proof. intros H. exact (proj1 H). Qed.
Lemma nearest_one_eq zs n d f g : nearest_one zs n d f -> nearest_to zs n d g -> g = f.
Proof. apply rounded_unique. Qed.
Lemma self_one zs f : fvalid f = true -> finite f -> (units f = 0 -> negative f = zs) -> nearest_one zs (units f) one_unit f.
Proof.
  intros V F Z. unfold nearest_one. pose proof (rounded_self f V F) as R. destruct f as [s| | |s m e]; try contradiction.
  - cbn [units negative] in *. specialize (Z eq_refl). subst. exact R.
  - destruct (float_parts _ _ _ V) as (E & _). destruct (units_sgn s m e ltac:(lia)) as [N S]. apply Z.eqb_neq in N. rewrite N, S. exact R.
Qed.

Lemma normalize_one k e zs : -1074 <= e -> nearest_one zs (k * 2 ^ (e + 1074)) one_unit (fnormalize k e zs).
Proof.
  intros E. assert (P : 0 < 2 ^ (e + 1074)) by (apply Z.pow_pos_nonneg; lia). pose proof one_unit_pos as O. pose proof (pow_split e E) as W. unfold nearest_one.
  destruct (Z.eq_dec k 0) as [->|N].
  - rewrite Z.mul_0_l. cbn [Z.eqb Z.abs]. change (fnormalize 0 e zs) with (S754_zero zs). apply rounded_zero, O.
  - set (u := 2 ^ (e + 1074)) in *. clearbody u. destruct (Z.eqb_spec (k * u) 0) as [Q|_]; [nia|].
    replace (k * u <? 0) with (k <? 0). 2: { destruct (Z.ltb_spec k 0), (Z.ltb_spec (k * u) 0); try reflexivity; nia. }
    apply normalize_rounded; [exact N|lia|exact O|]. rewrite Z.abs_mul, (Z.abs_eq u) by lia. set (w := 2 ^ Z.max (- e) 0) in *. set (w' := 2 ^ Z.max e 0) in *. clearbody w w'. nia.
Qed.


Lemma sum_finite sx mx ex sy my ey (x := S754_finite sx mx ex) (y := S754_finite sy my ey) :
  fvalid x = true -> fvalid y = true -> units x + units y <> 0 \/ sx && sy = false ->
  nearest_one (negative x && negative y) (units x + units y) one_unit (fadd x y).
Proof.
  intros Vx Vy Z. destruct (float_parts _ _ _ Vx) as (Ex & _), (float_parts _ _ _ Vy) as (Ey & _). set (e := Z.min ex ey).
  set (k := cond_Zopp sx (Zpos (fst (shl_align mx ex e))) + cond_Zopp sy (Zpos (fst (shl_align my ey e)))).
  change (fadd x y) with (fnormalize k e false). assert (K : units x + units y = k * 2 ^ (e + 1074)).
  { unfold k, x, y. cbn [units]. rewrite !shl_align_fst by lia.
    replace (2 ^ (ex + 1074)) with (2 ^ (ex - e) * 2 ^ (e + 1074)) by (rewrite <- Z.pow_add_r by lia; f_equal; lia).
    replace (2 ^ (ey + 1074)) with (2 ^ (ey - e) * 2 ^ (e + 1074)) by (rewrite <- Z.pow_add_r by lia; f_equal; lia).
    unfold cond_Zopp. destruct sx, sy; ring. }
  rewrite K in *. pose proof (normalize_one k e false ltac:(lia)) as N. unfold nearest_one in *. destruct (Z.eqb_spec (k * 2 ^ (e + 1074)) 0) as [Q|Q]; [|exact N].
  destruct Z as [Z|Z]; [contradiction|]. cbn [negative x y]. rewrite Z. exact N.
Qed.
Lemma units_zero_neg f : fvalid f = true -> finite f -> units f = 0 -> f = S754_zero (negative f).
Proof.
  destruct f as [s| | |s m e]; intros V F Z; try contradiction; [reflexivity|].
  destruct (float_parts _ _ _ V) as (E & _). destruct (units_sgn s m e ltac:(lia)) as [N _]. contradiction.
Qed.
Lemma units_of_sign f : fvalid f = true -> finite f -> (negative f = true -> units f <= 0) /\ (negative f = false -> 0 <= units f).
Proof.
  destruct f as [s| | |s m e]; intros V F; try contradiction; [cbn [units]; lia|].
  destruct (float_parts _ _ _ V) as (E & _). destruct (units_sgn s m e ltac:(lia)) as [N S]. cbn [negative]. destruct s; [apply Z.ltb_lt in S|apply Z.ltb_ge in S]; split; intros; try discriminate; lia.
Qed.
Lemma fadd_one x y : fvalid x = true -> fvalid y = true -> finite x -> finite y ->
  nearest_one (negative x && negative y) (units x + units y) one_unit (fadd x y).
Proof.
  intros Vx Vy Fx Fy. destruct x as [sx| | |sx mx ex], y as [sy| | |sy my ey]; try contradiction.
  - cbn [units negative]. change (fadd (S754_zero sx) (S754_zero sy)) with (if Bool.eqb sx sy then S754_zero sx else S754_zero false).
    unfold nearest_one. cbn. destruct sx, sy; cbn; apply rounded_zero, one_unit_pos.
  - change (fadd (S754_zero sx) (S754_finite sy my ey)) with (S754_finite sy my ey). cbn [units negative]. rewrite Z.add_0_l. apply (self_one _ (S754_finite sy my ey) Vy I).
    intros Z. pose proof (units_zero_neg _ Vy I Z). discriminate.
  - change (fadd (S754_finite sx mx ex) (S754_zero sy)) with (S754_finite sx mx ex). cbn [units negative]. rewrite Z.add_0_r. apply (self_one _ (S754_finite sx mx ex) Vx I).
    intros Z. pose proof (units_zero_neg _ Vx I Z). discriminate.
  - apply sum_finite; [exact Vx|exact Vy|]. destruct sx, sy; auto. left.
    destruct (units_of_sign _ Vx I) as [A _], (units_of_sign _ Vy I) as [B _]. specialize (A eq_refl). specialize (B eq_refl).
    intros Z. assert (Q : units (S754_finite true mx ex) = 0) by lia. pose proof (units_zero_neg _ Vx I Q). discriminate.
Qed.
Lemma fopp_facts y : fvalid (fopp y) = fvalid y /\ units (fopp y) = - units y /\ (finite (fopp y) <-> finite y) /\ (y <> S754_nan -> negative (fopp y) = negb (negative y)).
Proof.
  destruct y as [s|s| |s m e]; repeat split; try reflexivity; try tauto; try congruence.
  cbn [fopp SFopp units]. destruct s; cbn [negb]; ring.
Qed.
Lemma fsub_add x y : x <> S754_nan -> y <> S754_nan -> fsub x y = fadd x (fopp y).
Proof.
  intros Nx Ny. destruct x as [sx|sx| |sx mx ex], y as [sy|sy| |sy my ey]; try congruence; try reflexivity; try (destruct sx, sy; reflexivity).
Qed.
Lemma fsub_one x y : fvalid x = true -> fvalid y = true -> finite x -> finite y ->
  nearest_one (negative x && negb (negative y)) (units x - units y) one_unit (fsub x y).
Proof.
  intros Vx Vy Fx Fy. destruct (fopp_facts y) as (A & B & C & D).
  assert (Ny : y <> S754_nan) by (intros ->; contradiction). assert (Nx : x <> S754_nan) by (intros ->; contradiction).
  rewrite fsub_add by assumption. pose proof (fadd_one x (fopp y) Vx ltac:(congruence) Fx (proj2 C Fy)) as R.
  rewrite B, D in R by assumption. exact R.
Qed.

Lemma digits_mul mx my : Zdigits2 (Zpos mx) <= Zdigits2 (Zpos (mx * my)).
Proof.
  rewrite !Zdigits_pos by lia. pose proof (Z.log2_le_mono (Zpos mx) (Zpos (mx * my)) ltac:(nia)). lia.
Qed.
Lemma fmul_one x y : fvalid x = true -> fvalid y = true -> finite x -> finite y ->
  nearest_one (xorb (negative x) (negative y)) (units x * units y) (one_unit * one_unit) (fmul x y).
Proof.
  intros Vx Vy Fx Fy. pose proof one_unit_pos as O. assert (OO : 0 < one_unit * one_unit) by (apply Z.mul_pos_pos; exact O).
  destruct x as [sx| | |sx mx ex], y as [sy| | |sy my ey]; try contradiction;
  try (cbn [units negative]; rewrite ?Z.mul_0_r, ?Z.mul_0_l; unfold nearest_one; cbn [Z.eqb Z.abs]; apply rounded_zero, OO).
  change (fmul (S754_finite sx mx ex) (S754_finite sy my ey)) with (binary_round_aux prec64 emax64 (xorb sx sy) (Zpos (mx * my)) (ex + ey) loc_Exact).
  destruct (float_parts _ _ _ Vx) as (Ex & Mx & Lx), (float_parts _ _ _ Vy) as (Ey & My & Ly).
  destruct (units_sgn sx mx ex ltac:(lia)) as [Nx Sx], (units_sgn sy my ey ltac:(lia)) as [Ny Sy]. unfold nearest_one.
  set (ux := units (S754_finite sx mx ex)) in *. set (uy := units (S754_finite sy my ey)) in *.
  destruct (Z.eqb_spec (ux * uy) 0) as [Q|_]; [apply Z.mul_eq_0 in Q; lia|].
  replace (ux * uy <? 0) with (xorb sx sy).
  2: { rewrite <- Sx, <- Sy. symmetry. clearbody ux uy. clear -Nx Ny. destruct (Z.ltb_spec ux 0), (Z.ltb_spec uy 0); cbn [xorb]; [apply Z.ltb_ge|apply Z.ltb_lt|apply Z.ltb_lt|apply Z.ltb_ge]; nia. }
  refine (round_aux_rounds (xorb sx sy) (Zpos (mx * my)) (ex + ey) loc_Exact (Zpos (mx * my)) 1 (Z.abs (ux * uy)) (one_unit * one_unit) _ _ _ OO _).
  - split; [lia|]. split; [lia|]. exists 0. split; [ring|]. split; [lia|reflexivity].
  - rewrite fx_max. assert (B : forall m e, -1074 < e -> (-1074 < e -> 2 ^ 52 <= Zpos m) -> 53 <= Zdigits2 (Zpos m)).
    { intros m e He L. specialize (L He). rewrite Zdigits_pos by lia. pose proof (Z.log2_le_mono (2 ^ 52) (Zpos m) L). rewrite Z.log2_pow2 in H by lia. lia. }
    destruct (Z.eq_dec ex (-1074)) as [Qx|Qx]; [destruct (Z.le_gt_cases ey 0) as [Qy|Qy]; [lia|]|].
    + pose proof (B my ey ltac:(lia) Ly). pose proof (digits_mul my mx). rewrite Pos.mul_comm in H0. lia.
    + pose proof (B mx ex ltac:(lia) Lx). pose proof (digits_mul mx my). lia.
  - lia.
  - unfold ux, uy. rewrite Z.abs_mul, !units_abs. rewrite Pos2Z.inj_mul.
    pose proof (pow_split ex ltac:(lia)) as Px. pose proof (pow_split ey ltac:(lia)) as Py.
    assert (W : 2 ^ (ex + 1074) * 2 ^ (ey + 1074) * 2 ^ Z.max (- (ex + ey)) 0 = one_unit * one_unit * 2 ^ Z.max (ex + ey) 0).
    { unfold one_unit. rewrite <- !Z.pow_add_r by lia. f_equal. lia. }
    set (p := 2 ^ (ex + 1074)) in *. set (q := 2 ^ (ey + 1074)) in *. set (w := 2 ^ Z.max (- (ex + ey)) 0) in *. set (w' := 2 ^ Z.max (ex + ey) 0) in *. clearbody p q w w'.
    replace (Zpos mx * p * (Zpos my * q) * 1 * w) with (Zpos mx * Zpos my * (p * q * w)) by ring. rewrite W. ring.
Qed.

Lemma fdiv_any sx mx ex sy my ey a b : -1074 <= ex -> -1074 <= ey ->
  a = Zpos mx * 2 ^ (ex + 1074) -> b = Zpos my * 2 ^ (ey + 1074) ->
  rounded (xorb sx sy) a b (fdiv (S754_finite sx mx ex) (S754_finite sy my ey)).
Proof.
  intros Ex Ey -> ->. assert (Px : 0 < 2 ^ (ex + 1074)) by (apply Z.pow_pos_nonneg; lia). assert (Py : 0 < 2 ^ (ey + 1074)) by (apply Z.pow_pos_nonneg; lia).
  assert (W : 2 ^ (ex + 1074) * 2 ^ Z.max (ey - ex) 0 = 2 ^ (ey + 1074) * 2 ^ Z.max (ex - ey) 0) by (rewrite <- !Z.pow_add_r by lia; f_equal; lia).
  apply div_rounded.
  - apply Z.mul_nonneg_nonneg; lia.
  - apply Z.mul_pos_pos; lia.
  - set (p := 2 ^ (ex + 1074)) in *. set (q := 2 ^ (ey + 1074)) in *. set (w := 2 ^ Z.max (ey - ex) 0) in *. set (w' := 2 ^ Z.max (ex - ey) 0) in *. clearbody p q w w'.
    replace (Zpos mx * p * Zpos my * w) with (Zpos mx * Zpos my * (p * w)) by ring. rewrite W. ring.
Qed.
Lemma sign_of_quotient ux uy : ux <> 0 -> uy <> 0 -> (ux * Z.sgn uy <? 0) = xorb (ux <? 0) (uy <? 0) /\ Z.abs (ux * Z.sgn uy) = Z.abs ux.
Proof.
  intros Nx Ny. destruct (Z.ltb_spec uy 0) as [L|L].
  - rewrite Z.sgn_neg by exact L. split; [|lia]. destruct (Z.ltb_spec ux 0); cbn [xorb]; [apply Z.ltb_ge|apply Z.ltb_lt]; lia.
  - rewrite Z.sgn_pos by lia. rewrite Z.mul_1_r. split; [now rewrite xorb_false_r|reflexivity].
Qed.
Lemma fdiv_one x y : fvalid x = true -> fvalid y = true -> finite x -> finite y -> units y <> 0 ->
  nearest_one (xorb (negative x) (negative y)) (units x * Z.sgn (units y)) (Z.abs (units y)) (fdiv x y).
Proof.
  intros Vx Vy Fx Fy Ny. destruct y as [sy| | |sy my ey]; try contradiction.
  destruct (float_parts _ _ _ Vy) as (Ey & _). destruct (units_sgn sy my ey ltac:(lia)) as [_ Sy].
  destruct x as [sx| | |sx mx ex]; try contradiction.
  - change (units (S754_zero sx)) with 0. rewrite Z.mul_0_l. unfold nearest_one. cbn [Z.eqb]. apply rounded_zero. lia.
  - destruct (float_parts _ _ _ Vx) as (Ex & _). destruct (units_sgn sx mx ex ltac:(lia)) as [Nx Sx].
    destruct (sign_of_quotient _ _ Nx Ny) as [S A]. unfold nearest_one. rewrite S, A, Sx, Sy.
    destruct (Z.eqb_spec (units (S754_finite sx mx ex) * Z.sgn (units (S754_finite sy my ey))) 0) as [Q|_]; [exfalso; clear -Q A Nx; rewrite Q in A; lia|].
    apply fdiv_any; [lia|lia|apply units_abs|apply units_abs].
Qed.

(** ** Exact results *)
Lemma float_exists k e : Z.abs k < 2 ^ 53 -> -1074 <= e <= 971 -> exists f, fvalid f = true /\ finite f /\ units f = k * 2 ^ (e + 1074).
Proof.
  intros K E. destruct (Z.eq_dec k 0) as [->|N]; [exists (S754_zero false); repeat split|].
  set (d := Z.log2 (Z.abs k) + 1). set (e' := Z.max (d + e - 53) (-1074)).
  pose proof (Z.log2_nonneg (Z.abs k)). assert (D : d <= 53). { pose proof (Z.log2_lt_pow2 (Z.abs k) 53 ltac:(lia)) as [L _]. specialize (L K). lia. }
  assert (E' : e' <= e) by lia. assert (P : 0 < 2 ^ (e - e')) by (apply Z.pow_pos_nonneg; lia).
  assert (M : 0 < Z.abs k * 2 ^ (e - e')) by nia. destruct (Z.abs k * 2 ^ (e - e')) as [|m|m] eqn:Em; try lia.
  exists (S754_finite (k <? 0) m e'). split; [|split; [exact I|]].
  - unfold fvalid, valid_binary, bounded, canonical_mantissa. apply andb_true_iff. split.
    + change (fexp prec64 emax64) with fx. rewrite fx_max. rewrite digits2_log2, <- Em. rewrite Z.log2_mul_pow2 by lia.
      replace (Z.max _ _) with e'; [apply Zeq_is_eq_bool; reflexivity|]. lia.
    + apply Zle_is_le_bool. change (emax64 - prec64) with 971. lia.
  - cbn [units]. rewrite <- Z.mul_assoc, <- Em. rewrite <- Z.mul_assoc, <- Z.pow_add_r by lia. replace (e - e' + (e' + 1074)) with (e + 1074) by lia.
    destruct (Z.ltb_spec k 0); nia.
Qed.
Lemma nearest_exact zs n f : nearest_to zs n one_unit f -> (exists g, fvalid g = true /\ finite g /\ units g = n) ->
  fvalid f = true /\ finite f /\ units f = n /\ negative f = (if n =? 0 then zs else n <? 0).
Proof.
  intros (V & Sg & C) (g & Vg & Fg & <-). split; [exact V|]. destruct C as [[C ->]|(C & F & N)].
  - exfalso. pose proof (units_pos_bound g Vg Fg). lia.
  - split; [exact F|]. split; [|exact Sg]. destruct (N g Vg Fg) as [D _]. unfold distance in D. fold one_unit in D.
    replace (if (if units g =? 0 then zs else units g <? 0) then - Z.abs (units g) else Z.abs (units g)) with (units g) in D.
    + rewrite Z.sub_diag in D. change (Z.abs 0) with 0 in D. pose proof one_unit_pos. nia.
    + destruct (Z.eqb_spec (units g) 0); [destruct zs; lia|]. destruct (Z.ltb_spec (units g) 0); lia.
Qed.

(** ** fmod and % *)
Lemma rem_scale a b u : 0 < u -> b <> 0 -> Z.rem (a * u) (b * u) = Z.rem a b * u.
Proof. intros U B. apply Z.mul_rem_distr_r; lia. Qed.
Lemma fmod_one x y : fvalid x = true -> fvalid y = true -> finite x -> finite y -> units y <> 0 ->
  fvalid (ffmod x y) = true /\ finite (ffmod x y) /\ units (ffmod x y) = Z.rem (units x) (Z.abs (units y)) /\ negative (ffmod x y) = negative x.
Proof.
  intros Vx Vy Fx Fy Ny. destruct y as [sy| | |sy my ey]; try contradiction.
  destruct x as [sx| | |sx mx ex]; try contradiction; [repeat split; cbn [units]; now rewrite Z.rem_0_l by lia|].
  destruct (float_parts _ _ _ Vx) as (Ex & Mx & _), (float_parts _ _ _ Vy) as (Ey & My & _). cbn [ffmod]. set (e := Z.min ex ey).
  set (a := cond_Zopp sx (Zpos mx) * 2 ^ (ex - e)). set (b := Zpos my * 2 ^ (ey - e)).
  assert (Pe : 0 < 2 ^ (e + 1074)) by (apply Z.pow_pos_nonneg; lia). assert (P1 : 0 < 2 ^ (ex - e)) by (apply Z.pow_pos_nonneg; lia). assert (P2 : 0 < 2 ^ (ey - e)) by (apply Z.pow_pos_nonneg; lia).
  assert (B : 0 < b) by (unfold b; nia).
  assert (Ux : units (S754_finite sx mx ex) = a * 2 ^ (e + 1074)).
  { unfold a. rewrite <- Z.mul_assoc, <- Z.pow_add_r by lia. replace (ex - e + (e + 1074)) with (ex + 1074) by lia. cbn [units]. unfold cond_Zopp. destruct sx; ring. }
  assert (Uy : Z.abs (units (S754_finite sy my ey)) = b * 2 ^ (e + 1074)).
  { rewrite units_abs. unfold b. rewrite <- Z.mul_assoc, <- Z.pow_add_r by lia. f_equal. f_equal. lia. }
  rewrite Ux, Uy, rem_scale by lia. set (k := Z.rem a b).
  pose proof (Z.rem_bound_abs a b ltac:(lia)) as KB. fold k in KB.
  assert (KA : Z.abs k <= Z.abs a). { unfold k. rewrite <- Z.rem_abs by lia. apply Z.rem_le; lia. }
  assert (K : Z.abs k < 2 ^ 53).
  { destruct (Z.min_spec ex ey) as [[L Q]|[L Q]]; fold e in Q.
    - apply Z.le_lt_trans with (Z.abs a); [exact KA|]. unfold a. replace (ex - e) with 0 by lia. rewrite Z.pow_0_r, Z.mul_1_r. destruct sx; cbn [cond_Zopp]; lia.
    - apply Z.lt_le_trans with (Z.abs b); [exact KB|]. unfold b. replace (ey - e) with 0 by lia. rewrite Z.pow_0_r. lia. }
  pose proof (nearest_exact _ _ _ (nearest_one_to _ _ _ _ (normalize_one k e sx ltac:(lia))) (float_exists k e K ltac:(lia))) as (V & F & U & S).
  split; [exact V|]. split; [exact F|]. split; [exact U|]. rewrite S. cbn [negative].
  destruct (Z.eqb_spec (k * 2 ^ (e + 1074)) 0) as [Q|Q]; [reflexivity|].
  assert (Sa : (a <? 0) = sx). { unfold a. destruct sx; cbn [cond_Zopp]; [apply Z.ltb_lt|apply Z.ltb_ge]; nia. }
  assert (Sk : (k <? 0) = (a <? 0)).
  { assert (Nk : k <> 0) by nia. pose proof (Z.rem_sign_nz a b ltac:(lia) Nk) as W. fold k in W.
    destruct (Z.ltb_spec a 0), (Z.ltb_spec k 0); try reflexivity; exfalso; lia. }
  rewrite <- Sa, <- Sk. destruct (Z.ltb_spec k 0); [apply Z.ltb_lt|apply Z.ltb_ge]; nia.
Qed.
Lemma mod_of_rem a b (r := Z.rem a (Z.abs b)) : b <> 0 ->
  (r = 0 -> a mod b = 0) /\ (r <> 0 -> (r <? 0) = (b <? 0) -> a mod b = r) /\ (r <> 0 -> (r <? 0) <> (b <? 0) -> a mod b = r + b).
Proof.
  intros B. pose proof (Z.quot_rem' a (Z.abs b)) as Q. fold r in Q. set (q := Z.quot a (Z.abs b)) in *.
  pose proof (Z.rem_bound_abs a (Z.abs b) ltac:(lia)) as R. fold r in R. clearbody r q.
  destruct (Z.abs_spec b) as [[S A]|[S A]]; rewrite !A in *.
  - split; [intros E|split; intros N E].
    + symmetry. apply (Z.mod_unique _ _ q); [left; lia|lia].
    + symmetry. apply (Z.mod_unique _ _ q); [left|lia]. destruct (Z.ltb_spec r 0), (Z.ltb_spec b 0); try discriminate; lia.
    + symmetry. apply (Z.mod_unique _ _ (q - 1)); [left|lia]. destruct (Z.ltb_spec r 0), (Z.ltb_spec b 0); try congruence; lia.
  - split; [intros E|split; intros N E].
    + symmetry. apply (Z.mod_unique _ _ (- q)); [right; lia|lia].
    + symmetry. apply (Z.mod_unique _ _ (- q)); [right|lia]. destruct (Z.ltb_spec r 0), (Z.ltb_spec b 0); try discriminate; lia.
    + symmetry. apply (Z.mod_unique _ _ (- q - 1)); [right|lia]. destruct (Z.ltb_spec r 0), (Z.ltb_spec b 0); try congruence; lia.
Qed.
Lemma sign_units f : fvalid f = true -> finite f -> units f <> 0 -> (units f <? 0) = negative f /\ flt0 f = negative f.
Proof.
  destruct f as [s| | |s m e]; intros V F N; try contradiction.
  destruct (float_parts _ _ _ V) as (E & _). destruct (units_sgn s m e ltac:(lia)) as [_ S]. split; [exact S|reflexivity].
Qed.
Lemma fmodulo_one x y : fvalid x = true -> fvalid y = true -> finite x -> finite y -> units y <> 0 ->
  nearest_one (negative y) (units x mod units y) one_unit (fmodulo x y).
Proof.
  intros Vx Vy Fx Fy Ny. destruct (fmod_one x y Vx Vy Fx Fy Ny) as (V & F & U & S). unfold fmodulo. set (m := ffmod x y) in *. clearbody m.
  destruct (mod_of_rem (units x) (units y) Ny) as (A & B & C). rewrite <- U in A, B, C.
  destruct (sign_units y Vy Fy Ny) as [Sy Ly]. assert (Fs : fsign y = negative y) by (destruct y; reflexivity).
  destruct (Z.eq_dec (units m) 0) as [Z|Z].
  - rewrite (A Z). rewrite (units_zero_neg m V F Z). rewrite Fs. unfold nearest_one. cbn [Z.eqb Z.abs]. apply rounded_zero, one_unit_pos.
  - destruct (sign_units m V F Z) as [Sm Lm]. replace (match m with S754_zero _ => _ | _ => _ end) with (if Bool.eqb (flt0 y) (flt0 m) then m else fadd m y).
    2: { destruct m as [s| | |s k e]; try contradiction; reflexivity. }
    rewrite Lm, Ly. destruct (Bool.eqb (negative y) (negative m)) eqn:Q.
    + apply Bool.eqb_prop in Q. rewrite (B Z) by congruence. apply self_one; [exact V|exact F|]. intros; contradiction.
    + apply Bool.eqb_false_iff in Q. rewrite (C Z) by congruence. pose proof (fadd_one m y V Vy F Fy) as N. unfold nearest_one in *.
      destruct (Z.eqb_spec (units m + units y) 0) as [W|W]; [|exact N].
      exfalso. rewrite <- (C Z) in W by congruence. pose proof (Z.rem_bound_abs (units x) (Z.abs (units y)) ltac:(lia)) as R. rewrite <- U in R.
      rewrite (C Z) in W by congruence. lia.
Qed.

(** ** Floats which are not finite *)
Lemma not_finite f : finite f \/ f = S754_nan \/ infinite f.
Proof. destruct f as [s|s| |s m e]; cbn [finite]; auto. right; right. now exists s. Qed.
Lemma fadd_float x y : fvalid x = true -> fvalid y = true -> float_sum x y (fadd x y).
Proof.
  intros Vx Vy. destruct (not_finite x) as [Fx|[->|[s ->]]].
  - destruct (not_finite y) as [Fy|[->|[s ->]]].
    + apply fs_fin; [exact Fx|exact Fy|]. apply nearest_one_to, fadd_one; assumption.
    + replace (fadd x S754_nan) with S754_nan by (destruct x; reflexivity). apply fs_nan. auto.
    + replace (fadd x (S754_infinity s)) with (S754_infinity s) by (destruct x; try contradiction; reflexivity). apply fs_inf. right. auto.
  - replace (fadd S754_nan y) with S754_nan by (destruct y; reflexivity). apply fs_nan. auto.
  - destruct (not_finite y) as [Fy|[->|[s' ->]]].
    + replace (fadd (S754_infinity s) y) with (S754_infinity s) by (destruct y; try contradiction; reflexivity). apply fs_inf. left. auto.
    + apply fs_nan. auto.
    + destruct (Bool.bool_dec s s') as [<-|N].
      * replace (fadd (S754_infinity s) (S754_infinity s)) with (S754_infinity s) by (destruct s; reflexivity). apply fs_inf. left. auto.
      * replace (fadd (S754_infinity s) (S754_infinity s')) with S754_nan by (destruct s, s'; try congruence; reflexivity). apply fs_nan. right; right. exists s. split; [reflexivity|]. destruct s, s'; try congruence; reflexivity.
Qed.
Lemma fsub_float x y : fvalid x = true -> fvalid y = true -> float_difference x y (fsub x y).
Proof.
  intros Vx Vy. destruct (not_finite x) as [Fx|[->|[s ->]]].
  - destruct (not_finite y) as [Fy|[->|[s ->]]].
    + apply fd_fin; [exact Fx|exact Fy|]. apply nearest_one_to, fsub_one; assumption.
    + replace (fsub x S754_nan) with S754_nan by (destruct x; reflexivity). apply fd_nan. auto.
    + replace (fsub x (S754_infinity s)) with (S754_infinity (negb s)) by (destruct x; try contradiction; reflexivity). apply fd_inf. right. now rewrite Bool.negb_involutive.
  - replace (fsub S754_nan y) with S754_nan by (destruct y; reflexivity). apply fd_nan. auto.
  - destruct (not_finite y) as [Fy|[->|[s' ->]]].
    + replace (fsub (S754_infinity s) y) with (S754_infinity s) by (destruct y; try contradiction; reflexivity). apply fd_inf. left. auto.
    + apply fd_nan. auto.
    + destruct (Bool.bool_dec s s') as [<-|N].
      * replace (fsub (S754_infinity s) (S754_infinity s)) with S754_nan by (destruct s; reflexivity). apply fd_nan. right; right. now exists s.
      * replace (fsub (S754_infinity s) (S754_infinity s')) with (S754_infinity s) by (destruct s, s'; try congruence; reflexivity). apply fd_inf. left. split; [reflexivity|]. right. destruct s, s'; try congruence; reflexivity.
Qed.
Lemma inf_mul s y : fvalid y = true -> finite y -> units y <> 0 -> fmul (S754_infinity s) y = S754_infinity (xorb s (negative y)) /\ fmul y (S754_infinity s) = S754_infinity (xorb (negative y) s).
Proof. destruct y as [t| | |t m e]; intros V F N; try contradiction. split; reflexivity. Qed.
Lemma fmul_float x y : fvalid x = true -> fvalid y = true -> float_product x y (fmul x y).
Proof.
  intros Vx Vy. destruct (not_finite x) as [Fx|[->|[s ->]]].
  - destruct (not_finite y) as [Fy|[->|[s ->]]].
    + apply fp_fin; [exact Fx|exact Fy|]. apply nearest_one_to, fmul_one; assumption.
    + replace (fmul x S754_nan) with S754_nan by (destruct x; reflexivity). apply fp_nan. auto.
    + destruct (Z.eq_dec (units x) 0) as [Z|Z].
      * rewrite (units_zero_neg x Vx Fx Z). apply fp_nan. right; right; right. split; [now exists s|]. split; [exact I|reflexivity].
      * rewrite (proj2 (inf_mul s x Vx Fx Z)). apply (fp_inf x (S754_infinity s)). right. split; [now exists s|auto].
  - replace (fmul S754_nan y) with S754_nan by (destruct y; reflexivity). apply fp_nan. auto.
  - assert (Q : infinite (S754_infinity s)) by now exists s. destruct (not_finite y) as [Fy|[->|[s' ->]]].
    + destruct (Z.eq_dec (units y) 0) as [Z|Z].
      * rewrite (units_zero_neg y Vy Fy Z). apply fp_nan. right; right; left. split; [exact Q|]. split; [exact I|reflexivity].
      * rewrite (proj1 (inf_mul s y Vy Fy Z)). apply (fp_inf (S754_infinity s) y). left. auto.
    + apply fp_nan. auto.
    + apply (fp_inf (S754_infinity s) (S754_infinity s')). left. split; [exact Q|]. left. now exists s'.
Qed.
Lemma fdiv_float x y : fvalid x = true -> fvalid y = true -> ~ (finite y /\ units y = 0) -> float_quotient x y (fdiv x y).
Proof.
  intros Vx Vy Ny. destruct (not_finite x) as [Fx|[->|[s ->]]].
  - destruct (not_finite y) as [Fy|[->|[s ->]]].
    + apply fq_fin; [exact Fx|exact Fy|tauto|]. apply nearest_one_to, fdiv_one; try assumption. tauto.
    + replace (fdiv x S754_nan) with S754_nan by (destruct x; reflexivity). apply fq_nan. auto.
    + replace (fdiv x (S754_infinity s)) with (S754_zero (xorb (negative x) s)) by (destruct x; try contradiction; reflexivity). apply (fq_zero x (S754_infinity s)); [exact Fx|now exists s].
  - replace (fdiv S754_nan y) with S754_nan by (destruct y; reflexivity). apply fq_nan. auto.
  - assert (Q : infinite (S754_infinity s)) by now exists s. destruct (not_finite y) as [Fy|[->|[s' ->]]].
    + replace (fdiv (S754_infinity s) y) with (S754_infinity (xorb s (negative y))).
      * apply (fq_inf (S754_infinity s) y); assumption.
      * destruct y as [t| | |t m e]; try contradiction; [|reflexivity]. elim Ny. split; [exact I|reflexivity].
    + apply fq_nan. auto.
    + apply fq_nan. right; right. split; [exact Q|now exists s'].
Qed.
Lemma fmodulo_float x y : fvalid x = true -> fvalid y = true -> ~ (finite y /\ units y = 0) -> float_remainder x y (fmodulo x y).
Proof.
  intros Vx Vy Ny. destruct (not_finite x) as [Fx|[->|[s ->]]].
  - destruct (not_finite y) as [Fy|[->|[s ->]]].
    + apply fr_fin; [exact Fx|exact Fy|tauto|]. apply nearest_one_to, fmodulo_one; try assumption. tauto.
    + replace (fmodulo x S754_nan) with S754_nan; [apply fr_nan; auto|]. unfold fmodulo. replace (ffmod x S754_nan) with S754_nan by (destruct x; reflexivity). reflexivity.
    + assert (Q : infinite (S754_infinity s)) by now exists s. destruct x as [t| | |t m e]; try contradiction.
      * apply (fr_zero _ (S754_infinity s)); [exact I|reflexivity|exact Q].
      * assert (N : units (S754_finite t m e) <> 0) by (intros Z; pose proof (units_zero_neg _ Vx I Z); discriminate).
        destruct (Bool.bool_dec t s) as [<-|D].
        -- replace (fmodulo _ _) with (S754_finite t m e) by (destruct t; reflexivity). apply fr_same; [exact I|exact N|exact Q|reflexivity].
        -- replace (fmodulo _ _) with (S754_infinity s) by (destruct s, t; try congruence; reflexivity). apply fr_other; [exact I|exact N|exact Q|exact D].
  - replace (fmodulo S754_nan y) with S754_nan by (unfold fmodulo; destruct y as [[]|[]| |[]]; reflexivity). apply fr_nan. auto.
  - replace (fmodulo (S754_infinity s) y) with S754_nan by (unfold fmodulo; destruct y as [[]|[]| |[]]; reflexivity). apply fr_nan. right; right. now exists s.
Qed.

(** ** Conversions *)
Lemma as_float_spec n : float_ok n -> as_float n (to_float n) /\ (forall f, to_float n = Ok f -> fvalid f = true).
Proof.
  destruct n as [z|f]; intros V; cbn [to_float].
  - unfold float_of_int. assert (R : nearest_one false z 1 (fnormalize z 0 false)).
    { unfold nearest_one. destruct (Z.eqb_spec z 0) as [->|N]; [apply rounded_zero; lia|]. apply normalize_rounded; [exact N|lia|lia|]. cbn. ring. }
    split. 2: { intros f. pose proof (fnormalize_valid z 0 false) as W. destruct (fnormalize z 0 false); intros [= <-]; exact W. }
    pose proof R as [(_ & _ & C) _]. rewrite Z.mul_1_r in C. destruct C as [[C E]|(C & F & _)].
    + rewrite E. apply af_big. exact C.
    + replace (match fnormalize z 0 false with S754_infinity _ => _ | _ => _ end) with (Ok (fnormalize z 0 false) : res float64).
      * apply af_int; [unfold too_big; lia|exact (nearest_one_to _ _ _ _ R)].
      * destruct (fnormalize z 0 false); try contradiction; reflexivity.
  - split; [constructor|]. intros g [= <-]. exact V.
Qed.
Lemma as_float_unique n r r' : as_float n r -> as_float n r' -> r = r'.
Proof.
  intros H H'. destruct H as [f|z f B N|z B]; inversion H'; subst; try reflexivity; try contradiction.
  f_equal. assert (R : nearest_one false z 1 (fnormalize z 0 false)).
  { unfold nearest_one. destruct (Z.eqb_spec z 0) as [->|Nz]; [apply rounded_zero; lia|]. apply normalize_rounded; [exact Nz|lia|lia|]. cbn. ring. }
  rewrite (nearest_one_eq _ _ _ _ _ R N). symmetry. eapply nearest_one_eq; eassumption.
Qed.
