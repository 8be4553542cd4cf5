(** * Proofs of C62: floor division of floats. *)
From Coq Require Import QArith Lia.
From Verif Require Import Py Num NumFacts RoundFacts Util SpecRound RoundProofs SpecVector VectorProofs SpecArith ArithProofs.
Open Scope Z_scope.

Lemma near_le zs n d f g : nearest_to zs n d f -> finite f -> fvalid g = true -> finite g ->
  Z.abs (n * one_unit - units f * d) <= Z.abs (n * one_unit - units g * d).
Proof.
  intros (_ & _ & C) F Vg Fg. destruct C as [[_ ->]|(_ & _ & N)]; [contradiction|]. destruct (N g Vg Fg) as [D _].
  unfold distance in D. fold one_unit in D.
  replace (if (if n =? 0 then zs else n <? 0) then - Z.abs n else Z.abs n) with n in D; [exact D|].
  destruct (Z.eqb_spec n 0); [destruct zs; lia|]. destruct (Z.ltb_spec n 0); lia.
Qed.
Lemma near_finite zs n d f : nearest_to zs n d f -> Z.abs n < (2 ^ 54 - 1) * 2 ^ 970 * d -> finite f /\ fvalid f = true.
Proof. intros (V & _ & C) L. destruct C as [[C _]|(_ & F & _)]; [lia|split; assumption]. Qed.
(** in units, where 1 is [one_unit] *)
Lemma near_unit zs n f g : nearest_to zs n one_unit f -> finite f -> fvalid g = true -> finite g ->
  Z.abs (n - units f) <= Z.abs (n - units g).
Proof.
  intros N F Vg Fg. pose proof (near_le _ _ _ _ _ N F Vg Fg) as D. pose proof one_unit_pos as O.
  rewrite <- !Z.mul_sub_distr_r, !Z.abs_mul, (Z.abs_eq one_unit) in D by lia. apply Z.mul_le_mono_pos_r in D; lia.
Qed.
(** some float is within 2^-52 of each number in range *)
Lemma float_close s : Z.abs s < 2 ^ 2098 -> exists g, fvalid g = true /\ finite g /\ 2 ^ 52 * Z.abs (s - units g) <= Z.abs s.
Proof.
  intros L. destruct (Z.le_gt_cases (2 ^ 53) (Z.abs s)) as [B|B].
  - set (a := Z.abs s) in *. set (l := Z.log2 a). assert (Hl : 53 <= l). { unfold l. rewrite <- (Z.log2_pow2 53) by lia. apply Z.log2_le_mono. exact B. }
    assert (Hu : l < 2098) by (apply Z.log2_lt_pow2; lia). pose proof (Z.log2_spec a ltac:(lia)) as LS. fold l in LS.
    set (e := l - 52). assert (Pe : 0 < 2 ^ e) by (apply Z.pow_pos_nonneg; lia). assert (Sp : 2 ^ l = 2 ^ 52 * 2 ^ e) by (unfold e; rewrite <- Z.pow_add_r by lia; f_equal; lia).
    assert (Su : 2 ^ Z.succ l = 2 ^ 53 * 2 ^ e) by (unfold e; rewrite <- Z.pow_add_r by lia; f_equal; lia). rewrite Sp, Su in LS.
    pose proof (Z.div_mod a (2 ^ e) ltac:(lia)) as DM. pose proof (Z.mod_pos_bound a (2 ^ e) Pe) as MB.
    set (k := a / 2 ^ e) in *. assert (K : Z.abs (if s <? 0 then - k else k) < 2 ^ 53). { assert (0 <= k < 2 ^ 53) by (split; [apply Z.div_pos; lia|apply Z.div_lt_upper_bound; lia]). destruct (s <? 0); lia. }
    destruct (float_exists _ (e - 1074) K ltac:(lia)) as (g & Vg & Fg & Ug). exists g. split; [exact Vg|]. split; [exact Fg|]. rewrite Ug. replace (e - 1074 + 1074) with e by lia.
    set (u := 2 ^ e) in *. clearbody u k. unfold a in *. clear -DM MB LS. destruct (Z.ltb_spec s 0); lia.
  - destruct (float_exists s (-1074) B ltac:(lia)) as (g & Vg & Fg & Ug). exists g. split; [exact Vg|]. split; [exact Fg|]. rewrite Ug. change (2 ^ (-1074 + 1074)) with 1. rewrite Z.mul_1_r, Z.sub_diag. cbn [Z.abs Z.mul]. lia.
Qed.
Lemma whole_exists t : Z.abs t < 2 ^ 53 -> exists g, fvalid g = true /\ finite g /\ units g = t * one_unit.
Proof. intros T. exact (float_exists t 0 T ltac:(lia)). Qed.
Lemma fone_facts : fvalid fone = true /\ finite fone /\ units fone = one_unit.
Proof. split; [reflexivity|]. split; [exact I|]. vm_compute. reflexivity. Qed.

Lemma sign_whole q (zs : bool) : q <> 0 -> (if q * one_unit =? 0 then zs else q * one_unit <? 0) = (q <? 0).
Proof.
  intros N. pose proof one_unit_pos as O. set (u := one_unit) in *. clearbody u. destruct (Z.eqb_spec (q * u) 0) as [Z|_]; [nia|].
  destruct (Z.ltb_spec q 0); [apply Z.ltb_lt|apply Z.ltb_ge]; nia.
Qed.

(** ** Comparing floats *)
Lemma dyadic_units s m e : -1074 <= e -> (dyadic (cond_Zopp s (Zpos m)) e * inject_Z one_unit == inject_Z (units (S754_finite s m e)))%Q.
Proof.
  intros E. cbn [units]. replace (cond_Zopp s (Zpos m)) with ((if s then -1 else 1) * Zpos m) by (destruct s; reflexivity). set (k := (if s then -1 else 1) * Zpos m).
  unfold dyadic, Qeq, inject_Z, Qmult, one_unit. destruct e as [|p|p]; cbn [Qnum Qden].
  - rewrite Z.add_0_l, ?Pos.mul_1_r. change (2 ^ 0) with 1. ring.
  - rewrite ?Pos.mul_1_r. rewrite Z.pow_add_r by lia. ring.
  - replace (Zpos (2 ^ p * 1)) with (2 ^ Zpos p) by (rewrite Pos.mul_1_r, Pos2Z.inj_pow; reflexivity).
    replace 1074 with (Zneg p + 1074 + Zpos p) at 1 by lia. rewrite Z.pow_add_r by lia. ring.
Qed.
Lemma fval_units f : fvalid f = true -> finite f -> exists q, fval f = XFin q /\ (q * inject_Z one_unit == inject_Z (units f))%Q.
Proof.
  destruct f as [s| | |s m e]; intros V F; try contradiction.
  - exists 0%Q. split; [reflexivity|]. reflexivity.
  - destruct (float_parts _ _ _ V) as (E & _). eexists. split; [reflexivity|]. apply dyadic_units. lia.
Qed.
Lemma ncmp_units f g : fvalid f = true -> finite f -> fvalid g = true -> finite g -> ncmp (NF f) (NF g) = Some (units f ?= units g).
Proof.
  intros Vf Ff Vg Fg. destruct (fval_units f Vf Ff) as (p & Ep & Hp), (fval_units g Vg Fg) as (q & Eq & Hq).
  unfold ncmp. cbn [nval]. rewrite Ep, Eq. cbn [xcmp]. f_equal. pose proof one_unit_pos as O.
  assert (P : (0 < inject_Z one_unit)%Q) by (unfold Qlt; cbn [Qnum Qden inject_Z]; lia).
  assert (C : forall a b : Z, ((inject_Z a) ?= (inject_Z b))%Q = (a ?= b)) by (intros; unfold Qcompare; cbn [Qnum Qden inject_Z]; now rewrite !Z.mul_1_r).
  rewrite <- (C (units f) (units g)). rewrite <- Hp, <- Hq. symmetry.
  destruct (Qcompare_spec p q) as [L|L|L].
  - apply Qeq_alt. now rewrite L.
  - apply Qlt_alt. now apply Qmult_lt_compat_r.
  - apply Qgt_alt. now apply Qmult_lt_compat_r.
Qed.
Lemma zfloor_units s m e : -1074 <= e -> zfloor (cond_Zopp s (Zpos m)) e = units (S754_finite s m e) / one_unit.
Proof.
  intros E. cbn [units]. replace (cond_Zopp s (Zpos m)) with ((if s then -1 else 1) * Zpos m) by (destruct s; reflexivity). set (k := (if s then -1 else 1) * Zpos m). clearbody k.
  unfold zfloor, one_unit. destruct (Z.leb_spec 0 e) as [L|L].
  - rewrite Z.pow_add_r, Z.mul_assoc by lia. symmetry. apply Z.div_mul. apply Z.pow_nonzero; lia.
  - replace 1074 with (- e + (e + 1074)) at 2 by lia. rewrite (Z.pow_add_r 2 (- e)) by lia. symmetry. apply Z.div_mul_cancel_r; apply Z.pow_nonzero; lia.
Qed.

(** ** The last steps: from a float close to the quotient to the quotient *)
Definition last_steps (x y d : float64) : float64 :=
  match d with
  | S754_zero _ => S754_zero (fsign (fdiv x y))
  | _ => let fl := ffloor d in
         match ncmp (NF (fsub d fl)) (NF (fdiv fone (fadd fone fone))) with
         | Some Gt => fadd fl fone
         | _ => fl
         end
  end.
Lemma last_steps_ok x y d q : fvalid d = true -> finite d -> 4 * Z.abs (units d - q * one_unit) <= one_unit -> Z.abs q <= 2 ^ 49 ->
  units d <> 0 -> fvalid (last_steps x y d) = true /\ finite (last_steps x y d) /\ units (last_steps x y d) = q * one_unit /\ (q <> 0 -> negative (last_steps x y d) = (q <? 0)).
Proof.
  intros V F C Q N. pose proof one_unit_pos as O. destruct d as [s| | |s m e]; try contradiction. cbn [last_steps ffloor].
  destruct (float_parts _ _ _ V) as (E & _). rewrite zfloor_units by lia. set (d := S754_finite s m e) in *. set (k := units d / one_unit).
  assert (K : k = q /\ q * one_unit <= units d \/ k = q - 1 /\ units d < q * one_unit).
  { destruct (Z.le_gt_cases (q * one_unit) (units d)) as [L|L]; [left|right]; (split; [|exact L]); unfold k; symmetry.
    - apply (Z.div_unique _ _ _ (units d - q * one_unit)); [left; lia|lia].
    - apply (Z.div_unique _ _ _ (units d - (q - 1) * one_unit)); [left; lia|lia]. }
  assert (KB : Z.abs k < 2 ^ 53) by lia. pose proof (whole_exists k KB) as KE.
  pose proof (nearest_exact s (k * one_unit) (fnormalize k 0 s) (nearest_one_to _ _ _ _ (normalize_one k 0 s ltac:(lia))) KE) as (Vl & Fl & Ul & Sl).
  set (fl := fnormalize k 0 s) in *. clearbody fl.
  pose proof (nearest_one_to _ _ _ _ (fsub_one d fl V Vl F Fl)) as D. rewrite Ul in D.
  assert (Db : Z.abs (units d - k * one_unit) < one_unit) by lia.
  destruct (near_finite _ _ _ _ D) as [Fd Vd].
  { apply Z.lt_le_trans with (1 * one_unit); [lia|]. apply Z.mul_le_mono_nonneg_r; [lia|]. discriminate. }
  assert (Hh : fdiv fone (fadd fone fone) = half) by (vm_compute; reflexivity). rewrite Hh. clear Hh.
  assert (Uh : 2 * units half = one_unit) by (vm_compute; reflexivity).
  rewrite (ncmp_units (fsub d fl) half Vd Fd eq_refl I). set (r := fsub d fl) in *. clearbody r.
  destruct K as [[K L]|[K L]].
  - pose proof (near_unit _ _ _ (S754_zero false) D Fd eq_refl I) as B. cbn [units] in B.
    destruct (Z.compare_spec (units r) (units half)) as [G|G|G]; [| |exfalso; lia].
    + split; [exact Vl|]. split; [exact Fl|]. split; [now rewrite Ul, K|]. intros Nq. rewrite Sl, K. now apply sign_whole.
    + split; [exact Vl|]. split; [exact Fl|]. split; [now rewrite Ul, K|]. intros Nq. rewrite Sl, K. now apply sign_whole.
  - destruct (float_exists 3 (-2) ltac:(lia) ltac:(lia)) as (g & Vg & Fg & Ug).
    assert (Ug4 : 4 * units g = 3 * one_unit). { rewrite Ug. unfold one_unit. vm_compute. reflexivity. }
    pose proof (near_unit _ _ _ g D Fd Vg Fg) as B. clear Ug.
    destruct (Z.compare_spec (units r) (units half)) as [G|G|G]; [exfalso; lia|exfalso; lia|].
    destruct fone_facts as (V1 & F1 & U1). pose proof (nearest_one_to _ _ _ _ (fadd_one fl fone Vl V1 Fl F1)) as A. rewrite Ul, U1 in A.
    replace (k * one_unit + one_unit) with (q * one_unit) in A by (rewrite K; ring).
    destruct (nearest_exact _ _ _ A (whole_exists q ltac:(lia))) as (Va & Fa & Ua & Sa).
    split; [exact Va|]. split; [exact Fa|]. split; [exact Ua|]. intros Nq. rewrite Sa. now apply sign_whole.
Qed.

Lemma quot_floor a b (t := Z.quot a b) (r := Z.rem a b) : b <> 0 ->
  Z.abs t <= Z.abs (a / b) /\ (r = 0 \/ (r <? 0) = (b <? 0) -> a / b = t) /\ (r <> 0 -> (r <? 0) <> (b <? 0) -> a / b = t - 1 /\ t <= 0).
Proof.
  intros B. pose proof (Z.quot_rem' a b) as Q. fold t r in Q. pose proof (Z.rem_bound_abs a b B) as R. fold r in R.
  assert (S : r <> 0 -> (r <? 0) = (a <? 0)). { intros N. pose proof (Z.rem_sign_nz a b B N) as W. fold r in W. destruct (Z.ltb_spec r 0), (Z.ltb_spec a 0); try reflexivity; exfalso; lia. }
  assert (T : (a <? 0) <> (b <? 0) -> t <= 0).
  { intros D. clearbody t r. destruct (Z.ltb_spec a 0), (Z.ltb_spec b 0); try congruence; destruct (Z.eq_dec r 0) as [E|E]; try nia; specialize (S E); destruct (Z.ltb_spec r 0); try discriminate; nia. }
  assert (P1 : r = 0 \/ (r <? 0) = (b <? 0) -> a / b = t).
  { intros D. symmetry. apply (Z.div_unique _ _ _ r); [|lia]. destruct (Z.ltb_spec r 0), (Z.ltb_spec b 0); destruct D as [D|D]; try discriminate; lia. }
  assert (P2 : r <> 0 -> (r <? 0) <> (b <? 0) -> a / b = t - 1 /\ t <= 0).
  { intros N D. split; [|apply T; rewrite <- S by exact N; exact D]. symmetry. apply (Z.div_unique _ _ _ (r + b)); [|lia]. destruct (Z.ltb_spec r 0), (Z.ltb_spec b 0); try congruence; lia. }
  split; [|split; [exact P1|exact P2]].
  destruct (Z.eq_dec r 0) as [E|E]; [rewrite P1 by auto; lia|]. destruct (Bool.bool_dec (r <? 0) (b <? 0)) as [D|D]; [rewrite P1 by auto; lia|]. destruct (P2 E D). lia.
Qed.
Lemma fsign_negative f : fsign f = negative f. Proof. destruct f; reflexivity. Qed.

Lemma close_quotient y t s d o : 0 < o -> y <> 0 -> Z.abs t <= 2 ^ 48 -> 2 ^ 52 * Z.abs (y * t - s) <= Z.abs (y * t) ->
  Z.abs (s * Z.sgn y * o - d * Z.abs y) <= Z.abs (s * Z.sgn y * o - t * o * Z.abs y) ->
  8 * Z.abs (d - t * o) <= o /\ (t = 0 -> d = 0).
Proof.
  intros O N T S B.
  assert (C : Z.abs (s * Z.sgn y * o - t * o * Z.abs y) = o * Z.abs (y * t - s)).
  { rewrite <- (Z.abs_eq o) at 3 by (clear -O; lia). rewrite <- Z.abs_mul. destruct (Z.abs_spec y) as [[Sy ->]|[Sy ->]]; [rewrite Z.sgn_pos by lia; rewrite <- Z.abs_opp|rewrite Z.sgn_neg by lia]; f_equal; ring. }
  rewrite C in B. assert (E : Z.abs (d - t * o) * Z.abs y <= 2 * (o * Z.abs (y * t - s))).
  { rewrite <- (Z.abs_eq (Z.abs y)) by (clear; lia). rewrite <- Z.abs_mul, Z.mul_sub_distr_r. set (a := d * Z.abs y) in *. set (b := t * o * Z.abs y) in *. set (c := s * Z.sgn y * o) in *. set (w := o * Z.abs (y * t - s)) in *. clearbody a b c w. clear -B C. lia. }
  rewrite Z.abs_mul in S. set (a := Z.abs (d - t * o)) in *. set (w := Z.abs (y * t - s)) in *. set (v := Z.abs y) in *. set (u := Z.abs t) in *.
  assert (V : 0 < v) by (unfold v; clear -N; lia). assert (A : 0 <= a) by (unfold a; clear; lia). assert (U : t = 0 -> u = 0) by (unfold u; clear; lia). assert (D : t = 0 -> a = 0 -> d = 0) by (unfold a; clear; intros; subst t; lia).
  clearbody a w v u. clear B C N.
  assert (G : 2 ^ 52 * (a * v) <= 2 * o * (v * u)).
  { apply Z.le_trans with (2 ^ 52 * (2 * (o * w))); [apply Z.mul_le_mono_nonneg_l; [discriminate|exact E]|].
    replace (2 ^ 52 * (2 * (o * w))) with (2 * o * (2 ^ 52 * w)) by ring. apply Z.mul_le_mono_nonneg_l; [clear -O; lia|exact S]. }
  assert (J : 2 ^ 52 * a <= 2 * o * u).
  { apply (Z.mul_le_mono_pos_r _ _ v); [exact V|]. replace (2 ^ 52 * a * v) with (2 ^ 52 * (a * v)) by ring. replace (2 * o * u * v) with (2 * o * (v * u)) by ring. exact G. }
  split; [|intros Z; apply D; [exact Z|]; rewrite (U Z), Z.mul_0_r in J; clear -J A; lia].
  assert (K : 2 * o * u <= 2 * o * 2 ^ 48) by (apply Z.mul_le_mono_nonneg_l; [clear -O; lia|exact T]). clear -J K. lia.
Qed.
Lemma range_bound : (2 ^ 54 - 1) * 2 ^ 970 * one_unit <= 2 ^ 2098.
Proof. unfold one_unit. vm_compute. discriminate. Qed.

Lemma ffloordiv_one x y (q := units x / units y) : fvalid x = true -> fvalid y = true -> finite x -> finite y -> units y <> 0 -> Z.abs q <= 2 ^ 48 ->
  fvalid (ffloordiv x y) = true /\ finite (ffloordiv x y) /\ units (ffloordiv x y) = q * one_unit /\
  negative (ffloordiv x y) = (if q =? 0 then xorb (negative x) (negative y) else q <? 0).
Proof.
  intros Vx Vy Fx Fy Ny Hq. assert (Hq49 : Z.abs q <= 2 ^ 49) by (clear -Hq; lia). assert (Hq53 : Z.abs q < 2 ^ 53) by (clear -Hq; lia). pose proof one_unit_pos as O. destruct (fmod_one x y Vx Vy Fx Fy Ny) as (Vm & Fm & Um & Sm).
  destruct (quot_floor (units x) (units y) Ny) as (T & P1 & P2). fold q in T, P1, P2.
  assert (Ur : units (ffmod x y) = Z.rem (units x) (units y)) by (rewrite Um; apply Z.rem_abs_r; exact Ny). clear Um.
  pose proof (Z.quot_rem' (units x) (units y)) as QR. set (t := Z.quot (units x) (units y)) in *. set (r := Z.rem (units x) (units y)) in *.
  assert (St : units x - units (ffmod x y) = units y * t) by (rewrite Ur; lia).
  pose proof (nearest_one_to _ _ _ _ (fsub_one x (ffmod x y) Vx Vm Fx Fm)) as NS. rewrite St in NS.
  assert (Ab : Z.abs (units y * t) <= Z.abs (units x)).
  { assert (Rs : r = 0 \/ (r < 0 /\ units x < 0) \/ (0 < r /\ 0 < units x)).
    { destruct (Z.eq_dec r 0) as [E|E]; [auto|right]. pose proof (Z.rem_sign_nz (units x) (units y) Ny E) as W. fold r in W. clearbody r. lia. }
    pose proof (Z.rem_le (Z.abs (units x)) (Z.abs (units y)) ltac:(lia) ltac:(lia)) as W. rewrite Z.rem_abs in W by exact Ny. fold r in W. clearbody t r. lia. }
  destruct (near_finite _ _ _ _ NS) as [Fs Vs].
  { pose proof (units_pos_bound x Vx Fx). lia. }
  unfold ffloordiv. set (m := ffmod x y) in *. set (s := fsub x m) in *. clearbody s.
  (* the difference is close to the multiple of y *)
  assert (Sc : 2 ^ 52 * Z.abs (units y * t - units s) <= Z.abs (units y * t)).
  { destruct (float_close (units y * t)) as (g & Vg & Fg & Cg).
    - apply Z.le_lt_trans with (1 := Ab). pose proof (units_pos_bound x Vx Fx) as B. apply Z.lt_le_trans with (1 := B).
      exact range_bound.
    - pose proof (near_unit _ _ _ g NS Fs Vg Fg) as W. clear -W Cg. lia. }
  (* the quotient of that by y is close to t *)
  pose proof (nearest_one_to _ _ _ _ (fdiv_one s y Vs Vy Fs Fy Ny)) as ND.
  assert (Tb : Z.abs t <= 2 ^ 48) by (clear -T Hq; lia). assert (Tb53 : Z.abs t < 2 ^ 53) by (clear -Tb; lia).
  destruct (near_finite _ _ _ _ ND) as [Fd Vd].
  { rewrite Z.abs_mul. replace (Z.abs (Z.sgn (units y))) with 1 by (clear -Ny; lia). rewrite Z.mul_1_r.
    assert (B : Z.abs (units y * t) <= 2 ^ 48 * Z.abs (units y)) by (rewrite Z.abs_mul, Z.mul_comm; apply Z.mul_le_mono_nonneg_r; [clear; lia|exact Tb]).
    apply Z.lt_le_trans with (2 ^ 49 * Z.abs (units y)); [|apply Z.mul_le_mono_nonneg_r; [clear; lia|discriminate]]. clear -B Sc Ny. lia. }
  set (d0 := fdiv s y) in *. clearbody d0.
  assert (Dc : 8 * Z.abs (units d0 - t * one_unit) <= one_unit /\ (t = 0 -> units d0 = 0)).
  { destruct (whole_exists t Tb53) as (g & Vg & Fg & Ug). pose proof (near_le _ _ _ _ g ND Fd Vg Fg) as B. rewrite Ug in B. exact (close_quotient _ _ _ _ _ O Ny Tb Sc B). }
  clear ND NS Sc St Ab Fs Vs s. destruct Dc as [Dc D0].
  set (d := match m with S754_zero _ => d0 | _ => _ end).
  assert (DD : fvalid d = true /\ finite d /\ 4 * Z.abs (units d - q * one_unit) <= one_unit /\ (q = 0 -> units d = 0)).
  { destruct (sign_units y Vy Fy Ny) as [Sy Ly].
    destruct (Z.eq_dec r 0) as [E|E].
    - assert (Em : d = d0) by (unfold d; rewrite (units_zero_neg m Vm Fm) by congruence; reflexivity). rewrite Em, P1 by auto. repeat split; auto. clear -Dc O. lia.
    - assert (Nm : units m <> 0) by congruence. destruct (sign_units m Vm Fm Nm) as [Smm Lm].
      assert (Em : d = if Bool.eqb (flt0 y) (flt0 m) then d0 else fsub d0 fone) by (unfold d; destruct m; try contradiction; reflexivity).
      rewrite Em, Ly, Lm. rewrite <- Sy, <- Smm, Ur. destruct (Bool.eqb (units y <? 0) (r <? 0)) eqn:G.
      + apply Bool.eqb_prop in G. rewrite P1 by auto. repeat split; auto. clear -Dc O. lia.
      + apply Bool.eqb_false_iff in G. destruct (P2 E ltac:(congruence)) as [Q2 T2].
        destruct fone_facts as (V1 & F1 & U1). pose proof (nearest_one_to _ _ _ _ (fsub_one d0 fone Vd V1 Fd F1)) as N1. rewrite U1 in N1.
        assert (Qb : Z.abs (units d0 - one_unit) <= 2 ^ 50 * one_unit).
        { assert (H : Z.abs (t * one_unit) <= 2 ^ 48 * one_unit) by (rewrite Z.abs_mul, (Z.abs_eq one_unit) by (clear -O; lia); apply Z.mul_le_mono_nonneg_r; [clear -O; lia|exact Tb]). clear -H Dc O. lia. }
        destruct (near_finite _ _ _ _ N1) as [Ff Vf].
        { apply Z.le_lt_trans with (1 := Qb). apply Z.mul_lt_mono_pos_r; [exact O|reflexivity]. }
        split; [exact Vf|]. split; [exact Ff|]. destruct (whole_exists q Hq53) as (g & Vg & Fg & Ug).
        pose proof (near_unit _ _ _ g N1 Ff Vg Fg) as B. rewrite Ug in B. split; [|intros Z; exfalso; clear -Z Q2 T2; lia]. rewrite Q2 in *. clear -B Dc O. lia. }
  clearbody d. destruct DD as (Vd1 & Fd1 & Cd & Zd). clear Dc D0 Vd Fd d0.
  change (fvalid (last_steps x y d) = true /\ finite (last_steps x y d) /\ units (last_steps x y d) = q * one_unit /\
    negative (last_steps x y d) = (if q =? 0 then xorb (negative x) (negative y) else q <? 0)).
  destruct (Z.eq_dec (units d) 0) as [Z|Z].
  - assert (Q0 : q = 0). { rewrite Z in Cd. clear -Cd O. nia. } rewrite Q0. rewrite (units_zero_neg d Vd1 Fd1 Z). cbn [last_steps fvalid valid_binary finite units negative Z.eqb].
    repeat split. rewrite fsign_negative. destruct (fdiv_one x y Vx Vy Fx Fy Ny) as [(_ & Sd & _) _]. rewrite Sd.
    destruct (Z.eqb_spec (units x * Z.sgn (units y)) 0) as [_|W]; [reflexivity|].
    assert (Nx : units x <> 0) by (intros X; rewrite X in W; apply W; reflexivity).
    rewrite (proj1 (sign_of_quotient _ _ Nx Ny)). destruct (sign_units x Vx Fx Nx) as [-> _], (sign_units y Vy Fy Ny) as [-> _]. reflexivity.
  - destruct (last_steps_ok x y d q Vd1 Fd1 Cd Hq49 Z) as (A & B & C & D). split; [exact A|]. split; [exact B|]. split; [exact C|].
    destruct (Z.eqb_spec q 0) as [E|E]; [elim Z; auto|]. apply D, E.
Qed.

Lemma fadd_valid x y : fvalid x = true -> fvalid y = true -> fvalid (fadd x y) = true.
Proof. intros Vx Vy. destruct (fadd_float x y Vx Vy) as [|s|f _ _ (V & _)]; [reflexivity|reflexivity|exact V]. Qed.
Lemma ffloor_valid x : fvalid x = true -> fvalid (ffloor x) = true.
Proof. destruct x; cbn [ffloor]; auto. intros _. apply fnormalize_valid. Qed.
Lemma fsub_valid x y : fvalid x = true -> fvalid y = true -> fvalid (fsub x y) = true.
Proof. intros Vx Vy. destruct (fsub_float x y Vx Vy) as [|s|f _ _ (V & _)]; [reflexivity|reflexivity|exact V]. Qed.
Lemma ffloordiv_valid x y : fvalid x = true -> fvalid y = true -> fvalid (ffloordiv x y) = true.
Proof.
  intros Vx Vy. unfold ffloordiv. set (d0 := fdiv (fsub x (ffmod x y)) y). assert (V0 : fvalid d0 = true) by apply fdiv_valid.
  set (d := match ffmod x y with S754_zero _ => d0 | _ => _ end).
  assert (Vd : fvalid d = true). { assert (V1 : fvalid (fsub d0 fone) = true) by (apply fsub_valid; [exact V0|reflexivity]). unfold d. destruct (ffmod x y); try exact V0; destruct (Bool.eqb _ _); assumption. }
  clearbody d. clear V0 d0. assert (K : fvalid (match ncmp (NF (fsub d (ffloor d))) (NF (fdiv fone (fadd fone fone))) with Some Gt => fadd (ffloor d) fone | _ => ffloor d end) = true).
  { pose proof (ffloor_valid d Vd) as F. destruct (ncmp _ _) as [[]|]; try exact F. apply fadd_valid; [exact F|reflexivity]. }
  destruct d; try exact K. reflexivity.
Qed.
Lemma ffloordiv_float x y : fvalid x = true -> fvalid y = true -> ~ (finite y /\ units y = 0) -> float_floor x y (ffloordiv x y).
Proof.
  intros Vx Vy Ny. destruct (not_finite x) as [Fx|[->|[s ->]]].
  - destruct (not_finite y) as [Fy|[->|[s ->]]].
    + assert (N : units y <> 0) by tauto. destruct (Z.le_gt_cases (Z.abs (units x / units y)) (2 ^ 48)) as [L|L]; [|apply fl_far; try assumption; now apply ffloordiv_valid].
      destruct (ffloordiv_one x y Vx Vy Fx Fy N L) as (A & B & C & D). apply fl_fin; assumption.
    + replace (ffloordiv x S754_nan) with S754_nan; [apply fl_nan; auto|]. unfold ffloordiv. replace (ffmod x S754_nan) with S754_nan by (destruct x; reflexivity). destruct x as [[]|[]| |[]]; reflexivity.
    + assert (Q : infinite (S754_infinity s)) by now exists s. destruct x as [t| | |t m e]; try contradiction.
      * replace (ffloordiv _ _) with (S754_zero (xorb t s)) by (destruct t, s; reflexivity). apply (fl_zero (S754_zero t) (S754_infinity s)); [exact I|exact Q|left; reflexivity].
      * assert (N : units (S754_finite t m e) <> 0) by (intros Z; pose proof (units_zero_neg _ Vx I Z); discriminate).
        assert (Z : exists u, fsub (S754_finite t m e) (S754_finite t m e) = S754_zero u).
        { pose proof (nearest_one_to _ _ _ _ (fsub_one (S754_finite t m e) (S754_finite t m e) Vx Vx I I)) as W. rewrite Z.sub_diag in W.
          destruct (nearest_exact _ _ _ W) as (A & B & C & _); [exists (S754_zero false); repeat split|]. eexists. exact (units_zero_neg _ A B C). }
        destruct Z as [u Z]. unfold ffloordiv. cbn [ffmod]. rewrite Z. cbn [flt0].
        destruct (Bool.bool_dec t s) as [<-|D].
        -- rewrite Bool.eqb_reflx. cbn [fdiv SFdiv fsign]. apply (fl_zero (S754_finite t m e) (S754_infinity t)); [exact I|exact Q|right; reflexivity].
        -- replace (Bool.eqb s t) with false by (destruct s, t; try reflexivity; congruence).
           replace (fsub (fdiv (S754_zero u) (S754_infinity s)) fone) with minus_one by (destruct u, s; vm_compute; reflexivity).
           match goal with |- float_floor _ _ ?r => replace r with minus_one by (vm_compute; reflexivity) end. apply fl_below; [exact I|exact Q|exact N|exact D].
  - replace (ffloordiv S754_nan y) with S754_nan; [apply fl_nan; auto|]. unfold ffloordiv. cbn [ffmod]. destruct y as [[]|[]| |[]]; reflexivity.
  - replace (ffloordiv (S754_infinity s) y) with S754_nan; [apply fl_nan; right; right; now exists s|]. unfold ffloordiv.
    replace (ffmod (S754_infinity s) y) with S754_nan by (destruct y; reflexivity). destruct s, y as [[]|[]| |[]]; reflexivity.
Qed.

(** ** Mixed numbers *)
Lemma mixed_floats (zi : Z -> Z -> res num -> Prop) (ff : float64 -> float64 -> res num -> Prop) (g : float64 -> float64 -> res num) (h : num -> num -> res num) :
  (forall x y, zi x y (h (NI x) (NI y))) ->
  (forall a b, (exists f, a = NF f \/ b = NF f) -> h a b = (let! x := to_float a in let! y := to_float b in g x y)) ->
  (forall x y, fvalid x = true -> fvalid y = true -> ff x y (g x y)) ->
  forall a b, float_ok a -> float_ok b -> mixed zi ff a b (h a b).
Proof.
  intros HI HF G a b Oa Ob. destruct (as_float_spec a Oa) as [Ca Va], (as_float_spec b Ob) as [Cb Vb].
  assert (K : (exists f, a = NF f \/ b = NF f) -> mixed zi ff a b (h a b)).
  { intros W. rewrite (HF a b W). destruct (to_float a) as [x|e] eqn:Ea; cbn [bind].
    - destruct (to_float b) as [y|e] eqn:Eb; cbn [bind].
      + apply (mx_floats _ _ a b x y); [exact W|exact Ca|exact Cb|]. apply G; auto.
      + destruct b as [z|f]; [|discriminate]. destruct W as (f & [->|E]); [|discriminate]. apply mx_right. exact Cb.
    - destruct a as [z|f]; [|discriminate]. destruct W as (f & [E| ->]); [discriminate|]. apply mx_left. exact Ca. }
  destruct a as [x|f], b as [y|g']; [apply mx_ints, HI|apply K; eauto|apply K; eauto|apply K; eauto].
Qed.
Lemma zero_float y : fvalid y = true -> fzerob y = true <-> finite y /\ units y = 0.
Proof.
  intros V. split; [destruct y; try discriminate; intros _; split; [exact I|reflexivity]|].
  intros [F Z]. rewrite (units_zero_neg y V F Z). reflexivity.
Qed.
Lemma divides_ok (R : float64 -> float64 -> float64 -> Prop) ff x y : fvalid x = true -> fvalid y = true ->
  (~ (finite y /\ units y = 0) -> R x y (ff x y)) -> divides R x y (if fzerob y then Err EZeroDiv else Ok (NF (ff x y))).
Proof.
  intros Vx Vy H. pose proof (zero_float y Vy) as Z. destruct (fzerob y).
  - left. destruct (proj1 Z eq_refl). auto.
  - right. assert (N : ~ (finite y /\ units y = 0)) by (intros W; apply Z in W; discriminate). split; [exact N|]. exists (ff x y). split; [reflexivity|]. now apply H.
Qed.
Lemma sum_ok a b : float_ok a -> float_ok b -> a_sum a b (nadd a b).
Proof.
  apply (mixed_floats _ _ (fun x y => Ok (NF (fadd x y)))); [reflexivity|intros c d (f & [->| ->]); [reflexivity|destruct c; reflexivity]|].
  intros x y Vx Vy. eexists. split; [reflexivity|]. now apply fadd_float.
Qed.
Lemma difference_ok a b : float_ok a -> float_ok b -> a_difference a b (nsub a b).
Proof.
  apply (mixed_floats _ _ (fun x y => Ok (NF (fsub x y)))); [reflexivity|intros c d (f & [->| ->]); [reflexivity|destruct c; reflexivity]|].
  intros x y Vx Vy. eexists. split; [reflexivity|]. now apply fsub_float.
Qed.
Lemma product_ok a b : float_ok a -> float_ok b -> a_product a b (nmul a b).
Proof.
  apply (mixed_floats _ _ (fun x y => Ok (NF (fmul x y)))); [reflexivity|intros c d (f & [->| ->]); [reflexivity|destruct c; reflexivity]|].
  intros x y Vx Vy. eexists. split; [reflexivity|]. now apply fmul_float.
Qed.
Lemma int_div_one x y : y <> 0 -> nearest_one (y <? 0) (x * Z.sgn y) (Z.abs y) (fdiv (exact_float x) (exact_float y)).
Proof.
  intros N. unfold nearest_one. destruct y as [|y|y]; [congruence| |]; destruct x as [|x|x]; cbn [exact_float Z.sgn Z.abs Z.ltb Z.compare Z.mul Z.eqb]; try (apply rounded_zero; lia);
  rewrite ?Z.mul_1_r; cbn [Z.abs]; rewrite ?Pos.mul_1_r; apply div_rounded; try lia; cbn; ring.
Qed.
Lemma quotient_ok a b : float_ok a -> float_ok b -> a_quotient a b (ntruediv a b).
Proof.
  apply (mixed_floats _ _ (fun x y => if fzerob y then Err EZeroDiv else Ok (NF (fdiv x y)))).
  - intros x y. cbn [ntruediv]. unfold int_quotient. destruct (Z.eqb_spec y 0) as [->|N]; [left; auto|right].
    pose proof (int_div_one x y N) as R. pose proof (nearest_one_to _ _ _ _ R) as (_ & _ & C).
    assert (A : Z.abs (x * Z.sgn y) = Z.abs x) by (rewrite Z.abs_mul; replace (Z.abs (Z.sgn y)) with 1 by lia; ring). rewrite A in C.
    destruct C as [[C E]|(C & F & _)].
    + left. rewrite E. auto.
    + right. split; [exact N|]. split; [exact C|]. exists (fdiv (exact_float x) (exact_float y)). split; [|apply nearest_one_to, R]. destruct (fdiv _ _); try contradiction; reflexivity.
  - intros c d (f & [->| ->]); [reflexivity|destruct c; reflexivity].
  - intros x y Vx Vy. apply divides_ok; [exact Vx|exact Vy|]. now apply fdiv_float.
Qed.
Lemma remainder_ok a b : float_ok a -> float_ok b -> a_remainder a b (nmod a b).
Proof.
  apply (mixed_floats _ _ (fun x y => if fzerob y then Err EZeroDiv else Ok (NF (fmodulo x y)))).
  - intros x y. cbn [nmod]. unfold int_remainder. destruct (Z.eqb_spec y 0) as [->|N]; [left; auto|right].
    exists (x mod y), (x / y). split; [exact N|]. split; [reflexivity|]. pose proof (Z.div_mod x y N). split; [lia|].
    destruct (Z.lt_ge_cases 0 y); [left; apply Z.mod_pos_bound; lia|right; apply Z.mod_neg_bound; lia].
  - intros c d (f & [->| ->]); [reflexivity|destruct c; reflexivity].
  - intros x y Vx Vy. apply divides_ok; [exact Vx|exact Vy|]. now apply fmodulo_float.
Qed.
Lemma floor_ok a b : float_ok a -> float_ok b -> a_floor a b (nfloordiv a b).
Proof.
  apply (mixed_floats _ _ (fun x y => if fzerob y then Err EZeroDiv else Ok (NF (ffloordiv x y)))).
  - intros x y. cbn [nfloordiv]. unfold int_floor. destruct (Z.eqb_spec y 0) as [->|N]; [left; auto|right].
    exists (x mod y), (x / y). split; [exact N|]. split; [reflexivity|]. pose proof (Z.div_mod x y N). split; [lia|].
    destruct (Z.lt_ge_cases 0 y); [left; apply Z.mod_pos_bound; lia|right; apply Z.mod_neg_bound; lia].
  - intros c d (f & [->| ->]); [reflexivity|destruct c; reflexivity].
  - intros x y Vx Vy. apply divides_ok; [exact Vx|exact Vy|]. now apply ffloordiv_float.
Qed.

(** ** Vectors *)
Lemma pairwise_component f (R : num -> num -> res num -> Prop) v w r : (forall a b, float_ok a -> float_ok b -> R a b (f a b)) ->
  vec_ok v -> vec_ok w -> pairwise f (fun u => u) v w r -> by_component R v w r.
Proof.
  intros H [Vx Vy] [Wx Wy] P. pose proof (H _ _ Vx Wx) as X. pose proof (H _ _ Vy Wy) as Y.
  destruct P as [x y Ex Ey|e Ex|x e Ex Ey]; rewrite ?Ex, ?Ey in *.
  - now apply bc_ok.
  - now apply bc_x.
  - now apply (bc_y _ _ _ x).
Qed.
Theorem p_C62 : forall v o w, stands_for o w -> vec_ok v -> vec_ok w ->
  by_component a_sum v w (vadd v o) /\ by_component a_difference v w (vsub v o) /\
  by_component a_product v w (vmul v o) /\ by_component a_quotient v w (vtruediv v o) /\
  by_component a_floor v w (vfloordiv v o) /\ by_component a_remainder v w (vmod v o) /\
  by_component a_sum w v (vradd o v) /\ by_component a_difference w v (vrsub o v) /\
  by_component a_product w v (vrmul o v) /\ by_component a_quotient w v (vrtruediv o v) /\
  by_component a_floor w v (vrfloordiv o v).
Proof.
  intros v o w S V W. destruct (p_C10_each v o w S) as (P1 & P2 & P3 & P4 & P5 & P6 & P7 & P8 & P9 & P10 & P11 & _).
  pose proof (pairwise_component _ _ _ _ _ sum_ok V W P1). pose proof (pairwise_component _ _ _ _ _ difference_ok V W P2).
  pose proof (pairwise_component _ _ _ _ _ product_ok V W P3). pose proof (pairwise_component _ _ _ _ _ quotient_ok V W P4).
  pose proof (pairwise_component _ _ _ _ _ floor_ok V W P5). pose proof (pairwise_component _ _ _ _ _ remainder_ok V W P6).
  pose proof (pairwise_component _ _ _ _ _ sum_ok W V P7). pose proof (pairwise_component _ _ _ _ _ difference_ok W V P8).
  pose proof (pairwise_component _ _ _ _ _ product_ok W V P9). pose proof (pairwise_component _ _ _ _ _ quotient_ok W V P10).
  pose proof (pairwise_component _ _ _ _ _ floor_ok W V P11). repeat (split; [assumption|]). assumption.
Qed.

Theorem p_C62_rmod : forall v o w, stands_for o w -> (forall u, o <> OVec u) -> (forall f, o <> ONum (NF f)) -> vec_ok v -> vec_ok w ->
  exists r, by_component a_remainder w v r /\ vrmod o v = (let! u := r in Ok (Some u)).
Proof.
  intros v o w S N1 N2 V W. destruct (p_C10_each v o w S) as (_ & _ & _ & _ & _ & _ & _ & _ & _ & _ & _ & P). specialize (P N1 N2).
  destruct W as [Wx Wy], V as [Vx Vy]. pose proof (remainder_ok _ _ Wx Vx) as X. pose proof (remainder_ok _ _ Wy Vy) as Y.
  destruct P as [x y Ex Ey|e Ex|x e Ex Ey]; rewrite ?Ex, ?Ey in *.
  - exists (Ok (mkVec x y)). split; [now apply bc_ok|reflexivity].
  - exists (Err e). split; [now apply bc_x|reflexivity].
  - exists (Err e). split; [now apply (bc_y _ _ _ x)|reflexivity].
Qed.

(** ** The specification leaves no choice *)
Lemma nearest_unique zs n d f g : 0 < d -> nearest_to zs n d f -> nearest_to zs n d g -> f = g.
Proof.
  intros D. assert (E : exists h, nearest_one zs n d h).
  { unfold nearest_one. destruct (Z.eqb_spec n 0) as [->|N]; [exists (S754_zero zs); now apply rounded_zero|].
    destruct d as [|d|d]; try lia. pose proof (int_div_one n (Zpos d) ltac:(lia)) as R. unfold nearest_one in R. cbn [Z.sgn Z.abs] in R. rewrite Z.mul_1_r in R.
    eexists. destruct (Z.eqb_spec n 0); [contradiction|exact R]. }
  destruct E as [h H]. intros F G. rewrite (nearest_one_eq _ _ _ _ _ H F), (nearest_one_eq _ _ _ _ _ H G). reflexivity.
Qed.
Definition functional (R : float64 -> float64 -> float64 -> Prop) : Prop := forall x y f g, R x y f -> R x y g -> f = g.
Lemma mixed_determined (zi : Z -> Z -> res num -> Prop) (ff : float64 -> float64 -> res num -> Prop) (a b : num) (r r' : res num) : (forall x y r r', zi x y r -> zi x y r' -> r = r') -> (forall x y r r', ff x y r -> ff x y r' -> r = r') ->
  mixed zi ff a b r -> mixed zi ff a b r' -> r = r'.
Proof.
  intros HZ HF A B.
  destruct A as [x y r A|a b x y r W Ax Ay A|a f e A|f b e A].
  - inversion B as [x' y' r1 B1|a' b' x' y' r1 W B1 B2 B3|a' f' e' B1|f' b' e' B1]; subst; [eapply HZ; eassumption|]. destruct W as (f & [?|?]); discriminate.
  - inversion B as [x' y' r1 B1|a' b' x' y' r1 W' B1 B2 B3|a' f' e' B1|f' b' e' B1]; subst.
    + destruct W as (f & [?|?]); discriminate.
    + pose proof (as_float_unique _ _ _ Ax B1) as E1. pose proof (as_float_unique _ _ _ Ay B2) as E2. injection E1 as <-. injection E2 as <-. eapply HF; eassumption.
    + pose proof (as_float_unique _ _ _ Ax B1). discriminate.
    + pose proof (as_float_unique _ _ _ Ay B1). discriminate.
  - inversion B as [x' y' r1 B1|a' b' x' y' r1 W' B1 B2 B3|a' f' e' B1|f' b' e' B1]; subst.
    + pose proof (as_float_unique _ _ _ A B1). discriminate.
    + pose proof (as_float_unique _ _ _ A B1) as E. injection E as <-. reflexivity.
    + inversion A.
  - inversion B as [x' y' r1 B1|a' b' x' y' r1 W' B1 B2 B3|a' f' e' B1|f' b' e' B1]; subst.
    + pose proof (as_float_unique _ _ _ A B2). discriminate.
    + inversion A.
    + pose proof (as_float_unique _ _ _ A B1) as E. injection E as <-. reflexivity.
Qed.
Lemma total_determined R x y r r' : functional R -> total R x y r -> total R x y r' -> r = r'.
Proof. intros F (f & -> & A) (g & -> & B). now rewrite (F _ _ _ _ A B). Qed.
Lemma divides_determined R x y r r' : functional R -> divides R x y r -> divides R x y r' -> r = r'.
Proof.
  intros F [(A1 & A2 & ->)|[A1 A2]] [(B1 & B2 & ->)|[B1 B2]]; [reflexivity|elim B1; auto|elim A1; auto|]. eapply total_determined; eassumption.
Qed.
Ltac odd_floats := repeat match goal with
  | H : _ \/ _ |- _ => destruct H
  | H : _ /\ _ |- _ => destruct H
  | H : exists _, _ |- _ => destruct H
  | H : infinite _ |- _ => destruct H
  end; subst; cbn [finite units negative] in *; try contradiction; try discriminate; try congruence; try reflexivity;
  repeat match goal with b : bool |- _ => destruct b end; cbn [negb] in *; try discriminate; try congruence.
Lemma sum_functional : functional float_sum.
Proof.
  intros x y f g A B. destruct A as [A|s A|f Ax Ay A], B as [B|s' B|g Bx By B]; try (odd_floats; fail).
  eapply nearest_unique; [apply one_unit_pos|eassumption|eassumption].
Qed.
Lemma difference_functional : functional float_difference.
Proof.
  intros x y f g A B. destruct A as [A|s A|f Ax Ay A], B as [B|s' B|g Bx By B]; try (odd_floats; fail).
  eapply nearest_unique; [apply one_unit_pos|eassumption|eassumption].
Qed.
Lemma product_functional : functional float_product.
Proof.
  intros x y f g A B. destruct A as [A|A|f Ax Ay A], B as [B|B|g Bx By B]; try (odd_floats; fail).
  eapply nearest_unique; [|eassumption|eassumption]. apply Z.mul_pos_pos; apply one_unit_pos.
Qed.
Lemma quotient_functional : functional float_quotient.
Proof.
  intros x y f g A B. destruct A as [A|A1 A2|A1 A2|f Ax Ay N A], B as [B|B1 B2|B1 B2|g Bx By N' B]; try (odd_floats; fail).
  eapply nearest_unique; [|eassumption|eassumption]. lia.
Qed.
Lemma remainder_functional : functional float_remainder.
Proof.
  intros x y f g A B. destruct A as [A|A1 A2 A3|A1 A2 A3 A4|A1 A2 A3 A4|f Ax Ay N A], B as [B|B1 B2 B3|B1 B2 B3 B4|B1 B2 B3 B4|g Bx By N' B]; try (odd_floats; fail).
  eapply nearest_unique; [|eassumption|eassumption]. apply one_unit_pos.
Qed.
Theorem p_C62_determined : forall a b r r',
  (a_sum a b r -> a_sum a b r' -> r = r') /\ (a_difference a b r -> a_difference a b r' -> r = r') /\
  (a_product a b r -> a_product a b r' -> r = r') /\ (a_quotient a b r -> a_quotient a b r' -> r = r') /\
  (a_remainder a b r -> a_remainder a b r' -> r = r').
Proof.
  intros a b r r'. repeat split; apply mixed_determined; try (intros x y q q' -> ->; reflexivity); try (intros x y q q'; apply total_determined).
  - exact sum_functional.
  - exact difference_functional.
  - exact product_functional.
  - intros x y q q' [(-> & ->)|[(A1 & A2 & ->)|(A1 & A2 & f & -> & A)]] [(? & ->)|[(B1 & B2 & ->)|(B1 & B2 & g & -> & B)]]; try reflexivity; try congruence; try lia.
    f_equal. f_equal. eapply nearest_unique; [|eassumption|eassumption]. lia.
  - intros x y q q'. apply divides_determined, quotient_functional.
  - intros x y q q' [(-> & ->)|(m & k & N & -> & E & B)] [(? & ->)|(m' & k' & N' & -> & E' & B')]; try reflexivity; try congruence.
    f_equal. f_equal. assert (D : (k - k') * y = m' - m) by lia. assert (Z.abs (m' - m) < Z.abs y) by lia. assert (k = k') by nia. nia.
  - intros x y q q'. apply divides_determined, remainder_functional.
Qed.

(** Whole results beyond 2^48 may be wrong *)
Definition far_x : float64 := S754_finite true 7874967416318864 52.
Definition far_y : float64 := S754_finite false 8026244974864851 0.
Theorem p_C62_refuted : exists x y f, fvalid x = true /\ fvalid y = true /\
  vfloordiv (mkVec (NF x) (NF x)) (ONum (NF y)) = Ok (mkVec (NF f) (NF f)) /\
  Z.abs (units x / units y) < 2 ^ 53 /\ units f <> units x / units y * one_unit.
Proof.
  exists far_x, far_y, (ffloordiv far_x far_y). split; [vm_compute; reflexivity|]. split; [vm_compute; reflexivity|]. split; [reflexivity|].
  split; [vm_compute; reflexivity|]. intros E. vm_compute in E. discriminate.
Qed.
