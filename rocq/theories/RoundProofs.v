(** * Proofs: rounding is to the nearest float, ties to even. *)
From Coq Require Import Lia.
From Verif Require Import Py Num NumFacts RoundFacts Json SpecRound.
Open Scope Z_scope.

(** [A/B] lies in [m, m+1) as [l] says *)
Definition located (A B m : Z) (l : location) : Prop :=
  0 <= A /\ 0 < B /\ exists t, A = m * B + t /\ 0 <= t < B /\
  match l with loc_Exact => t = 0 | loc_Inexact c => t <> 0 /\ (2 * t ?= B) = c end.
Lemma located_nonneg A B m l : located A B m l -> 0 <= m.
Proof. intros (HA & HB & t & E & T & _). nia. Qed.

Lemma loc_record m l : loc_of_shr_record (shr_record_of_loc m l) = l.
Proof. destruct l as [|[]]; reflexivity. Qed.
Definition recorded (A B : Z) (r : shr_record) : Prop := located A B (shr_m r) (loc_of_shr_record r).
Lemma recorded_loc A B m l : located A B m l -> recorded A B (shr_record_of_loc m l).
Proof. unfold recorded. now rewrite shr_loc, loc_record. Qed.

Lemma recorded_shr1 A B r : recorded A B r -> recorded A (2 * B) (shr_1 r).
Proof.
  unfold recorded. destruct r as [m r s]. cbn [shr_m]. intros H. pose proof (located_nonneg _ _ _ _ H) as M.
  destruct H as (HA & HB & t & E & T & L).
  assert (K : exists q b, m = 2 * q + b /\ (b = 0 \/ b = 1) /\
    shr_1 {| shr_m := m; shr_r := r; shr_s := s |} = {| shr_m := q; shr_r := b =? 1; shr_s := r || s |}).
  { destruct m as [|[p|p|]|p]; [exists 0, 0|exists (Zpos p), 1|exists (Zpos p), 0|exists 0, 1|lia]; repeat split; auto; lia. }
  destruct K as (q & b & -> & Hb & ->). cbn [shr_m]. split; [exact HA|]. split; [lia|]. exists (b * B + t).
  split; [rewrite E; ring|]. split; [destruct Hb as [->| ->]; lia|].
  destruct Hb as [->| ->], r, s; cbn [loc_of_shr_record Z.eqb Pos.eqb orb] in *;
    repeat match goal with
    | H : _ /\ _ |- _ => destruct H
    | H : (_ ?= _) = Lt |- _ => rewrite Z.compare_lt_iff in H
    | H : (_ ?= _) = Gt |- _ => rewrite Z.compare_gt_iff in H
    | H : (_ ?= _) = Eq |- _ => rewrite Z.compare_eq_iff in H
    | |- _ /\ _ => split
    | |- (_ ?= _) = Lt => rewrite Z.compare_lt_iff
    | |- (_ ?= _) = Gt => rewrite Z.compare_gt_iff
    | |- (_ ?= _) = Eq => rewrite Z.compare_eq_iff
    end; lia.
Qed.
Lemma recorded_iter A p : forall B r, recorded A B r -> recorded A (B * 2 ^ Zpos p) (SpecFloat.iter_pos shr_1 p r).
Proof.
  induction p as [p IH|p IH|]; intros B r H; cbn [SpecFloat.iter_pos].
  - replace (B * 2 ^ Zpos p~1) with ((2 * B) * 2 ^ Zpos p * 2 ^ Zpos p).
    + apply IH, IH, recorded_shr1, H.
    + replace (Zpos p~1) with (Zpos p + Zpos p + 1) by lia. rewrite !Z.pow_add_r, Z.pow_1_r by lia. ring.
  - replace (B * 2 ^ Zpos p~0) with (B * 2 ^ Zpos p * 2 ^ Zpos p).
    + apply IH, IH, H.
    + replace (Zpos p~0) with (Zpos p + Zpos p) by lia. rewrite Z.pow_add_r by lia. ring.
  - replace (B * 2 ^ 1) with (2 * B) by lia. apply recorded_shr1, H.
Qed.
Lemma recorded_fexp A B m e l : located A B m l -> e <= fx (Zdigits2 m + e) ->
  exists r, shr_fexp prec64 emax64 m e l = (r, fx (Zdigits2 m + e)) /\ recorded A (B * 2 ^ (fx (Zdigits2 m + e) - e)) r.
Proof.
  intros H He. unfold shr_fexp, shr. set (f := fx (Zdigits2 m + e)) in *. destruct (f - e) as [|p|p] eqn:En; [| |lia].
  - exists (shr_record_of_loc m l). replace e with f by lia. split; [reflexivity|]. rewrite Z.mul_1_r. now apply recorded_loc.
  - eexists. split; [rewrite <- En; replace (e + (f - e)) with f by lia; reflexivity|]. apply recorded_iter, recorded_loc, H.
Qed.

(** rounding to an integer *)
Lemma round_near A B m l : located A B m l -> forall k,
  Z.abs (A - round_nearest_even m l * B) <= Z.abs (A - k * B) /\
  (Z.abs (A - round_nearest_even m l * B) = Z.abs (A - k * B) -> k <> round_nearest_even m l ->
   Z.even (round_nearest_even m l) = true /\ Z.even k = false).
Proof.
  intros (HA & HB & t & -> & T & L) k. unfold round_nearest_even. destruct l as [|c].
  { subst t. replace (m * B + 0 - m * B) with 0 by ring. split; [lia|]. intros E N. exfalso. apply N. nia. }
  destruct L as [L0 L]. assert (D : forall j, m * B + t - j * B = (m - j) * B + t) by (intros; ring). rewrite !D.
  assert (K : k <= m - 1 \/ k = m \/ k = m + 1 \/ m + 2 <= k) by lia.
  assert (Ev : Z.even (m + 1) = negb (Z.even m)) by (rewrite Z.even_add; now destruct (Z.even m)).
  destruct c; [rewrite Z.compare_eq_iff in L|rewrite Z.compare_lt_iff in L|rewrite Z.compare_gt_iff in L].
  - destruct (Z.even m) eqn:E.
    + split; [destruct K as [K|[->|[->|K]]]; nia|]. intros Q N. split; [exact E|].
      destruct K as [K|[->|[->|K]]]; [nia|congruence|exact Ev|nia].
    + split; [destruct K as [K|[->|[->|K]]]; nia|]. intros Q N. split; [exact Ev|].
      destruct K as [K|[->|[->|K]]]; [nia|exact E|congruence|nia].
  - split; [destruct K as [K|[->|[->|K]]]; nia|]. intros Q N. exfalso. destruct K as [K|[->|[->|K]]]; try congruence; nia.
  - split; [destruct K as [K|[->|[->|K]]]; nia|]. intros Q N. exfalso. destruct K as [K|[->|[->|K]]]; try congruence; nia.
Qed.

(** floats by their parts *)
Lemma float_parts s m e : fvalid (S754_finite s m e) = true ->
  -1074 <= e <= 971 /\ Zpos m < 2 ^ 53 /\ (-1074 < e -> 2 ^ 52 <= Zpos m).
Proof.
  unfold fvalid, valid_binary, bounded, canonical_mantissa. rewrite andb_true_iff. intros [C L].
  apply Zeq_bool_eq in C. apply Zle_is_le_bool in L. rewrite fx_max in C. rewrite digits2_log2 in C.
  change (emax64 - prec64) with 971 in L. pose proof (Z.log2_spec (Zpos m) ltac:(lia)) as B. unfold Z.succ in B.
  assert (Hd : Z.log2 (Zpos m) + 1 <= 53) by lia. split; [lia|]. split.
  - pose proof (Z.pow_le_mono_r 2 _ _ ltac:(lia) Hd). lia.
  - intros G. replace (Z.log2 (Zpos m)) with 52 in B by lia. lia.
Qed.
Lemma digits_bounds m : 0 <= m -> Zdigits2 m <= 53 -> m < 2 ^ 53.
Proof.
  intros M Hd. destruct (Z.eq_dec m 0) as [->|N]; [reflexivity|]. rewrite Zdigits_pos in Hd by lia.
  pose proof (Z.log2_spec m ltac:(lia)) as B. unfold Z.succ in B. pose proof (Z.pow_le_mono_r 2 _ _ ltac:(lia) Hd). lia.
Qed.
Lemma digits_lower m : 0 <= m -> Zdigits2 m = 53 -> 2 ^ 52 <= m.
Proof.
  intros M Hd. destruct (Z.eq_dec m 0) as [->|N]; [discriminate|]. rewrite Zdigits_pos in Hd by lia.
  pose proof (Z.log2_spec m ltac:(lia)) as B. replace (Z.log2 m) with 52 in B by lia. lia.
Qed.
Lemma digits_upper m : 0 <= m < 2 ^ 53 -> Zdigits2 m <= 53.
Proof.
  intros M. destruct (Z.eq_dec m 0) as [->|N]; [discriminate|]. rewrite Zdigits_pos by lia.
  pose proof (Z.log2_lt_pow2 m 53 ltac:(lia)) as [H _]. specialize (H ltac:(lia)). lia.
Qed.

(** the rounded mantissa [m2] at exponent [e1], for [A/B] in units of 2^e1 *)
Lemma near_float A B m1 l1 e1 (U := 2 ^ (e1 + 1074)) (m2 := round_nearest_even m1 l1) : located A B m1 l1 -> -1074 <= e1 ->
  (-1074 < e1 -> 2 ^ 52 <= m1) -> forall (s : bool) g, fvalid g = true -> finite g ->
  let w := (if s then -1 else 1) * units g in
  Z.abs (A * U - m2 * U * B) <= Z.abs (A * U - w * B) /\
  (Z.abs (A * U - m2 * U * B) = Z.abs (A * U - w * B) -> w <> m2 * U -> Z.even m2 = true /\ ~ even_mantissa g).
Proof.
  intros H He Hm s g V F w. pose proof (round_near A B m1 l1 H) as R. fold m2 in R.
  assert (PU : 0 < U) by (apply Z.pow_pos_nonneg; lia).
  assert (Dk : forall k, Z.abs (A * U - k * U * B) = Z.abs (A - k * B) * U).
  { intros k. replace (A * U - k * U * B) with ((A - k * B) * U) by ring. rewrite Z.abs_mul, (Z.abs_eq U) by lia. reflexivity. }
  assert (K : forall k, w = k * U ->
    Z.abs (A * U - m2 * U * B) <= Z.abs (A * U - w * B) /\
    (Z.abs (A * U - m2 * U * B) = Z.abs (A * U - w * B) -> w <> m2 * U -> Z.even m2 = true /\ Z.even k = false)).
  { intros k ->. rewrite !Dk. destruct (R k) as [R1 R2]. split; [apply Z.mul_le_mono_nonneg_r; lia|].
    intros E N. apply R2; [|congruence]. apply Z.mul_reg_r in E; lia. }
  destruct g as [b|b| |sg mg eg]; try contradiction.
  - destruct (K 0) as [K1 K2]; [unfold w; cbn [units]; lia|]. split; [exact K1|]. intros E N. destruct (K2 E N). discriminate.
  - destruct (float_parts _ _ _ V) as (G1 & G2 & G3). destruct (Z.le_gt_cases e1 eg) as [L|L].
    + set (k := (if s then -1 else 1) * (if sg then -1 else 1) * Zpos mg * 2 ^ (eg - e1)).
      assert (Ew : w = k * U).
      { unfold w, k, U. cbn [units]. replace (eg + 1074) with ((eg - e1) + (e1 + 1074)) by lia. rewrite Z.pow_add_r by lia. ring. }
      destruct (K k Ew) as [K1 K2]. split; [exact K1|]. intros E N. destruct (K2 E N) as [E1 E2]. split; [exact E1|]. cbn [even_mantissa].
      intros Ev. unfold k in E2. rewrite !Z.even_mul, Ev in E2. rewrite !orb_true_r in E2. discriminate.
    + specialize (Hm ltac:(lia)). assert (W : w < 2 ^ 52 * U).
      { assert (Q : Zpos mg * 2 ^ (eg + 1074) < 2 ^ 52 * U).
        { unfold U. replace (2 ^ 52 * 2 ^ (e1 + 1074)) with (2 ^ 53 * 2 ^ (e1 - 1 - eg) * 2 ^ (eg + 1074)).
          - assert (P1 : 0 < 2 ^ (eg + 1074)) by (apply Z.pow_pos_nonneg; lia). assert (P2 : 0 < 2 ^ (e1 - 1 - eg)) by (apply Z.pow_pos_nonneg; lia).
            apply Z.mul_lt_mono_pos_r; [exact P1|]. clear - G2 P2. nia.
          - rewrite <- !Z.pow_add_r by lia. f_equal. lia. }
        assert (0 <= Zpos mg * 2 ^ (eg + 1074)) by (apply Z.mul_nonneg_nonneg; [lia|apply Z.pow_nonneg; lia]).
        unfold w. cbn [units]. destruct s, sg; lia. }
      destruct H as (HA & HB & t & EA & T & _). destruct (R (2 ^ 52)) as [R1 _].
      assert (R3 : Z.abs (A - m2 * B) <= A - 2 ^ 52 * B) by (rewrite (Z.abs_eq (A - 2 ^ 52 * B)) in R1; [exact R1|nia]).
      rewrite Dk. assert (Q : Z.abs (A - m2 * B) * U < Z.abs (A * U - w * B)) by nia. split; [lia|]. intros E. lia.
Qed.

(** rounding [A/B * 2^e], located at [m] by [l] *)
Lemma round_aux_rounds s m e l A B n d : located A B m l -> e <= fx (Zdigits2 m + e) -> 0 <= n -> 0 < d ->
  n * B * 2 ^ Z.max (- e) 0 = A * d * 2 ^ Z.max e 0 ->
  let f := binary_round_aux prec64 emax64 s m e l in
  rounds s n d f /\
  forall g, fvalid g = true -> finite g -> finite f -> units g <> units f ->
    distance (if s then - n else n) d f = distance (if s then - n else n) d g -> ~ even_mantissa g.
Proof.
  intros H He Hn Hd Ev f. pose proof (located_nonneg _ _ _ _ H) as Hm.
  pose proof (round_aux_valid s m e l Hm He) as Vf. fold f in Vf. unfold f, binary_round_aux in *.
  destruct (shr_fexp_spec m e l Hm He) as (r & Er & R0 & RD). destruct (recorded_fexp A B m e l H He) as (r' & Er' & Rec).
  rewrite Er in Er'. injection Er' as <-. rewrite Er in *. clear Er. set (e1 := fx (Zdigits2 m + e)) in *.
  assert (E1 : e1 = Z.max (Zdigits2 m + e - 53) (-1074)) by apply fx_max.
  set (B1 := B * 2 ^ (e1 - e)) in *. unfold recorded in Rec. set (m1 := shr_m r) in *. set (l1 := loc_of_shr_record r) in *.
  assert (M1 : m1 < 2 ^ 53) by (apply digits_bounds; [exact R0|]; destruct RD as [[-> _]|RD]; [discriminate|lia]).
  assert (M1' : -1074 < e1 -> 2 ^ 52 <= m1) by (intros G; apply digits_lower; [exact R0|]; destruct RD as [[_ RD]|RD]; lia).
  pose proof (near_float A B1 m1 l1 e1 Rec ltac:(lia) M1' s) as NF. cbv zeta in NF.
  pose proof (round_near A B1 m1 l1 Rec) as RN. pose proof (round_up m1 l1 R0) as RU. set (m2 := round_nearest_even m1 l1) in *.
  (** the last normalisation changes nothing, or 2^53 into 2^52 *)
  assert (H2 : e1 <= fx (Zdigits2 m2 + e1)).
  { pose proof (Zdigits_mono m1 m2 ltac:(lia)). pose proof (Zdigits_mono 0 m2 ltac:(lia)) as Z0. cbn [Zdigits2] in Z0. rewrite fx_max. destruct RD as [[_ RD]|RD]; lia. }
  assert (Lm2 : located m2 1 m2 loc_Exact) by (split; [lia|]; split; [lia|]; exists 0; split; [ring|lia]).
  destruct (recorded_fexp m2 1 m2 e1 loc_Exact Lm2 H2) as (r2 & Er2 & Rec2). rewrite Er2 in *. clear Er2 Lm2.
  set (e3 := fx (Zdigits2 m2 + e1)) in *. assert (E3 : e3 = Z.max (Zdigits2 m2 + e1 - 53) (-1074)) by apply fx_max.
  unfold recorded in Rec2. set (m3 := shr_m r2) in *.
  assert (C3 : (m2 < 2 ^ 53 /\ e3 = e1 /\ m3 = m2) \/ (m2 = 2 ^ 53 /\ e3 = e1 + 1 /\ m3 = 2 ^ 52)).
  { destruct Rec2 as (_ & _ & t & Et & T & _). destruct (Z.lt_ge_cases m2 (2 ^ 53)) as [G|G].
    - left. split; [exact G|]. pose proof (digits_upper m2 ltac:(lia)) as Du.
      assert (Ee : e3 = e1).
      { destruct (Z.eq_dec e1 (-1074)) as [->|N]; [lia|]. pose proof (Zdigits_mono m1 m2 ltac:(lia)).
        destruct RD as [[_ RD]|RD]; lia. }
      split; [exact Ee|]. rewrite Ee, Z.sub_diag, Z.pow_0_r, Z.mul_1_l in Et, T. lia.
    - right. assert (G2 : m2 = 2 ^ 53) by lia. split; [exact G2|]. assert (Dd : Zdigits2 m2 = 54) by (rewrite G2; reflexivity).
      assert (Ee : e3 = e1 + 1) by lia. split; [exact Ee|]. rewrite Ee in Et, T. replace (e1 + 1 - e1) with 1 in Et, T by lia.
      rewrite Z.pow_1_r, Z.mul_1_l in Et, T. change (2 ^ 53) with 9007199254740992 in *. change (2 ^ 52) with 4503599627370496. lia. }
  assert (U3 : m3 * 2 ^ (e3 + 1074) = m2 * 2 ^ (e1 + 1074)).
  { destruct C3 as [(_ & -> & ->)|(-> & -> & ->)]; [reflexivity|]. change (2 ^ 53) with (2 ^ 52 * 2). rewrite <- Z.mul_assoc. f_equal.
    change 2 with (2 ^ 1) at 2. rewrite <- Z.pow_add_r by lia. f_equal. lia. }
  assert (Ev3 : Z.even m2 = true -> Z.even m3 = true) by (destruct C3 as [(_ & _ & ->)|(_ & _ & ->)]; [auto|reflexivity]).
  (** the number in units *)
  set (U := 2 ^ (e1 + 1074)) in *. assert (PU : 0 < U) by (apply Z.pow_pos_nonneg; lia).
  assert (PB : 0 < B1) by apply Rec.
  assert (Sc : n * 2 ^ 1074 * B1 = A * U * d).
  { unfold B1, U. destruct (Z.le_gt_cases 0 e) as [G|G].
    - rewrite (Z.max_r (- e)), (Z.max_l e), Z.pow_0_r in Ev by lia.
      replace (n * 2 ^ 1074 * (B * 2 ^ (e1 - e))) with (n * B * 1 * (2 ^ 1074 * 2 ^ (e1 - e))) by ring. rewrite Ev.
      rewrite <- Z.pow_add_r by lia. replace (A * d * 2 ^ e * 2 ^ (1074 + (e1 - e))) with (A * d * (2 ^ e * 2 ^ (1074 + (e1 - e)))) by ring.
      rewrite <- Z.pow_add_r by lia. replace (e + (1074 + (e1 - e))) with (e1 + 1074) by lia. ring.
    - rewrite (Z.max_l (- e)), (Z.max_r e), Z.pow_0_r, Z.mul_1_r in Ev by lia.
      replace (A * 2 ^ (e1 + 1074) * d) with (A * d * 2 ^ (e1 + 1074)) by ring. rewrite <- Ev.
      replace (n * 2 ^ 1074 * (B * 2 ^ (e1 - e))) with (n * B * (2 ^ 1074 * 2 ^ (e1 - e))) by ring.
      replace (n * B * 2 ^ (- e) * 2 ^ (e1 + 1074)) with (n * B * (2 ^ (- e) * 2 ^ (e1 + 1074))) by ring.
      rewrite <- !Z.pow_add_r by lia. replace (- e + (e1 + 1074)) with (1074 + (e1 - e)) by lia. reflexivity. }
  set (X := 2 ^ 970 * 2 ^ 1074). assert (PX : 0 < X) by reflexivity.
  assert (Big : (2 ^ 54 - 1) * 2 ^ 970 * d <= n <-> (2 ^ 54 - 1) * X * B1 <= A * U).
  { assert (P74 : 0 < 2 ^ 1074) by reflexivity. replace ((2 ^ 54 - 1) * X * B1) with ((2 ^ 54 - 1) * 2 ^ 970 * (2 ^ 1074 * B1)) by (unfold X; ring).
    set (C := (2 ^ 54 - 1) * 2 ^ 970). set (Tn := 2 ^ 1074) in *. clearbody C Tn U B1. clear - Sc PB P74 Hd. split; intros Hq.
    - apply (Z.mul_le_mono_pos_r _ _ d Hd). rewrite <- Sc. replace (C * (Tn * B1) * d) with (C * d * (Tn * B1)) by ring.
      replace (n * Tn * B1) with (n * (Tn * B1)) by ring. apply Z.mul_le_mono_nonneg_r; [nia|exact Hq].
    - apply (Z.mul_le_mono_pos_r _ _ (Tn * B1)); [nia|]. replace (n * (Tn * B1)) with (A * U * d) by (rewrite <- Sc; ring).
      replace (C * d * (Tn * B1)) with (C * (Tn * B1) * d) by ring. apply Z.mul_le_mono_nonneg_r; lia. }
  assert (EU : forall k, e1 + 1074 = 2044 + k -> 0 <= k -> U = X * 2 ^ k).
  { intros k Ek Hk. unfold U. rewrite Ek, Z.pow_add_r by lia. f_equal. }
  assert (Over : 971 < e3 -> (2 ^ 54 - 1) * X * B1 <= A * U).
  { intros G. destruct Rec as (HA & _ & t & EA & T & _). destruct (Z.le_gt_cases 972 e1) as [G1|G1].
    - specialize (M1' ltac:(lia)). rewrite (EU (e1 - 970)) by lia. assert (P4 : 2 ^ 2 <= 2 ^ (e1 - 970)) by (apply Z.pow_le_mono_r; lia).
      set (Q := 2 ^ (e1 - 970)) in *. assert (HA4 : 2 ^ 52 * B1 <= A) by (clear - M1' EA T PB; clearbody B1; nia).
      clearbody X Q. clear - P4 HA4 PX PB.
      apply Z.le_trans with (2 ^ 52 * B1 * (X * 2 ^ 2)).
      + replace (2 ^ 52 * B1 * (X * 2 ^ 2)) with (2 ^ 54 * (X * B1)) by ring. rewrite <- Z.mul_assoc. apply Z.mul_le_mono_nonneg_r; lia.
      + apply Z.mul_le_mono_nonneg; [lia|exact HA4|lia|]. apply Z.mul_le_mono_nonneg_l; lia.
    - destruct C3 as [(_ & ? & _)|(G2 & G0 & _)]; [lia|]. assert (e1 = 971) as G3 by lia. rewrite (EU 1) by lia. rewrite Z.pow_1_r.
      destruct (RN (m2 - 1)) as [R1 _]. assert (R2 : (2 * m2 - 1) * B1 <= 2 * A).
      { replace ((2 * m2 - 1) * B1) with (2 * (m2 * B1) - B1) by ring. replace ((m2 - 1) * B1) with (m2 * B1 - B1) in R1 by ring.
        clear - R1 PB. lia. }
      rewrite G2 in R2.
      replace ((2 ^ 54 - 1) * X * B1) with (X * ((2 * 2 ^ 53 - 1) * B1)) by (change (2 ^ 54) with (2 * 2 ^ 53); ring).
      replace (A * (X * 2)) with (X * (2 * A)) by ring. apply Z.mul_le_mono_nonneg_l; [apply Z.lt_le_incl, PX|exact R2]. }
  assert (Under : e3 <= 971 -> A * U < (2 ^ 54 - 1) * X * B1).
  { intros G. destruct (Z.le_gt_cases e1 970) as [G1|G1].
    - assert (U <= X) by (unfold U, X; rewrite <- Z.pow_add_r by lia; apply Z.pow_le_mono_r; lia).
      destruct Rec as (HA & _ & t & EA & T & _). assert (HA3 : A < 2 ^ 53 * B1).
      { rewrite EA. apply Z.lt_le_trans with ((m1 + 1) * B1); [clear - T; lia|]. apply Z.mul_le_mono_nonneg_r; [apply Z.lt_le_incl, PB|clear - M1; lia]. }
      apply Z.le_lt_trans with (A * X); [apply Z.mul_le_mono_nonneg_l; assumption|].
      apply Z.lt_le_trans with (2 ^ 53 * B1 * X); [apply Z.mul_lt_mono_pos_r; assumption|].
      replace ((2 ^ 54 - 1) * X * B1) with ((2 ^ 54 - 1) * (B1 * X)) by ring. rewrite <- Z.mul_assoc. apply Z.mul_le_mono_nonneg_r; [apply Z.mul_nonneg_nonneg; apply Z.lt_le_incl; assumption|]. discriminate.
    - assert (e1 = 971) as G3 by lia. destruct C3 as [(G2 & _ & _)|(_ & ? & _)]; [|lia]. rewrite (EU 1) by lia. rewrite Z.pow_1_r.
      destruct (RN (m2 + 1)) as [R1 R2].
      assert (Em : (m2 + 1) * B1 = m2 * B1 + B1) by ring. assert (Em2 : (2 * m2 + 1) * B1 = 2 * (m2 * B1) + B1) by ring. rewrite Em in R1, R2.
      assert (Q2 : 2 * A <= (2 * m2 + 1) * B1) by (rewrite Em2; clear - R1 PB; lia).
      assert (Q : 2 * A < (2 ^ 54 - 1) * B1).
      { change (2 ^ 54) with (2 * 2 ^ 53). assert (G4 : m2 <= 2 ^ 53 - 2 \/ m2 = 2 ^ 53 - 1) by lia. destruct G4 as [G4|G4].
        - apply Z.le_lt_trans with ((2 * m2 + 1) * B1); [exact Q2|]. apply Z.mul_lt_mono_pos_r; [exact PB|]. clear - G4. lia.
        - assert (Q3 : 2 * A <> (2 * m2 + 1) * B1).
          { intros Q3. destruct R2 as [R2 _]; [rewrite Em2 in Q3; clear - Q3 PB; lia|lia|]. rewrite G4 in R2. discriminate. }
          rewrite G4 in Q2, Q3. replace (2 * (2 ^ 53 - 1) + 1) with (2 * 2 ^ 53 - 1) in Q2, Q3 by ring. lia. }
      replace (A * (X * 2)) with (X * (2 * A)) by ring. replace ((2 ^ 54 - 1) * X * B1) with (X * ((2 ^ 54 - 1) * B1)) by ring.
      apply Z.mul_lt_mono_pos_l; [exact PX|exact Q]. }
  (** distances *)
  assert (Dist : forall g, distance (if s then - n else n) d g * B1 = d * Z.abs (A * U - (if s then -1 else 1) * units g * B1)).
  { intros g. unfold distance. replace (Z.abs ((if s then - n else n) * 2 ^ 1074 - units g * d)) with (Z.abs (n * 2 ^ 1074 - (if s then -1 else 1) * units g * d)).
    2:{ destruct s; [|f_equal; ring]. rewrite <- Z.abs_opp. f_equal. ring. }
    rewrite <- (Z.abs_eq B1) at 1 by lia. rewrite <- (Z.abs_eq d) at 2 by lia. rewrite <- !Z.abs_mul. f_equal.
    rewrite Z.mul_sub_distr_r, Sc. ring. }
  assert (Near : forall g, (if s then -1 else 1) * units g = m2 * U -> (Z.even m2 = true -> even_mantissa g) -> nearest (if s then - n else n) d g /\
    forall h, fvalid h = true -> finite h -> units h <> units g ->
      distance (if s then - n else n) d g = distance (if s then - n else n) d h -> ~ even_mantissa h).
  { intros g Eg Evg. assert (Cmp : forall h, fvalid h = true -> finite h ->
      distance (if s then - n else n) d g <= distance (if s then - n else n) d h /\
      (distance (if s then - n else n) d g = distance (if s then - n else n) d h -> units h <> units g -> Z.even m2 = true /\ ~ even_mantissa h)).
    { intros h Vh Fh. destruct (NF h Vh Fh) as [N1 N2]. pose proof (Dist g) as Dg. pose proof (Dist h) as Dh. rewrite Eg in Dg. split.
      - apply (Z.mul_le_mono_pos_r _ _ B1 PB). rewrite Dg, Dh. apply Z.mul_le_mono_nonneg_l; lia.
      - intros E N. apply N2.
        + rewrite E, Dh in Dg. apply Z.mul_reg_l in Dg; lia.
        + intros Q. apply N. rewrite <- Eg in Q. clear - Q. destruct s; lia. }
    split.
    - intros h Vh Fh. destruct (Cmp h Vh Fh) as [N1 N2]. split; [exact N1|]. intros E N. apply Evg, N2; assumption.
    - intros h Vh Fh N E. apply (Cmp h Vh Fh); assumption. }
  assert (Pm3 : 0 <= m3) by (destruct C3 as [(_ & _ & ->)|(_ & _ & ->)]; lia).
  destruct m3 as [|p|p] eqn:E; [| |lia].
  - assert (Z2 : m2 = 0) by (destruct C3 as [(_ & _ & ?)|(_ & _ & ?)]; [congruence|discriminate]).
    destruct (Near (S754_zero s)) as [N1 N2]; [rewrite Z2; cbn [units]; lia|intros; exact I|]. split; [|intros g Vg Fg _; apply N2; assumption].
    split; [exact Vf|]. split; [reflexivity|]. right. split; [|split; [exact I|exact N1]].
    assert (e3 <= 971) as G by (destruct (Z.eq_dec e1 (-1074)) as [G|G]; [destruct C3 as [(_ & ? & _)|(? & _)]; lia|specialize (M1' ltac:(lia)); lia]).
    specialize (Under G). lia.
  - change (emax64 - prec64) with 971 in *. destruct (Zle_bool e3 971) eqn:L.
    + apply Zle_is_le_bool in L. destruct (Near (S754_finite s p e3)) as [N1 N2].
      * cbn [units]. rewrite <- U3. destruct s; ring.
      * intros Q. apply Ev3, Q.
      * split; [|intros g Vg Fg _; apply N2; assumption]. split; [exact Vf|]. split; [reflexivity|]. right. split; [|split; [exact I|exact N1]].
        specialize (Under L). lia.
    + split; [|intros g _ _ []]. split; [exact Vf|]. split; [reflexivity|]. left. split; [|reflexivity]. apply Big, Over.
      destruct (Z.le_gt_cases e3 971) as [G|G]; [|exact G]. apply Zle_is_le_bool in G. congruence.
Qed.

(** ** rounding of integers times powers of two, and of quotients *)
Definition odd_ties (s : bool) (n d : Z) (f : float64) : Prop :=
  forall g, fvalid g = true -> finite g -> finite f -> units g <> units f ->
    distance (if s then - n else n) d f = distance (if s then - n else n) d g -> ~ even_mantissa g.
Definition rounded (s : bool) (n d : Z) (f : float64) : Prop := rounds s n d f /\ odd_ties s n d f.

Lemma binary_round_rounded s m e n d : 0 <= n -> 0 < d ->
  n * 2 ^ Z.max (- e) 0 = Zpos m * d * 2 ^ Z.max e 0 -> rounded s n d (binary_round prec64 emax64 s m e).
Proof.
  intros Hn Hd Ev. unfold binary_round. set (f := fx (Zpos (digits2_pos m) + e)).
  assert (Lz : forall z, located (Zpos z) 1 (Zpos z) loc_Exact) by (intros z; split; [lia|]; split; [lia|]; exists 0; split; [ring|lia]).
  destruct (Z.le_gt_cases f e) as [L|G].
  - pose proof (shl_align_fst m e f L) as H1. pose proof (shl_align_snd m e f L) as H2. destruct (shl_align m e f) as [mz ez]. cbn [fst snd] in *. subst ez.
    apply (round_aux_rounds s (Zpos mz) f loc_Exact (Zpos mz) 1); auto.
    + cbn [Zdigits2]. rewrite (digits2_mul m mz (e - f)) by (auto; lia).
      replace (Zpos (digits2_pos m) + (e - f) + f) with (Zpos (digits2_pos m) + e) by lia. fold f. lia.
    + rewrite Z.mul_1_r, H1. apply (Z.mul_reg_r _ _ (2 ^ Z.max (- e) 0)); [apply Z.pow_nonzero; lia|].
      replace (n * 2 ^ Z.max (- f) 0 * 2 ^ Z.max (- e) 0) with (n * 2 ^ Z.max (- e) 0 * 2 ^ Z.max (- f) 0) by ring. rewrite Ev.
      replace (Zpos m * 2 ^ (e - f) * d * 2 ^ Z.max f 0 * 2 ^ Z.max (- e) 0) with (Zpos m * d * (2 ^ (e - f) * 2 ^ Z.max f 0 * 2 ^ Z.max (- e) 0)) by ring.
      rewrite <- Z.mul_assoc. f_equal. rewrite <- !Z.pow_add_r by lia. f_equal. lia.
  - rewrite shl_align_id by lia. apply (round_aux_rounds s (Zpos m) e loc_Exact (Zpos m) 1); auto.
    + cbn [Zdigits2]. fold f. lia.
    + now rewrite Z.mul_1_r.
Qed.
Lemma normalize_rounded m e s n d : m <> 0 -> 0 <= n -> 0 < d ->
  n * 2 ^ Z.max (- e) 0 = Z.abs m * d * 2 ^ Z.max e 0 -> rounded (m <? 0) n d (fnormalize m e s).
Proof. intros N Hn Hd Ev. unfold fnormalize, binary_normalize. destruct m as [|p|p]; [congruence| |]; now apply binary_round_rounded. Qed.

Lemma location_new b r : 0 < b -> 0 <= r < b ->
  match new_location b r with loc_Exact => r = 0 | loc_Inexact c => r <> 0 /\ (2 * r ?= b) = c end.
Proof.
  intros Hb Hr. unfold new_location, new_location_even, new_location_odd. destruct (Z.even b) eqn:E.
  - destruct (Zeq_bool r 0) eqn:Q; [now apply Zeq_bool_eq in Q|]. apply Zeq_bool_neq in Q. split; [exact Q|reflexivity].
  - assert (O : b <> 2 * r) by (intros ->; rewrite Z.even_mul in E; discriminate).
    destruct (Zeq_bool r 0) eqn:Q; [now apply Zeq_bool_eq in Q|]. apply Zeq_bool_neq in Q. split; [exact Q|].
    destruct (Z.compare_spec (2 * r + 1) b); rewrite ?Z.compare_lt_iff, ?Z.compare_gt_iff; lia.
Qed.
Lemma div_core mx ex my ey : exists q e' l, SFdiv_core_binary prec64 emax64 (Zpos mx) ex (Zpos my) ey = (q, e', l) /\
  0 <= ex - ey - e' /\ located (Zpos mx * 2 ^ (ex - ey - e')) (Zpos my) q l /\ e' <= fx (Zdigits2 q + e').
Proof.
  unfold SFdiv_core_binary. cbn [Zdigits2]. set (d1 := Zpos (digits2_pos mx)). set (d2 := Zpos (digits2_pos my)).
  set (e' := Z.min _ _). set (m' := match ex - ey - e' with Zpos _ => _ | Z0 => _ | Zneg _ => _ end).
  assert (M : m' = Zpos mx * 2 ^ (ex - ey - e')).
  { unfold m'. destruct (ex - ey - e') as [|p|p] eqn:E; [rewrite Z.mul_1_r; reflexivity| |unfold e' in E; lia]. rewrite Z.shiftl_mul_pow2 by lia. reflexivity. }
  assert (S0 : 0 <= ex - ey - e') by (unfold e'; lia). assert (P : 0 < 2 ^ (ex - ey - e')) by (apply Z.pow_pos_nonneg; lia).
  pose proof (Z_div_mod m' (Zpos my) ltac:(lia)) as DM. destruct (Z.div_eucl m' (Zpos my)) as [q r]. destruct DM as [DE DR].
  assert (Q0 : 0 <= q) by nia.
  exists q, e', (new_location (Zpos my) r). split; [reflexivity|]. split; [exact S0|]. split.
  { rewrite <- M. split; [rewrite M; lia|]. split; [lia|]. exists r. split; [rewrite DE; ring|]. split; [lia|]. apply location_new; lia. }
  assert (LM : Z.log2 m' = Z.log2 (Zpos mx) + (ex - ey - e')) by (rewrite M, Z.log2_mul_pow2 by lia; lia).
  assert (D : d1 + (ex - ey - e') - d2 <= Zdigits2 q).
  { unfold d1, d2. rewrite !digits2_log2. destruct (Z.eq_dec q 0) as [->|].
    - cbn [Zdigits2]. assert (L : m' <= Zpos my) by lia. pose proof (Z.log2_le_mono _ _ L). lia.
    - rewrite Zdigits_pos by lia. assert (L : m' < 2 ^ (Z.log2 (Zpos my) + 1 + (Z.log2 q + 1))).
      { rewrite Z.pow_add_r by (pose proof (Z.log2_nonneg (Zpos my)); pose proof (Z.log2_nonneg q); lia).
        pose proof (Z.log2_spec (Zpos my) ltac:(lia)) as B1. pose proof (Z.log2_spec q ltac:(lia)) as B2.
        unfold Z.succ in B1, B2. set (A := 2 ^ (Z.log2 (Zpos my) + 1)) in *. set (B := 2 ^ (Z.log2 q + 1)) in *. nia. }
      apply Z.log2_lt_pow2 in L; [lia|nia]. }
  assert (E' : e' = Z.min (Z.max (d1 + ex - (d2 + ey) - 53) (-1074)) (ex - ey)) by reflexivity.
  rewrite fx_max. clear - D E'. clearbody e' d1 d2. lia.
Qed.
Lemma div_rounded sx mx ex sy my ey n d : 0 <= n -> 0 < d ->
  n * Zpos my * 2 ^ Z.max (ey - ex) 0 = Zpos mx * d * 2 ^ Z.max (ex - ey) 0 ->
  rounded (xorb sx sy) n d (fdiv (S754_finite sx mx ex) (S754_finite sy my ey)).
Proof.
  intros Hn Hd Ev. unfold fdiv, SFdiv. destruct (div_core mx ex my ey) as (q & e' & l & E & S0 & L & F).
  rewrite E. apply (round_aux_rounds _ q e' l _ _ n d L F Hn Hd). clear L F E.
  apply (Z.mul_reg_r _ _ (2 ^ Z.max (ey - ex) 0)); [apply Z.pow_nonzero; lia|].
  replace (n * Zpos my * 2 ^ Z.max (- e') 0 * 2 ^ Z.max (ey - ex) 0) with (n * Zpos my * 2 ^ Z.max (ey - ex) 0 * 2 ^ Z.max (- e') 0) by ring. rewrite Ev.
  replace (Zpos mx * 2 ^ (ex - ey - e') * d * 2 ^ Z.max e' 0 * 2 ^ Z.max (ey - ex) 0) with (Zpos mx * d * (2 ^ (ex - ey - e') * 2 ^ Z.max e' 0 * 2 ^ Z.max (ey - ex) 0)) by ring.
  rewrite <- Z.mul_assoc. f_equal. rewrite <- !Z.pow_add_r by lia. f_equal. lia.
Qed.

(** ** the nearest float is unique *)
Lemma units_inj f g : fvalid f = true -> fvalid g = true -> finite f -> finite g -> negative f = negative g -> units f = units g -> f = g.
Proof.
  assert (P : forall e, -1074 <= e -> 0 < 2 ^ (e + 1074)) by (intros e H; apply Z.pow_pos_nonneg; lia).
  assert (K : forall s m e m' e', fvalid (S754_finite s m e) = true -> fvalid (S754_finite s m' e') = true ->
    Zpos m * 2 ^ (e + 1074) = Zpos m' * 2 ^ (e' + 1074) -> ~ e < e').
  { intros s m e m' e' V V' E L. destruct (float_parts _ _ _ V) as (V1 & V2 & _), (float_parts _ _ _ V') as (V1' & _ & V3').
    specialize (V3' ltac:(lia)). assert (E2 : 2 ^ (e' + 1074) = 2 ^ 1 * 2 ^ (e' - e - 1) * 2 ^ (e + 1074)) by (rewrite <- !Z.pow_add_r by lia; f_equal; lia).
    rewrite E2, Z.mul_assoc in E.
    apply Z.mul_reg_r in E; [|specialize (P e); lia]. assert (0 < 2 ^ (e' - e - 1)) by (apply Z.pow_pos_nonneg; lia).
    change (2 ^ 53) with (2 * 2 ^ 52) in V2. nia. }
  intros Vf Vg Ff Fg S U. destruct f as [sf|sf| |sf mf ef], g as [sg|sg| |sg mg eg]; try contradiction; cbn [negative units] in *.
  - congruence.
  - destruct (float_parts _ _ _ Vg) as (V1 & _). specialize (P eg ltac:(lia)). destruct sg; nia.
  - destruct (float_parts _ _ _ Vf) as (V1 & _). specialize (P ef ltac:(lia)). destruct sf; nia.
  - subst sg. assert (E : Zpos mf * 2 ^ (ef + 1074) = Zpos mg * 2 ^ (eg + 1074)) by (destruct sf; lia).
    pose proof (K _ _ _ _ _ Vf Vg E) as K1. pose proof (K _ _ _ _ _ Vg Vf (eq_sym E)) as K2. assert (ef = eg) by lia. subst eg.
    destruct (float_parts _ _ _ Vf) as (V1 & _). specialize (P ef ltac:(lia)). apply Z.mul_reg_r in E; [congruence|lia].
Qed.
Lemma rounded_unique s n d f g : rounded s n d f -> rounds s n d g -> g = f.
Proof.
  intros [(Vf & Sf & Cf) Tf] (Vg & Sg & Cg). destruct Cf as [[Cf ->]|(Cf & Ff & Nf)], Cg as [[Cg ->]|(Cg & Fg & Ng)]; [reflexivity|lia|lia|].
  apply units_inj; try assumption; [congruence|]. destruct (Z.eq_dec (units g) (units f)) as [E|N]; [exact E|exfalso].
  destruct (Nf g Vg Fg) as [N1 _]. destruct (Ng f Vf Ff) as [N2 N3]. assert (D : distance (if s then - n else n) d f = distance (if s then - n else n) d g) by lia.
  apply (Tf g Vg Fg Ff N D). apply N3; [congruence|congruence].
Qed.
Lemma rounded_zero s d : 0 < d -> rounded s 0 d (S754_zero s).
Proof.
  intros Hd. assert (D : forall g, distance (if s then - 0 else 0) d (S754_zero s) = distance (if s then - 0 else 0) d g -> units g = 0).
  { intros g. replace (if s then - 0 else 0) with 0 by (now destruct s). unfold distance. cbn [units]. rewrite !Z.mul_0_l, !Z.sub_0_l, Z.abs_opp. cbn [Z.opp].
    intros E. assert (Q : units g * d = 0) by (change (Z.abs 0) with 0 in E; lia). apply Z.mul_eq_0 in Q. lia. }
  split; [|intros g _ _ _ N E; elim N; apply (D g E)]. split; [reflexivity|]. split; [reflexivity|]. right. split; [|split; [exact I|]].
  - apply Z.mul_pos_pos; [reflexivity|exact Hd].
  - intros g _ _. split; [|intros E; intros _; exact I]. replace (if s then - 0 else 0) with 0 by (now destruct s).
    unfold distance at 1. cbn [units]. rewrite !Z.mul_0_l. apply Z.abs_nonneg.
Qed.

(** ** the value of a decimal fraction *)
Lemma float_of_dec_rounded neg m e : 0 <= m ->
  rounded neg (m * 10 ^ Z.max e 0) (10 ^ Z.max (- e) 0) (float_of_dec neg m e).
Proof.
  intros Hm. unfold float_of_dec. destruct (Z.eqb_spec m 0) as [->|N].
  { rewrite Z.mul_0_l. apply rounded_zero, Z.pow_pos_nonneg; lia. }
  set (z := if neg then - m else m). assert (Az : Z.abs z = m) by (unfold z; destruct neg; lia).
  assert (Sz : forall k, 0 < k -> (z * k <? 0) = neg).
  { intros k Hk. unfold z. destruct neg; [apply Z.ltb_lt|apply Z.ltb_ge]; nia. }
  destruct (Z.leb_spec 0 e) as [G|G].
  - rewrite (Z.max_l e), (Z.max_r (- e)), Z.pow_0_r by lia. assert (P : 0 < 10 ^ e) by (apply Z.pow_pos_nonneg; lia).
    rewrite <- (Sz _ P) at 1. apply normalize_rounded; [unfold z; destruct neg; nia|nia|lia|].
    rewrite Z.abs_mul, Az, (Z.abs_eq (10 ^ e)) by lia. cbn [Z.max Z.opp Z.compare Z.pow]. ring.
  - rewrite (Z.max_r e), (Z.max_l (- e)), Z.pow_0_r, Z.mul_1_r by lia.
    assert (P5 : 0 < 5 ^ (- e)) by (apply Z.pow_pos_nonneg; lia). assert (P10 : 0 < 10 ^ (- e)) by (apply Z.pow_pos_nonneg; lia).
    destruct (Z.eqb_spec (z mod 5 ^ (- e)) 0) as [D|D].
    + assert (Ez : z = z / 5 ^ (- e) * 5 ^ (- e)) by (rewrite Z.mul_comm; apply Z.div_exact; lia).
      set (q := z / 5 ^ (- e)) in *. assert (Sq : (q <? 0) = neg).
      { rewrite <- (Sz 1) by lia. rewrite Z.mul_1_r, Ez. destruct (Z.ltb_spec q 0), (Z.ltb_spec (q * 5 ^ (- e)) 0); nia. }
      rewrite <- Sq at 1. apply normalize_rounded; [intros Q; rewrite Q in Ez; lia|lia|exact P10|].
      rewrite (Z.max_r e), (Z.max_l (- e)), Z.pow_0_r, Z.mul_1_r by lia. change 10 with (5 * 2). rewrite Z.pow_mul_l.
      rewrite <- Az, Ez, Z.abs_mul, (Z.abs_eq (5 ^ (- e))) by lia. ring.
    + assert (Ex : exact_float z = S754_finite neg (Z.to_pos m) 0).
      { unfold z. destruct m as [|p|p]; try lia. destruct neg; reflexivity. }
      assert (Ed : exact_float (10 ^ (- e)) = S754_finite false (Z.to_pos (10 ^ (- e))) 0) by (destruct (10 ^ (- e)); try lia; reflexivity).
      rewrite Ex, Ed. rewrite <- (xorb_false_r neg) at 1. apply div_rounded; [exact Hm|exact P10|].
      rewrite !Z2Pos.id by lia. cbn [Z.sub Z.max Z.opp Z.add Z.compare Z.pow]. ring.
Qed.
Lemma float_of_dec_spec neg m e f : 0 <= m -> (rounds_decimal neg m e f <-> f = float_of_dec neg m e).
Proof.
  intros Hm. pose proof (float_of_dec_rounded neg m e Hm) as R. split; [|intros ->; apply R].
  intros H. eapply rounded_unique; [exact R|exact H].
Qed.
