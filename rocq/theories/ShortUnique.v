(** * Proofs of C63, part 3: there is only one shortest decimal and one layout of it. *)
From Coq Require Import Lia.
From Verif Require Import Py Num Text Json SpecCodec SpecRound SpecJson JsonGrammar SpecShort ShortProofs ShortText.
Open Scope string_scope.
Open Scope Z_scope.

Lemma even_rivals m e n x : even_neighbour m e n x -> even_neighbour n x m e -> False.
Proof.
  intros (c & y & Ec & A & B) (c' & y' & Ec' & A' & B'). set (T := Z.abs e + Z.abs x + Z.abs y + Z.abs y').
  apply (same_scale T) in A; [|lia|lia]. apply (same_scale T) in A'; [|lia|lia].
  assert (B2 : n * 10 ^ (x + T) = (c + 1) * 10 ^ (y + T) \/ n * 10 ^ (x + T) = (c - 1) * 10 ^ (y + T)) by (destruct B as [B|B]; apply (same_scale T) in B; lia).
  assert (B2' : m * 10 ^ (e + T) = (c' + 1) * 10 ^ (y' + T) \/ m * 10 ^ (e + T) = (c' - 1) * 10 ^ (y' + T)) by (destruct B' as [B'|B']; apply (same_scale T) in B'; lia).
  assert (G : 0 < 10 ^ (y + T)) by (apply pow10_pos; lia). assert (G' : 0 < 10 ^ (y' + T)) by (apply pow10_pos; lia).
  set (g := 10 ^ (y + T)) in *. set (g' := 10 ^ (y' + T)) in *. set (a := m * 10 ^ (e + T)) in *. set (b := n * 10 ^ (x + T)) in *. clearbody g g' a b. clear B B'.
  assert (Q : g = g') by (destruct B2, B2'; lia). subst g'. assert (K : c = c' + 1 \/ c = c' - 1) by (destruct B2'; [left|right]; nia).
  apply Z.even_spec in Ec as [u Hu]. apply Z.even_spec in Ec' as [w Hw]. lia.
Qed.
Lemma p_C63_unique f k m e k' n x : shortest_decimal f k m e -> shortest_decimal f k' n x -> k = k' /\ same_decimal m e n x.
Proof.
  intros (Hm & W & R & M) (Hn & W' & R' & M'). destruct W as (c & y & Hc & S). destruct W' as (c' & y' & Hc' & S').
  assert (K0 : 0 <= k) by (destruct (Z.le_gt_cases 0 k); [assumption|rewrite Z.pow_neg_r in Hc; lia]).
  assert (K0' : 0 <= k') by (destruct (Z.le_gt_cases 0 k'); [assumption|rewrite Z.pow_neg_r in Hc'; lia]).
  destruct (M k' n x K0' Hn (ex_intro _ c' (ex_intro _ y' (conj Hc' S'))) R') as [L P]. destruct (M' k m e K0 Hm (ex_intro _ c (ex_intro _ y (conj Hc S))) R) as [L' P'].
  assert (Q : k = k') by lia. split; [exact Q|]. destruct (P (eq_sym Q)) as [N1 N2]. destruct (P' Q) as [N1' N2'].
  destruct (N2 N1') as [A|A]; [exact A|]. destruct (N2' N1) as [B|B]; [apply same_sym, B|]. destruct (even_rivals _ _ _ _ A B).
Qed.

(** ** strings of digits *)
Lemma digit_inj c c' : bz c = bz c' -> c = c'.
Proof. unfold bz. intros H. apply N2Z.inj in H. rewrite <- (ascii_N_embedding c), H. apply ascii_N_embedding. Qed.
Lemma digits_inj a : forall b, all_chars digit a -> all_chars digit b -> String.length a = String.length b -> number_of a = number_of b -> a = b.
Proof.
  induction a as [|c a IH]; intros [|d b] A B L N; try discriminate; [reflexivity|]. apply chars_cons in A as [Dc A]. apply chars_cons in B as [Dd B]. cbn [String.length] in L. injection L as L.
  rewrite !number_cons, L in N. pose proof (number_bounds a A) as Na. pose proof (number_bounds b B) as Nb. rewrite L in Na.
  set (P := 10 ^ Z.of_nat (String.length b)) in *. clearbody P. assert (bz c = bz d) by nia. assert (number_of a = number_of b) by nia.
  f_equal; [apply digit_inj; assumption|apply IH; assumption].
Qed.
Lemma pow10_between a b n : 0 <= a -> 0 <= b -> 10 ^ a <= n < 10 ^ (a + 1) -> 10 ^ b <= n < 10 ^ (b + 1) -> a = b.
Proof.
  intros Ha Hb A B. assert (K : a < b + 1) by (apply (Z.pow_lt_mono_r_iff 10); lia). assert (K' : b < a + 1) by (apply (Z.pow_lt_mono_r_iff 10); lia). lia.
Qed.
Lemma leading_inj c a d b : digit c -> c <> "0"%char -> all_chars digit a -> digit d -> d <> "0"%char -> all_chars digit b ->
  number_of (String c a) = number_of (String d b) -> String c a = String d b.
Proof.
  intros Dc Nc A Dd Nd B N. pose proof (number_low c a Dc Nc A) as La. pose proof (number_low d b Dd Nd B) as Lb.
  pose proof (number_bounds (String c a) ltac:(apply chars_cons; auto)) as Ba. pose proof (number_bounds (String d b) ltac:(apply chars_cons; auto)) as Bb.
  cbn [String.length] in Ba, Bb. rewrite Nat2Z.inj_succ in Ba, Bb. rewrite <- N in Lb, Bb.
  assert (Z.of_nat (String.length a) = Z.of_nat (String.length b)) by (apply (pow10_between _ _ (number_of (String c a))); unfold Z.succ in *; lia).
  apply digits_inj; [apply chars_cons; auto|apply chars_cons; auto|cbn [String.length]; lia|exact N].
Qed.
Lemma int_part_digits i : int_part i -> all_chars digit i.
Proof. destruct 1; apply chars_cons; [split; [unfold digit; cbn; lia|constructor]|auto]. Qed.
Lemma int_part_inj i j : int_part i -> int_part j -> number_of i = number_of j -> i = j.
Proof.
  assert (P : forall c s, digit c -> c <> "0"%char -> all_chars digit s -> 0 < number_of (String c s)).
  { intros c s D N A. pose proof (number_low c s D N A). assert (0 < 10 ^ Z.of_nat (String.length s)) by (apply pow10_pos; lia). lia. }
  intros [|c s D N A] [|d t D' N' A'] E; [reflexivity| | |apply leading_inj; assumption].
  - specialize (P d t D' N' A'). rewrite <- E in P. change (number_of "0") with 0 in P. lia.
  - specialize (P c s D N A). rewrite E in P. change (number_of "0") with 0 in P. lia.
Qed.
Lemma ends_of_number s : all_chars digit s -> s <> "" -> number_of s mod 10 = 0 -> ends_in_zero s.
Proof.
  induction s as [|c s IH]; intros A N M; [congruence|]. apply chars_cons in A as [D A]. destruct s as [|d s].
  - exists "". cbn. f_equal. unfold digit in D. change (number_of (String c "")) with (bz c - 48) in M. apply digit_inj. change (bz "0") with 48.
    assert (0 <= bz c - 48 <= 9) by lia. rewrite Z.mod_small in M by lia. lia.
  - destruct (IH A ltac:(discriminate)) as [r E]; [|exists (String c r); cbn; now rewrite E].
    rewrite number_cons in M. cbn [String.length] in M. rewrite Nat2Z.inj_succ, Z.pow_succ_r in M by lia.
    replace ((bz c - 48) * (10 * 10 ^ Z.of_nat (String.length s)) + number_of (String d s)) with (number_of (String d s) + (bz c - 48) * 10 ^ Z.of_nat (String.length s) * 10) in M by ring.
    rewrite Z.mod_add in M by lia. exact M.
Qed.
Lemma ends_cons d s : ends_in_zero (String d s) -> (s = "" /\ d = "0"%char) \/ ends_in_zero s.
Proof. intros ([|c r] & E); cbn in E; injection E as -> ->; [left; auto|right; exists r; reflexivity]. Qed.
Lemma same_no_zeros m e n x : m mod 10 <> 0 -> n mod 10 <> 0 -> same_decimal m e n x -> m = n /\ e = x.
Proof.
  intros Hm Hn. unfold same_decimal. assert (K : forall a b k, 0 < k -> a mod 10 <> 0 -> a = b * 10 ^ k -> False).
  { intros a b k Hk Ha ->. apply Ha. replace k with (Z.succ (k - 1)) by lia. rewrite Z.pow_succ_r by lia. replace (b * (10 * 10 ^ (k - 1))) with (b * 10 ^ (k - 1) * 10) by ring. apply Z.mod_mul. lia. }
  destruct (Z.lt_trichotomy e x) as [L|[->|L]].
  - replace (Z.max (e - x) 0) with 0 by lia. rewrite Z.pow_0_r, Z.mul_1_r. intros H. destruct (K m n (Z.max (x - e) 0) ltac:(lia) Hm H).
  - rewrite Z.sub_diag. cbn [Z.max Z.compare]. rewrite Z.pow_0_r. lia.
  - replace (Z.max (x - e) 0) with 0 by lia. rewrite Z.pow_0_r, Z.mul_1_r. intros H. destruct (K n m (Z.max (e - x) 0) ltac:(lia) Hn (eq_sym H)).
Qed.

(** ** the layout *)
Lemma point_inj i ds i' ds' : int_part i -> int_part i' -> digits ds -> digits ds' -> ds = "0" \/ ~ ends_in_zero ds -> ds' = "0" \/ ~ ends_in_zero ds' ->
  same_decimal (number_of (i ++ ds)) (- Z.of_nat (String.length ds)) (number_of (i' ++ ds')) (- Z.of_nat (String.length ds')) -> i = i' /\ ds = ds'.
Proof.
  intros I I' [N A] [N' A'] Z Z'.
  assert (K : forall j s j' s', all_chars digit s' -> s <> "" -> s' <> "" -> (s' = "0" \/ ~ ends_in_zero s') -> (String.length s < String.length s')%nat ->
    ~ same_decimal (number_of (j ++ s)) (- Z.of_nat (String.length s)) (number_of (j' ++ s')) (- Z.of_nat (String.length s'))).
  { intros j s j' s' As' Ns Ns' Zs L H. unfold same_decimal in H. replace (Z.max (- Z.of_nat (String.length s') - - Z.of_nat (String.length s)) 0) with 0 in H by lia. rewrite Z.pow_0_r, Z.mul_1_r in H.
    destruct Zs as [->|Zs]; [cbn in L; destruct s; [congruence|cbn in L; lia]|]. apply Zs. apply ends_of_number; [exact As'|exact Ns'|].
    set (k := Z.max (- Z.of_nat (String.length s) - - Z.of_nat (String.length s')) 0) in H. replace k with (Z.succ (k - 1)) in H by lia. rewrite Z.pow_succ_r in H by lia.
    rewrite number_app in H at 1. destruct s' as [|c r]; [congruence|]. rewrite (number_app j' (String c r)) in H. cbn [String.length] in H. rewrite (Nat2Z.inj_succ (String.length r)), Z.pow_succ_r in H by lia.
    set (X := number_of (j ++ s)) in *. apply Z.mod_divide; [lia|]. 
    exists ((number_of j * 10 ^ Z.of_nat (String.length s) + number_of s) * 10 ^ (k - 1) - number_of j' * 10 ^ Z.of_nat (String.length r)). lia. }
  intros H. destruct (lt_eq_lt_dec (String.length ds) (String.length ds')) as [[L|L]|L]; [destruct (K _ _ i' _ A' N N' Z' L H)| |destruct (K _ _ i _ A N' N Z L (same_sym _ _ _ _ H))].
  rewrite L in H. unfold same_decimal in H. rewrite Z.sub_diag in H. cbn [Z.max Z.compare] in H. rewrite Z.pow_0_r, !Z.mul_1_r, !number_app, L in H.
  pose proof (number_bounds ds A) as B. pose proof (number_bounds ds' A') as B'. rewrite L in B. set (P := 10 ^ Z.of_nat (String.length ds')) in *. clearbody P.
  assert (E1 : number_of i = number_of i') by nia. assert (E2 : number_of ds = number_of ds') by nia.
  split; [apply int_part_inj; assumption|apply digits_inj; assumption].
Qed.
Lemma exponent_inj xs xs' : digits xs -> digits xs' -> (2 <= String.length xs)%nat -> (2 <= String.length xs')%nat ->
  (String.length xs = 2%nat \/ forall r, xs <> String "0" r) -> (String.length xs' = 2%nat \/ forall r, xs' <> String "0" r) -> number_of xs = number_of xs' -> xs = xs'.
Proof.
  intros [_ A] [_ A'] L L' C C' N.
  assert (K : forall s, all_chars digit s -> (2 <= String.length s)%nat -> (forall r, s <> String "0" r) -> 10 ^ (Z.of_nat (String.length s) - 1) <= number_of s).
  { intros [|c s] As Ls Z; [cbn in Ls; lia|]. apply chars_cons in As as [D As]. cbn [String.length]. replace (Z.of_nat (S (String.length s)) - 1) with (Z.of_nat (String.length s)) by lia.
    apply number_low; [exact D| |exact As]. intros ->. exact (Z s eq_refl). }
  apply digits_inj; [exact A|exact A'| |exact N]. pose proof (number_bounds xs A) as B. pose proof (number_bounds xs' A') as B'.
  assert (T : forall s s', all_chars digit s' -> (2 <= String.length s')%nat -> (String.length s' = 2%nat \/ forall r, s' <> String "0" r) -> all_chars digit s -> number_of s = number_of s' -> (2 <= String.length s)%nat -> (String.length s' <= String.length s)%nat).
  { intros s s' As' Ls' Cs' As Ns Ls. destruct Cs' as [E|Z]; [lia|]. specialize (K s' As' Ls' Z). pose proof (number_bounds s As) as Bs. rewrite Ns in Bs.
    assert (Q : Z.of_nat (String.length s') - 1 < Z.of_nat (String.length s)) by (apply (Z.pow_lt_mono_r_iff 10); lia). lia. }
  pose proof (T xs xs' A' L' C' A N L). pose proof (T xs' xs A L C A' (eq_sym N) L'). lia.
Qed.
Lemma frac_inj f f' ds : frac_part f ds -> frac_part f' ds -> f = f'.
Proof.
  intros H H'. destruct H as [|ds [N _]]; inversion H' as [E1 E2|ds2 D2 E1 E2]; subst; try reflexivity.
  - destruct D2 as [D2 _]. congruence.
  - congruence.
Qed.
Lemma sign_inj sg sg' b : sign sg b -> sign sg' b -> sg = sg'. Proof. destruct 1; inversion 1; reflexivity. Qed.
Lemma not_ends d ds : digit d -> d <> "0"%char -> all_chars digit ds -> ~ ends_in_zero ds -> number_of (String d ds) mod 10 <> 0.
Proof.
  intros D N A E M. apply ends_of_number in M; [|apply chars_cons; auto|discriminate]. destruct (ends_cons _ _ M) as [[_ Q]|Q]; contradiction.
Qed.
Lemma laid_exponent_nonzero d ds b xs : digit d -> d <> "0"%char -> all_chars digit ds ->
  ~ moderate (number_of (String d ds)) (signed b (number_of xs) - Z.of_nat (String.length ds)) -> number_of xs <> 0.
Proof.
  intros D N A M E. apply M. rewrite E. replace (signed b 0) with 0 by (destruct b; reflexivity).
  pose proof (number_low d ds D N A) as L. pose proof (number_bounds (String d ds) ltac:(apply chars_cons; auto)) as B. cbn [String.length] in B. rewrite Nat2Z.inj_succ in B.
  apply (moderate_point _ _ (Z.succ (Z.of_nat (String.length ds)))); [lia| |lia]. replace (Z.succ (Z.of_nat (String.length ds)) - 1) with (Z.of_nat (String.length ds)) by lia. lia.
Qed.
Lemma p_C63_layout_unique t t' s m e m' e' : laid_out t s m e -> laid_out t' s m' e' -> same_decimal m e m' e' -> t = t'.
Proof.
  intros L L' S. pose proof (moderate_same _ _ _ _ S) as MS.
  destruct L as [sg neg i ds Sg I Dd Z m e M|sg neg d f ds xs esg Sg Dd Nd Fp Z Es Xs X2 X3 m e M];
  inversion L' as [sg' neg' i' ds' Sg' I' Dd' Z' m1 e1 M' E1 E2 E3 E4|sg' neg' d' f' ds' xs' esg' Sg' Dd' Nd' Fp' Z' Es' Xs' X2' X3' m1 e1 M' E1 E2 E3 E4]; subst neg'; subst m1 e1; subst m' e'.
  - destruct (point_inj _ _ _ _ I I' Dd Dd' Z Z' S) as [-> ->]. now rewrite (sign_inj _ _ _ Sg Sg').
  - tauto.
  - tauto.
  - assert (A : all_chars digit ds) by (destruct Fp as [|? [_ ?]]; [constructor|assumption]). assert (A' : all_chars digit ds') by (destruct Fp' as [|? [_ ?]]; [constructor|assumption]).
    pose proof (laid_exponent_nonzero _ _ _ _ Dd Nd A M) as X0. pose proof (laid_exponent_nonzero _ _ _ _ Dd' Nd' A' M') as X0'.
    destruct (same_no_zeros _ _ _ _ (not_ends _ _ Dd Nd A Z) (not_ends _ _ Dd' Nd' A' Z') S) as [Em Ee].
    pose proof (leading_inj _ _ _ _ Dd Nd A Dd' Nd' A' Em) as Q. injection Q as <- <-. unfold e in Ee.
    pose proof (number_bounds xs (proj2 Xs)) as Bx. pose proof (number_bounds xs' (proj2 Xs')) as Bx'.
    assert (K : esg = esg' /\ number_of xs = number_of xs').
    { clear - Ee Bx Bx' X0 X0' Es Es'. destruct Es as [<-|[<-|[]]], Es' as [<-|[<-|[]]]; cbn [String.eqb Ascii.eqb Bool.eqb signed] in Ee; cbn in Ee; split; try reflexivity; lia. }
    destruct K as [<- Nx]. rewrite (exponent_inj _ _ Xs Xs' X2 X2' X3 X3' Nx), (frac_inj _ _ _ Fp Fp'), (sign_inj _ _ _ Sg Sg'). reflexivity.
Qed.
Lemma p_C63_text_unique f t t' : float_written f t -> float_written f t' -> t = t'.
Proof.
  intros (k & m & e & _ & L & S) (k' & m' & e' & _ & L' & S'). destruct (p_C63_unique _ _ _ _ _ _ _ S S') as [_ Q].
  exact (p_C63_layout_unique _ _ _ _ _ _ _ L L' Q).
Qed.
Lemma p_C63_dumps_text f t : fvalid f = true -> finite f -> units f <> 0 -> (json_dumps (VFlt f) = Ok t <-> float_written f t).
Proof.
  intros V F U. change (json_dumps (VFlt f)) with (@Ok string (float_text f)). pose proof (p_C63_written f V F U) as W. split.
  - intros H. injection H as <-. exact W.
  - intros H. f_equal. exact (p_C63_text_unique f _ _ W H).
Qed.
