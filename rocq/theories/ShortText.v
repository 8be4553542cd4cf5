(** * Proofs of C63, part 2: the text of a float. *)
From Coq Require Import Lia Decimal DecimalString DecimalN.
From Verif Require Import Py Num NumFacts RoundFacts Text TextFacts Json SpecCodec SpecRound RoundProofs SpecJson JsonFacts JsonGrammar SpecShort ShortProofs.
Open Scope string_scope.
Open Scope Z_scope.

(** ** digits *)
Lemma snum_split s : forall n, snum n s = n * 10 ^ Z.of_nat (String.length s) + snum 0 s.
Proof.
  induction s as [|c s IH]; intros n; [cbn; lia|]. rewrite !snum_cons, (IH (10 * n + _)), (IH (10 * 0 + _)). cbn [String.length].
  rewrite Nat2Z.inj_succ, Z.pow_succ_r by lia. ring.
Qed.
Lemma number_app a b : number_of (a ++ b) = number_of a * 10 ^ Z.of_nat (String.length b) + number_of b.
Proof. rewrite !number_snum, snum_app. apply snum_split. Qed.
Lemma number_cons c s : number_of (String c s) = (bz c - 48) * 10 ^ Z.of_nat (String.length s) + number_of s.
Proof. rewrite !number_snum, snum_cons, snum_split. f_equal. Qed.
Lemma number_bounds s : all_chars digit s -> 0 <= number_of s < 10 ^ Z.of_nat (String.length s).
Proof.
  induction s as [|c s IH]; intros H; [cbn; lia|]. apply chars_cons in H as [Hc Hs]. specialize (IH Hs). unfold digit in Hc.
  rewrite number_cons. cbn [String.length]. rewrite Nat2Z.inj_succ, Z.pow_succ_r by lia. set (P := 10 ^ Z.of_nat (String.length s)) in *. clearbody P. nia.
Qed.
Lemma number_low c s : digit c -> c <> "0"%char -> all_chars digit s -> 10 ^ Z.of_nat (String.length s) <= number_of (String c s).
Proof.
  intros Hc N Hs. pose proof (number_bounds s Hs) as B. rewrite number_cons. assert (K : 49 <= bz c).
  { unfold digit in Hc. assert (bz c <> 48); [|lia]. intros E. apply N. unfold bz in E. rewrite <- (ascii_nat_embedding c). 
    replace (nat_of_ascii c) with 48%nat; [reflexivity|]. rewrite <- (Nat2Z.id (nat_of_ascii c)). unfold nat_of_ascii. rewrite N_nat_Z. rewrite E. reflexivity. }
  set (P := 10 ^ Z.of_nat (String.length s)) in *. clearbody P. nia.
Qed.
Lemma zdigits_number z : 0 <= z -> number_of (zdigits z) = z.
Proof. intros H. unfold zdigits. rewrite <- of_uint_number. apply zdigits_value, H. Qed.
Lemma zdigits_shape z : 0 < z -> exists c r, zdigits z = String c r /\ digit c /\ c <> "0"%char /\ all_chars digit r.
Proof.
  intros H. destruct (zdigits_head z ltac:(lia)) as [E|(c & r & E & N & _ & D)].
  - exfalso. pose proof (zdigits_number z ltac:(lia)) as Q. unfold zdigits in Q. rewrite E in Q. cbn in Q. lia.
  - exists c, r. split; [exact E|]. pose proof (ustr_digits (N.to_uint (Z.to_N z))) as A. fold (zdigits z) in A. rewrite E in A. apply chars_cons in A. tauto.
Qed.
Lemma zdigits_length z (l := Z.of_nat (String.length (zdigits z))) : 0 < z -> 1 <= l /\ 10 ^ (l - 1) <= z < 10 ^ l.
Proof.
  intros H. destruct (zdigits_shape z H) as (c & r & E & D & N & A). pose proof (zdigits_number z ltac:(lia)) as Q. unfold l. clear l. rewrite E in *. cbn [String.length].
  rewrite Nat2Z.inj_succ. pose proof (number_low c r D N A) as L. pose proof (number_bounds (String c r) ltac:(apply chars_cons; auto)) as B. cbn [String.length] in B. rewrite Nat2Z.inj_succ in B.
  rewrite Q in L, B. replace (Z.succ (Z.of_nat (String.length r)) - 1) with (Z.of_nat (String.length r)) by lia. lia.
Qed.

(** ** the position of the decimal point *)
Lemma decade_at N D p T0 : 0 <= T0 -> 0 <= p - 1 + T0 -> D * 10 ^ (p - 1 + T0) <= N * 10 ^ T0 < D * 10 ^ (p + T0) -> decade N D p.
Proof.
  intros H0 H1 [A B] T HT HP. assert (P : 0 < 10 ^ T0) by (apply pow10_pos; lia). assert (Q : 0 < 10 ^ T) by (apply pow10_pos; lia).
  assert (S : forall x, 0 <= x + T -> 0 <= x + T0 -> D * 10 ^ (x + T) * 10 ^ T0 = D * 10 ^ (x + T0) * 10 ^ T).
  { intros x X1 X2. rewrite <- !Z.mul_assoc, <- !Z.pow_add_r by lia. do 2 f_equal. lia. }
  split.
  - apply (Z.mul_le_mono_pos_r _ _ _ P). rewrite S by lia. replace (N * 10 ^ T * 10 ^ T0) with (N * 10 ^ T0 * 10 ^ T) by ring. apply Z.mul_le_mono_nonneg_r; lia.
  - apply (Z.mul_lt_mono_pos_r _ _ _ P). rewrite S by lia. replace (N * 10 ^ T * 10 ^ T0) with (N * 10 ^ T0 * 10 ^ T) by ring. apply Z.mul_lt_mono_pos_r; lia.
Qed.
Lemma decpt_decade N D : 0 < N -> 0 < D -> decade N D (decpt_of N D).
Proof.
  intros HN HD. unfold decpt_of. destruct (Z.leb_spec D N) as [C|C].
  - pose proof (Z.div_mod N D ltac:(lia)) as DM. pose proof (Z.mod_pos_bound N D HD) as MB. assert (Z0 : 0 < N / D) by (apply Z.div_str_pos; lia).
    destruct (zdigits_length (N / D) Z0) as (L1 & L2 & L3). set (l := Z.of_nat (String.length (zdigits (N / D)))) in *. apply (decade_at _ _ _ 0); [lia|lia|]. rewrite !Z.add_0_r, Z.pow_0_r, Z.mul_1_r.
    set (z := N / D) in *. set (r := N mod D) in *. set (a := 10 ^ (l - 1)) in *. set (b := 10 ^ l) in *. clearbody z r a b. nia.
  - pose proof (Z.div_mod D N ltac:(lia)) as DM. pose proof (Z.mod_pos_bound D N HN) as MB. assert (Z0 : 0 < D / N) by (apply Z.div_str_pos; lia).
    destruct (zdigits_length (D / N) Z0) as (L1 & L2 & L3). set (l := Z.of_nat (String.length (zdigits (D / N)))) in *.
    assert (P1 : N * 10 ^ (l - 1) <= D < N * 10 ^ l).
    { set (z := D / N) in *. set (r := D mod N) in *. set (a := 10 ^ (l - 1)) in *. set (b := 10 ^ l) in *. clearbody z r a b. nia. }
    assert (S10 : 10 ^ l = 10 * 10 ^ (l - 1)) by (replace l with (Z.succ (l - 1)) at 1 by lia; apply Z.pow_succ_r; lia).
    destruct (Z.leb_spec D (N * 10 ^ (l - 1))) as [C1|C1].
    + apply (decade_at _ _ _ (l - 1)); [lia|lia|]. replace (- (l - 2) - 1 + (l - 1)) with 0 by lia. replace (- (l - 2) + (l - 1)) with 1 by lia. rewrite Z.pow_0_r, Z.pow_1_r. lia.
    + destruct (Z.leb_spec D (N * 10 ^ l)) as [C2|C2]; [|lia]. apply (decade_at _ _ _ l); [lia|lia|].
      replace (- (l - 1) - 1 + l) with 0 by lia. replace (- (l - 1) + l) with 1 by lia. rewrite Z.pow_0_r, Z.pow_1_r. lia.
Qed.

(** ** trailing zeros *)
Lemma strip_same fuel : forall d e c x, strip_zeros fuel d e = (c, x) -> 0 < d -> 0 < c /\ same_decimal c x d e.
Proof.
  induction fuel as [|fuel IH]; intros d e c x H Hd; cbn [strip_zeros] in H; [injection H as <- <-; split; [exact Hd|apply same_refl]|].
  destruct (Z.eqb_spec (d mod 10) 0) as [M|M]; cbn [andb] in H; [|injection H as <- <-; split; [exact Hd|apply same_refl]].
  rewrite (proj2 (Z.eqb_neq d 0)) in H by lia. cbn [negb] in H. pose proof (Z.div_mod d 10 ltac:(lia)) as DM.
  destruct (IH _ _ _ _ H ltac:(lia)) as [Hc S]. split; [exact Hc|]. eapply same_trans; [exact S|]. unfold same_decimal.
  replace (Z.max (e + 1 - e) 0) with 1 by lia. replace (Z.max (e - (e + 1)) 0) with 0 by lia. rewrite Z.pow_0_r, Z.pow_1_r. lia.
Qed.
Lemma strip_all fuel : forall d e c x, strip_zeros fuel d e = (c, x) -> 0 < d < 10 ^ Z.of_nat fuel -> c mod 10 <> 0.
Proof.
  induction fuel as [|fuel IH]; intros d e c x H Hd; [cbn in Hd; lia|]. cbn [strip_zeros] in H.
  destruct (Z.eqb_spec (d mod 10) 0) as [M|M]; cbn [andb] in H; [|injection H as <- <-; exact M].
  rewrite (proj2 (Z.eqb_neq d 0)) in H by lia. cbn [negb] in H. pose proof (Z.div_mod d 10 ltac:(lia)) as DM. apply (IH _ _ _ _ H).
  rewrite Nat2Z.inj_succ, Z.pow_succ_r in Hd by lia. lia.
Qed.

(** ** moderate numbers *)
Lemma moderate_scale T m e : 0 <= T -> 0 <= e + T -> (moderate m e <-> 10 ^ T <= m * 10 ^ (e + T) * 10 ^ 4 /\ m * 10 ^ (e + T) < 10 ^ 16 * 10 ^ T).
Proof.
  intros HT He. destruct (dec_scale T m e HT He) as [-> B]. unfold moderate. set (k := 10 ^ (T - Z.max (- e) 0)) in *. assert (K : 0 < k) by (apply pow10_pos; lia).
  rewrite B. set (a := m * 10 ^ Z.max e 0). set (d := 10 ^ Z.max (- e) 0). clearbody a d k.
  rewrite (Z.mul_le_mono_pos_r d _ k K), (Z.mul_lt_mono_pos_r k a _ K). 
  replace (a * 10 ^ 4 * k) with (a * k * 10 ^ 4) by ring. rewrite <- (Z.mul_assoc (10 ^ 16)). reflexivity.
Qed.
Lemma moderate_same m e n x : same_decimal m e n x -> (moderate m e <-> moderate n x).
Proof.
  intros S. set (T := Z.abs e + Z.abs x). apply (same_scale T) in S; [|lia|lia]. rewrite (moderate_scale T m e), (moderate_scale T n x) by lia. rewrite S. reflexivity.
Qed.
Lemma moderate_point c x l : 1 <= l -> 10 ^ (l - 1) <= c < 10 ^ l -> (moderate c x <-> -4 < l + x <= 16).
Proof.
  intros Hl [A B]. set (T := Z.abs x + l + 20). rewrite (moderate_scale T c x) by lia. assert (P : 0 < 10 ^ (x + T)) by (apply pow10_pos; lia).
  assert (A' : 10 ^ (l - 1 + (x + T)) <= c * 10 ^ (x + T)) by (rewrite (Z.pow_add_r 10 (l - 1) (x + T)) by lia; apply Z.mul_le_mono_nonneg_r; lia).
  assert (B' : c * 10 ^ (x + T) < 10 ^ (l + (x + T))) by (rewrite (Z.pow_add_r 10 l (x + T)) by lia; apply Z.mul_lt_mono_pos_r; lia).
  assert (S4 : 10 ^ (T - 4) * 10 ^ 4 = 10 ^ T) by (rewrite <- Z.pow_add_r by lia; f_equal; lia).
  assert (S16 : 10 ^ 16 * 10 ^ T = 10 ^ (16 + T)) by (rewrite Z.pow_add_r by lia; reflexivity).
  rewrite S16, <- S4. set (v := c * 10 ^ (x + T)) in *. clearbody v. rewrite <- Z.mul_le_mono_pos_r by reflexivity. split.
  - intros [C1 C2]. split.
    + destruct (Z.le_gt_cases (l + x) (-4)) as [K|K]; [exfalso|lia]. assert (10 ^ (l + (x + T)) <= 10 ^ (T - 4)) by (apply Z.pow_le_mono_r; lia). lia.
    + destruct (Z.le_gt_cases (l + x) 16) as [K|K]; [exact K|exfalso]. assert (10 ^ (16 + T) <= 10 ^ (l - 1 + (x + T))) by (apply Z.pow_le_mono_r; lia). lia.
  - intros [C1 C2]. split.
    + assert (10 ^ (T - 4) <= 10 ^ (l - 1 + (x + T))) by (apply Z.pow_le_mono_r; lia). lia.
    + assert (10 ^ (l + (x + T)) <= 10 ^ (16 + T)) by (apply Z.pow_le_mono_r; lia). lia.
Qed.

(** ** the layout *)
Definition sign_str (s : bool) : string := if s then "-" else "".
Lemma sign_of s : sign (sign_str s) s. Proof. destruct s; constructor. Qed.
Lemma sign_text_app s t : sign_text s t = sign_str s ++ t. Proof. destruct s; reflexivity. Qed.
Lemma str_app_assoc (a b c : string) : (a ++ b) ++ c = a ++ (b ++ c).
Proof. induction a as [|x a IH]; [reflexivity|]. cbn. now rewrite IH. Qed.
Lemma str_app_len (a b : string) : String.length (a ++ b) = (String.length a + String.length b)%nat.
Proof. induction a as [|x a IH]; [reflexivity|]. cbn. now rewrite IH. Qed.
Lemma split_at k : forall s, (k <= String.length s)%nat -> exists a b, s = a ++ b /\ String.length a = k /\
  String.substring 0 k s = a /\ String.substring k (String.length s - k) s = b.
Proof.
  assert (W : forall s, String.substring 0 (String.length s) s = s) by (induction s as [|c s IH]; [reflexivity|cbn; now rewrite IH]).
  induction k as [|k IH]; intros s H.
  - exists "", s. split; [reflexivity|]. split; [reflexivity|]. split; [destruct s; reflexivity|]. rewrite Nat.sub_0_r. apply W.
  - destruct s as [|c s]; [cbn in H; lia|]. cbn [String.length] in H. destruct (IH s ltac:(lia)) as (a & b & E & L & A & B).
    exists (String c a), b. split; [cbn; now rewrite E at 1|]. split; [cbn; now rewrite L|]. split; [cbn; now rewrite A|]. exact B.
Qed.
Lemma zeros_digits n : all_chars digit (zeros n).
Proof. induction n as [|n IH]; [constructor|]. cbn [zeros]. apply chars_cons. split; [unfold digit; cbn; lia|exact IH]. Qed.
Lemma zeros_number n : number_of (zeros n) = 0.
Proof. induction n as [|n IH]; [reflexivity|]. cbn [zeros]. rewrite number_cons, IH. cbn. lia. Qed.
Lemma zeros_length n : String.length (zeros n) = n. Proof. induction n as [|n IH]; [reflexivity|]. cbn. now rewrite IH. Qed.
Lemma ends_number s : ends_in_zero s -> number_of s mod 10 = 0.
Proof. intros (r & ->). rewrite number_app. cbn [String.length]. change (number_of "0") with 0. change (10 ^ Z.of_nat 1) with 10. rewrite Z.add_0_r. apply Z.mod_mul. lia. Qed.
Lemma ends_app a b : ends_in_zero b -> ends_in_zero (a ++ b).
Proof. intros (r & ->). exists (a ++ r). symmetry. apply str_app_assoc. Qed.
Lemma ends_nil : ~ ends_in_zero "". Proof. intros ([|c r] & E); discriminate. Qed.

Lemma exponent_text y (xs := if Nat.ltb (String.length (zdigits (Z.abs y))) 2 then String "0" (zdigits (Z.abs y)) else zdigits (Z.abs y)) : y <> 0 ->
  digits xs /\ (2 <= String.length xs)%nat /\ (String.length xs = 2%nat \/ forall r, xs <> String "0" r) /\ number_of xs = Z.abs y.
Proof.
  intros Y0. destruct (zdigits_shape (Z.abs y) ltac:(lia)) as (h & r & E & Dh & Nh & Ar). pose proof (zdigits_number (Z.abs y) ltac:(lia)) as Q.
  assert (A : all_chars digit (zdigits (Z.abs y))) by (rewrite E; apply chars_cons; auto).
  unfold xs. destruct (Nat.ltb_spec (String.length (zdigits (Z.abs y))) 2) as [J|J].
  - split; [split; [discriminate|apply chars_cons; split; [unfold digit; cbn; lia|exact A]]|]. rewrite number_cons, Q. rewrite E in *. cbn [String.length] in *.
    split; [lia|]. split; [left; lia|]. change (bz "0" - 48) with 0. lia.
  - split; [split; [rewrite E; discriminate|exact A]|]. split; [exact J|]. split; [right; intros z; rewrite E; congruence|exact Q].
Qed.
Lemma scientific s c x (ds := zdigits c) (y := Z.of_nat (String.length ds) + x - 1) : 0 < c -> c mod 10 <> 0 -> y <> 0 -> ~ moderate c x ->
  exists m e, laid_out (sign_str s ++ (match ds with String h EmptyString => ds | String h r => String h (String "." r) | EmptyString => ds end) ++ "e" ++
    (if (y <? 0)%Z then "-" else "+") ++ (if Nat.ltb (String.length (zdigits (Z.abs y))) 2 then String "0" (zdigits (Z.abs y)) else zdigits (Z.abs y))) s m e /\ same_decimal m e c x.
Proof.
  intros Hc Hm Y0 NM. destruct (zdigits_shape c Hc) as (h & r & E & Dh & Nh & Ar). pose proof (zdigits_number c ltac:(lia)) as Q. fold ds in E, Q.
  destruct (exponent_text y Y0) as (XS1 & XS2 & XS3 & XS4). set (xs := if Nat.ltb _ _ then _ else _) in *. set (esg := if (y <? 0)%Z then "-" else "+"). clearbody xs.
  assert (EX : signed (String.eqb esg "-") (number_of xs) = y) by (rewrite XS4; unfold esg; destruct (Z.ltb_spec y 0); cbn; lia).
  assert (ES : In esg ["+"; "-"]) by (unfold esg; destruct (y <? 0); cbn; auto).
  assert (NE : ~ ends_in_zero ds) by (intros H; apply ends_number in H; rewrite Q in H; contradiction).
  assert (SD : same_decimal (number_of (String h r)) (signed (String.eqb esg "-") (number_of xs) - Z.of_nat (String.length r)) c x).
  { rewrite EX, <- E, Q. replace (y - Z.of_nat (String.length r)) with x; [apply same_refl|]. unfold y. rewrite E. cbn [String.length]. lia. }
  exists (number_of (String h r)), (signed (String.eqb esg "-") (number_of xs) - Z.of_nat (String.length r)). split; [|exact SD].
  assert (NM' : ~ moderate (number_of (String h r)) (signed (String.eqb esg "-") (number_of xs) - Z.of_nat (String.length r))) by (rewrite (moderate_same _ _ _ _ SD); exact NM).
  clear EX SD Q. clearbody esg. rewrite E in NE |- *. destruct r as [|h2 r2].
  - exact (lo_exponent (sign_str s) s h "" "" xs esg (sign_of s) Dh Nh fp_none ends_nil ES XS1 XS2 XS3 NM').
  - set (r := String h2 r2) in *. assert (NR : ~ ends_in_zero r) by (intros H; apply NE; exact (ends_app (String h "") r H)).
    assert (Dr : digits r) by (split; [discriminate|exact Ar]).
    exact (lo_exponent (sign_str s) s h ("." ++ r) r xs esg (sign_of s) Dh Nh (fp_some r Dr) NR ES XS1 XS2 XS3 NM').
Qed.
Lemma format_laid_out s c x : 0 < c -> c mod 10 <> 0 -> exists m e, laid_out (sign_text s (format_r c x)) s m e /\ same_decimal m e c x.
Proof.
  intros Hc Hm. destruct (zdigits_shape c Hc) as (h & r & E & Dh & Nh & Ar). pose proof (zdigits_number c ltac:(lia)) as Q. destruct (zdigits_length c Hc) as [L1 L2].
  pose proof (moderate_point c x _ L1 L2) as MP. rewrite sign_text_app. unfold format_r.
  assert (NE : ~ ends_in_zero (zdigits c)) by (intros H; apply ends_number in H; rewrite Q in H; contradiction).
  assert (AD : all_chars digit (zdigits c)) by (rewrite E; apply chars_cons; auto).
  destruct ((_ <=? -4) || (16 <? _)) eqn:K.
  { apply scientific; [exact Hc|exact Hm| |rewrite MP]; apply orb_true_iff in K; rewrite Z.leb_le, Z.ltb_lt in K; lia. }
  apply orb_false_iff in K as [K1 K2]. rewrite Z.leb_gt in K1. rewrite Z.ltb_ge in K2. set (n := Z.of_nat (String.length (zdigits c))) in *.
  destruct (Z.leb_spec (n + x) 0) as [K3|K3]; [|destruct (Z.ltb_spec (n + x) n) as [K4|K4]].
  - (* below one *)
    set (k := Z.to_nat (- (n + x))). set (ds := zeros k ++ zdigits c). assert (DS : digits ds).
    { split; [unfold ds; rewrite E; destruct (zeros k); discriminate|]. apply chars_app. split; [apply zeros_digits|exact AD]. }
    assert (NB : number_of ("0" ++ ds) = c) by (change ("0" ++ ds) with (String "0" ds); rewrite number_cons; unfold ds; rewrite number_app, zeros_number, Q; change (bz "0" - 48) with 0; rewrite !Z.mul_0_l; reflexivity).
    assert (SD : same_decimal (number_of ("0" ++ ds)) (- Z.of_nat (String.length ds)) c x).
    { rewrite NB. replace (- Z.of_nat (String.length ds)) with x; [apply same_refl|]. unfold ds. rewrite str_app_len, zeros_length, Nat2Z.inj_add. fold n. unfold k. lia. }
    exists (number_of ("0" ++ ds)), (- Z.of_nat (String.length ds)). split; [|exact SD].
    change ("0." ++ zeros k ++ zdigits c) with ("0" ++ "." ++ ds).
    apply (lo_point (sign_str s) s "0" ds (sign_of s) ip_zero DS).
    + right. intros H. apply ends_number in H. unfold ds in H. rewrite number_app, zeros_number, Q in H. rewrite Z.mul_0_l, Z.add_0_l in H. contradiction.
    + rewrite (moderate_same _ _ _ _ SD), MP. lia.
  - (* digits on both sides *)
    destruct (split_at (Z.to_nat (n + x)) (zdigits c) ltac:(lia)) as (a & b & Eab & La & Sa & Sb).
    replace (Z.to_nat (n - (n + x))) with (String.length (zdigits c) - Z.to_nat (n + x))%nat by lia. rewrite Sa, Sb. clear Sa Sb.
    assert (Lb : (String.length a + String.length b)%nat = String.length (zdigits c)) by (rewrite Eab, str_app_len; reflexivity).
    destruct a as [|h' a]; [cbn in La; lia|]. rewrite E in Eab. cbn in Eab. injection Eab as <- Er. rewrite Er in Ar. apply chars_app in Ar as [Aa Ab].
    assert (Ez : zdigits c = String h a ++ b) by (rewrite E, Er; reflexivity).
    assert (DB : digits b) by (split; [intros ->; cbn [String.length] in *; lia|exact Ab]).
    assert (SD : same_decimal (number_of (String h a ++ b)) (- Z.of_nat (String.length b)) c x).
    { rewrite <- Ez, Q. replace (- Z.of_nat (String.length b)) with x; [apply same_refl|]. cbn [String.length] in *. lia. }
    exists (number_of (String h a ++ b)), (- Z.of_nat (String.length b)). split; [|exact SD].
    apply (lo_point (sign_str s) s (String h a) b (sign_of s) (ip_more h a Dh Nh Aa) DB).
    + right. intros H. apply NE. rewrite Ez. apply ends_app, H.
    + rewrite (moderate_same _ _ _ _ SD), MP. lia.
  - (* zeros before the point *)
    set (k := Z.to_nat (n + x - n)). assert (IP : int_part (zdigits c ++ zeros k)).
    { rewrite E. cbn [append]. apply ip_more; [exact Dh|exact Nh|]. apply chars_app. split; [exact Ar|apply zeros_digits]. }
    assert (D0 : digits "0") by (split; [discriminate|apply chars_cons; split; [unfold digit; cbn; lia|constructor]]).
    assert (SD : same_decimal (number_of ((zdigits c ++ zeros k) ++ "0")) (- Z.of_nat (String.length "0")) c x).
    { rewrite !number_app, zeros_number, zeros_length, Q. change (number_of "0") with 0. cbn [String.length]. change (10 ^ Z.of_nat 1) with (10 ^ 1). unfold same_decimal.
      replace (Z.max (- Z.of_nat 1 - x) 0) with 0 by lia. replace (Z.max (x - - Z.of_nat 1) 0) with (x + 1) by lia. rewrite Z.pow_0_r, Z.pow_add_r by lia.
      replace (Z.of_nat k) with x by (unfold k; lia). ring. }
    exists (number_of ((zdigits c ++ zeros k) ++ "0")), (- Z.of_nat (String.length "0")). split; [|exact SD].
    replace (zdigits c ++ zeros k ++ ".0") with ((zdigits c ++ zeros k) ++ "." ++ "0") by apply str_app_assoc.
    apply (lo_point (sign_str s) s (zdigits c ++ zeros k) "0" (sign_of s) IP D0); [left; reflexivity|]. rewrite (moderate_same _ _ _ _ SD), MP. lia.
Qed.

(** ** which texts read back *)
Lemma laid_decimal t s m e : laid_out t s m e -> decimal_text t s m e.
Proof.
  destruct 1 as [sg neg i ds S I D _ m e _|sg neg d f ds xs esg S Dd Nd Fp _ Es Xs _ _ m e _].
  - unfold m, e. rewrite <- (Z.sub_0_l (Z.of_nat _)). replace (sg ++ i ++ "." ++ ds) with (sg ++ i ++ ("." ++ ds) ++ "") by (now rewrite append_nil_r).
    apply dt; [exact S|exact I|now constructor|constructor|discriminate].
  - unfold m, e. change (String d ds) with (String d "" ++ ds). change ("e" ++ esg ++ xs) with (String "e" (esg ++ xs)).
    apply dt; [exact S|apply ip_more; [exact Dd|exact Nd|constructor]|exact Fp|apply ep_some; [now left|right; exact Es|exact Xs]|destruct f; discriminate].
Qed.
Lemma decimal_nonneg t s m e : decimal_text t s m e -> 0 <= m.
Proof.
  destruct 1 as [sg neg i f ds e x S I Fp Ep _]. apply number_bounds. apply chars_app. split.
  - destruct I as [|c r Dc _ Ar]; apply chars_cons; [split; [unfold digit; cbn; lia|constructor]|auto].
  - destruct Fp as [|ds [_ A]]; [constructor|exact A].
Qed.
Lemma decimal_number t s m e f : decimal_text t s m e -> rounds_decimal s m e f -> json_number t (VFlt f).
Proof. destruct 1. intros R. eapply jn_float; eassumption. Qed.
Lemma sf_eqb_refl f : sf_eqb f f = true.
Proof. destruct f as [s|s| |s m e]; cbn; rewrite ?Bool.eqb_reflx, ?Pos.eqb_refl, ?Z.eqb_refl; reflexivity. Qed.
Lemma text_reads_back t s m e f : decimal_text t s m e -> (reads_back t f = true <-> rounds_decimal s m e f).
Proof.
  intros D. pose proof (decimal_nonneg _ _ _ _ D) as Hm. rewrite (float_of_dec_spec s m e f Hm).
  pose proof (decimal_number _ _ _ _ _ D (proj2 (float_of_dec_spec s m e _ Hm) eq_refl)) as J.
  destruct (number_scan t _ "" J I) as (k & S & K). rewrite append_nil_r in S. unfold reads_back. rewrite S, K. split.
  - intros Q. apply sf_eqb_eq in Q. congruence.
  - intros ->. apply sf_eqb_refl.
Qed.
Lemma format_reads_back s c x f : 0 < c -> c mod 10 <> 0 -> (reads_back (sign_text s (format_r c x)) f = true <-> rounds_decimal s c x f).
Proof.
  intros Hc Hm. destruct (format_laid_out s c x Hc Hm) as (m & e & L & S). rewrite (text_reads_back _ _ _ _ f (laid_decimal _ _ _ _ L)). apply rounds_same, S.
Qed.

(** ** the search *)
Lemma candidates_grid n d p k : candidates n d p k = (strip_zeros 20 (near n d p k) (p - k), strip_zeros 20 (other n d p k) (p - k)).
Proof. unfold candidates, other, near, top, bottom. replace (- (k - p)) with (p - k) by lia. reflexivity. Qed.
Lemma shortest_same f k m e n x : fvalid f = true -> finite f -> 0 <= n -> same_decimal m e n x -> shortest_decimal f k m e -> shortest_decimal f k n x.
Proof.
  intros V F Hn S (_ & W & R & M). split; [exact Hn|]. split; [eapply within_same; eassumption|]. split; [apply (rounds_same _ _ _ _ _ f S), R|].
  intros k' a b Hk Ha Wa Ra. destruct (M k' a b Hk Ha Wa Ra) as [M1 M2]. split; [exact M1|]. intros Q. destruct (M2 Q) as [M3 M4]. split.
  - eapply no_further_same; [exact V|exact F|exact S|apply same_refl|exact M3].
  - intros N. assert (N' : no_further (negative f) f a b m e) by (eapply no_further_same; [exact V|exact F|apply same_refl|apply same_sym; exact S|exact N]).
    destruct (M4 N') as [K|(c & y & E & K & L)]; [left; eapply same_trans; [apply same_sym; exact S|exact K]|right].
    exists c, y. split; [exact E|]. split; [eapply same_trans; [apply same_sym; exact S|exact K]|exact L].
Qed.
Lemma grid_text f N D p k q c x s : fvalid f = true -> finite f -> 0 < D -> decade N D p -> 1 <= k <= 17 -> s = negative f ->
  q = near N D p k \/ q = other N D p k -> strip_zeros 20 q (p - k) = (c, x) ->
  (reads_back (sign_text s (format_r c x)) f = true <-> rounds_decimal s q (p - k) f) /\
  (shortest_decimal f k q (p - k) -> float_written f (sign_text s (format_r c x))).
Proof.
  intros V F HD DC Hk -> Q S. destruct (within_grid N D p HD DC k q ltac:(lia) Q) as [Pq _].
  assert (Bq : q < 10 ^ Z.of_nat 20).
  { destruct (grid_low N D p k HD ltac:(lia) DC) as [_ L]. assert (10 ^ k <= 10 ^ 17) by (apply Z.pow_le_mono_r; lia).
    change (10 ^ Z.of_nat 20) with 100000000000000000000. change (10 ^ 17) with 100000000000000000 in *.
    destruct (near_other N D p k HD) as [[A B]|[A B]]; rewrite A, B in Q; lia. }
  destruct (strip_same _ _ _ _ _ S Pq) as [Pc SD]. pose proof (strip_all _ _ _ _ _ S (conj Pq Bq)) as Mc.
  split; [rewrite (format_reads_back _ c x f Pc Mc); apply rounds_same, SD|].
  intros SH. destruct (format_laid_out (negative f) c x Pc Mc) as (m & e & L & SM). exists k, m, e. split; [lia|]. split; [exact L|].
  eapply shortest_same; [exact V|exact F|eapply decimal_nonneg, laid_decimal, L| |exact SH]. apply same_sym. eapply same_trans; eassumption.
Qed.
Lemma shortest_written s m e N D p (f := S754_finite s m e) : fvalid f = true -> 0 < N -> 0 < D -> size f * D = N * unit_one -> decade N D p ->
  forall fuel k, 1 <= k -> k + Z.of_nat fuel = 18 ->
  (forall j, 1 <= j < k -> ~ rounds_decimal s (near N D p j) (p - j) f /\ ~ rounds_decimal s (other N D p j) (p - j) f) ->
  float_written f (shortest fuel k N D p s m e).
Proof.
  intros V HN HD E DC. assert (F : finite f) by exact I. induction fuel as [|fuel IH]; intros k Hk HF M.
  - exfalso. destruct (M 17 ltac:(lia)) as [M1 _]. apply M1. exact (seventeen f N D p V F HD HN E DC).
  - cbn [shortest]. rewrite candidates_grid. destruct (strip_zeros 20 (near N D p k) (p - k)) as [c x] eqn:S1. destruct (strip_zeros 20 (other N D p k) (p - k)) as [c' x'] eqn:S2.
    destruct (grid_text f N D p k _ c x s V F HD DC ltac:(lia) eq_refl (or_introl eq_refl) S1) as [B1 W1].
    destruct (grid_text f N D p k _ c' x' s V F HD DC ltac:(lia) eq_refl (or_intror eq_refl) S2) as [B2 W2]. fold f.
    destruct (reads_back (sign_text s (format_r c x)) f) eqn:R1; [|destruct (reads_back (sign_text s (format_r c' x')) f) eqn:R2].
    + apply W1. apply (level_shortest f N D p V F HD E DC); [exact HN|exact Hk|apply B1; reflexivity|left; reflexivity|exact M].
    + apply W2. apply (level_shortest f N D p V F HD E DC); [exact HN|exact Hk|apply B2; reflexivity| |exact M]. right. split; [reflexivity|]. intros C. apply B1 in C. discriminate.
    + apply IH; [lia|lia|]. intros j Hj. destruct (Z.eq_dec j k) as [->|NE]; [|apply M; lia].
      split; intros C; [apply B1 in C|apply B2 in C]; discriminate.
Qed.
Lemma ratio_facts m e N D s : -1074 <= e -> ratio (Zpos m) e = (N, D) -> 0 < N /\ 0 < D /\ size (S754_finite s m e) * D = N * unit_one.
Proof.
  intros He. rewrite size_finite. unfold ratio, unit_one. destruct (Z.leb_spec 0 e) as [L|L]; intros H; apply pair_equal_spec in H as [<- <-].
  - assert (0 < 2 ^ e) by (apply Z.pow_pos_nonneg; lia). split; [apply Z.mul_pos_pos; lia|]. split; [lia|]. rewrite Z.mul_1_r, <- Z.mul_assoc, <- Z.pow_add_r by lia. reflexivity.
  - assert (0 < 2 ^ (- e)) by (apply Z.pow_pos_nonneg; lia). split; [lia|]. split; [lia|]. rewrite <- Z.mul_assoc, <- Z.pow_add_r by lia. do 2 f_equal. lia.
Qed.
Lemma no_further_zero s e n x : no_further s (S754_zero s) 0 e n x.
Proof.
  unfold no_further, distance. cbn [units]. replace (signed s (0 * 10 ^ Z.max e 0)) with 0 by (destruct s; reflexivity). rewrite !Z.mul_0_l, !Z.sub_0_r. change (Z.abs 0 * 10 ^ Z.max (- x) 0) with 0.
  apply Z.mul_nonneg_nonneg; [lia|apply Z.pow_nonneg; lia].
Qed.
Lemma no_further_zero_same s e n x : 0 <= n -> no_further s (S754_zero s) n x 0 e -> same_decimal 0 e n x.
Proof.
  intros Hn. unfold no_further, distance. cbn [units]. replace (signed s (0 * 10 ^ Z.max e 0)) with 0 by (destruct s; reflexivity). rewrite !Z.mul_0_l, !Z.sub_0_r.
  change (Z.abs 0 * 10 ^ Z.max (- x) 0) with 0. intros H. assert (P1 : 0 < 10 ^ Z.max x 0) by (apply pow10_pos; lia). assert (P2 : 0 < 10 ^ Z.max (- e) 0) by (apply pow10_pos; lia).
  assert (P3 : 0 < 2 ^ 1074) by (apply Z.pow_pos_nonneg; lia). set (u := 2 ^ 1074) in *. clearbody u. set (a := 10 ^ Z.max x 0) in *. set (b := 10 ^ Z.max (- e) 0) in *. clearbody a b.
  assert (K : Z.abs (signed s (n * a) * u) = n * a * u) by (rewrite Z.abs_mul, (Z.abs_eq u) by lia; f_equal; assert (0 <= n * a) by nia; destruct s; cbn [signed]; lia). rewrite K in H.
  assert (n = 0) by (destruct (Z.eq_dec n 0); [assumption|exfalso; assert (0 < n * a * u * b) by (repeat apply Z.mul_pos_pos; lia); lia]). subst n. reflexivity.
Qed.
Lemma p_C63 f : fvalid f = true -> finite f -> exists k m e, 0 <= k <= 17 /\ decimal_text (float_text f) (negative f) m e /\ shortest_decimal f k m e.
Proof.
  intros V F. destruct f as [s| | |s m e]; try contradiction.
  - exists 0, 0, (-1). split; [lia|]. split.
    + change 0 with (number_of ("0" ++ "0")) at 1. change (-1) with (0 - Z.of_nat (String.length "0")).
      replace (float_text (S754_zero s)) with (sign_str s ++ "0" ++ ("." ++ "0") ++ "") by (destruct s; reflexivity).
      assert (D0 : digits "0") by (split; [discriminate|apply chars_cons; split; [unfold digit; cbn; lia|constructor]]).
      exact (dt _ s "0" ("." ++ "0") "0" "" 0 (sign_of s) ip_zero (fp_some "0" D0) ep_none ltac:(discriminate)).
    + split; [lia|]. split; [exists 0, 0; split; [cbn; lia|reflexivity]|]. split; [apply rounded_zero; apply pow10_pos; lia|].
      intros k' n x Hk Hn W R. split; [exact Hk|]. intros _. split; [apply no_further_zero|]. intros NF. left. apply (no_further_zero_same s); assumption.
  - cbn [float_text]. destruct (ratio (Zpos m) e) as [N D] eqn:R. destruct (float_parts _ _ _ V) as (E1 & _). destruct (ratio_facts m e N D s ltac:(lia) R) as (HN & HD & E).
    destruct (shortest_written s m e N D _ V HN HD E (decpt_decade N D HN HD) 17 1 ltac:(lia) ltac:(reflexivity) ltac:(lia)) as (k & a & b & Hk & L & S).
    exists k, a, b. split; [exact Hk|]. split; [apply laid_decimal, L|exact S].
Qed.
Lemma p_C63_written f : fvalid f = true -> finite f -> units f <> 0 -> float_written f (float_text f).
Proof.
  intros V F U. destruct f as [s| | |s m e]; try contradiction.
  cbn [float_text]. destruct (ratio (Zpos m) e) as [N D] eqn:R. destruct (float_parts _ _ _ V) as (E1 & _). destruct (ratio_facts m e N D s ltac:(lia) R) as (HN & HD & E).
  exact (shortest_written s m e N D _ V HN HD E (decpt_decade N D HN HD) 17 1 ltac:(lia) ltac:(reflexivity) ltac:(lia)).
Qed.
(** 100000.0 could be written 1e5 *)
Lemma p_C63_refuted : exists f t, fvalid f = true /\ finite f /\ json_number t (VFlt f) /\ (String.length t < String.length (float_text f))%nat.
Proof.
  exists (S754_finite false 6871947673600000 (-36)), "1e5". split; [reflexivity|]. split; [exact I|]. split; [|vm_compute; lia].
  assert (D : decimal_text "1e5" false 1 5).
  { assert (D5 : digits "5") by (split; [discriminate|apply chars_cons; split; [unfold digit; cbn; lia|constructor]]).
    assert (I1 : int_part "1") by (apply ip_more; [unfold digit; cbn; lia|discriminate|constructor]).
    exact (dt "" false "1" "" "" "e5" 5 plus I1 fp_none (ep_some "e" "" "5" (or_introl eq_refl) (or_introl eq_refl) D5) ltac:(discriminate)). }
  apply (decimal_number _ _ _ _ _ D). apply float_of_dec_spec; [lia|]. vm_compute. reflexivity.
Qed.
Lemma p_C63_dumps f : fvalid f = true -> finite f ->
  exists t k m e, json_dumps (VFlt f) = Ok t /\ 0 <= k <= 17 /\ decimal_text t (negative f) m e /\ shortest_decimal f k m e.
Proof. intros V F. destruct (p_C63 f V F) as (k & m & e & H). exists (float_text f), k, m, e. split; [reflexivity|exact H]. Qed.
