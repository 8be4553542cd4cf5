(** * Proofs of C63, part 1: decimals around a float. *)
From Coq Require Import Lia.
From Verif Require Import Py Num NumFacts RoundFacts Json SpecRound RoundProofs SpecJson SpecShort.
Open Scope Z_scope.

Definition unit_one : Z := 2 ^ 1074.
Lemma unit_one_pos : 0 < unit_one. Proof. apply Z.pow_pos_nonneg; lia. Qed.
Definition size (f : float64) : Z := Z.abs (units f).

Lemma signed_if s n : signed s n = if s then - n else n. Proof. reflexivity. Qed.
Lemma units_signed f : fvalid f = true -> finite f -> units f = signed (negative f) (size f).
Proof.
  unfold size. destruct f as [s| | |s m e]; intros V F; try contradiction; [destruct s; reflexivity|].
  cbn [units negative]. assert (0 <= 2 ^ (e + 1074)) by (apply Z.pow_nonneg; lia). set (u := 2 ^ (e + 1074)) in *. clearbody u.
  assert (0 <= Zpos m * u) by nia. destruct s; cbn [signed].
  - replace (-1 * Zpos m * u) with (- (Zpos m * u)) by ring. lia.
  - rewrite Z.mul_1_l. lia.
Qed.
Lemma distance_signed s n d f : units f = signed s (size f) -> distance (signed s n) d f = Z.abs (n * unit_one - size f * d).
Proof.
  intros E. unfold distance. fold unit_one. rewrite E. destruct s; cbn [signed]; [|reflexivity].
  rewrite <- Z.abs_opp. f_equal. ring.
Qed.
Lemma distance_any s n d g : distance (signed s n) d g = Z.abs (n * unit_one - signed s (units g) * d).
Proof.
  unfold distance. fold unit_one. destruct s; cbn [signed]; [|reflexivity].
  rewrite <- Z.abs_opp. f_equal. ring.
Qed.

(** ** the numbers that round to a float are an interval *)
Lemma between_above U d1 d2 n1 n2 u y : 0 < U -> 0 < d1 -> 0 < d2 -> n2 * d1 <= n1 * d2 -> u * d2 <= n2 * U ->
  Z.abs (n1 * U - u * d1) <= Z.abs (n1 * U - y * d1) ->
  Z.abs (n2 * U - u * d2) <= Z.abs (n2 * U - y * d2) /\
  (Z.abs (n2 * U - u * d2) = Z.abs (n2 * U - y * d2) -> y <> u -> Z.abs (n1 * U - u * d1) = Z.abs (n1 * U - y * d1)).
Proof.
  intros HU H1 H2 L B D. destruct (Z.le_gt_cases y u) as [Y|Y].
  - assert (y * d2 <= u * d2) by (apply Z.mul_le_mono_nonneg_r; lia). split; [lia|].
    intros E N. assert (y * d2 < u * d2) by (apply Z.mul_lt_mono_pos_r; lia). lia.
  - assert (B1 : u * d1 <= n1 * U).
    { apply (Z.mul_le_mono_pos_r _ _ d2 H2). apply Z.le_trans with (n2 * U * d1).
      - replace (u * d1 * d2) with (u * d2 * d1) by ring. apply Z.mul_le_mono_nonneg_r; lia.
      - replace (n2 * U * d1) with (n2 * d1 * U) by ring. replace (n1 * U * d2) with (n1 * d2 * U) by ring. apply Z.mul_le_mono_nonneg_r; lia. }
    assert (Y1 : u * d1 < y * d1) by (apply Z.mul_lt_mono_pos_r; lia). assert (Y2 : u * d2 < y * d2) by (apply Z.mul_lt_mono_pos_r; lia).
    assert (M : 2 * (n1 * U) <= (u + y) * d1) by lia.
    assert (M2 : 2 * (n2 * U) <= (u + y) * d2).
    { apply (Z.mul_le_mono_pos_r _ _ d1 H1). apply Z.le_trans with (2 * (n1 * U) * d2).
      - replace (2 * (n2 * U) * d1) with (n2 * d1 * (2 * U)) by ring. replace (2 * (n1 * U) * d2) with (n1 * d2 * (2 * U)) by ring. apply Z.mul_le_mono_nonneg_r; lia.
      - replace ((u + y) * d2 * d1) with ((u + y) * d1 * d2) by ring. apply Z.mul_le_mono_nonneg_r; lia. }
    split; [lia|]. intros E _. assert (Q : 2 * (n2 * U) = (u + y) * d2) by lia.
    assert (Q1 : (u + y) * d1 <= 2 * (n1 * U)).
    { apply (Z.mul_le_mono_pos_r _ _ d2 H2). replace ((u + y) * d1 * d2) with ((u + y) * d2 * d1) by ring. rewrite <- Q.
      replace (2 * (n2 * U) * d1) with (n2 * d1 * (2 * U)) by ring. replace (2 * (n1 * U) * d2) with (n1 * d2 * (2 * U)) by ring. apply Z.mul_le_mono_nonneg_r; lia. }
    lia.
Qed.
Lemma between_below U d1 d2 n1 n2 u y : 0 < U -> 0 < d1 -> 0 < d2 -> n1 * d2 <= n2 * d1 -> n2 * U <= u * d2 ->
  Z.abs (n1 * U - u * d1) <= Z.abs (n1 * U - y * d1) ->
  Z.abs (n2 * U - u * d2) <= Z.abs (n2 * U - y * d2) /\
  (Z.abs (n2 * U - u * d2) = Z.abs (n2 * U - y * d2) -> y <> u -> Z.abs (n1 * U - u * d1) = Z.abs (n1 * U - y * d1)).
Proof.
  intros HU H1 H2 L B D. pose proof (between_above U d1 d2 (- n1) (- n2) (- u) (- y) HU H1 H2 ltac:(lia) ltac:(lia)) as K.
  assert (S : forall n x d, Z.abs (- n * U - - x * d) = Z.abs (n * U - x * d)) by (intros n x d; rewrite <- Z.abs_opp; f_equal; ring).
  rewrite !S in K. destruct (K D) as [K1 K2]. split; [exact K1|]. intros E N. apply K2; [exact E|lia].
Qed.
Lemma size_bound f : fvalid f = true -> finite f -> size f < (2 ^ 54 - 1) * 2 ^ 970 * unit_one.
Proof.
  unfold size. destruct f as [s| | |s m e]; intros V F; try contradiction.
  - cbn [units]. apply Z.mul_pos_pos; [reflexivity|apply unit_one_pos].
  - cbn [units]. destruct (float_parts _ _ _ V) as (E & M & _). assert (P0 : 0 < 2 ^ (e + 1074)) by (apply Z.pow_pos_nonneg; lia).
    replace (Z.abs ((if s then -1 else 1) * Zpos m * 2 ^ (e + 1074))) with (Zpos m * 2 ^ (e + 1074))
      by (rewrite !Z.abs_mul, (Z.abs_eq (2 ^ _)) by lia; destruct s; cbn [Z.abs]; ring).
    assert (H : 2 ^ (e + 1074) <= 2 ^ 971 * unit_one). { unfold unit_one. rewrite <- Z.pow_add_r by lia. apply Z.pow_le_mono_r; lia. }
    assert (P : 0 < 2 ^ 970 * unit_one) by (apply Z.mul_pos_pos; [reflexivity|apply unit_one_pos]).
    replace (2 ^ 971) with (2 * 2 ^ 970) in H by reflexivity.
    rewrite <- Z.mul_assoc in *. set (u := 2 ^ 970 * unit_one) in *. clearbody u.
    apply Z.le_lt_trans with (Zpos m * (2 * u)); [apply Z.mul_le_mono_nonneg_l; lia|].
    replace (2 ^ 54 - 1) with (2 * (2 ^ 53 - 1) + 1) by reflexivity. set (k := 2 ^ 53) in *. clearbody k. clear -P M. nia.
Qed.
(** a number between one that rounds to [f] and [f] itself rounds to [f] *)
Lemma rounds_between n1 d1 n2 d2 f : finite f -> 0 < d1 -> 0 < d2 -> rounds (negative f) n1 d1 f ->
  (n1 * d2 <= n2 * d1 /\ n2 * unit_one <= size f * d2) \/ (n2 * d1 <= n1 * d2 /\ size f * d2 <= n2 * unit_one) ->
  rounds (negative f) n2 d2 f.
Proof.
  intros F H1 H2 (V & S & C) B. destruct C as [[_ C]|(L & _ & N)]; [rewrite C in F; contradiction|].
  pose proof unit_one_pos as HU. pose proof (units_signed f V F) as E. split; [exact V|]. split; [reflexivity|]. right. split; [|split; [exact F|]].
  - set (M := (2 ^ 54 - 1) * 2 ^ 970) in *. pose proof (size_bound f V F) as SB. fold M in SB. clearbody M. destruct B as [[_ B]|[B _]].
    + apply (Z.mul_lt_mono_pos_r unit_one _ _ HU). apply Z.le_lt_trans with (size f * d2); [exact B|].
      replace (M * d2 * unit_one) with (M * unit_one * d2) by ring. apply Z.mul_lt_mono_pos_r; [exact H2|exact SB].
    + apply (Z.mul_lt_mono_pos_r d1 _ _ H1). apply Z.le_lt_trans with (n1 * d2); [exact B|].
      replace (M * d2 * d1) with (M * d1 * d2) by ring. apply Z.mul_lt_mono_pos_r; [exact H2|exact L].
  - intros g Vg Fg. destruct (N g Vg Fg) as [D T]. rewrite <- !(signed_if (negative f)) in *.
    rewrite (distance_signed _ n1 _ f E), (distance_signed _ n2 _ f E) in *. rewrite (distance_any _ n1), (distance_any _ n2) in *.
    set (y := signed (negative f) (units g)) in *.
    assert (K : Z.abs (n2 * unit_one - size f * d2) <= Z.abs (n2 * unit_one - y * d2) /\
      (Z.abs (n2 * unit_one - size f * d2) = Z.abs (n2 * unit_one - y * d2) -> y <> size f -> Z.abs (n1 * unit_one - size f * d1) = Z.abs (n1 * unit_one - y * d1))).
    { destruct B as [[B1 B2]|[B1 B2]]; [apply between_below|apply between_above]; assumption. }
    destruct K as [K1 K2]. split; [exact K1|]. intros Q NE. apply T; [|exact NE]. apply K2; [exact Q|].
    intros Y. apply NE. rewrite E, <- Y. unfold y. destruct (negative f); cbn [signed]; lia.
Qed.

(** ** the same number over another denominator *)
Lemma rounds_scale s n d k f : 0 < k -> (rounds s (n * k) (d * k) f <-> rounds s n d f).
Proof.
  intros K. assert (D : forall g, distance (signed s (n * k)) (d * k) g = distance (signed s n) d g * k).
  { intros g. rewrite !distance_any. rewrite <- (Z.abs_eq k) at 3 by lia. rewrite <- Z.abs_mul. f_equal. ring. }
  assert (L : forall M, n * k < M * (d * k) <-> n < M * d).
  { intros M. rewrite Z.mul_assoc. symmetry. apply Z.mul_lt_mono_pos_r. exact K. }
  assert (L' : forall M, M * (d * k) <= n * k <-> M * d <= n).
  { intros M. rewrite Z.mul_assoc. symmetry. apply Z.mul_le_mono_pos_r. exact K. }
  unfold rounds. rewrite L, L'. unfold nearest. rewrite <- !signed_if.
  split; intros (V & S & C); (split; [exact V|]); (split; [exact S|]); (destruct C as [C|(C1 & C2 & C3)]; [left; exact C|right]);
    (split; [exact C1|]); (split; [exact C2|]); intros g Vg Fg; specialize (C3 g Vg Fg); rewrite ?(D f), ?(D g) in *.
  - destruct C3 as [C3 C4]. apply Z.mul_le_mono_pos_r in C3; [|exact K]. split; [exact C3|]. intros E. apply C4. now rewrite E.
  - destruct C3 as [C3 C4]. split; [apply Z.mul_le_mono_nonneg_r; lia|]. intros E. apply C4. apply Z.mul_reg_r in E; [exact E|lia].
Qed.
Lemma pow10_pos e : 0 <= e -> 0 < 10 ^ e. Proof. intros H. apply Z.pow_pos_nonneg; lia. Qed.
Lemma dec_scale T m e : 0 <= T -> 0 <= e + T ->
  m * 10 ^ (e + T) = m * 10 ^ Z.max e 0 * 10 ^ (T - Z.max (- e) 0) /\ 10 ^ T = 10 ^ Z.max (- e) 0 * 10 ^ (T - Z.max (- e) 0).
Proof.
  intros HT He. split.
  - rewrite <- Z.mul_assoc, <- Z.pow_add_r by lia. f_equal. f_equal. lia.
  - rewrite <- Z.pow_add_r by lia. f_equal. lia.
Qed.
Lemma rounds_dec T s m e f : 0 <= T -> 0 <= e + T -> (rounds_decimal s m e f <-> rounds s (m * 10 ^ (e + T)) (10 ^ T) f).
Proof.
  intros HT He. destruct (dec_scale T m e HT He) as [-> ->]. unfold rounds_decimal. symmetry. apply rounds_scale, pow10_pos. lia.
Qed.
Lemma same_scale T m e n x : 0 <= e + T -> 0 <= x + T -> (same_decimal m e n x <-> m * 10 ^ (e + T) = n * 10 ^ (x + T)).
Proof.
  intros He Hx. unfold same_decimal. set (l := Z.min e x).
  assert (P : 0 < 10 ^ (l + T)) by (apply pow10_pos; lia).
  assert (A : m * 10 ^ (e + T) = m * 10 ^ Z.max (e - x) 0 * 10 ^ (l + T)) by (rewrite <- Z.mul_assoc, <- Z.pow_add_r by lia; do 2 f_equal; lia).
  assert (B : n * 10 ^ (x + T) = n * 10 ^ Z.max (x - e) 0 * 10 ^ (l + T)) by (rewrite <- Z.mul_assoc, <- Z.pow_add_r by lia; do 2 f_equal; lia).
  rewrite A, B. split; [intros ->; reflexivity|]. apply Z.mul_reg_r. lia.
Qed.
Lemma same_refl m e : same_decimal m e m e. Proof. unfold same_decimal. rewrite Z.sub_diag. reflexivity. Qed.
Lemma same_sym m e n x : same_decimal m e n x -> same_decimal n x m e. Proof. unfold same_decimal. auto. Qed.
Lemma same_trans m e n x k y : same_decimal m e n x -> same_decimal n x k y -> same_decimal m e k y.
Proof.
  set (T := Z.abs e + Z.abs x + Z.abs y). intros A B. apply (same_scale T) in A; [|lia|lia]. apply (same_scale T) in B; [|lia|lia].
  apply (same_scale T); [lia|lia|congruence].
Qed.
Lemma rounds_same s m e n x f : same_decimal m e n x -> (rounds_decimal s m e f <-> rounds_decimal s n x f).
Proof.
  set (T := Z.abs e + Z.abs x). intros A. apply (same_scale T) in A; [|lia|lia].
  rewrite (rounds_dec T s m e), (rounds_dec T s n x) by lia. now rewrite A.
Qed.
Lemma within_same k m e n x : same_decimal m e n x -> within_digits k m e -> within_digits k n x.
Proof. intros S (c & y & C & Q). exists c, y. split; [exact C|]. eapply same_trans; [apply same_sym; exact S|exact Q]. Qed.
Lemma no_further_scale T f m e n x : 0 <= T -> 0 <= e + T -> 0 <= x + T -> units f = signed (negative f) (size f) ->
  (no_further (negative f) f m e n x <->
   Z.abs (m * 10 ^ (e + T) * unit_one - size f * 10 ^ T) <= Z.abs (n * 10 ^ (x + T) * unit_one - size f * 10 ^ T)).
Proof.
  intros HT He Hx E. unfold no_further. rewrite !(distance_signed _ _ _ f E).
  destruct (dec_scale T m e HT He) as [Am Bm]. destruct (dec_scale T n x HT Hx) as [An Bn].
  set (a := m * 10 ^ Z.max e 0) in *. set (b := n * 10 ^ Z.max x 0) in *. set (de := 10 ^ Z.max (- e) 0) in *. set (dx := 10 ^ Z.max (- x) 0) in *.
  set (ke := 10 ^ (T - Z.max (- e) 0)) in *. set (kx := 10 ^ (T - Z.max (- x) 0)) in *.
  assert (Pe : 0 < ke) by (apply pow10_pos; lia). assert (Px : 0 < kx) by (apply pow10_pos; lia).
  assert (Qe : 0 < de) by (apply pow10_pos; lia). assert (Qx : 0 < dx) by (apply pow10_pos; lia).
  rewrite Am, An. rewrite Bm at 1. rewrite Bn at 1. assert (EQ : de * ke = dx * kx) by congruence.
  replace (a * ke * unit_one - size f * (de * ke)) with ((a * unit_one - size f * de) * ke) by ring.
  replace (b * kx * unit_one - size f * (dx * kx)) with ((b * unit_one - size f * dx) * kx) by ring.
  rewrite !Z.abs_mul, (Z.abs_eq ke), (Z.abs_eq kx) by lia.
  set (A := Z.abs (a * unit_one - size f * de)). set (B := Z.abs (b * unit_one - size f * dx)). clearbody A B. clear -Pe Px Qe Qx EQ.
  rewrite (Z.mul_le_mono_pos_r (A * dx) (B * de) kx Px). rewrite (Z.mul_le_mono_pos_r (A * ke) (B * kx) de Qe).
  replace (A * dx * kx) with (A * (dx * kx)) by ring. rewrite <- EQ. replace (A * (de * ke)) with (A * ke * de) by ring.
  replace (B * de * kx) with (B * kx * de) by ring. reflexivity.
Qed.
Lemma no_further_same f m e n x m' e' n' x' : fvalid f = true -> finite f -> same_decimal m e m' e' -> same_decimal n x n' x' ->
  no_further (negative f) f m e n x -> no_further (negative f) f m' e' n' x'.
Proof.
  intros V F A B. set (T := Z.abs e + Z.abs x + Z.abs e' + Z.abs x'). apply (same_scale T) in A; [|lia|lia]. apply (same_scale T) in B; [|lia|lia].
  pose proof (units_signed f V F) as U. rewrite !(no_further_scale T) by (lia || exact U). now rewrite A, B.
Qed.

(** ** the decimals of k digits around a float *)
Definition decade (N D p : Z) : Prop := forall T, 0 <= T -> 0 <= p - 1 + T -> D * 10 ^ (p - 1 + T) <= N * 10 ^ T < D * 10 ^ (p + T).
Definition top (N p k : Z) : Z := if 0 <=? k - p then N * 10 ^ (k - p) else N.
Definition bottom (D p k : Z) : Z := if 0 <=? k - p then D else D * 10 ^ (- (k - p)).
Lemma grid_scale N D p k T : 0 <= T -> 0 <= p - k + T -> exists c, 0 < c /\ top N p k * c = N * 10 ^ T /\ bottom D p k * c = D * 10 ^ (p - k + T).
Proof.
  intros HT HG. unfold top, bottom. destruct (Z.leb_spec 0 (k - p)).
  - exists (10 ^ (T - (k - p))). split; [apply pow10_pos; lia|]. split; [rewrite <- Z.mul_assoc, <- Z.pow_add_r by lia; do 2 f_equal; lia|do 2 f_equal; lia].
  - exists (10 ^ T). split; [apply pow10_pos; lia|]. split; [reflexivity|]. rewrite <- Z.mul_assoc, <- Z.pow_add_r by lia. do 2 f_equal. lia.
Qed.
Lemma bottom_pos D p k : 0 < D -> 0 < bottom D p k.
Proof. intros H. unfold bottom. destruct (Z.leb_spec 0 (k - p)); [exact H|]. apply Z.mul_pos_pos; [exact H|apply pow10_pos; lia]. Qed.
Lemma grid_floor N D p k T (q := top N p k / bottom D p k) : 0 < D -> 0 <= T -> 0 <= p - k + T ->
  q * 10 ^ (p - k + T) * D <= N * 10 ^ T < (q + 1) * 10 ^ (p - k + T) * D.
Proof.
  intros HD HT HG. destruct (grid_scale N D p k T HT HG) as (c & Hc & A & B). pose proof (bottom_pos D p k HD) as HB.
  pose proof (Z.div_mod (top N p k) (bottom D p k) ltac:(lia)) as DM. pose proof (Z.mod_pos_bound (top N p k) (bottom D p k) HB) as MB. fold q in DM.
  rewrite <- A. replace (q * 10 ^ (p - k + T) * D) with (q * (D * 10 ^ (p - k + T))) by ring.
  replace ((q + 1) * 10 ^ (p - k + T) * D) with ((q + 1) * (D * 10 ^ (p - k + T))) by ring. rewrite <- B.
  set (t := top N p k) in *. set (b := bottom D p k) in *. set (r := t mod b) in *. clearbody q t b r. clear -DM MB Hc. subst t. split; nia.
Qed.
Lemma grid_low N D p k (q := top N p k / bottom D p k) : 0 < D -> 1 <= k -> decade N D p -> 10 ^ (k - 1) <= q < 10 ^ k.
Proof.
  intros HD Hk DC. set (T := Z.abs p + k). destruct (DC T ltac:(lia) ltac:(lia)) as [L H].
  destruct (grid_floor N D p k T HD ltac:(lia) ltac:(lia)) as [F1 F2]. fold q in F1, F2. assert (G : 0 < 10 ^ (p - k + T)) by (apply pow10_pos; lia).
  replace (10 ^ (p - 1 + T)) with (10 ^ (k - 1) * 10 ^ (p - k + T)) in L by (rewrite <- Z.pow_add_r by lia; f_equal; lia).
  replace (10 ^ (p + T)) with (10 ^ k * 10 ^ (p - k + T)) in H by (rewrite <- Z.pow_add_r by lia; f_equal; lia).
  assert (GD : 0 < 10 ^ (p - k + T) * D) by nia.
  set (g := 10 ^ (p - k + T)) in *. set (X := 10 ^ (k - 1)) in *. set (Y := 10 ^ k) in *. set (M := N * 10 ^ T) in *. clearbody q g X Y M. clear -GD L H F1 F2.
  split.
  - assert (K : X * (g * D) < (q + 1) * (g * D)) by lia. apply Z.mul_lt_mono_pos_r in K; lia.
  - assert (K : q * (g * D) < Y * (g * D)) by lia. apply Z.mul_lt_mono_pos_r in K; lia.
Qed.
(** a decimal of at most k digits lies beyond the next one of the grid *)
Lemma grid_gap N D p k T c x (q := top N p k / bottom D p k) : 0 < D -> 1 <= k -> decade N D p -> 0 <= T -> 0 <= p - k + T -> 0 <= p - 1 + T -> 0 <= x + T ->
  0 <= c < 10 ^ k ->
  (c * 10 ^ (x + T) * D <= N * 10 ^ T /\ c * 10 ^ (x + T) <= q * 10 ^ (p - k + T)) \/
  (N * 10 ^ T < c * 10 ^ (x + T) * D /\ (q + 1) * 10 ^ (p - k + T) <= c * 10 ^ (x + T)).
Proof.
  intros HD Hk DC HT HG Hp Hx Hc. destruct (grid_low N D p k HD Hk DC) as [LO _]. fold q in LO. destruct (DC T HT Hp) as [L _].
  destruct (grid_floor N D p k T HD HT HG) as [F1 F2]. fold q in F1, F2. assert (G : 0 < 10 ^ (p - k + T)) by (apply pow10_pos; lia). clearbody q.
  destruct (Z.le_gt_cases (p - k) x) as [X|X].
  - assert (E : c * 10 ^ (x + T) = c * 10 ^ (x - (p - k)) * 10 ^ (p - k + T)) by (rewrite <- Z.mul_assoc, <- Z.pow_add_r by lia; do 2 f_equal; lia).
    rewrite E. set (z := c * 10 ^ (x - (p - k))) in *. set (g := 10 ^ (p - k + T)) in *. set (M := N * 10 ^ T) in *. clearbody z g M. clear -HD G F1 F2.
    destruct (Z.le_gt_cases z q) as [Q|Q].
    + left. assert (z * g <= q * g) by (apply Z.mul_le_mono_nonneg_r; lia). split; [|assumption]. apply Z.le_trans with (q * g * D); [|exact F1]. apply Z.mul_le_mono_nonneg_r; lia.
    + right. assert ((q + 1) * g <= z * g) by (apply Z.mul_le_mono_nonneg_r; lia). split; [|assumption]. apply Z.lt_le_trans with ((q + 1) * g * D); [exact F2|]. apply Z.mul_le_mono_nonneg_r; lia.
  - left. assert (S : c * 10 ^ (x + T) <= 10 ^ (p - 1 + T)).
    { apply Z.le_trans with (10 ^ k * 10 ^ (x + T)).
      - apply Z.mul_le_mono_nonneg_r; [apply Z.pow_nonneg; lia|lia].
      - rewrite <- Z.pow_add_r by lia. apply Z.pow_le_mono_r; lia. }
    assert (E : 10 ^ (p - 1 + T) = 10 ^ (k - 1) * 10 ^ (p - k + T)) by (rewrite <- Z.pow_add_r by lia; f_equal; lia).
    split.
    + apply Z.le_trans with (D * 10 ^ (p - 1 + T)); [|exact L]. rewrite Z.mul_comm. apply Z.mul_le_mono_nonneg_l; lia.
    + apply Z.le_trans with (10 ^ (p - 1 + T)); [exact S|]. rewrite E. apply Z.mul_le_mono_nonneg_r; lia.
Qed.

(** in units of the float *)
Lemma to_units N D u T Y : 0 < D -> u * D = N * unit_one -> (Y * D <= N * 10 ^ T <-> Y * unit_one <= u * 10 ^ T).
Proof.
  intros HD E. pose proof unit_one_pos as HU. rewrite (Z.mul_le_mono_pos_r (Y * D) _ unit_one HU), (Z.mul_le_mono_pos_r (Y * unit_one) _ D HD).
  replace (u * 10 ^ T * D) with (u * D * 10 ^ T) by ring. rewrite E.
  replace (Y * D * unit_one) with (Y * unit_one * D) by ring. replace (N * 10 ^ T * unit_one) with (N * unit_one * 10 ^ T) by ring. reflexivity.
Qed.
Lemma to_units_lt N D u T Y : 0 < D -> u * D = N * unit_one -> (N * 10 ^ T < Y * D <-> u * 10 ^ T < Y * unit_one).
Proof. intros HD E. pose proof (to_units N D u T Y HD E). lia. Qed.

Lemma nearer_of a b : 0 < b -> let q := div_half_even a b in
  (q = a / b /\ 2 * (a mod b) <= b) \/ (q = a / b + 1 /\ b <= 2 * (a mod b)).
Proof.
  intros H. unfold div_half_even. destruct (Z.compare_spec (2 * (a mod b)) b) as [E|E|E]; [destruct (Z.even (a / b))| |]; lia.
Qed.
Lemma abs_units N D u T Y Y' : 0 < D -> u * D = N * unit_one ->
  (Z.abs (Y * D - N * 10 ^ T) <= Z.abs (Y' * D - N * 10 ^ T) <-> Z.abs (Y * unit_one - u * 10 ^ T) <= Z.abs (Y' * unit_one - u * 10 ^ T)).
Proof.
  intros HD E. pose proof unit_one_pos as HU.
  assert (K : forall y, Z.abs (y * D - N * 10 ^ T) * unit_one = Z.abs (y * unit_one - u * 10 ^ T) * D).
  { intros y. rewrite <- (Z.abs_eq unit_one) at 1 by lia. rewrite <- (Z.abs_eq D) at 2 by lia. rewrite <- !Z.abs_mul. f_equal.
    rewrite !Z.mul_sub_distr_r. replace (u * 10 ^ T * D) with (u * D * 10 ^ T) by ring. rewrite E. ring. }
  rewrite (Z.mul_le_mono_pos_r (Z.abs (Y * D - _)) _ unit_one HU), !K. symmetry. apply Z.mul_le_mono_pos_r. exact HD.
Qed.
Definition near (N D p k : Z) : Z := div_half_even (top N p k) (bottom D p k).
Definition other (N D p k : Z) : Z := 2 * (top N p k / bottom D p k) + 1 - near N D p k.
Lemma near_other N D p k (q := top N p k / bottom D p k) : 0 < D ->
  (near N D p k = q /\ other N D p k = q + 1) \/ (near N D p k = q + 1 /\ other N D p k = q).
Proof.
  intros HD. unfold other. fold q. destruct (nearer_of (top N p k) (bottom D p k) (bottom_pos D p k HD)) as [[E _]|[E _]]; fold (near N D p k) q in E; lia.
Qed.
Lemma near_nearer N D p k T : 0 < D -> 0 <= T -> 0 <= p - k + T ->
  Z.abs (near N D p k * 10 ^ (p - k + T) * D - N * 10 ^ T) <= Z.abs (other N D p k * 10 ^ (p - k + T) * D - N * 10 ^ T).
Proof.
  intros HD HT HG. destruct (grid_scale N D p k T HT HG) as (c & Hc & A & B). pose proof (bottom_pos D p k HD) as HB.
  assert (S : forall y, y * 10 ^ (p - k + T) * D - N * 10 ^ T = (y * bottom D p k - top N p k) * c).
  { intros y. rewrite Z.mul_sub_distr_r, A. replace (y * bottom D p k * c) with (y * (bottom D p k * c)) by ring. rewrite B. ring. }
  rewrite !S, !Z.abs_mul, (Z.abs_eq c) by lia. apply Z.mul_le_mono_nonneg_r; [lia|]. unfold other, near.
  pose proof (Z.div_mod (top N p k) (bottom D p k) ltac:(lia)) as DM. pose proof (Z.mod_pos_bound (top N p k) (bottom D p k) HB) as MB.
  destruct (nearer_of (top N p k) (bottom D p k) HB) as [[E K]|[E K]]; rewrite E; set (t := top N p k) in *; set (b := bottom D p k) in *; set (q := t / b) in *; set (r := t mod b) in *; clearbody t b q r; nia.
Qed.
Lemma near_tie N D p k T : 0 < D -> 0 <= T -> 0 <= p - k + T ->
  Z.abs (near N D p k * 10 ^ (p - k + T) * D - N * 10 ^ T) = Z.abs (other N D p k * 10 ^ (p - k + T) * D - N * 10 ^ T) -> Z.even (near N D p k) = true.
Proof.
  intros HD HT HG. destruct (grid_scale N D p k T HT HG) as (c & Hc & A & B). pose proof (bottom_pos D p k HD) as HB.
  assert (S : forall y, y * 10 ^ (p - k + T) * D - N * 10 ^ T = (y * bottom D p k - top N p k) * c).
  { intros y. rewrite Z.mul_sub_distr_r, A. replace (y * bottom D p k * c) with (y * (bottom D p k * c)) by ring. rewrite B. ring. }
  rewrite !S, !Z.abs_mul, (Z.abs_eq c) by lia. intros H. apply Z.mul_reg_r in H; [|lia]. unfold other, near in *.
  pose proof (Z.div_mod (top N p k) (bottom D p k) ltac:(lia)) as DM. pose proof (Z.mod_pos_bound (top N p k) (bottom D p k) HB) as MB.
  unfold div_half_even in *. set (t := top N p k) in *. set (b := bottom D p k) in *. set (q := t / b) in *. set (r := t mod b) in *. clearbody t b q r. clear A B S.
  destruct (Z.compare_spec (2 * r) b) as [C|C|C].
  - destruct (Z.even q) eqn:Q; [exact Q|]. rewrite Z.even_add, Q. reflexivity.
  - exfalso. replace (2 * q + 1 - q) with (q + 1) in H by lia. nia.
  - exfalso. replace (2 * q + 1 - (q + 1)) with q in H by lia. nia.
Qed.
Section Level.
  Variables (f : float64) (N D p : Z).
  Hypotheses (V : fvalid f = true) (F : finite f) (HD : 0 < D) (E : size f * D = N * unit_one) (DC : decade N D p).
  Let Rd q k := rounds_decimal (negative f) q (p - k) f.
  Lemma level k c x (q := top N p k / bottom D p k) T : 1 <= k -> 0 <= T -> 0 <= p - k + T -> 0 <= p - 1 + T -> 0 <= x + T ->
    0 <= c < 10 ^ k -> rounds_decimal (negative f) c x f ->
    (c * 10 ^ (x + T) * unit_one <= q * 10 ^ (p - k + T) * unit_one <= size f * 10 ^ T /\ Rd q k) \/
    (size f * 10 ^ T <= (q + 1) * 10 ^ (p - k + T) * unit_one <= c * 10 ^ (x + T) * unit_one /\ Rd (q + 1) k).
  Proof using V F HD E DC.
    intros Hk HT HG Hp Hx Hc R. pose proof unit_one_pos as HU. rewrite (rounds_dec T) in R by lia.
    destruct (grid_floor N D p k T HD HT HG) as [F1 F2]. fold q in F1, F2. apply (to_units N D (size f) T _ HD E) in F1. apply (to_units_lt N D (size f) T _ HD E) in F2.
    assert (P : 0 < 10 ^ T) by (apply pow10_pos; lia). unfold Rd. rewrite !(rounds_dec T _ _ (p - k)) by lia.
    destruct (grid_gap N D p k T c x HD Hk DC HT HG Hp Hx Hc) as [[_ G]|[_ G]]; fold q in G; [left|right].
    - split; [split; [apply Z.mul_le_mono_nonneg_r; lia|exact F1]|]. eapply rounds_between; [exact F|exact P|exact P|exact R|]. left. split; [apply Z.mul_le_mono_nonneg_r; lia|exact F1].
    - split; [split; [lia|apply Z.mul_le_mono_nonneg_r; lia]|]. eapply rounds_between; [exact F|exact P|exact P|exact R|]. right. split; [apply Z.mul_le_mono_nonneg_r; lia|lia].
  Qed.
  Lemma level_some k n x : 1 <= k -> within_digits k n x -> rounds_decimal (negative f) n x f -> Rd (near N D p k) k \/ Rd (other N D p k) k.
  Proof using V F HD E DC.
    intros Hk (c & y & Hc & S) R. rewrite (rounds_same _ _ _ _ _ f S) in R. set (T := Z.abs p + k + Z.abs y).
    destruct (near_other N D p k HD) as [[-> ->]|[-> ->]]; destruct (level k c y T Hk ltac:(lia) ltac:(lia) ltac:(lia) ltac:(lia) Hc R) as [[_ K]|[_ K]]; auto.
  Qed.
  Lemma grid_rival k c x T (Y := c * 10 ^ (x + T) * unit_one) (R := size f * 10 ^ T) : 1 <= k -> 0 <= T -> 0 <= p - k + T -> 0 <= p - 1 + T -> 0 <= x + T ->
    0 <= c < 10 ^ k -> rounds_decimal (negative f) c x f -> exists q, (q = near N D p k \/ q = other N D p k) /\ Rd q k /\
    let Q := q * 10 ^ (p - k + T) * unit_one in Z.abs (Q - R) <= Z.abs (Y - R) /\ (Z.abs (Y - R) <= Z.abs (Q - R) -> same_decimal q (p - k) c x).
  Proof using V F HD E DC.
    intros Hk HT HG Hp Hx Hc Rn. pose proof unit_one_pos as HU.
    assert (SM : forall q, c * 10 ^ (x + T) * unit_one = q * 10 ^ (p - k + T) * unit_one -> same_decimal q (p - k) c x).
    { intros q H. apply Z.mul_reg_r in H; [|lia]. apply (same_scale T); lia. }
    pose proof (near_other N D p k HD) as NO. destruct (level k c x T Hk HT HG Hp Hx Hc Rn) as [[K K']|[K K']]; fold Y R in K;
    [exists (top N p k / bottom D p k)|exists (top N p k / bottom D p k + 1)]; (split; [destruct NO as [[-> ->]|[-> ->]]; auto|]); (split; [exact K'|]); cbv zeta; (split; [lia|]);
    intros H; apply SM; fold Y; lia.
  Qed.
  Lemma level_near k n x : 1 <= k -> within_digits k n x -> rounds_decimal (negative f) n x f ->
    no_further (negative f) f (near N D p k) (p - k) n x /\
    (no_further (negative f) f n x (near N D p k) (p - k) -> same_decimal (near N D p k) (p - k) n x \/ even_neighbour (near N D p k) (p - k) n x).
  Proof using V F HD E DC.
    intros Hk (c & y & Hc & S) R. rewrite (rounds_same _ _ _ _ _ f S) in R.
    set (T := Z.abs p + k + Z.abs y). pose proof (units_signed f V F) as U.
    destruct (grid_rival k c y T Hk ltac:(lia) ltac:(lia) ltac:(lia) ltac:(lia) Hc R) as (q & Hq & _ & K). cbv zeta in K. destruct K as [K1 K2].
    pose proof (near_nearer N D p k T HD ltac:(lia) ltac:(lia)) as NN. pose proof NN as NN'. apply (abs_units N D (size f) T _ _ HD E) in NN.
    split.
    - eapply no_further_same; [exact V|exact F|apply same_refl|apply same_sym; exact S|]. rewrite (no_further_scale T) by (lia || exact U). destruct Hq as [->| ->]; lia.
    - intros NF. eapply no_further_same in NF; [|exact V|exact F|exact S|apply same_refl]. rewrite (no_further_scale T) in NF by (lia || exact U).
      assert (SQ : same_decimal q (p - k) c y) by (apply K2; destruct Hq as [->| ->]; lia). assert (SN : same_decimal q (p - k) n x) by (eapply same_trans; [exact SQ|apply same_sym; exact S]).
      destruct Hq as [->| ->]; [left; exact SN|right]. assert (EV : Z.even (near N D p k) = true).
      { assert (T0 : Z.abs (other N D p k * 10 ^ (p - k + T) * D - N * 10 ^ T) <= Z.abs (near N D p k * 10 ^ (p - k + T) * D - N * 10 ^ T)).
        { apply (abs_units N D (size f) T _ _ HD E). apply (same_scale T) in SQ; [|lia|lia]. rewrite SQ. exact NF. }
        apply (near_tie N D p k T HD ltac:(lia) ltac:(lia)). lia. }
      exists (near N D p k), (p - k). split; [exact EV|]. split; [apply same_refl|].
      destruct (near_other N D p k HD) as [[A B]|[A B]]; rewrite A; rewrite B in SN; [left|right]; apply same_sym; [exact SN|]. replace (top N p k / bottom D p k + 1 - 1) with (top N p k / bottom D p k) by lia. exact SN.
  Qed.
  Lemma level_other k n x : 1 <= k -> ~ Rd (near N D p k) k -> within_digits k n x -> rounds_decimal (negative f) n x f ->
    no_further (negative f) f (other N D p k) (p - k) n x /\
    (no_further (negative f) f n x (other N D p k) (p - k) -> same_decimal (other N D p k) (p - k) n x \/ even_neighbour (other N D p k) (p - k) n x).
  Proof using V F HD E DC.
    intros Hk NR (c & y & Hc & S) R. rewrite (rounds_same _ _ _ _ _ f S) in R.
    set (T := Z.abs p + k + Z.abs y). pose proof (units_signed f V F) as U.
    destruct (grid_rival k c y T Hk ltac:(lia) ltac:(lia) ltac:(lia) ltac:(lia) Hc R) as (q & Hq & HR & K). cbv zeta in K. destruct K as [K1 K2].
    assert (Q : q = other N D p k) by (destruct Hq as [->|Hq]; [contradiction|exact Hq]). subst q. split.
    - eapply no_further_same; [exact V|exact F|apply same_refl|apply same_sym; exact S|]. rewrite (no_further_scale T) by (lia || exact U). exact K1.
    - intros NF. left. eapply no_further_same in NF; [|exact V|exact F|exact S|apply same_refl]. rewrite (no_further_scale T) in NF by (lia || exact U).
      eapply same_trans; [exact (K2 NF)|apply same_sym; exact S].
  Qed.
  Lemma within_grid k q : 1 <= k -> q = near N D p k \/ q = other N D p k -> 0 < q /\ within_digits k q (p - k).
  Proof using HD DC.
    intros Hk Q. destruct (grid_low N D p k HD Hk DC) as [L H]. set (q0 := top N p k / bottom D p k) in *. assert (P : 0 < 10 ^ (k - 1)) by (apply pow10_pos; lia).
    assert (B : q = q0 \/ q = q0 + 1) by (destruct (near_other N D p k HD) as [[A1 A2]|[A1 A2]]; fold q0 in A1, A2; lia). split; [lia|].
    destruct (Z.eq_dec q (10 ^ k)) as [->|NE].
    - exists (10 ^ (k - 1)), (p - k + 1). split; [split; [lia|apply Z.pow_lt_mono_r; lia]|]. unfold same_decimal.
      replace (Z.max (p - k - (p - k + 1)) 0) with 0 by lia. replace (Z.max (p - k + 1 - (p - k)) 0) with 1 by lia.
      rewrite Z.pow_0_r, Z.mul_1_r, <- Z.pow_add_r by lia. f_equal. lia.
    - exists q, (p - k). split; [lia|apply same_refl].
  Qed.
  Lemma not_zero x : 0 < N -> ~ rounds_decimal (negative f) 0 x f.
  Proof using E HD.
    intros HN R. unfold rounds_decimal in R. rewrite Z.mul_0_l in R. pose proof (rounded_zero (negative f) (10 ^ Z.max (- x) 0) ltac:(apply pow10_pos; lia)) as Z0.
    pose proof (rounded_unique _ _ _ _ _ Z0 R) as Q. pose proof unit_one_pos. assert (size f = 0) by (rewrite Q; reflexivity). nia.
  Qed.
  Lemma level_shortest k q : 0 < N -> 1 <= k -> Rd q k -> q = near N D p k \/ (q = other N D p k /\ ~ Rd (near N D p k) k) ->
    (forall j, 1 <= j < k -> ~ Rd (near N D p j) j /\ ~ Rd (other N D p j) j) -> shortest_decimal f k q (p - k).
  Proof using V F HD E DC.
    intros HN Hk R Q M. destruct (within_grid k q Hk ltac:(tauto)) as [Pq Wq]. split; [lia|]. split; [exact Wq|]. split; [exact R|].
    intros k' n x Hk' Hn W Rn. assert (K1 : 1 <= k').
    { destruct (Z.eq_dec k' 0) as [->|]; [|lia]. destruct W as (c & y & Hc & S). change (10 ^ 0) with 1 in Hc. assert (c = 0) by lia. subst c.
      exfalso. rewrite (rounds_same _ _ _ _ _ f S) in Rn. exact (not_zero y HN Rn). }
    split.
    - destruct (Z.le_gt_cases k k') as [L|L]; [exact L|exfalso]. destruct (M k' ltac:(lia)) as [M1 M2]. destruct (level_some k' n x K1 W Rn); contradiction.
    - intros ->. destruct Q as [->|[-> NR]]; [apply level_near|apply level_other]; assumption.
  Qed.
End Level.

(** ** seventeen digits are enough *)
Lemma size_finite s m e : size (S754_finite s m e) = Zpos m * 2 ^ (e + 1074).
Proof.
  unfold size. cbn [units]. pose proof (Z.pow_nonneg 2 (e + 1074) ltac:(lia)) as P. rewrite !Z.abs_mul, (Z.abs_eq (2 ^ _)) by lia.
  destruct s; cbn [Z.abs]; ring.
Qed.
Lemma gap_coarse a b u : 0 < u -> a <> b -> 0 <= b < 2 ^ 53 -> b * u <= 2 ^ 53 * Z.abs (a * u - b * u).
Proof.
  intros Hu N B. rewrite <- Z.mul_sub_distr_r, Z.abs_mul, (Z.abs_eq u), Z.mul_assoc by lia. apply Z.mul_le_mono_nonneg_r; [lia|].
  assert (1 <= Z.abs (a - b)) by lia. change (2 ^ 53) with 9007199254740992 in *. lia.
Qed.
Lemma gap_fine w m h : 0 < h -> 2 ^ 52 <= m < 2 ^ 53 -> w <= (2 ^ 53 - 1) * h -> m * (2 * h) <= 2 ^ 53 * Z.abs (w - m * (2 * h)).
Proof.
  intros Hh M W. change (2 ^ 53) with 9007199254740992 in *. change (2 ^ 52) with 4503599627370496 in *.
  assert (K : 0 <= (m - 4503599627370496) * h) by (apply Z.mul_nonneg_nonneg; lia).
  assert (A : m * (2 * h) = 2 * (m * h)) by ring. rewrite A. set (x := m * h) in *. replace ((m - 4503599627370496) * h) with (x - 4503599627370496 * h) in K by (unfold x; ring).
  clearbody x. lia.
Qed.
Lemma float_gap s m e g : fvalid (S754_finite s m e) = true -> fvalid g = true -> finite g ->
  signed s (units g) <> size (S754_finite s m e) ->
  size (S754_finite s m e) <= 2 ^ 53 * Z.abs (signed s (units g) - size (S754_finite s m e)).
Proof.
  intros V Vg Fg. rewrite size_finite. destruct (float_parts _ _ _ V) as (E1 & M & E2). set (u := 2 ^ (e + 1074)). assert (Hu : 0 < u) by (apply Z.pow_pos_nonneg; lia).
  destruct g as [sg| | |sg n x]; try contradiction; cbn [units].
  - intros _. replace (signed s 0) with 0 by (destruct s; reflexivity). assert (Zpos m * u <> 0) by nia. pose proof (Z.abs_nonneg (0 - Zpos m * u)). lia.
  - destruct (float_parts _ _ _ Vg) as (X1 & MN & _). destruct (Z.le_gt_cases e x) as [L|L].
    + intros N. set (a := signed s ((if sg then -1 else 1) * Zpos n) * 2 ^ (x - e)).
      assert (A : signed s ((if sg then -1 else 1) * Zpos n * 2 ^ (x + 1074)) = a * u).
      { unfold a, u. replace (2 ^ (x + 1074)) with (2 ^ (x - e) * 2 ^ (e + 1074)) by (rewrite <- Z.pow_add_r by lia; f_equal; lia). destruct s; cbn [signed]; ring. }
      rewrite A in *. apply gap_coarse; [exact Hu|intros ->; apply N; reflexivity|]. lia.
    + intros _. set (w := signed s _). specialize (E2 ltac:(lia)). set (h := 2 ^ (e - 1 + 1074)). assert (Hh : 0 < h) by (apply Z.pow_pos_nonneg; lia).
      assert (U2 : u = 2 * h) by (unfold u, h; replace (e + 1074) with (1 + (e - 1 + 1074)) by lia; rewrite Z.pow_add_r by lia; reflexivity).
      rewrite U2. apply gap_fine; [exact Hh|lia|]. assert (P : 2 ^ (x + 1074) <= h) by (apply Z.pow_le_mono_r; lia). assert (P0 : 0 < 2 ^ (x + 1074)) by (apply Z.pow_pos_nonneg; lia).
      apply Z.le_trans with (Zpos n * 2 ^ (x + 1074)).
      * unfold w. set (y := 2 ^ (x + 1074)) in *. clearbody y. assert (0 <= Zpos n * y) by nia. assert (Q : (if sg then -1 else 1) * Zpos n * y = (if sg then - (Zpos n * y) else Zpos n * y)) by (destruct sg; ring).
        rewrite Q. destruct s, sg; cbn [signed]; lia.
      * apply Z.le_trans with (Zpos n * h); [apply Z.mul_le_mono_nonneg_l; lia|apply Z.mul_le_mono_nonneg_r; lia].
Qed.
Lemma size_bound_gap f : fvalid f = true -> finite f -> size f + 2 ^ 970 * unit_one <= (2 ^ 54 - 1) * 2 ^ 970 * unit_one.
Proof.
  assert (P : 0 < 2 ^ 970 * unit_one) by (apply Z.mul_pos_pos; [reflexivity|apply unit_one_pos]).
  destruct f as [s| | |s m e]; intros V F; try contradiction.
  - change (size (S754_zero s)) with 0. rewrite <- Z.mul_assoc. set (u := 2 ^ 970 * unit_one) in *. clearbody u. change (2 ^ 54 - 1) with 18014398509481983. lia.
  - rewrite size_finite. destruct (float_parts _ _ _ V) as (E & M & _).
    assert (H : 2 ^ (e + 1074) <= 2 ^ 971 * unit_one). { unfold unit_one. rewrite <- Z.pow_add_r by lia. apply Z.pow_le_mono_r; lia. }
    replace (2 ^ 971) with (2 * 2 ^ 970) in H by reflexivity.
    rewrite <- Z.mul_assoc in *. set (u := 2 ^ 970 * unit_one) in *. clearbody u.
    apply Z.le_trans with (Zpos m * (2 * u) + u); [apply Zplus_le_compat_r, Z.mul_le_mono_nonneg_l; lia|].
    replace (2 ^ 54 - 1) with (2 * (2 ^ 53 - 1) + 1) by reflexivity. set (k := 2 ^ 53) in *. clearbody k. clear -P M. nia.
Qed.
(** numbers within 1/(2 * 10^16) of a float round to it *)
Lemma close_rounds f n d : fvalid f = true -> finite f -> 0 < size f -> 0 < d ->
  2 * 10 ^ 16 * Z.abs (n * unit_one - size f * d) <= size f * d -> rounds (negative f) n d f.
Proof.
  intros V F P Hd C. pose proof unit_one_pos as HU. split; [exact V|]. split; [reflexivity|]. right. split; [|split; [exact F|]].
  - pose proof (size_bound_gap f V F) as B. set (M := (2 ^ 54 - 1) * 2 ^ 970) in *.
    assert (MB : M * unit_one <= 2 ^ 54 * (2 ^ 970 * unit_one)).
    { unfold M. rewrite Z.mul_assoc. apply Z.mul_le_mono_nonneg_r; [lia|]. apply Z.mul_le_mono_nonneg_r; [apply Z.pow_nonneg; lia|lia]. }
    assert (G : 0 < 2 ^ 970 * unit_one) by (apply Z.mul_pos_pos; [reflexivity|exact HU]). set (gp := 2 ^ 970 * unit_one) in *. clearbody gp.
    apply (Z.mul_lt_mono_pos_r unit_one _ _ HU). replace (M * d * unit_one) with (M * unit_one * d) by ring. set (A := M * unit_one) in *. clearbody A.
    assert (B' : size f * d + gp * d <= A * d) by (rewrite <- Z.mul_add_distr_r; apply Z.mul_le_mono_nonneg_r; lia).
    assert (MB' : A * d <= 2 ^ 54 * (gp * d)) by (rewrite Z.mul_assoc; apply Z.mul_le_mono_nonneg_r; lia).
    assert (G' : 0 < gp * d) by (apply Z.mul_pos_pos; assumption).
    set (X := size f * d) in *. set (Y := n * unit_one) in *. set (a := A * d) in *. set (h := gp * d) in *. clearbody X Y a h. clear -C B' MB' G'.
    change (2 ^ 54) with 18014398509481984 in *. change (10 ^ 16) with 10000000000000000 in *. lia.
  - intros g Vg Fg. rewrite <- !signed_if. rewrite (distance_signed _ _ _ f (units_signed f V F)), (distance_any _ n).
    destruct f as [s| | |s m e]; try contradiction; [change (size (S754_zero s)) with 0 in P; lia|]. cbn [negative] in *.
    set (y := signed s (units g)). set (S := size (S754_finite s m e)) in *.
    destruct (Z.eq_dec y S) as [Q|Q].
    { rewrite Q. split; [lia|]. intros _ NE. exfalso. apply NE. rewrite (units_signed _ V I). cbn [negative]. fold S. rewrite <- Q. unfold y. destruct s; cbn [signed]; lia. }
    pose proof (float_gap s m e g V Vg Fg Q) as K. fold S y in K.
    assert (K' : S * d <= 2 ^ 53 * Z.abs (y * d - S * d)) by (rewrite <- Z.mul_sub_distr_r, Z.abs_mul, (Z.abs_eq d), Z.mul_assoc by lia; apply Z.mul_le_mono_nonneg_r; lia).
    assert (X0 : 0 < S * d) by (apply Z.mul_pos_pos; assumption).
    set (X := S * d) in *. set (Y := n * unit_one) in *. set (z := y * d) in *. clearbody X Y z. clear -C K' X0.
    change (2 ^ 53) with 9007199254740992 in *. change (10 ^ 16) with 10000000000000000 in *. lia.
Qed.
Lemma seventeen f N D p : fvalid f = true -> finite f -> 0 < D -> 0 < N -> size f * D = N * unit_one -> decade N D p ->
  rounds_decimal (negative f) (near N D p 17) (p - 17) f.
Proof.
  intros V F HD HN E DC. set (T := Z.abs p + 17). rewrite (rounds_dec T) by lia. pose proof unit_one_pos as HU.
  assert (PT : 0 < 10 ^ T) by (apply pow10_pos; lia). assert (S0 : 0 < size f) by nia.
  apply close_rounds; [exact V|exact F|exact S0|exact PT|].
  set (g := 10 ^ (p - 17 + T)). assert (G : 0 < g) by (apply pow10_pos; lia).
  assert (Big : 10 ^ 16 * (g * unit_one) <= size f * 10 ^ T).
  { destruct (DC T ltac:(lia) ltac:(lia)) as [L _]. rewrite (Z.mul_comm D) in L. apply (to_units N D (size f) T _ HD E) in L.
    replace (10 ^ (p - 1 + T)) with (10 ^ 16 * g) in L by (unfold g; rewrite <- Z.pow_add_r by lia; f_equal; lia). lia. }
  pose proof (near_nearer N D p 17 T HD ltac:(lia) ltac:(lia)) as NN. apply (abs_units N D (size f) T _ _ HD E) in NN. fold g in NN.
  destruct (grid_floor N D p 17 T HD ltac:(lia) ltac:(lia)) as [F1 F2]. apply (to_units N D (size f) T _ HD E) in F1. apply (to_units_lt N D (size f) T _ HD E) in F2. fold g in F1, F2.
  set (q := top N p 17 / bottom D p 17) in *.
  assert (H : 2 * Z.abs (near N D p 17 * g * unit_one - size f * 10 ^ T) <= g * unit_one).
  { destruct (near_other N D p 17 HD) as [[A B]|[A B]]; fold q in A, B; rewrite A, B in *; set (R := size f * 10 ^ T) in *;
      replace ((q + 1) * g * unit_one) with (q * g * unit_one + g * unit_one) in * by ring; set (X := q * g * unit_one) in *; set (Y := g * unit_one) in *; clearbody X Y R; clear -NN F1 F2; lia. }
  set (R := size f * 10 ^ T) in *. set (X := near N D p 17 * g * unit_one) in *. set (Y := g * unit_one) in *. clearbody X Y R. clear -H Big. change (10 ^ 16) with 10000000000000000 in *. lia.
Qed.
