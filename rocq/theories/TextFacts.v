(** * Facts about UTF-8 and base64. *)
From Coq Require Import Lia.
From Verif Require Import Py Text.
Open Scope Z_scope.

Lemma bz_range c : 0 <= bz c < 256.
Proof. unfold bz. pose proof (N_ascii_bounded c). lia. Qed.
Lemma zb_bz c : zb (bz c) = c.
Proof. unfold zb, bz. rewrite N2Z.id. apply ascii_N_embedding. Qed.
Lemma bz_zb z : 0 <= z < 256 -> bz (zb z) = z.
Proof. intros H. unfold zb, bz. rewrite N_ascii_embedding; lia. Qed.
Lemma bz_inj a b : bz a = bz b -> a = b.
Proof. intros H. rewrite <- (zb_bz a), <- (zb_bz b), H. reflexivity. Qed.
Lemma zb_eq a z : bz a = z -> zb z = a.
Proof. intros <-. apply zb_bz. Qed.

Lemma between_true a x b : between a x b = true <-> a <= x <= b.
Proof. unfold between. rewrite andb_true_iff, !Z.leb_le. lia. Qed.
Lemma between_false a x b : between a x b = false <-> x < a \/ b < x.
Proof. unfold between. rewrite andb_false_iff, !Z.leb_gt. lia. Qed.

Lemma ocons_some {A} (x : A) o l : ocons x o = Some l -> exists r, o = Some r /\ l = x :: r.
Proof. destruct o; simpl; intros H; inversion H; eauto. Qed.

Lemma append_assoc (a b c : string) : ((a ++ b) ++ c = a ++ (b ++ c))%string.
Proof. induction a as [|x a IH]; simpl; [reflexivity|now rewrite IH]. Qed.
Lemma append_nil_r (a : string) : (a ++ "" = a)%string.
Proof. induction a as [|x a IH]; simpl; [reflexivity|now rewrite IH]. Qed.
Lemma append_length (a b : string) :
  String.length (a ++ b)%string = (String.length a + String.length b)%nat.
Proof. induction a as [|x a IH]; simpl; [reflexivity|now rewrite IH]. Qed.

(** valid code points of a Python str *)
Definition is_cp (c : Z) : Prop := 0 <= c <= 1114111.

Ltac zdm :=
  match goal with
  | |- context [?a mod ?b] => pose proof (Z.mod_pos_bound a b ltac:(lia)); pose proof (Z.div_mod a b ltac:(lia))
  end.

(** Induction over the cases of [cps]. *)
Lemma cps_cases sur s l : cps sur s = Some l ->
  s = "" /\ l = [] \/
  exists c r l', s = (utf8 c ++ r)%string /\ l = c :: l' /\ cps sur r = Some l' /\ is_cp c /\
                 (sur = false -> is_high c = false /\ is_low c = false) /\
                 (String.length r < String.length s)%nat.
Proof.
  destruct s as [|b0 s1]; cbn [cps]; [intros H; inversion H; auto|]. intros H. right.
  pose proof (bz_range b0) as R0.
  destruct (bz b0 <? 128) eqn:E0.
  { apply Z.ltb_lt in E0. apply ocons_some in H as (r & H & ->).
    exists (bz b0), s1, r. unfold utf8. rewrite (proj2 (Z.ltb_lt _ _) E0), zb_bz.
    split; [reflexivity|]. split; [reflexivity|]. split; [exact H|]. split; [unfold is_cp; lia|].
    split; [|cbn; lia]. intros _. split; apply between_false; lia. }
  apply Z.ltb_ge in E0.
  destruct (between 194 (bz b0) 223) eqn:E1.
  { apply between_true in E1. destruct s1 as [|b1 s2]; [discriminate|].
    destruct (is_cont (bz b1)) eqn:C1; [|discriminate]. apply between_true in C1.
    apply ocons_some in H as (r & H & ->).
    set (c := (bz b0 - 192) * 64 + (bz b1 - 128)).
    exists c, s2, r.
    assert (D : c / 64 = bz b0 - 192) by (symmetry; apply (Z.div_unique c 64 _ (bz b1 - 128)); lia).
    assert (M : c mod 64 = bz b1 - 128) by (symmetry; apply (Z.mod_unique c 64 (bz b0 - 192)); lia).
    split.
    { unfold utf8. rewrite (proj2 (Z.ltb_ge c 128)) by lia. rewrite (proj2 (Z.ltb_lt c 2048)) by lia.
      rewrite D, M, (zb_eq b0), (zb_eq b1) by lia. reflexivity. }
    split; [reflexivity|]. split; [exact H|]. split; [unfold is_cp; lia|].
    split; [|cbn; lia]. intros _. split; apply between_false; lia. }
  apply between_false in E1.
  destruct (between 224 (bz b0) 239) eqn:E2.
  { apply between_true in E2. destruct s1 as [|b1 [|b2 s3]]; [discriminate|discriminate|].
    destruct (_ && _ && _ && _) eqn:C; [|discriminate].
    apply andb_true_iff in C as [C C4]. apply andb_true_iff in C as [C C3].
    apply andb_true_iff in C as [C1 C2]. apply between_true in C1, C2.
    apply ocons_some in H as (r & H & ->).
    set (c := (bz b0 - 224) * 4096 + (bz b1 - 128) * 64 + (bz b2 - 128)).
    exists c, s3, r.
    assert (D : c / 64 = (bz b0 - 224) * 64 + (bz b1 - 128))
      by (symmetry; apply (Z.div_unique c 64 _ (bz b2 - 128)); lia).
    assert (M : c mod 64 = bz b2 - 128)
      by (symmetry; apply (Z.mod_unique c 64 ((bz b0 - 224) * 64 + (bz b1 - 128))); lia).
    assert (D2 : c / 4096 = bz b0 - 224)
      by (symmetry; apply (Z.div_unique c 4096 _ ((bz b1 - 128) * 64 + (bz b2 - 128))); lia).
    assert (M2 : (c / 64) mod 64 = bz b1 - 128)
      by (rewrite D; symmetry; apply (Z.mod_unique _ 64 (bz b0 - 224)); lia).
    assert (B : 2048 <= c).
    { apply orb_true_iff in C3 as [C3|C3].
      - apply negb_true_iff, Z.eqb_neq in C3. lia.
      - apply Z.leb_le in C3. lia. }
    split.
    { unfold utf8. rewrite (proj2 (Z.ltb_ge c 128)), (proj2 (Z.ltb_ge c 2048)), (proj2 (Z.ltb_lt c 65536)) by lia.
      rewrite D2, M2, M, (zb_eq b0), (zb_eq b1), (zb_eq b2) by lia. reflexivity. }
    split; [reflexivity|]. split; [exact H|]. split; [unfold is_cp; lia|].
    split; [|cbn; lia]. intros ->.
    rewrite orb_false_l in C4. apply orb_true_iff in C4 as [C4|C4];
      [apply negb_true_iff, Z.eqb_neq in C4|apply Z.leb_le in C4]; split; apply between_false; lia. }
  apply between_false in E2.
  destruct (between 240 (bz b0) 244) eqn:E3; [|discriminate].
  apply between_true in E3. destruct s1 as [|b1 [|b2 [|b3 s4]]]; try discriminate.
  destruct (_ && _ && _ && _ && _) eqn:C; [|discriminate].
  apply andb_true_iff in C as [C C5]. apply andb_true_iff in C as [C C4].
  apply andb_true_iff in C as [C C3].
  apply andb_true_iff in C as [C1 C2]. apply between_true in C1, C2, C3.
  apply ocons_some in H as (r & H & ->).
  set (c := (bz b0 - 240) * 262144 + (bz b1 - 128) * 4096 + (bz b2 - 128) * 64 + (bz b3 - 128)).
  exists c, s4, r.
  assert (D : c / 64 = (bz b0 - 240) * 4096 + (bz b1 - 128) * 64 + (bz b2 - 128))
    by (symmetry; apply (Z.div_unique c 64 _ (bz b3 - 128)); lia).
  assert (M : c mod 64 = bz b3 - 128)
    by (symmetry; apply (Z.mod_unique c 64 ((bz b0 - 240) * 4096 + (bz b1 - 128) * 64 + (bz b2 - 128))); lia).
  assert (D2 : c / 4096 = (bz b0 - 240) * 64 + (bz b1 - 128))
    by (symmetry; apply (Z.div_unique c 4096 _ ((bz b2 - 128) * 64 + (bz b3 - 128))); lia).
  assert (D3 : c / 262144 = bz b0 - 240)
    by (symmetry; apply (Z.div_unique c 262144 _ ((bz b1 - 128) * 4096 + (bz b2 - 128) * 64 + (bz b3 - 128))); lia).
  assert (M2 : (c / 64) mod 64 = bz b2 - 128)
    by (rewrite D; symmetry; apply (Z.mod_unique _ 64 ((bz b0 - 240) * 64 + (bz b1 - 128))); lia).
  assert (M3 : (c / 4096) mod 64 = bz b1 - 128)
    by (rewrite D2; symmetry; apply (Z.mod_unique _ 64 (bz b0 - 240)); lia).
  assert (B : 65536 <= c <= 1114111).
  { apply orb_true_iff in C4 as [C4|C4]; [apply negb_true_iff, Z.eqb_neq in C4|apply Z.leb_le in C4];
    (apply orb_true_iff in C5 as [C5|C5]; [apply negb_true_iff, Z.eqb_neq in C5|apply Z.leb_le in C5]); lia. }
  split.
  { unfold utf8. rewrite (proj2 (Z.ltb_ge c 128)), (proj2 (Z.ltb_ge c 2048)), (proj2 (Z.ltb_ge c 65536)) by lia.
    rewrite D3, M3, M2, M, (zb_eq b0), (zb_eq b1), (zb_eq b2), (zb_eq b3) by lia. reflexivity. }
  split; [reflexivity|]. split; [exact H|]. split; [unfold is_cp; lia|].
  split; [|cbn; lia]. intros _. split; apply between_false; lia.
Qed.

Lemma cps_utf8s sur n : forall s l, (String.length s <= n)%nat -> cps sur s = Some l ->
  utf8s l = s /\ Forall is_cp l.
Proof.
  induction n as [|n IH]; intros s l Hn H;
    destruct (cps_cases sur s l H) as [[-> ->]|(c & r & l' & -> & -> & Hr & Hc & _ & Hl)];
    try (split; [reflexivity|constructor]).
  - lia.
  - destruct (IH r l') as [E F]; [lia|exact Hr|]. cbn [utf8s]. rewrite E. split; [reflexivity|].
    constructor; assumption.
Qed.
Lemma cps_sound sur s l : cps sur s = Some l -> utf8s l = s /\ Forall is_cp l.
Proof. apply (cps_utf8s sur (String.length s)). lia. Qed.

(** encoding a code point is decoded back *)
Lemma cps_utf8 c s : is_cp c -> cps true (utf8 c ++ s)%string = ocons c (cps true s).
Proof.
  unfold is_cp. intros Hc. unfold utf8.
  destruct (Z.ltb_spec c 128) as [H|H].
  { cbn [append cps]. rewrite bz_zb by lia. rewrite (proj2 (Z.ltb_lt c 128)) by lia. reflexivity. }
  destruct (Z.ltb_spec c 2048) as [H1|H1].
  { pose proof (Z.div_mod c 64 ltac:(lia)). pose proof (Z.mod_pos_bound c 64 ltac:(lia)).
    cbn [append cps]. rewrite !bz_zb by lia.
    rewrite (proj2 (Z.ltb_ge _ 128)) by lia. rewrite (proj2 (between_true 194 _ 223)) by lia.
    rewrite (proj2 (between_true 128 (128 + c mod 64) 191 : is_cont _ = true <-> _)) by lia.
    f_equal. lia. }
  pose proof (Z.div_mod c 64 ltac:(lia)). pose proof (Z.mod_pos_bound c 64 ltac:(lia)).
  pose proof (Z.div_mod (c / 64) 64 ltac:(lia)). pose proof (Z.mod_pos_bound (c / 64) 64 ltac:(lia)).
  assert (E2 : c / 64 / 64 = c / 4096) by (rewrite Z.div_div by lia; reflexivity).
  destruct (Z.ltb_spec c 65536) as [HH3|HH3].
  { cbn [append cps]. rewrite !bz_zb by lia.
    rewrite (proj2 (Z.ltb_ge _ 128)) by lia. rewrite (proj2 (between_false 194 _ 223)) by lia.
    rewrite (proj2 (between_true 224 _ 239)) by lia.
    unfold is_cont. rewrite !(proj2 (between_true 128 _ 191)) by lia.
    cbn [andb orb]. rewrite andb_true_r.
    destruct (Z.eqb_spec (224 + c / 4096) 224); cbn [negb orb].
    - rewrite (proj2 (Z.leb_le 160 _)) by lia. f_equal. lia.
    - f_equal. lia. }
  pose proof (Z.div_mod (c / 4096) 64 ltac:(lia)). pose proof (Z.mod_pos_bound (c / 4096) 64 ltac:(lia)).
  assert (E3 : c / 4096 / 64 = c / 262144) by (rewrite Z.div_div by lia; reflexivity).
  cbn [append cps]. rewrite !bz_zb by lia.
  rewrite (proj2 (Z.ltb_ge _ 128)) by lia. rewrite (proj2 (between_false 194 _ 223)) by lia.
  rewrite (proj2 (between_false 224 _ 239)) by lia. rewrite (proj2 (between_true 240 _ 244)) by lia.
  unfold is_cont. rewrite !(proj2 (between_true 128 _ 191)) by lia.
  cbn [andb orb].
  replace ((negb (240 + c / 262144 =? 240) || (144 <=? 128 + (c / 4096) mod 64)) &&
           (negb (240 + c / 262144 =? 244) || (128 + (c / 4096) mod 64 <=? 143))) with true.
  - f_equal. lia.
  - symmetry. apply andb_true_iff. split; apply orb_true_iff.
    + destruct (Z.eqb_spec (240 + c / 262144) 240); [right; apply Z.leb_le; lia|left; reflexivity].
    + destruct (Z.eqb_spec (240 + c / 262144) 244); [right; apply Z.leb_le; lia|left; reflexivity].
Qed.

Lemma cps_utf8s_inv l : Forall is_cp l -> cps true (utf8s l) = Some l.
Proof.
  induction 1 as [|c l Hc _ IH]; [reflexivity|]. cbn [utf8s]. rewrite cps_utf8, IH by exact Hc. reflexivity.
Qed.

(** ** base64 *)
Lemma b64_table : forallb (fun n => match b64_value (b64_char (Z.of_nat n)) with
    | Some v => v =? Z.of_nat n | None => false end &&
    negb (Ascii.eqb (b64_char (Z.of_nat n)) "=") && (bz (b64_char (Z.of_nat n)) <? 128)) (seq 0 64) = true.
Proof. vm_compute. reflexivity. Qed.
Lemma b64_char_ok v : 0 <= v < 64 ->
  b64_value (b64_char v) = Some v /\ Ascii.eqb (b64_char v) "=" = false /\ bz (b64_char v) < 128.
Proof.
  intros H. pose proof b64_table as T. rewrite forallb_forall in T.
  specialize (T (Z.to_nat v)). rewrite in_seq, Z2Nat.id in T by lia. specialize (T ltac:(lia)).
  apply andb_true_iff in T as [T T3]. apply andb_true_iff in T as [T1 T2].
  apply negb_true_iff in T2. apply Z.ltb_lt in T3.
  destruct (b64_value (b64_char v)) as [w|]; [|discriminate]. apply Z.eqb_eq in T1. subst. auto.
Qed.

Lemma string_ind3 (P : string -> Prop) :
  P "" -> (forall a, P (String a "")) -> (forall a b, P (String a (String b ""))) ->
  (forall a b c r, P r -> P (String a (String b (String c r)))) -> forall s, P s.
Proof.
  intros H0 H1 H2 H3.
  assert (forall n s, (String.length s <= n)%nat -> P s) as K; [|intros s; exact (K _ s (le_n _))].
  induction n as [|n IH]; intros [|a [|b [|c r]]] Hl; auto; cbn in Hl; [lia|].
  apply H3, IH. lia.
Qed.

Ltac b64 v :=
  let A := fresh in let B := fresh in let C := fresh in
  destruct (b64_char_ok v ltac:(lia)) as (A & B & C); rewrite ?A, ?B.

Lemma a2b_step0 v r p : 0 <= v < 64 -> a2b (String (b64_char v) r) 0 0 p = a2b r 1 v 0.
Proof. intros H. cbn [a2b]. destruct (b64_char_ok v H) as (-> & -> & _). reflexivity. Qed.
Lemma a2b_step1 v r l p : 0 <= v < 64 ->
  a2b (String (b64_char v) r) 1 l p = option_map (String (zb (l * 4 + v / 16))) (a2b r 2 (v mod 16) 0).
Proof. intros H. cbn [a2b]. destruct (b64_char_ok v H) as (-> & -> & _). reflexivity. Qed.
Lemma a2b_step2 v r l p : 0 <= v < 64 ->
  a2b (String (b64_char v) r) 2 l p = option_map (String (zb (l * 16 + v / 4))) (a2b r 3 (v mod 4) 0).
Proof. intros H. cbn [a2b]. destruct (b64_char_ok v H) as (-> & -> & _). reflexivity. Qed.
Lemma a2b_step3 v r l p : 0 <= v < 64 ->
  a2b (String (b64_char v) r) 3 l p = option_map (String (zb (l * 64 + v))) (a2b r 0 0 0).
Proof. intros H. cbn [a2b]. destruct (b64_char_ok v H) as (-> & -> & _). reflexivity. Qed.

Lemma div_mod_add a b c : 0 < c -> 0 <= b < c -> (a * c + b) / c = a /\ (a * c + b) mod c = b.
Proof.
  intros Hc Hb. split.
  - symmetry. apply (Z.div_unique _ _ _ b); lia.
  - symmetry. apply (Z.mod_unique _ _ a); lia.
Qed.

Lemma b64_roundtrip s : a2b (b64encode s) 0 0 0 = Some s.
Proof.
  induction s as [|a|a b|a b c r IH] using string_ind3.
  - reflexivity.
  - cbn [b64encode]. pose proof (bz_range a).
    pose proof (Z.div_mod (bz a) 4 ltac:(lia)). pose proof (Z.mod_pos_bound (bz a) 4 ltac:(lia)).
    rewrite a2b_step0, a2b_step1 by lia.
    destruct (div_mod_add (bz a mod 4) 0 16 ltac:(lia) ltac:(lia)) as [E1 E2].
    rewrite Z.add_0_r in E1, E2. rewrite E1, E2.
    replace (bz a / 4 * 4 + bz a mod 4) with (bz a) by lia. rewrite zb_bz. reflexivity.
  - cbn [b64encode]. pose proof (bz_range a). pose proof (bz_range b).
    pose proof (Z.div_mod (bz a) 4 ltac:(lia)). pose proof (Z.mod_pos_bound (bz a) 4 ltac:(lia)).
    pose proof (Z.div_mod (bz b) 16 ltac:(lia)). pose proof (Z.mod_pos_bound (bz b) 16 ltac:(lia)).
    rewrite a2b_step0, a2b_step1, a2b_step2 by lia.
    destruct (div_mod_add (bz a mod 4) (bz b / 16) 16 ltac:(lia) ltac:(lia)) as [E1 E2].
    destruct (div_mod_add (bz b mod 16) 0 4 ltac:(lia) ltac:(lia)) as [E3 E4].
    rewrite Z.add_0_r in E3, E4. rewrite E1, E2, E3, E4.
    replace (bz a / 4 * 4 + bz a mod 4) with (bz a) by lia.
    replace (bz b / 16 * 16 + bz b mod 16) with (bz b) by lia. rewrite !zb_bz. reflexivity.
  - cbn [b64encode]. pose proof (bz_range a). pose proof (bz_range b). pose proof (bz_range c).
    pose proof (Z.div_mod (bz a) 4 ltac:(lia)). pose proof (Z.mod_pos_bound (bz a) 4 ltac:(lia)).
    pose proof (Z.div_mod (bz b) 16 ltac:(lia)). pose proof (Z.mod_pos_bound (bz b) 16 ltac:(lia)).
    pose proof (Z.div_mod (bz c) 64 ltac:(lia)). pose proof (Z.mod_pos_bound (bz c) 64 ltac:(lia)).
    rewrite a2b_step0, a2b_step1, a2b_step2, a2b_step3 by lia.
    destruct (div_mod_add (bz a mod 4) (bz b / 16) 16 ltac:(lia) ltac:(lia)) as [E1 E2].
    destruct (div_mod_add (bz b mod 16) (bz c / 64) 4 ltac:(lia) ltac:(lia)) as [E3 E4].
    rewrite E1, E2, E3, E4, IH.
    replace (bz a / 4 * 4 + bz a mod 4) with (bz a) by lia.
    replace (bz b / 16 * 16 + bz b mod 16) with (bz b) by lia.
    replace (bz c / 64 * 64 + bz c mod 64) with (bz c) by lia. rewrite !zb_bz. reflexivity.
Qed.

Lemma b64encode_ascii s : ascii_only (b64encode s) = true.
Proof.
  assert (K : forall v r, 0 <= v < 64 -> ascii_only r = true -> ascii_only (String (b64_char v) r) = true).
  { intros v r H H'. cbn [ascii_only]. destruct (b64_char_ok v H) as (_ & _ & L).
    apply Z.ltb_lt in L. now rewrite L, H'. }
  induction s as [|a|a b|a b c r IH] using string_ind3; cbn [b64encode]; [reflexivity| | |];
    pose proof (bz_range a);
    pose proof (Z.div_mod (bz a) 4 ltac:(lia)); pose proof (Z.mod_pos_bound (bz a) 4 ltac:(lia)).
  - repeat apply K; try lia. reflexivity.
  - pose proof (bz_range b).
    pose proof (Z.div_mod (bz b) 16 ltac:(lia)); pose proof (Z.mod_pos_bound (bz b) 16 ltac:(lia)).
    repeat apply K; try lia. reflexivity.
  - pose proof (bz_range b). pose proof (bz_range c).
    pose proof (Z.div_mod (bz b) 16 ltac:(lia)); pose proof (Z.mod_pos_bound (bz b) 16 ltac:(lia)).
    pose proof (Z.div_mod (bz c) 64 ltac:(lia)); pose proof (Z.mod_pos_bound (bz c) 64 ltac:(lia)).
    repeat apply K; try lia. exact IH.
Qed.

Lemma b64decode_encode s : b64decode (b64encode s) = Ok s.
Proof. unfold b64decode. now rewrite b64encode_ascii, b64_roundtrip. Qed.
