(** * Proofs: base64 bodies, UTF-8 texts and exchange strings by their grammars (C59). *)
From Coq Require Import Lia.
From Verif Require Import Py Num Text Json Codec SpecCodec SpecJson TextFacts JsonFacts JsonTotal CodecProofs JsonGrammar.
Open Scope string_scope.
Open Scope Z_scope.
Ltac Zify.zify_post_hook ::= Z.to_euclidean_division_equations.

(** ** base64 *)
Lemma stands_for_value c v : stands_for c v <-> b64_value c = Some v.
Proof.
  unfold stands_for. assert (E : position c base64_letters 0 = b64_value c)
    by (destruct c as [[] [] [] [] [] [] [] []]; vm_compute; reflexivity).
  now rewrite E.
Qed.
Lemma stands_for_range c v : stands_for c v -> 0 <= v < 64.
Proof.
  rewrite stands_for_value. unfold b64_value. pose proof (bz_range c) as R.
  destruct (between 65 (bz c) 90) eqn:E1; [apply between_true in E1; intros H; injection H as <-; lia|].
  destruct (between 97 (bz c) 122) eqn:E2; [apply between_true in E2; intros H; injection H as <-; lia|].
  destruct (between 48 (bz c) 57) eqn:E3; [apply between_true in E3; intros H; injection H as <-; lia|].
  destruct (bz c =? 43); [intros H; injection H as <-; lia|].
  destruct (bz c =? 47); [intros H; injection H as <-; lia|discriminate].
Qed.
Lemma a2b_letter c v s q l p : stands_for c v -> a2b (String c s) q l p =
  match q with
  | 0%nat => a2b s 1 v 0
  | 1%nat => option_map (String (zb (l * 4 + v / 16))) (a2b s 2 (v mod 16) 0)
  | 2%nat => option_map (String (zb (l * 16 + v / 4))) (a2b s 3 (v mod 4) 0)
  | _ => option_map (String (zb (l * 64 + v))) (a2b s 0 0 0)
  end.
Proof.
  rewrite stands_for_value. intros V. cbn [a2b]. rewrite letter_not_pad by (now apply value_letter in V). now rewrite V.
Qed.
Lemma a2b_equals2 k c v s l : (k <= 1)%nat -> stands_for c v ->
  a2b (equals k ++ String c s) 2 l 0 = a2b (String c s) 2 l 0.
Proof.
  intros Hk V. destruct k as [|[|k]]; [reflexivity| |lia]. cbn [equals append]. rewrite (a2b_letter c v s 2 l 0 V).
  change (a2b (String "=" (String c s)) 2 l 0) with (a2b (String c s) 2 l 1). now rewrite (a2b_letter c v s 2 l 1 V).
Qed.

Lemma bytes_a2b s out : b64_bytes s out -> a2b s 0 0 0 = Some out.
Proof.
  induction 1 as [n|n m k a b c d r va vb vc vd out Hk Va Vb Vc Vd H IH bits|n m a b r va vb Va Vb|n m k a b c r va vb vc Hk Va Vb Vc bits].
  - rewrite <- (append_nil_r (equals n)), a2b_equals by lia. reflexivity.
  - rewrite a2b_equals by lia. rewrite (a2b_letter a va _ _ _ _ Va). rewrite a2b_equals by lia. rewrite (a2b_letter b vb _ _ _ _ Vb).
    rewrite (a2b_equals2 k c vc _ _ Hk Vc). rewrite (a2b_letter c vc _ _ _ _ Vc), (a2b_letter d vd _ _ _ _ Vd), IH. cbn [option_map].
    apply stands_for_range in Va, Vb, Vc, Vd. 
    assert (E1 : bits / 65536 = va * 4 + vb / 16) by (unfold bits; clear - Va Vb Vc Vd; lia).
    assert (E2 : bits / 256 mod 256 = vb mod 16 * 16 + vc / 4) by (unfold bits; clear - Va Vb Vc Vd; lia).
    assert (E3 : bits mod 256 = vc mod 4 * 64 + vd) by (unfold bits; clear - Va Vb Vc Vd; lia).
    rewrite E1, E2, E3. reflexivity.
  - rewrite a2b_equals by lia. rewrite (a2b_letter a va _ _ _ _ Va). rewrite a2b_equals by lia. rewrite (a2b_letter b vb _ _ _ _ Vb).
    apply stands_for_range in Va, Vb.
    assert (E1 : (va * 64 + vb) / 16 = va * 4 + vb / 16) by lia. rewrite E1. reflexivity.
  - rewrite a2b_equals by lia. rewrite (a2b_letter a va _ _ _ _ Va). rewrite a2b_equals by lia. rewrite (a2b_letter b vb _ _ _ _ Vb).
    rewrite (a2b_equals2 k c vc _ _ Hk Vc). rewrite (a2b_letter c vc _ _ _ _ Vc). apply stands_for_range in Va, Vb, Vc.
    assert (E1 : bits / 1024 = va * 4 + vb / 16) by (unfold bits; clear - Va Vb Vc; lia).
    assert (E2 : bits / 4 mod 256 = vb mod 16 * 16 + vc / 4) by (unfold bits; clear - Va Vb Vc; lia).
    rewrite E1, E2. reflexivity.
Qed.
Lemma letter_stands c : letter c -> exists v, stands_for c v.
Proof. intros H. destruct (letter_value c H) as (v & V). exists v. now apply stands_for_value. Qed.
Lemma body_bytes s : b64_body s -> exists out, b64_bytes s out.
Proof.
  induction 1 as [n|n m k a b c d r Hk La Lb Lc Ld _ [out IH]|n m a b r La Lb|n m k a b c r Hk La Lb Lc].
  - eexists. constructor.
  - destruct (letter_stands a La) as (va & Va), (letter_stands b Lb) as (vb & Vb), (letter_stands c Lc) as (vc & Vc), (letter_stands d Ld) as (vd & Vd).
    eexists. eapply by_group; eassumption.
  - destruct (letter_stands a La) as (va & Va), (letter_stands b Lb) as (vb & Vb). eexists. eapply by_pad2; eassumption.
  - destruct (letter_stands a La) as (va & Va), (letter_stands b Lb) as (vb & Vb), (letter_stands c Lc) as (vc & Vc).
    eexists. eapply by_pad1; eassumption.
Qed.
Lemma a2b_grammar s out : a2b s 0 0 0 = Some out <-> b64_bytes (without_junk s) out.
Proof.
  split.
  - intros H. assert (B : b64_body (without_junk s)) by (apply a2b_accepts; congruence).
    destruct (body_bytes _ B) as (out' & B'). pose proof (bytes_a2b _ _ B') as E. rewrite a2b_without_junk, H in E. injection E as ->. exact B'.
  - intros H. rewrite <- a2b_without_junk. now apply bytes_a2b.
Qed.

(** ** UTF-8 *)
Lemma cps_scalar c s : scalar_value c -> cps false (utf8 c ++ s) = ocons c (cps false s).
Proof.
  intros [[L U] N]. unfold utf8.
  destruct (Z.ltb_spec c 128) as [H|H].
  { cbn [append cps]. rewrite bz_zb by lia. rewrite (proj2 (Z.ltb_lt c 128)) by lia. reflexivity. }
  destruct (Z.ltb_spec c 2048) as [H1|H1].
  { cbn [append cps]. rewrite !bz_zb by lia.
    rewrite (proj2 (Z.ltb_ge _ 128)) by lia. rewrite (proj2 (between_true 194 _ 223)) by lia.
    rewrite (proj2 (between_true 128 (128 + c mod 64) 191 : is_cont _ = true <-> _)) by lia.
    f_equal. lia. }
  destruct (Z.ltb_spec c 65536) as [HH3|HH3].
  { cbn [append cps]. rewrite !bz_zb by lia.
    rewrite (proj2 (Z.ltb_ge _ 128)) by lia. rewrite (proj2 (between_false 194 _ 223)) by lia.
    rewrite (proj2 (between_true 224 _ 239)) by lia.
    unfold is_cont. rewrite !(proj2 (between_true 128 _ 191)) by lia.
    cbn [andb orb].
    replace ((negb (224 + c / 4096 =? 224) || (160 <=? 128 + c / 64 mod 64)) &&
             (negb (224 + c / 4096 =? 237) || (128 + c / 64 mod 64 <=? 159))) with true.
    - f_equal. lia.
    - symmetry. apply andb_true_iff. split; apply orb_true_iff.
      + destruct (Z.eqb_spec (224 + c / 4096) 224); [right; apply Z.leb_le; lia|left; reflexivity].
      + destruct (Z.eqb_spec (224 + c / 4096) 237); [right; apply Z.leb_le; lia|left; reflexivity]. }
  cbn [append cps]. rewrite !bz_zb by lia.
  rewrite (proj2 (Z.ltb_ge _ 128)) by lia. rewrite (proj2 (between_false 194 _ 223)) by lia.
  rewrite (proj2 (between_false 224 _ 239)) by lia. rewrite (proj2 (between_true 240 _ 244)) by lia.
  unfold is_cont. rewrite !(proj2 (between_true 128 _ 191)) by lia.
  cbn [andb orb].
  replace ((negb (240 + c / 262144 =? 240) || (144 <=? 128 + (c / 4096) mod 64)) &&
           (negb (240 + c / 262144 =? 244) || (128 + (c / 4096) mod 64 <=? 143))) with true.
  - f_equal. lia.
  - symmetry. apply andb_true_iff. split; apply orb_true_iff.
    + destruct (Z.eqb_spec (240 + c / 262144) 240); [right; apply Z.leb_le; lia|left; reflexivity].
    + destruct (Z.eqb_spec (240 + c / 262144) 244); [right; apply Z.leb_le; lia|left; reflexivity].
Qed.
Lemma cps_scalars l : Forall scalar_value l -> cps false (utf8s l) = Some l.
Proof. induction 1 as [|c l Hc _ IH]; [reflexivity|]. cbn [utf8s]. rewrite cps_scalar, IH by exact Hc. reflexivity. Qed.
Lemma cps_scalar_values n : forall s l, (String.length s <= n)%nat -> cps false s = Some l ->
  utf8s l = s /\ Forall scalar_value l.
Proof.
  induction n as [|n IH]; intros s l Hn H;
    destruct (cps_cases false s l H) as [[-> ->]|(c & r & l' & -> & -> & Hr & Hc & Hs & Hl)];
    try (split; [reflexivity|constructor]).
  - lia.
  - destruct (IH r l') as [E F]; [lia|exact Hr|]. cbn [utf8s]. rewrite E. split; [reflexivity|].
    constructor; [|exact F]. destruct (Hs eq_refl) as [S1 S2]. apply between_false in S1, S2.
    split; [exact Hc|]. lia.
Qed.
Lemma utf8_grammar t : utf8_text t <-> exists l, cps false t = Some l.
Proof.
  split.
  - intros (l & F & ->). exists l. now apply cps_scalars.
  - intros (l & H). destruct (cps_scalar_values (String.length t) t l ltac:(lia) H) as [E F]. exists l. auto.
Qed.

(** ** exchange strings *)
Lemma decode_grammar z s v : decode z s = Ok v <-> exchange_string (decompress z) s v.
Proof.
  unfold decode, decode_0, b64decode, exchange_string. split.
  - destruct s as [|c body]; [discriminate|]. destruct (Ascii.eqb_spec c "0") as [->|]; [|discriminate].
    destruct (ascii_only body) eqn:A; [|discriminate]. destruct (a2b body 0 0 0) as [bytes|] eqn:B; [|discriminate].
    destruct (decompress z bytes) as [t|] eqn:D; [|discriminate]. destruct (cps false t) as [l|] eqn:C; [|discriminate].
    intros J. exists body, bytes, t. split; [reflexivity|]. split; [now apply ascii_only_all|]. split; [now apply a2b_grammar|].
    split; [exact D|]. split; [apply utf8_grammar; eauto|now apply loads_grammar].
  - intros (body & bytes & t & -> & A & B & D & U & J). cbn [append Ascii.eqb Bool.eqb].
    apply ascii_only_all in A. apply a2b_grammar in B. apply utf8_grammar in U as (l & C). apply loads_grammar in J.
    now rewrite A, B, D, C.
Qed.

(** the only other outcomes *)
Lemma decode_errors z s e : decode z s = Err e <-> refusal (decompress z) s e.
Proof.
  split.
  - unfold decode, decode_0, b64decode. destruct s as [|c body]; [intros H; injection H as <-; constructor|].
    destruct (Ascii.eqb_spec c "0") as [->|N]; [|intros H; injection H as <-; now constructor].
    destruct (ascii_only body) eqn:A; [apply ascii_only_all in A|].
    2:{ intros H. injection H as <-. apply (rf_ascii _ body). rewrite <- ascii_only_all. congruence. }
    destruct (a2b body 0 0 0) as [bytes|] eqn:B.
    2:{ intros H. injection H as <-. apply (rf_base64 _ body); [exact A|]. intros (b & H). apply a2b_grammar in H. congruence. }
    apply a2b_grammar in B. destruct (decompress z bytes) as [t|] eqn:D.
    2:{ intros H. injection H as <-. apply (rf_zlib _ body bytes); assumption. }
    destruct (cps false t) as [l|] eqn:C.
    2:{ intros H. injection H as <-. apply (rf_utf8 _ body bytes t); try assumption. rewrite utf8_grammar. intros (l & H). congruence. }
    intros H. rewrite (loads_error _ _ H). apply (rf_json _ body bytes t); try assumption; [apply utf8_grammar; eauto|].
    apply loads_error_grammar. eauto.
  - intros H. unfold decode, decode_0, b64decode. destruct H as [|c body N|body N|body A N|body bytes A B D|body bytes t A B D N|body bytes t A B D U N].
    + reflexivity.
    + now rewrite (proj2 (Ascii.eqb_neq _ _) N).
    + cbn [append Ascii.eqb Bool.eqb]. rewrite <- ascii_only_all in N. destruct (ascii_only body); [now elim N|reflexivity].
    + cbn [append Ascii.eqb Bool.eqb]. apply ascii_only_all in A. rewrite A. destruct (a2b body 0 0 0) eqn:E; [|reflexivity].
      apply a2b_grammar in E. elim N. eauto.
    + cbn [append Ascii.eqb Bool.eqb]. apply ascii_only_all in A. apply a2b_grammar in B. now rewrite A, B, D.
    + cbn [append Ascii.eqb Bool.eqb]. apply ascii_only_all in A. apply a2b_grammar in B. rewrite A, B, D.
      rewrite utf8_grammar in N. destruct (cps false t) eqn:C; [elim N; eauto|reflexivity].
    + cbn [append Ascii.eqb Bool.eqb]. apply ascii_only_all in A. apply a2b_grammar in B. rewrite A, B, D.
      apply utf8_grammar in U as (l & C). rewrite C. apply loads_error_grammar in N as (e & E). now rewrite E, (loads_error _ _ E).
Qed.

(** a string is one document at most *)
Lemma exchange_function inflate s v w : exchange_string inflate s v -> exchange_string inflate s w -> v = w.
Proof.
  intros H1 H2. pose proof (decode_grammar (mkZlib (fun s => s) inflate) s v) as G1. pose proof (decode_grammar (mkZlib (fun s => s) inflate) s w) as G2.
  cbn [decompress] in *. apply G1 in H1. apply G2 in H2. congruence.
Qed.
