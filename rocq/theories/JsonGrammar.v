(** * json.loads reads exactly the documents of the grammar in SpecJson.v. *)
From Coq Require Import Lia Decimal DecimalString DecimalFacts.
From Verif Require Import Py Num Text TextFacts Json SpecCodec SpecRound SpecJson RoundProofs JsonFacts JsonTotal DictFacts.
Open Scope string_scope.
Open Scope Z_scope.

(** ** strings of characters *)
Lemma chars_cons (P : ascii -> Prop) c s : all_chars P (String c s) <-> P c /\ all_chars P s.
Proof. unfold all_chars. cbn [list_ascii_of_string]. apply Forall_cons_iff. Qed.
Lemma chars_nil P : all_chars P "". Proof. constructor. Qed.
Lemma chars_app (P : ascii -> Prop) a b : all_chars P (a ++ b) <-> all_chars P a /\ all_chars P b.
Proof.
  induction a as [|c a IH]; cbn [append]; [split; [intros H; split; [constructor|exact H]|intros [_ H]; exact H]|].
  rewrite !chars_cons, IH. tauto.
Qed.
Lemma digit_dig c : digit c <-> dig c Nil <> None.
Proof. unfold digit. destruct c as [[] [] [] [] [] [] [] []]; cbn; split; intros H; try (exfalso; apply H; reflexivity); try discriminate; try lia. Qed.

Lemma blank_char_jws c : blank_char c <-> is_jws c = true.
Proof.
  unfold blank_char, is_jws. cbn [In]. rewrite !orb_true_iff, !Ascii.eqb_eq. split; intuition.
Qed.
Lemma ws_blank b s : blank b -> ws (b ++ s) = ws s.
Proof.
  induction b as [|c b IH]; [reflexivity|]. intros H. apply chars_cons in H as [H1 H2]. cbn [append ws].
  apply blank_char_jws in H1. rewrite H1. apply IH, H2.
Qed.
Lemma ws_split s : exists b, blank b /\ s = b ++ ws s.
Proof.
  induction s as [|c s (b & B & E)]; [exists ""; split; [constructor|reflexivity]|]. cbn [ws].
  destruct (is_jws c) eqn:J; [|exists ""; split; [constructor|reflexivity]].
  exists (String c b). split; [apply chars_cons; split; [now apply blank_char_jws|exact B]|]. cbn [append]. now rewrite <- E.
Qed.
Lemma ws_idem s : ws (ws s) = ws s.
Proof. induction s as [|c s IH]; [reflexivity|]. cbn [ws]. destruct (is_jws c) eqn:J; [exact IH|]. cbn [ws]. now rewrite J. Qed.
Lemma ws_head c s : is_jws c = false -> ws (String c s) = String c s.
Proof. intros H. cbn [ws]. now rewrite H. Qed.

(** ** digits *)
Definition snum (n : Z) (s : string) : Z := fold_left (fun n c => 10 * n + (bz c - 48)) (list_ascii_of_string s) n.
Lemma snum_cons n c s : snum n (String c s) = snum (10 * n + (bz c - 48)) s. Proof. reflexivity. Qed.
Lemma snum_app n a b : snum n (a ++ b) = snum (snum n a) b.
Proof. revert n. induction a as [|c a IH]; intros n; [reflexivity|]. cbn [append]. rewrite !snum_cons. apply IH. Qed.
Lemma number_snum s : number_of s = snum 0 s. Proof. reflexivity. Qed.

Lemma of_uint_acc u : forall acc, Z.pos (Pos.of_uint_acc u acc) = snum (Zpos acc) (ustr u).
Proof.
  induction u; intros acc; cbn [Pos.of_uint_acc]; [reflexivity| | | | | | | | | |];
    (rewrite IHu; unfold ustr; cbn [NilEmpty.string_of_uint]; rewrite snum_cons; f_equal;
     match goal with |- context [bz ?c - 48] => let v := eval vm_compute in (bz c - 48) in change (bz c - 48) with v end; lia).
Qed.
Lemma of_uint_number u : Z.of_uint u = number_of (ustr u).
Proof.
  rewrite number_snum. unfold Z.of_uint.
  induction u; cbn [Pos.of_uint Z.of_N]; try reflexivity; try (rewrite of_uint_acc; reflexivity).
  rewrite IHu. reflexivity.
Qed.
Lemma ulen_length u : ulen u = Z.of_nat (String.length (ustr u)).
Proof.
  induction u; cbn [ulen]; try reflexivity; rewrite IHu; unfold ustr; cbn [NilEmpty.string_of_uint String.length]; lia.
Qed.
Definition udigits (u : uint) : list ascii := list_ascii_of_string (ustr u).
Lemma udigits_revapp a : forall b, udigits (revapp a b) = (rev (udigits a) ++ udigits b)%list.
Proof.
  induction a; intros b; cbn [revapp]; try reflexivity; rewrite IHa; unfold udigits, ustr;
    cbn [NilEmpty.string_of_uint list_ascii_of_string rev]; now rewrite <- app_assoc.
Qed.
Lemma list_string_inj a b : list_ascii_of_string a = list_ascii_of_string b -> a = b.
Proof. intros H. rewrite <- (string_of_list_ascii_of_string a), H. apply string_of_list_ascii_of_string. Qed.
Lemma list_string_app a b : list_ascii_of_string (a ++ b) = (list_ascii_of_string a ++ list_ascii_of_string b)%list.
Proof. induction a as [|c a IH]; [reflexivity|]. cbn. now rewrite IH. Qed.
Lemma ustr_app a b : ustr (Decimal.app a b) = ustr a ++ ustr b.
Proof.
  apply list_string_inj. rewrite list_string_app. fold (udigits (Decimal.app a b)) (udigits a) (udigits b).
  unfold Decimal.app, Decimal.rev. rewrite !udigits_revapp, rev_app_distr, rev_involutive. reflexivity.
Qed.
Lemma ustr_digits u : all_chars digit (ustr u).
Proof.
  induction u; unfold ustr in *; cbn [NilEmpty.string_of_uint]; [apply chars_nil| | | | | | | | | |];
    (apply chars_cons; split; [unfold digit; cbn; lia|exact IHu]).
Qed.
Lemma ustr_nonempty u : u <> Nil -> ustr u <> "".
Proof. destruct u; try congruence; discriminate. Qed.
Lemma digits_ustr s : all_chars digit s -> exists u, s = ustr u.
Proof.
  induction s as [|c s IH]; intros H; [exists Nil; reflexivity|]. apply chars_cons in H as [H1 H2].
  destruct (IH H2) as (u & ->). apply digit_dig, dig_cases in H1. decompose [or] H1; subst;
  [exists (D0 u)|exists (D1 u)|exists (D2 u)|exists (D3 u)|exists (D4 u)|exists (D5 u)|exists (D6 u)|exists (D7 u)|exists (D8 u)|exists (D9 u)]; reflexivity.
Qed.
Lemma scan_digits_split s u q : scan_digits s = (u, q) -> s = ustr u ++ q.
Proof.
  revert u q. induction s as [|c s IH]; intros u q H; cbn [scan_digits] in H; [inversion H; reflexivity|].
  destruct (dig c Nil) eqn:E; [|inversion H; reflexivity]. destruct (scan_digits s) as [u' t].
  pose proof (IH _ _ eq_refl) as K. destruct (dig c u') eqn:F; [|inversion H; reflexivity]. inversion H; subst.
  assert (D : dig c Nil <> None) by congruence. apply dig_cases in D. decompose [or] D; subst; cbn in F; inversion F; subst; reflexivity.
Qed.

(** ** numbers: the scanner is sound ... *)
Lemma scan_int_sound s u q : scan_int s = Some (u, q) -> s = ustr u ++ q /\ int_part (ustr u).
Proof.
  destruct s as [|c s]; [discriminate|]. destruct (char_case c "0") as [->|N].
  - cbn. intros H. inversion H; subst. split; [reflexivity|apply ip_zero].
  - rewrite scan_int_other by exact N. destruct (scan_digits (String c s)) as [v t] eqn:E. intros H.
    pose proof (scan_digits_split _ _ _ E) as K. pose proof (ustr_digits v) as D.
    assert (Hv : v = u /\ t = q /\ v <> Nil) by (destruct v; inversion H; subst; repeat split; discriminate).
    destruct Hv as (-> & -> & V). split; [exact K|]. apply ustr_nonempty in V. destruct (ustr u) as [|d r]; [congruence|].
    cbn [append] in K. injection K as <- _. apply chars_cons in D as [D1 D2]. apply ip_more; assumption.
Qed.
Lemma scan_frac_sound s o q : scan_frac s = (o, q) -> exists f : string, s = f ++ q /\
  frac_part f (match o with Some u => ustr u | None => "" end) /\ (f = "" <-> o = None).
Proof.
  intros H. destruct s as [|c s]; [inversion H; subst; exists ""; repeat split; constructor|].
  destruct (char_case c ".") as [->|N].
  - cbn in H. destruct (scan_digits s) as [v t] eqn:E. pose proof (scan_digits_split _ _ _ E) as K.
    assert (Hv : v = Nil /\ o = None /\ q = String "." s \/ v <> Nil /\ o = Some v /\ q = t).
    { destruct v; inversion H; subst; [left|right..]; repeat split; discriminate. }
    destruct Hv as [(-> & -> & ->)|(V & -> & ->)].
    + exists "". repeat split. constructor.
    + exists ("." ++ ustr v). split; [cbn; now rewrite <- K|]. split; [|split; discriminate].
      apply fp_some. split; [now apply ustr_nonempty|apply ustr_digits].
  - rewrite scan_frac_other in H by exact N. inversion H; subst. exists "". repeat split. constructor.
Qed.
Lemma scan_esign_sound s neg q : scan_esign s = (neg, q) -> exists sg : string, s = sg ++ q /\ In sg [""; "+"; "-"] /\ String.eqb sg "-" = neg.
Proof.
  assert (I0 : In "" [""; "+"; "-"]) by (left; reflexivity). assert (I1 : In "+" [""; "+"; "-"]) by (right; left; reflexivity).
  assert (I2 : In "-" [""; "+"; "-"]) by (right; right; left; reflexivity).
  intros H. destruct s as [|d s]; [injection H as <- <-; exists ""; auto|].
  destruct (char_case d "-") as [->|N1]; [injection H as <- <-; exists "-"; auto|].
  destruct (char_case d "+") as [->|N2]; [injection H as <- <-; exists "+"; auto|].
  rewrite scan_esign_other in H by assumption. injection H as <- <-; exists ""; auto.
Qed.
Lemma scan_exp_sound s o q : scan_exp s = (o, q) -> exists e : string, s = e ++ q /\
  exp_part e (match o with Some x => x | None => 0 end) /\ (e = "" <-> o = None).
Proof.
  intros H. destruct s as [|c s]; [inversion H; subst; exists ""; repeat split; constructor|]. unfold scan_exp in H.
  destruct (Ascii.eqb c "e" || Ascii.eqb c "E") eqn:C.
  - destruct (scan_esign s) as [neg r] eqn:Es. destruct (scan_esign_sound _ _ _ Es) as (sg & -> & Hs & Hn).
    destruct (scan_digits r) as [v t] eqn:E. pose proof (scan_digits_split _ _ _ E) as ->.
    assert (Hv : v = Nil /\ o = None /\ q = String c (sg ++ ustr v ++ t) \/
                 v <> Nil /\ o = Some (if neg then - Z.of_uint v else Z.of_uint v) /\ q = t).
    { destruct v; inversion H; subst; [left|right..]; repeat split; discriminate. }
    destruct Hv as [(-> & -> & ->)|(V & -> & ->)].
    + exists "". repeat split. constructor.
    + exists (String c (sg ++ ustr v)). split; [cbn; now rewrite append_assoc|]. split; [|split; discriminate].
      replace (if neg then _ else _) with (signed (String.eqb sg "-") (number_of (ustr v))).
      * apply ep_some; [|exact Hs|split; [now apply ustr_nonempty|apply ustr_digits]].
        apply orb_true_iff in C as [C|C]; apply Ascii.eqb_eq in C; subst; cbn; auto.
      * rewrite Hn, of_uint_number. destruct neg; reflexivity.
  - inversion H; subst. exists "". repeat split. constructor.
Qed.
Lemma scan_sign_sound s neg q : scan_sign s = (neg, q) -> exists sg : string, s = sg ++ q /\ sign sg neg.
Proof.
  intros H. destruct s as [|d s]; [inversion H; subst; exists ""; split; [reflexivity|constructor]|].
  destruct (char_case d "-") as [->|N]; [inversion H; subst; exists "-"; split; [reflexivity|constructor]|].
  rewrite scan_sign_other in H by assumption. inversion H; subst; exists ""; split; [reflexivity|constructor].
Qed.
Lemma of_uint_nonneg u : 0 <= Z.of_uint u. Proof. unfold Z.of_uint. apply N2Z.is_nonneg. Qed.
Lemma scan_number_sound s t q : scan_number s = Some (t, q) -> exists p : string, s = p ++ q /\ json_number p (tok_value t).
Proof.
  unfold scan_number. destruct (scan_sign s) as [neg s0] eqn:E0.
  destruct (scan_int s0) as [[ip s1]|] eqn:E1; [|discriminate].
  destruct (scan_frac s1) as [fp s2] eqn:E2. destruct (scan_exp s2) as [ep s3] eqn:E3.
  intros H. injection H as <- <-.
  destruct (scan_sign_sound _ _ _ E0) as (sg & -> & Hs). destruct (scan_int_sound _ _ _ E1) as (-> & Hi).
  destruct (scan_frac_sound _ _ _ E2) as (f & -> & Hf & Nf). destruct (scan_exp_sound _ _ _ E3) as (e & -> & He & Ne).
  exists (sg ++ ustr ip ++ f ++ e). split; [now rewrite !append_assoc|].
  assert (C : fp = None /\ ep = None \/ f ++ e <> "" /\ tok_value (mkTok neg ip fp ep) =
     VFlt (float_of_dec neg (Z.of_uint (tok_digits (mkTok neg ip fp ep))) (tok_exp10 (mkTok neg ip fp ep)))).
  { destruct fp as [fu|].
    - right. split; [|reflexivity]. destruct f; [|discriminate]. apply proj1 in Nf. specialize (Nf eq_refl). discriminate.
    - destruct ep as [x|]; [right|left; auto]. split; [|reflexivity]. intros K.
      destruct f; [|discriminate]. cbn in K. apply Ne in K. discriminate. }
  destruct C as [(-> & ->)|(C & ->)].
  - rewrite (proj2 Nf eq_refl), (proj2 Ne eq_refl), !append_nil_r. unfold tok_value. cbn.
    rewrite of_uint_number. apply (jn_int sg neg); assumption.
  - rewrite of_uint_number. unfold tok_digits, tok_exp10. cbn [nt_frac nt_int nt_exp].
    assert (D : ustr (match fp with Some g => Decimal.app ip g | None => ip end) = ustr ip ++ match fp with Some u => ustr u | None => "" end).
    { destruct fp; [apply ustr_app|now rewrite append_nil_r]. }
    assert (L : (match fp with Some g => ulen g | None => 0 end) = Z.of_nat (String.length match fp with Some u => ustr u | None => "" end)).
    { destruct fp; [apply ulen_length|reflexivity]. }
    pose proof (of_uint_nonneg (match fp with Some g => Decimal.app ip g | None => ip end)) as P. rewrite of_uint_number, D in P.
    rewrite D. destruct fp as [fu|]; (rewrite L || cbn [String.length]); eapply jn_float; try eassumption;
      apply float_of_dec_spec; [exact P|reflexivity|exact P|reflexivity].
Qed.

(** ... and complete: what follows a number cannot be part of it *)
Lemma digit_zero_start r : digit_start r = false -> scan_digits r = (Nil, r). Proof. apply scan_digits_nil. Qed.
Lemma int_part_scan i r : int_part i -> digit_start r = false -> exists u, i = ustr u /\ scan_int (i ++ r) = Some (u, r).
Proof.
  intros [|c s Hc N Hs] Hr.
  - exists (D0 Nil). split; reflexivity.
  - destruct (digits_ustr (String c s)) as (u & E); [apply chars_cons; auto|]. exists u. split; [exact E|].
    cbn [append]. rewrite scan_int_other by exact N. change (String c (s ++ r)) with (String c s ++ r). rewrite E, scan_digits_ustr by exact Hr.
    destruct u; [discriminate|reflexivity..].
Qed.
Lemma frac_scan f ds r : frac_part f ds -> digit_start r = false -> (f = "" -> scan_frac r = (None, r)) ->
  exists o, ds = (match o with Some u => ustr u | None => "" end) /\ (f = "" <-> o = None) /\ scan_frac (f ++ r) = (o, r).
Proof.
  intros [|d [D0 D]] Hr Hn.
  - exists None. split; [reflexivity|]. split; [tauto|]. apply Hn. reflexivity.
  - destruct (digits_ustr d D) as (u & ->). exists (Some u). split; [reflexivity|]. split; [split; discriminate|].
    cbn [append scan_frac]. rewrite scan_digits_ustr by exact Hr. destruct u; [now elim D0|reflexivity..].
Qed.
Lemma exp_scan e x r : exp_part e x -> digit_start r = false -> (e = "" -> scan_exp r = (None, r)) ->
  exists o, x = (match o with Some z => z | None => 0 end) /\ (e = "" <-> o = None) /\ scan_exp (e ++ r) = (o, r).
Proof.
  intros [|c sg d Hc Hs [D0 D]] Hr Hn.
  - exists None. split; [reflexivity|]. split; [tauto|]. apply Hn. reflexivity.
  - destruct (digits_ustr d D) as (u & ->). exists (Some (signed (String.eqb sg "-") (number_of (ustr u)))).
    split; [reflexivity|]. split; [split; discriminate|].
    assert (C : Ascii.eqb c "e" || Ascii.eqb c "E" = true) by (destruct Hc as [<-|[<-|[]]]; reflexivity).
    cbn [append]. unfold scan_exp. rewrite C.
    assert (S : scan_esign ((sg ++ ustr u) ++ r) = (String.eqb sg "-", ustr u ++ r)).
    { destruct Hs as [<-|[<-|[<-|[]]]]; try reflexivity. cbn [append].
      destruct u; try reflexivity. now elim D0. }
    rewrite S, scan_digits_ustr, of_uint_number by exact Hr. destruct u; [now elim D0|reflexivity..].
Qed.
Lemma frac_head f ds r : frac_part f ds -> f <> "" -> digit_start (f ++ r) = false.
Proof. intros [|]; [congruence|reflexivity]. Qed.
Lemma exp_head e x r : exp_part e x -> e <> "" -> digit_start (e ++ r) = false /\ scan_frac (e ++ r) = (None, e ++ r).
Proof. intros [|c sg d Hc]; [congruence|]. intros _. destruct Hc as [<-|[<-|[]]]; split; reflexivity. Qed.
Lemma string_empty_dec (s : string) : s = "" \/ s <> "". Proof. destruct s; [left|right]; congruence. Qed.
Lemma sign_scan sg neg s : sign sg neg -> (forall t, s <> String "-" t) -> scan_sign (sg ++ s) = (neg, s).
Proof.
  intros [|] H; [|reflexivity]. cbn [append]. destruct s as [|c s]; [reflexivity|]. apply scan_sign_other. intros ->. now apply (H s).
Qed.
Lemma int_part_minus i r t : int_part i -> i ++ r <> String "-" t.
Proof. intros [|c s Hc _ _]; cbn [append]; intros K; [discriminate|]. injection K as -> _. unfold digit in Hc. cbn in Hc. lia. Qed.

Lemma number_scan t v r : json_number t v -> num_end r -> exists k, scan_number (t ++ r) = Some (k, r) /\ tok_value k = v.
Proof.
  intros H Hr. pose proof (num_end_digit r Hr) as Hd.
  assert (G : forall sg neg i f ds e x, sign sg neg -> int_part i -> frac_part f ds -> exp_part e x ->
    exists u fo eo, i = ustr u /\ ds = (match fo with Some u => ustr u | None => "" end) /\ (f = "" <-> fo = None) /\
      x = (match eo with Some z => z | None => 0 end) /\ (e = "" <-> eo = None) /\
      scan_number (sg ++ i ++ f ++ e ++ r) = Some (mkTok neg u fo eo, r)).
  { intros sg neg i f ds e x Hs Hi Hf He.
    destruct (exp_scan e x r He Hd ltac:(intros; now apply scan_exp_end)) as (eo & Ex & Ee & Se).
    assert (H1 : digit_start (e ++ r) = false).
    { destruct (string_empty_dec e) as [->|N]; [exact Hd|]. now apply (exp_head e x r). }
    destruct (frac_scan f ds (e ++ r) Hf H1) as (fo & Fx & Fe & Sf).
    { intros _. destruct (string_empty_dec e) as [->|N]; [now apply scan_frac_end|]. now apply (exp_head e x r). }
    assert (H2 : digit_start (f ++ e ++ r) = false).
    { destruct (string_empty_dec f) as [->|N]; [exact H1|]. now apply (frac_head f ds). }
    destruct (int_part_scan i (f ++ e ++ r) Hi H2) as (u & Iu & Si).
    exists u, fo, eo. repeat (split; [assumption|]). unfold scan_number.
    rewrite (sign_scan sg neg) by (assumption || now intros t'; apply int_part_minus).
    now rewrite Si, Sf, Se. }
  destruct H as [sg neg i Hs Hi|sg neg i f ds e x v Hs Hi Hf He N Rv].
  - destruct (G sg neg i "" "" "" 0 Hs Hi fp_none ep_none) as (u & fo & eo & -> & _ & F & _ & E & S).
    rewrite (proj1 F eq_refl), (proj1 E eq_refl) in S. exists (mkTok neg u None None). split; [rewrite append_assoc; exact S|].
    unfold tok_value. cbn. now rewrite of_uint_number.
  - destruct (G sg neg i f ds e x Hs Hi Hf He) as (u & fo & eo & -> & -> & F & -> & E & S).
    exists (mkTok neg u fo eo). split; [rewrite !append_assoc; exact S|].
    assert (T : tok_value (mkTok neg u fo eo) =
       VFlt (float_of_dec neg (Z.of_uint (tok_digits (mkTok neg u fo eo))) (tok_exp10 (mkTok neg u fo eo)))).
    { destruct fo as [fu|]; [reflexivity|]. destruct eo; [reflexivity|]. elim N.
      now rewrite (proj2 F eq_refl), (proj2 E eq_refl). }
    rewrite T, of_uint_number. unfold tok_digits, tok_exp10. cbn [nt_frac nt_int nt_exp].
    destruct fo as [fu|]; cbn [String.length] in Rv.
    + rewrite <- ustr_app in Rv. apply float_of_dec_spec in Rv; [now rewrite Rv, ulen_length|rewrite <- of_uint_number; apply of_uint_nonneg].
    + rewrite append_nil_r in Rv. apply float_of_dec_spec in Rv; [now rewrite Rv|rewrite <- of_uint_number; apply of_uint_nonneg].
Qed.

(** ** strings *)
Lemma hex_val_digit c v : hex_val c = Some v <-> hex_digit c v.
Proof.
  unfold hex_val, between. split.
  - destruct ((48 <=? bz c) && (bz c <=? 57)) eqn:E1; [intros H; injection H as <-; apply andb_true_iff in E1; apply hd_num; lia|].
    destruct ((97 <=? bz c) && (bz c <=? 102)) eqn:E2.
    { intros H. injection H as <-. apply andb_true_iff in E2. replace (bz c - 87) with (bz c - 97 + 10) by lia. apply hd_lower. lia. }
    destruct ((65 <=? bz c) && (bz c <=? 70)) eqn:E3; [|discriminate].
    intros H. injection H as <-. apply andb_true_iff in E3. replace (bz c - 55) with (bz c - 65 + 10) by lia. apply hd_upper. lia.
  - intros [d H|d H|d H].
    + rewrite (proj2 (Z.leb_le 48 (bz d))), (proj2 (Z.leb_le (bz d) 57)) by lia. reflexivity.
    + rewrite (proj2 (Z.leb_gt (bz d) 57)), andb_false_r, (proj2 (Z.leb_gt 97 (bz d))) by lia. cbn [andb].
      rewrite (proj2 (Z.leb_le 65 (bz d))), (proj2 (Z.leb_le (bz d) 70)) by lia. cbn [andb]. f_equal. lia.
    + rewrite (proj2 (Z.leb_gt (bz d) 57)), andb_false_r by lia. rewrite (proj2 (Z.leb_le 97 (bz d))), (proj2 (Z.leb_le (bz d) 102)) by lia.
      cbn [andb]. f_equal. lia.
Qed.
Lemma hex4_digits s n q : hex4 s = Some (n, q) -> exists a b c d i j k l, s = String a (String b (String c (String d q))) /\
  hex_digit a i /\ hex_digit b j /\ hex_digit c k /\ hex_digit d l /\ n = ((i * 16 + j) * 16 + k) * 16 + l.
Proof.
  destruct s as [|a [|b [|c [|d r]]]]; try discriminate. cbn [hex4].
  destruct (hex_val a) as [i|] eqn:A; [|discriminate]. destruct (hex_val b) as [j|] eqn:B; [|discriminate].
  destruct (hex_val c) as [k|] eqn:C; [|discriminate]. destruct (hex_val d) as [l|] eqn:D; [|discriminate].
  intros H. injection H as <- <-. exists a, b, c, d, i, j, k, l. rewrite <- !hex_val_digit. repeat (split; [assumption||reflexivity|]). lia.
Qed.
Lemma digits_hex4 a b c d i j k l q : hex_digit a i -> hex_digit b j -> hex_digit c k -> hex_digit d l ->
  hex4 (String a (String b (String c (String d q)))) = Some (((i * 16 + j) * 16 + k) * 16 + l, q).
Proof.
  rewrite <- !hex_val_digit. intros A B C D. cbn [hex4]. rewrite A, B, C, D. f_equal. f_equal. lia.
Qed.
Lemma simple_escape_in c x : simple_escape c = Some x <-> In (c, x) escapes.
Proof.
  unfold escapes. cbn [In]. split.
  - destruct c as [[] [] [] [] [] [] [] []]; cbn [simple_escape]; intros H; try discriminate; injection H as <-; tauto.
  - intros H. decompose [or] H; try contradiction; match goal with E : (_, _) = (_, _) |- _ => injection E as <- <-; reflexivity end.
Qed.
Lemma escape_not_u c x : In (c, x) escapes -> Ascii.eqb c "u" = false.
Proof. intros H. cbn in H. decompose [or] H; try contradiction; match goal with E : (_, _) = (_, _) |- _ => injection E as <- <-; reflexivity end. Qed.

Lemma high_is n : high_surrogate n = is_high n. Proof. reflexivity. Qed.
Lemma low_is n : low_surrogate n = is_low n. Proof. reflexivity. Qed.
(** a code unit at the head of the pieces comes from an escape at the head of the text *)
Lemma chars_code s n l q : json_chars s (Code n :: l) -> exists r s', (s ++ q)%string = String "\" (String "u" r) /\
  hex4 r = Some (n, s' ++ q) /\ json_chars s' l.
Proof.
  intros H. inversion H as [| | |a b c d i j k o s' l' A B C D J]; subst. do 2 eexists. split; [reflexivity|].
  split; [|exact J]. cbn [append]. now apply digits_hex4.
Qed.
Lemma text_code n l : (forall b r, l = Code b :: r -> is_high n && is_low b = false) -> chars_text (Code n :: l) = utf8 n ++ chars_text l.
Proof.
  intros H. destruct l as [|[c|b] r]; try reflexivity.
  change (chars_text (Code n :: Code b :: r)) with
    (if is_high n && is_low b then utf8 (65536 + (n - 55296) * 1024 + (b - 56320)) ++ chars_text r else utf8 n ++ chars_text (Code b :: r)).
  now rewrite (H b r eq_refl).
Qed.
Lemma text_pair n b r : is_high n = true -> is_low b = true -> chars_text (Code n :: Code b :: r) = utf8 (65536 + (n - 55296) * 1024 + (b - 56320)) ++ chars_text r.
Proof.
  intros H1 H2. change (chars_text (Code n :: Code b :: r)) with
    (if is_high n && is_low b then utf8 (65536 + (n - 55296) * 1024 + (b - 56320)) ++ chars_text r else utf8 n ++ chars_text (Code b :: r)).
  now rewrite H1, H2.
Qed.

(** what the scanner does after a code unit *)
Definition joins (n : Z) (r : string) : option (Z * string) :=
  if is_high n then
    match r with
    | String b (String u q) => if Ascii.eqb b "\" && Ascii.eqb u "u" then
        match hex4 q with Some (n2, q2) => if is_low n2 then Some (n2, q2) else None | None => None end else None
    | _ => None
    end
  else None.
Lemma scan_unit f a b c d i j k l r : hex_digit a i -> hex_digit b j -> hex_digit c k -> hex_digit d l ->
  (forall q, r = String "\" (String "u" q) -> hex4 q <> None) ->
  scan_str (S f) ("\u" ++ String a (String b (String c (String d r)))) =
  let n := ((i * 16 + j) * 16 + k) * 16 + l in
  match joins n r with
  | Some (n2, q) => pre (utf8 (65536 + (n - 55296) * 1024 + (n2 - 56320))) (scan_str f q)
  | None => pre (utf8 n) (scan_str f r)
  end.
Proof.
  intros A B C D W. cbn [append scan_str Ascii.eqb Bool.eqb]. rewrite (digits_hex4 a b c d i j k l r A B C D). cbv zeta.
  set (n := ((i * 16 + j) * 16 + k) * 16 + l). unfold joins. destruct (is_high n); [|reflexivity].
  destruct r as [|x [|y q]]; try reflexivity.
  destruct (Ascii.eqb x "\" && Ascii.eqb y "u") eqn:E; [|reflexivity].
  apply andb_true_iff in E as [E1 E2]. apply Ascii.eqb_eq in E1, E2. subst.
  specialize (W q eq_refl). destruct (hex4 q) as [[n2 q2]|]; [|congruence]. destruct (is_low n2); reflexivity.
Qed.

Lemma scan_str_sound f : forall s t q, scan_str f s = Some (t, q) -> exists p l, s = p ++ String """" q /\ json_chars p l /\ t = chars_text l.
Proof.
  assert (P : forall p s t q f, pre p (scan_str f s) = Some (t, q) -> exists t', scan_str f s = Some (t', q) /\ t = p ++ t').
  { intros p s t q f0 H. destruct (scan_str f0 s) as [[a b]|]; [|discriminate]. cbn in H. injection H as <- <-. eauto. }
  induction f as [|f IH]; intros s t q H; [discriminate|]. destruct s as [|c r]; [discriminate|].
  destruct (Ascii.eqb_spec c """") as [->|N1]; [cbn in H; injection H as <- <-; exists "", []; repeat split; constructor|].
  destruct (Ascii.eqb_spec c "\") as [->|N2].
  - destruct r as [|e r]; [discriminate|]. destruct (Ascii.eqb_spec e "u") as [->|N3].
    + destruct (hex4 r) as [[n r']|] eqn:E; [|cbn in H; rewrite E in H; discriminate].
      destruct (hex4_digits _ _ _ E) as (a & b & c & d & i & j & k & l & -> & A & B & C & D & En).
      assert (W : forall q0, r' = String "\" (String "u" q0) -> is_high n = true -> hex4 q0 <> None).
      { intros q0 -> Hn K. cbn [append scan_str Ascii.eqb Bool.eqb] in H. rewrite E, Hn in H. cbn [andb] in H. rewrite K in H. discriminate. }
      assert (S : match joins n r' with
                  | Some (n2, q) => pre (utf8 (65536 + (n - 55296) * 1024 + (n2 - 56320))) (scan_str f q)
                  | None => pre (utf8 n) (scan_str f r') end = Some (t, q)).
      { rewrite <- H. cbn [append scan_str Ascii.eqb Bool.eqb]. rewrite E. unfold joins.
        destruct (is_high n) eqn:Hn; [|reflexivity]. destruct r' as [|x [|y q']]; try reflexivity.
        destruct (Ascii.eqb x "\" && Ascii.eqb y "u") eqn:E2; [|reflexivity].
        apply andb_true_iff in E2 as [E3 E4]. apply Ascii.eqb_eq in E3, E4. subst.
        specialize (W q' eq_refl eq_refl). destruct (hex4 q') as [[n2 q2]|]; [|congruence]. destruct (is_low n2); reflexivity. }
      destruct (joins n r') as [[n2 q2]|] eqn:J.
      * unfold joins in J. destruct (is_high n) eqn:Hn; [|discriminate]. destruct r' as [|x [|y q']]; try discriminate.
        destruct (Ascii.eqb x "\" && Ascii.eqb y "u") eqn:E2; [|discriminate].
        apply andb_true_iff in E2 as [E3 E4]. apply Ascii.eqb_eq in E3, E4. subst x y.
        destruct (hex4 q') as [[n3 q3]|] eqn:E5; [|discriminate]. destruct (is_low n3) eqn:Hl; [|discriminate]. injection J as -> ->.
        destruct (hex4_digits _ _ _ E5) as (a' & b' & c' & d' & i' & j' & k' & l' & -> & A' & B' & C' & D' & En').
        apply P in S as (t' & S & ->). destruct (IH _ _ _ S) as (p & pl & -> & Jp & ->).
        exists ("\u" ++ String a (String b (String c (String d ("\u" ++ String a' (String b' (String c' (String d' p)))))))), (Code n :: Code n2 :: pl).
        split; [reflexivity|]. split; [|now rewrite text_pair].
        subst n n2. apply jc_code; try assumption. apply jc_code; assumption.
      * apply P in S as (t' & S & ->). destruct (IH _ _ _ S) as (p & pl & -> & Jp & ->).
        exists ("\u" ++ String a (String b (String c (String d p)))), (Code n :: pl).
        split; [reflexivity|]. split; [subst n; apply jc_code; assumption|].
        rewrite text_code; [reflexivity|]. intros b2 r2 ->. destruct (chars_code _ _ _ (String """" q) Jp) as (r3 & s3 & R1 & R2 & _).
        unfold joins in J. rewrite R1 in J. destruct (is_high n); [|reflexivity]. cbn [Ascii.eqb Bool.eqb andb] in J. rewrite R2 in J.
        destruct (is_low b2); [discriminate|reflexivity].
    + cbn [append scan_str Ascii.eqb Bool.eqb] in H. rewrite (proj2 (Ascii.eqb_neq e "u") N3) in H.
      destruct (simple_escape e) as [x|] eqn:E; [|discriminate]. apply simple_escape_in in E.
      apply P in H as (t' & S & ->). destruct (IH _ _ _ S) as (p & pl & -> & Jp & ->).
      exists (String "\" (String e p)), (Byte x :: pl). repeat split. apply jc_esc; assumption.
  - cbn [scan_str] in H. rewrite (proj2 (Ascii.eqb_neq c """") N1), (proj2 (Ascii.eqb_neq c "\") N2) in H.
    destruct (Z.ltb_spec (bz c) 32) as [L|L]; [discriminate|].
    apply P in H as (t' & S & ->). destruct (IH _ _ _ S) as (p & pl & -> & Jp & ->).
    exists (String c p), (Byte c :: pl). repeat split. apply jc_byte; assumption.
Qed.

Lemma chars_no_quote_u p l q r : json_chars p l -> p ++ String """" q = String "\" (String "u" r) -> hex4 r <> None.
Proof.
  intros [|c s l' L N1 N2 J|c x s l' E J|a b c d i j k o s l' A B C D J] H.
  - discriminate.
  - cbn [append] in H. injection H as -> _. congruence.
  - cbn [append] in H. injection H as -> _. apply escape_not_u in E. discriminate.
  - cbn [append] in H. injection H as <-. rewrite (digits_hex4 a b c d i j k o _ A B C D). discriminate.
Qed.

Lemma scan_str_complete f : forall p l q, json_chars p l -> (String.length p < f)%nat ->
  scan_str f (p ++ String """" q) = Some (chars_text l, q).
Proof.
  induction f as [|f IH]; intros p l q H Hf; [lia|].
  destruct H as [|c s l L N1 N2 J|c x s l E J|a b c d i j k o s l A B C D J].
  - reflexivity.
  - cbn [append scan_str]. rewrite (proj2 (Ascii.eqb_neq c """") N1), (proj2 (Ascii.eqb_neq c "\") N2), (proj2 (Z.ltb_ge (bz c) 32) L).
    cbn [String.length] in Hf. rewrite (IH _ _ q J) by lia. reflexivity.
  - cbn [append scan_str Ascii.eqb Bool.eqb]. rewrite (escape_not_u _ _ E). apply simple_escape_in in E. rewrite E.
    cbn [String.length] in Hf. rewrite (IH _ _ q J) by lia. reflexivity.
  - change (("\u" ++ String a (String b (String c (String d s)))) ++ String """" q) with
      ("\u" ++ String a (String b (String c (String d (s ++ String """" q))))).
    rewrite (scan_unit f a b c d i j k o _ A B C D) by (intros q0; apply (chars_no_quote_u _ _ _ _ J)). cbv zeta.
    set (n := ((i * 16 + j) * 16 + k) * 16 + o). cbn [append String.length] in Hf.
    assert (T : (exists b2 l', l = Code b2 :: l' /\ is_high n && is_low b2 = true) \/ (forall b2 r, l = Code b2 :: r -> is_high n && is_low b2 = false)).
    { destruct l as [|[y|b2] l']; try (right; intros; discriminate). destruct (is_high n && is_low b2) eqn:E; [left; eauto|right].
      intros b3 r K. injection K as <- _. exact E. }
    destruct T as [(b2 & l' & -> & E)|T].
    + apply andb_true_iff in E as [E1 E2]. rewrite text_pair by assumption.
      destruct (chars_code _ _ _ (String """" q) J) as (r & s' & R1 & R2 & J').
      unfold joins. rewrite E1, R1. cbn [Ascii.eqb Bool.eqb andb]. rewrite R2, E2.
      rewrite (IH _ _ q J'); [reflexivity|]. apply hex4_length in R2. pose proof (f_equal String.length R1) as R3.
      cbn [String.length] in R3. rewrite append_length in *. cbn [String.length] in *. lia.
    + rewrite text_code by exact T. assert (K : joins n (s ++ String """" q) = None).
      { unfold joins. destruct (is_high n) eqn:Hn; [|reflexivity]. destruct (s ++ String """" q) as [|x [|y r]] eqn:Es; try reflexivity.
        destruct (Ascii.eqb x "\" && Ascii.eqb y "u") eqn:E; [|reflexivity].
        apply andb_true_iff in E as [E3 E4]. apply Ascii.eqb_eq in E3, E4. subst x y.
        destruct (hex4 r) as [[n2 q2]|] eqn:E5; [|reflexivity]. destruct (is_low n2) eqn:El; [|reflexivity]. exfalso.
        destruct J as [|c0 s l L N1 N2 J|c0 x s l E J|a' b' c' d' i' j' k' o' s l A' B' C' D' J].
        - discriminate.
        - cbn [append] in Es. injection Es as -> _. congruence.
        - cbn [append] in Es. injection Es as -> _. apply escape_not_u in E. discriminate.
        - cbn [append] in Es. injection Es as <-. rewrite (digits_hex4 a' b' c' d' i' j' k' o' _ A' B' C' D') in E5. injection E5 as <- <-.
          specialize (T _ _ eq_refl). cbn [andb] in T. congruence. }
      rewrite K, (IH _ _ q J) by lia. reflexivity.
Qed.

(** ** objects *)
Definition sets (l : list (string * val)) (d : dict) : dict := fold_left (fun d kv => dset (KS (fst kv)) (snd kv) d) l d.
Lemma del_set_same (k : key) (v : val) (d : dict) : ddel k (dset k v d) = ddel k d.
Proof.
  induction d as [|[k' v'] d IH]; cbn [dset ddel]; [now rewrite key_eqb_refl|].
  destruct (key_eqb k k') eqn:E; cbn [ddel]; rewrite E; [reflexivity|]. now rewrite IH.
Qed.
Lemma del_set_other (k j : key) (v : val) (d : dict) : key_eqb k j = false -> ddel j (dset k v d) = dset k v (ddel j d).
Proof.
  intros N. assert (N' : key_eqb j k = false) by (now rewrite key_eqb_sym).
  induction d as [|[k' v'] d IH]; cbn [dset ddel]; [now rewrite N'|].
  destruct (key_eqb k k') eqn:E; cbn [ddel].
  - apply key_eqb_eq in E. subst k'. rewrite N'. cbn [dset]. now rewrite key_eqb_refl.
  - destruct (key_eqb j k'); [exact IH|]. cbn [dset]. now rewrite E, IH.
Qed.
Lemma get_set (k j : key) (v : val) (d : dict) : dget j (dset k v d) = if key_eqb j k then Some v else dget j d.
Proof.
  induction d as [|[k' v'] d IH]; cbn [dset dget]; [reflexivity|]. destruct (key_eqb k k') eqn:E; cbn [dget].
  - apply key_eqb_eq in E. subst k'. destruct (key_eqb j k); reflexivity.
  - destruct (key_eqb j k') eqn:F; [|exact IH]. apply key_eqb_eq in F. subst k'. now rewrite key_eqb_sym, E.
Qed.
Lemma last_wins_snoc l k v : last_wins (l ++ [(k, v)])%list = dset (KS k) v (last_wins l).
Proof.
  induction l as [|[k0 v0] l IH]; [reflexivity|]. cbn [app last_wins]. cbv zeta. rewrite IH, get_set. cbn [dset].
  destruct (key_eqb (KS k0) (KS k)) eqn:E.
  - rewrite (key_eqb_sym (KS k)), E. apply key_eqb_eq in E. injection E as ->. cbn [odflt]. now rewrite del_set_same.
  - rewrite (key_eqb_sym (KS k)), E. rewrite del_set_other by (now rewrite key_eqb_sym). reflexivity.
Qed.
Lemma sets_snoc l kv d : sets (l ++ [kv])%list d = dset (KS (fst kv)) (snd kv) (sets l d).
Proof. unfold sets. now rewrite fold_left_app. Qed.
Lemma sets_last_wins l : sets l [] = last_wins l.
Proof. induction l as [|[k v] l IH] using rev_ind; [reflexivity|]. now rewrite sets_snoc, last_wins_snoc, IH. Qed.

(** ** values: the parser is sound ... *)
Local Ltac flat := repeat (progress (cbn [append]; rewrite ?append_assoc)); reflexivity.
Lemma strip_sound p : forall s q, strip p s = Some q -> s = p ++ q.
Proof.
  induction p as [|a p IH]; intros s q H; [injection H as <-; reflexivity|]. destruct s as [|b s]; [discriminate|].
  cbn in H. destruct (Ascii.eqb_spec a b) as [->|]; [|discriminate]. cbn [append]. now rewrite (IH _ _ H).
Qed.
Lemma scan_literal_sound l s v q : scan_literal l s = Some (v, q) -> exists t, In (t, v) l /\ s = t ++ q.
Proof.
  induction l as [|[t w] l IH]; [discriminate|]. cbn [scan_literal]. destruct (strip t s) eqn:E.
  - intros H. injection H as <- <-. exists t. split; [left; reflexivity|now apply strip_sound].
  - intros H. destruct (IH H) as (t' & I' & E'). exists t'. split; [right; exact I'|exact E'].
Qed.

Definition value_ok (s : string) (r : res (val * string)) : Prop :=
  match r with Ok (v, q) => exists p, s = p ++ q /\ json_value p v | Err _ => True end.
Definition items_ok (s : string) (r : res (list val * string)) : Prop :=
  match r with Ok (l, q) => exists p, s = p ++ String "]" q /\ json_items p l | Err _ => True end.
Definition members_ok (acc : dict) (s : string) (r : res (dict * string)) : Prop :=
  match r with Ok (d, q) => exists p l, s = p ++ String "}" q /\ json_members p l /\ d = sets l acc | Err _ => True end.

Lemma blank_nil : blank "". Proof. constructor. Qed.
Lemma items_blank b p l : blank b -> json_items p l -> json_items (b ++ p) l.
Proof.
  intros B H. destruct H as [b0 s v b' B0 V B'|b0 s v b' r l B0 V B' R].
  - rewrite <- append_assoc. apply ji_last; try assumption. apply chars_app; auto.
  - rewrite <- append_assoc. apply ji_cons; try assumption. apply chars_app; auto.
Qed.
Lemma member_blank b m k v : blank b -> json_member m k v -> json_member (b ++ m) k v.
Proof. intros B [b0 ks l b1 b2 s w b3 B0 J B1 B2 V B3]. rewrite <- append_assoc. apply jm_member; try assumption. apply chars_app; auto. Qed.
Lemma members_blank b p l : blank b -> json_members p l -> json_members (b ++ p) l.
Proof.
  intros B [m k v M|m k v r l' M R].
  - apply jm_last, member_blank; assumption.
  - rewrite <- append_assoc. apply jm_cons; [apply member_blank; assumption|exact R].
Qed.

Lemma parse_sound n :
  (forall s, value_ok s (pval n s)) /\ (forall s, items_ok s (parr n s)) /\ (forall acc s, members_ok acc s (pobj n acc s)).
Proof.
  induction n as [|n (IHv & IHa & IHo)]; [repeat split|]. split; [|split].
  - intros s. cbn [pval]. destruct s as [|c r]; [exact I|].
    destruct (Ascii.eqb_spec c """") as [->|N1].
    { destruct (scan_string r) as [[t q]|] eqn:E; [|exact I]. destruct (scan_str_sound _ _ _ _ E) as (p & l & -> & J & ->).
      exists (quoted p). split; [unfold quoted; flat|]. now apply jv_string. }
    destruct (Ascii.eqb_spec c "[") as [->|N2].
    { destruct (ws_split r) as (b & B & Er).
      assert (K : value_ok (String "[" r) (let! (l, q) := parr n (ws r) in Ok (VList l, q))).
      { pose proof (IHa (ws r)) as G. destruct (parr n (ws r)) as [[l q]|e]; [|exact I]. destruct G as (p & Ep & J).
        exists ("[" ++ (b ++ p) ++ "]"). split; [|apply jv_list, items_blank; assumption].
        rewrite Er, Ep. flat. }
      destruct (ws r) as [|c' q]; [exact K|].
      destruct (Ascii.eqb_spec c' "]") as [->|N3].
      - exists ("[" ++ b ++ "]"). split; [rewrite Er; flat|now apply jv_list_empty].
      - destruct c' as [[] [] [] [] [] [] [] []]; try exact K. now elim N3. }
    destruct (Ascii.eqb_spec c "{") as [->|N3].
    { destruct (ws_split r) as (b & B & Er).
      assert (K : value_ok (String "{" r) (let! (l, q) := pobj n [] (ws r) in Ok (VDict l, q))).
      { pose proof (IHo [] (ws r)) as G. destruct (pobj n [] (ws r)) as [[d q]|e]; [|exact I]. destruct G as (p & l & Ep & J & ->).
        exists ("{" ++ (b ++ p) ++ "}"). split; [|rewrite sets_last_wins; apply jv_dict, members_blank; assumption].
        rewrite Er, Ep. flat. }
      destruct (ws r) as [|c' q]; [exact K|].
      destruct (Ascii.eqb_spec c' "}") as [->|N4].
      - exists ("{" ++ b ++ "}"). split; [rewrite Er; flat|now apply jv_dict_empty].
      - destruct c' as [[] [] [] [] [] [] [] []]; try exact K. now elim N4. }
    destruct (scan_literal literals (String c r)) as [[v q]|] eqn:E.
    { destruct (scan_literal_sound _ _ _ _ E) as (t & Ht & Es). exists t. split; [exact Es|]. now apply jv_constant. }
    destruct (scan_number (String c r)) as [[t q]|] eqn:E2; [|exact I].
    destruct (scan_number_sound _ _ _ E2) as (p & Es & J). exists p. split; [exact Es|now apply jv_number].
  - intros s. cbn [parr]. pose proof (IHv s) as G. destruct (pval n s) as [[v q]|e]; [|exact I]. destruct G as (p & -> & J).
    cbn [bind]. destruct (ws_split q) as (b & B & Eq). destruct (ws q) as [|c q']; [exact I|].
    destruct (Ascii.eqb_spec c "]") as [->|N1].
    { exists (p ++ b). split; [rewrite Eq; now rewrite append_assoc|]. apply (ji_last "" p v b); auto using blank_nil. }
    destruct (Ascii.eqb_spec c ",") as [->|N2].
    + pose proof (IHa (ws q')) as G. destruct (parr n (ws q')) as [[l q2]|e]; [|exact I]. cbn [bind]. destruct G as (p2 & E2 & J2).
      destruct (ws_split q') as (b2 & B2 & Eq').
      exists (p ++ b ++ "," ++ (b2 ++ p2)). split; [rewrite Eq, Eq', E2; flat|].
      apply (ji_cons "" p v b); auto using blank_nil. now apply items_blank.
    + destruct c as [[] [] [] [] [] [] [] []]; try exact I; [now elim N2|now elim N1].
  - intros acc s. cbn [pobj]. destruct s as [|c r]; [exact I|].
    destruct (Ascii.eqb_spec c """") as [->|N1].
    2:{ destruct c as [[] [] [] [] [] [] [] []]; try exact I. now elim N1. }
    destruct (scan_string r) as [[k q]|] eqn:E; [|exact I]. destruct (scan_str_sound _ _ _ _ E) as (pk & l & -> & J & ->).
    destruct (ws_split q) as (b & B & Eq). destruct (ws q) as [|c q']; [exact I|].
    destruct (Ascii.eqb_spec c ":") as [->|N2].
    2:{ destruct c as [[] [] [] [] [] [] [] []]; try exact I. now elim N2. }
    pose proof (IHv (ws q')) as G. destruct (pval n (ws q')) as [[v q2]|e]; [|exact I]. cbn [bind]. destruct G as (p & Ep & Jv).
    destruct (ws_split q') as (b2 & B2 & Eq'). destruct (ws_split q2) as (b3 & B3 & Eq2).
    pose proof (jm_member "" pk l b b2 p v b3 blank_nil J B B2 Jv B3) as M.
    assert (S : forall r, String """" (pk ++ String """" (b ++ String ":" (b2 ++ p ++ b3 ++ r))) =
                ("" ++ quoted pk ++ b ++ ":" ++ b2 ++ p ++ b3) ++ r).
    { intros r. unfold quoted. flat. }
    destruct (ws q2) as [|c2 q3]; [exact I|].
    destruct (Ascii.eqb_spec c2 "}") as [->|N3].
    { eexists _, [(chars_text l, v)]. split; [|split; [apply jm_last, M|reflexivity]]. rewrite <- S, Eq, Eq', Ep, Eq2. reflexivity. }
    destruct (Ascii.eqb_spec c2 ",") as [->|N4].
    + pose proof (IHo (dset (KS (chars_text l)) v acc) (ws q3)) as G. destruct (pobj n _ (ws q3)) as [[d q4]|e]; [|exact I].
      destruct G as (p4 & l4 & E4 & J4 & ->). destruct (ws_split q3) as (b4 & B4 & Eq3).
      eexists _, ((chars_text l, v) :: l4). split; [|split; [eapply jm_cons; [apply M|apply (members_blank b4 p4); assumption]|reflexivity]].
      rewrite append_assoc, <- S, Eq, Eq', Ep, Eq2, Eq3, E4. flat.
    + destruct c2 as [[] [] [] [] [] [] [] []]; try exact I; [now elim N4|now elim N3].
Qed.

Lemma loads_sound s v : json_loads s = Ok v -> json_document s v.
Proof.
  unfold json_loads. destruct (strip (utf8 65279) s); [discriminate|].
  destruct (ws_split s) as (b & B & Es). pose proof (proj1 (parse_sound (S (2 * String.length (ws s)))) (ws s)) as G.
  destruct (pval _ (ws s)) as [[w q]|e]; [|discriminate]. cbn [bind]. destruct G as (p & Ep & J).
  destruct (ws_split q) as (b' & B' & Eq). destruct (ws q); [|discriminate]. intros H. injection H as ->.
  rewrite append_nil_r in Eq. exists b, p, b'. repeat (split; [assumption|]). now rewrite Es, Ep, Eq.
Qed.

(** ** ... and complete *)
Scheme jv_min := Minimality for json_value Sort Prop
  with ji_min := Minimality for json_items Sort Prop
  with jm_min := Minimality for json_members Sort Prop
  with jp_min := Minimality for json_member Sort Prop.
Combined Scheme json_ind from jv_min, ji_min, jm_min, jp_min.

Lemma scan_string_complete p l q : json_chars p l -> scan_string (p ++ String """" q) = Some (chars_text l, q).
Proof. intros J. unfold scan_string. apply scan_str_complete; [exact J|]. rewrite append_length. cbn [String.length]. lia. Qed.

Lemma end_blank b : blank b -> num_end b.
Proof.
  destruct b as [|c b]; [constructor|]. intros H. apply chars_cons in H as [H _].
  destruct H as [<-|[<-|[<-|[<-|[]]]]]; repeat split; discriminate.
Qed.
Lemma end_blank_then b c q : blank b -> In c [","%char; "]"%char; "}"%char] -> num_end (b ++ String c q).
Proof.
  intros B C. destruct b as [|c' b].
  - destruct C as [<-|[<-|[<-|[]]]]; repeat split; discriminate.
  - apply chars_cons in B as [H _]. destruct H as [<-|[<-|[<-|[<-|[]]]]]; repeat split; discriminate.
Qed.

Lemma starts_constant t v : In (t, v) constants -> starts t.
Proof.
  intros H. repeat (destruct H as [H|H]; [injection H as <- <-; do 2 eexists; split; [reflexivity|repeat split; discriminate]|]). destruct H.
Qed.
Lemma pval_constant n t v q : In (t, v) constants -> pval (S n) (t ++ q) = Ok (v, q).
Proof. intros H. repeat (destruct H as [H|H]; [injection H as <- <-; reflexivity|]). destruct H. Qed.
Lemma starts_jnumber t v : json_number t v -> starts t.
Proof.
  intros H. destruct (number_scan t v "" H I) as (k & E & _). rewrite append_nil_r in E. apply (starts_number _ _ E).
Qed.
Lemma starts_app s r : starts s -> starts (s ++ r).
Proof. intros (c & t & -> & H). exists c, (t ++ r). split; [reflexivity|exact H]. Qed.
Lemma starts_app_ws b s r : blank b -> starts s -> ws (b ++ s ++ r) = s ++ r.
Proof. intros B H. rewrite ws_blank by exact B. now apply starts_ws. Qed.

Definition value_read (s : string) (v : val) : Prop :=
  starts s /\ forall n q, (2 * String.length s < n)%nat -> num_end q -> pval n (s ++ q) = Ok (v, q).
Definition items_read (s : string) (l : list val) : Prop := forall q,
  starts (ws (s ++ String "]" q)) /\
  forall n, (2 * String.length s + 1 < n)%nat -> parr n (ws (s ++ String "]" q)) = Ok (l, q).
Definition members_read (s : string) (l : list (string * val)) : Prop := forall q,
  starts (ws (s ++ String "}" q)) /\
  forall n acc, (2 * String.length s + 1 < n)%nat -> pobj n acc (ws (s ++ String "}" q)) = Ok (sets l acc, q).
Definition member_read (m : string) (k : string) (v : val) : Prop := forall n acc q,
  starts (ws (m ++ q)) /\ ((2 * String.length m < n)%nat ->
  pobj (S n) acc (ws (m ++ String "}" q)) = Ok (dset (KS k) v acc, q) /\
  pobj (S n) acc (ws (m ++ String "," q)) = pobj n (dset (KS k) v acc) (ws q)).

Lemma parse_complete :
  (forall s v, json_value s v -> value_read s v) /\ (forall s l, json_items s l -> items_read s l) /\
  (forall s l, json_members s l -> members_read s l) /\ (forall m k v, json_member m k v -> member_read m k v).
Proof.
  apply json_ind.
  - intros t v H. split; [now apply starts_constant in H|]. intros n q Hn _. destruct n as [|n]; [lia|]. now apply pval_constant.
  - intros t v H. split; [now apply starts_jnumber in H|]. intros n q Hn Hq. destruct n as [|n]; [lia|].
    destruct (number_scan t v q H Hq) as (k & E & <-). now apply pval_number.
  - intros s l J. split; [do 2 eexists; split; [reflexivity|repeat split; discriminate]|]. intros n q Hn _. destruct n as [|n]; [lia|].
    unfold quoted. cbn [append pval Ascii.eqb Bool.eqb]. rewrite append_assoc. cbn [append]. now rewrite scan_string_complete with (l := l).
  - intros b B. split; [do 2 eexists; split; [reflexivity|repeat split; discriminate]|]. intros n q Hn _. destruct n as [|n]; [lia|].
    cbn [append pval Ascii.eqb Bool.eqb]. rewrite append_assoc, ws_blank by exact B. reflexivity.
  - intros s l _ IH. split; [do 2 eexists; split; [reflexivity|repeat split; discriminate]|]. intros n q Hn _. destruct n as [|n]; [lia|].
    cbn [append pval Ascii.eqb Bool.eqb]. rewrite append_assoc. destruct (IH q) as [(c & t & Ec & _ & N & _) K].
    cbn [append String.length] in Hn. rewrite append_length in Hn. cbn [String.length] in Hn. specialize (K n ltac:(lia)).
    cbn [append]. rewrite Ec in *. destruct c as [[] [] [] [] [] [] [] []]; try (rewrite K; reflexivity). now elim N.
  - intros b B. split; [do 2 eexists; split; [reflexivity|repeat split; discriminate]|]. intros n q Hn _. destruct n as [|n]; [lia|].
    cbn [append pval Ascii.eqb Bool.eqb]. rewrite append_assoc, ws_blank by exact B. reflexivity.
  - intros s l _ IH. split; [do 2 eexists; split; [reflexivity|repeat split; discriminate]|]. intros n q Hn _. destruct n as [|n]; [lia|].
    cbn [append pval Ascii.eqb Bool.eqb]. rewrite append_assoc. destruct (IH q) as [(c & t & Ec & _ & _ & N & _) K].
    cbn [append String.length] in Hn. rewrite append_length in Hn. cbn [String.length] in Hn. specialize (K n [] ltac:(lia)).
    cbn [append]. rewrite Ec in *. rewrite sets_last_wins in K. destruct c as [[] [] [] [] [] [] [] []]; try (rewrite K; reflexivity). now elim N.
  - intros b s v b' B _ [S IH] B' q. rewrite !append_assoc, starts_app_ws by assumption. split; [now apply starts_app|].
    intros n Hn. rewrite !append_length in Hn. destruct n as [|n]; [lia|]. cbn [parr].
    rewrite IH; [|lia|apply end_blank_then; [exact B'|cbn; auto]]. cbn [bind]. rewrite ws_blank by exact B'. reflexivity.
  - intros b s v b' r l B _ [S IH] B' _ IHr q. rewrite !append_assoc, starts_app_ws by assumption. split; [now apply starts_app|].
    intros n Hn. rewrite !append_length in Hn. cbn [String.length] in Hn. destruct n as [|n]; [lia|]. cbn [parr append].
    rewrite IH; [|lia|apply end_blank_then; [exact B'|cbn; auto]]. cbn [bind]. rewrite ws_blank by exact B'.
    rewrite ws_head by reflexivity. cbv beta iota. rewrite (proj2 (IHr q)) by lia. reflexivity.
  - intros m k v _ IH q. split; [apply (IH O [])|]. intros n acc Hn. destruct n as [|n]; [lia|].
    apply (IH n acc q). lia.
  - intros m k v r l _ IH _ IHr q. rewrite !append_assoc. cbn [append]. split; [apply (IH O [])|].
    intros n acc Hn. rewrite !append_length in Hn. cbn [String.length] in Hn. destruct n as [|n]; [lia|].
    rewrite (proj2 (proj2 (IH n acc (r ++ String "}" q)) ltac:(lia))). rewrite (proj2 (IHr q)) by lia. reflexivity.
  - intros b k l b' b'' s v b''' B J B' B'' _ [S IH] B''' n acc q.
    assert (W : forall r, ws ((b ++ quoted k ++ b' ++ ":" ++ b'' ++ s ++ b''') ++ r) =
              String """" (k ++ String """" (b' ++ String ":" (b'' ++ s ++ b''' ++ r)))).
    { intros r. rewrite append_assoc, ws_blank by exact B. unfold quoted. rewrite !append_assoc. cbn [append]. rewrite ws_head by reflexivity.
      flat. }
    rewrite W. split; [do 2 eexists; split; [reflexivity|repeat split; discriminate]|]. intros Hn.
    rewrite !append_length in Hn. rewrite !W.
    assert (G : forall c r, In c [","%char; "]"%char; "}"%char] -> pval n (ws (b'' ++ s ++ b''' ++ String c r)) = Ok (v, b''' ++ String c r)).
    { intros c r C. rewrite starts_app_ws by assumption. apply IH; [lia|]. now apply end_blank_then. }
    cbn [pobj]. rewrite !scan_string_complete with (l := l) by exact J. rewrite !(ws_blank b') by exact B'. rewrite !ws_head by reflexivity.
    cbv beta iota. rewrite !G by (cbn; auto). cbn [bind]. rewrite !(ws_blank b''') by exact B'''. rewrite !ws_head by reflexivity. split; reflexivity.
Qed.

Lemma strip_other c t p s : c <> p -> strip (String p t) (String c s) = None.
Proof. intros N. cbn [strip]. destruct (Ascii.eqb_spec p c); [congruence|reflexivity]. Qed.
Lemma loads_complete s v : json_document s v -> json_loads s = Ok v.
Proof.
  intros (b & t & b' & B & J & B' & ->). destruct (proj1 parse_complete t v J) as [S R]. unfold json_loads.
  assert (N : strip (utf8 65279) (b ++ t ++ b') = None).
  { change (utf8 65279) with (String "239" (String "187" (String "191" ""))). destruct b as [|c b].
    - destruct S as (c & t' & -> & _ & _ & _ & N). cbn [append]. now apply strip_other.
    - apply chars_cons in B as [H _]. cbn [append]. apply strip_other. intros ->.
      destruct H as [H|[H|[H|[H|[]]]]]; discriminate. }
  rewrite N, starts_app_ws by assumption. rewrite R; [|rewrite append_length; lia|now apply end_blank]. cbn [bind].
  rewrite <- (append_nil_r b'), ws_blank by exact B'. reflexivity.
Qed.

(** the parser reads exactly the documents of the grammar, and reads their values *)
Lemma loads_grammar s v : json_loads s = Ok v <-> json_document s v.
Proof. split; [apply loads_sound|apply loads_complete]. Qed.
(** so every text is a document of one value at most *)
Lemma grammar_function s v w : json_document s v -> json_document s w -> v = w.
Proof. rewrite <- !loads_grammar. congruence. Qed.
Lemma loads_error_grammar s : (exists e, json_loads s = Err e) <-> ~ exists v, json_document s v.
Proof.
  setoid_rewrite <- loads_grammar. split.
  - intros [e E] [v H]. congruence.
  - intros H. destruct (json_loads s) as [v|e]; [now elim H; exists v|now exists e].
Qed.
