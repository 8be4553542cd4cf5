(** * json.loads reads back what json.dumps writes. *)
From Coq Require Import Lia QArith Decimal DecimalString DecimalN DecimalFacts.
From Verif Require Import Py Num NumFacts Text TextFacts Json SpecCodec.
Open Scope Z_scope.

(** ** digits *)
Definition digit_start (s : string) : bool :=
  match s with String c _ => match dig c Nil with Some _ => true | None => false end | _ => false end.

Lemma scan_digits_ustr u r : digit_start r = false -> scan_digits (ustr u ++ r)%string = (u, r).
Proof.
  intros Hr.
  assert (B : scan_digits r = (Nil, r)).
  { destruct r as [|c r]; [reflexivity|]. cbn in *. destruct (dig c Nil); [discriminate|reflexivity]. }
  unfold ustr.
  induction u as [|u IH|u IH|u IH|u IH|u IH|u IH|u IH|u IH|u IH|u IH];
    cbn [NilEmpty.string_of_uint append]; [exact B|..]; cbn [scan_digits dig]; rewrite IH; reflexivity.
Qed.

Lemma zdigits_value z : 0 <= z -> Z.of_uint (N.to_uint (Z.to_N z)) = z.
Proof.
  intros H. unfold Z.of_uint. change (Pos.of_uint ?u) with (N.of_uint u).
  rewrite Unsigned.of_to. apply Z2N.id, H.
Qed.

Lemma to_uint_norm n : unorm (N.to_uint n) = N.to_uint n.
Proof. rewrite <- Unsigned.to_of, Unsigned.of_to. reflexivity. Qed.

Lemma unorm_head u : unorm u = u -> u = D0 Nil \/ exists c r, ustr u = String c r /\ c <> "0"%char /\ digit_start (ustr u) = true.
Proof.
  intros H. destruct u; cbn in H; try (right; do 2 eexists; split; [reflexivity|split; [discriminate|reflexivity]]).
  - discriminate.
  - left. unfold unorm in H. cbn in H. destruct (nzhead u) eqn:E; try congruence;
    exfalso; apply (f_equal nb_digits) in H; cbn in H;
    pose proof (nb_digits_nzhead u) as K; rewrite E in K; cbn in K; lia.
Qed.

(** text that may follow a number *)
Definition num_end (s : string) : Prop :=
  match s with
  | EmptyString => True
  | String c _ => dig c Nil = None /\ c <> "."%char /\ c <> "e"%char /\ c <> "E"%char /\
                  c <> "-"%char /\ c <> "+"%char
  end.
Lemma num_end_digit s : num_end s -> digit_start s = false.
Proof. destruct s as [|c s]; [reflexivity|]. cbn. intros (-> & _). reflexivity. Qed.

Lemma scan_digits_nil s : digit_start s = false -> scan_digits s = (Nil, s).
Proof. destruct s as [|c r]; [reflexivity|]. cbn. destruct (dig c Nil); [discriminate|reflexivity]. Qed.
Lemma dig_total c u : dig c Nil = None -> dig c u = None.
Proof. destruct c as [[] [] [] [] [] [] [] []]; cbn; congruence. Qed.
Lemma dig_some c d u : dig c Nil = Some d -> exists e, dig c u = Some e /\ e <> Nil.
Proof. destruct c as [[] [] [] [] [] [] [] []]; cbn; try congruence; intros _; eexists; split; try reflexivity; discriminate. Qed.

Lemma scan_digits_app s r : digit_start r = false -> forall u q, scan_digits s = (u, q) ->
  scan_digits (s ++ r)%string = (u, (q ++ r)%string).
Proof.
  intros Hr. induction s as [|c s IH]; intros u q H.
  - cbn in H. inversion H; subst. apply scan_digits_nil, Hr.
  - cbn [scan_digits append] in *. destruct (dig c Nil) as [d|] eqn:E.
    + destruct (scan_digits s) as [u' t]. rewrite (IH u' t eq_refl).
      destruct (dig_some c d u' E) as (e & E' & _). rewrite E' in *. inversion H; subst. reflexivity.
    + inversion H; subst. reflexivity.
Qed.

Lemma char_case (c d : ascii) : {c = d} + {c <> d}. Proof. apply ascii_dec. Qed.

Lemma scan_sign_other c s : c <> "-"%char -> scan_sign (String c s) = (false, String c s).
Proof. intros H. destruct c as [[] [] [] [] [] [] [] []]; try reflexivity. now elim H. Qed.
Lemma scan_int_other c s : c <> "0"%char ->
  scan_int (String c s) = match scan_digits (String c s) with (Nil, _) => None | p => Some p end.
Proof. intros H. destruct c as [[] [] [] [] [] [] [] []]; try reflexivity. now elim H. Qed.
Lemma scan_frac_other c s : c <> "."%char -> scan_frac (String c s) = (None, String c s).
Proof. intros H. destruct c as [[] [] [] [] [] [] [] []]; try reflexivity. now elim H. Qed.
Lemma scan_esign_other c s : c <> "-"%char -> c <> "+"%char -> scan_esign (String c s) = (false, String c s).
Proof. intros H H'. destruct c as [[] [] [] [] [] [] [] []]; try reflexivity; [now elim H'|now elim H]. Qed.
Lemma scan_exp_other c s : c <> "e"%char -> c <> "E"%char -> scan_exp (String c s) = (None, String c s).
Proof. intros H H'. unfold scan_exp. now rewrite (proj2 (Ascii.eqb_neq _ _) H), (proj2 (Ascii.eqb_neq _ _) H'). Qed.

Lemma scan_int_app s u q r : digit_start r = false -> scan_int s = Some (u, q) ->
  scan_int (s ++ r)%string = Some (u, (q ++ r)%string).
Proof.
  intros Hr. destruct s as [|c s]; [discriminate|].
  destruct (char_case c "0") as [->|Hc].
  - cbn. intros H. inversion H; subst. reflexivity.
  - cbn [append]. rewrite !scan_int_other by exact Hc. intros H.
    destruct (scan_digits (String c s)) as [u' t] eqn:E.
    change (String c (s ++ r)%string) with (String c s ++ r)%string.
    rewrite (scan_digits_app _ r Hr _ _ E). destruct u'; inversion H; subst; reflexivity.
Qed.

Lemma scan_frac_app s u q r : num_end r -> scan_frac s = (u, q) ->
  scan_frac (s ++ r)%string = (u, (q ++ r)%string).
Proof.
  intros Hr. pose proof (num_end_digit r Hr) as Hd. destruct s as [|c s].
  - intros H. inversion H; subst. cbn [append]. destruct r as [|c r]; [reflexivity|].
    cbn in Hr. apply scan_frac_other, Hr.
  - destruct (char_case c ".") as [->|Hc].
    + cbn. intros H. destruct (scan_digits s) as [u' t] eqn:E. rewrite (scan_digits_app _ r Hd _ _ E).
      destruct u'; inversion H; subst; reflexivity.
    + cbn [append]. rewrite !scan_frac_other by exact Hc. intros H. inversion H. reflexivity.
Qed.

Lemma scan_exp_app s u r : num_end r -> scan_exp s = (u, EmptyString) ->
  scan_exp (s ++ r)%string = (u, r).
Proof.
  intros Hr. pose proof (num_end_digit r Hr) as Hd. destruct s as [|c s].
  - intros H. inversion H; subst. cbn [append]. destruct r as [|c r]; [reflexivity|].
    cbn in Hr. apply scan_exp_other; apply Hr.
  - destruct (char_case c "e") as [->|Hc]; [|destruct (char_case c "E") as [->|Hc']];
      [| |rewrite scan_exp_other by assumption; discriminate].
    all: cbn [append scan_exp]; cbn [Ascii.eqb Bool.eqb orb].
    all: destruct s as [|d s]; [cbn; discriminate|].
    all: destruct (char_case d "-") as [->|Hm]; [|destruct (char_case d "+") as [->|Hp]];
         [| |rewrite scan_esign_other by assumption; cbn [append]; rewrite scan_esign_other by assumption].
    all: cbn [scan_esign append].
    all: try (destruct (scan_digits s) as [u' t] eqn:E; rewrite (scan_digits_app _ r Hd _ _ E);
         destruct u'; intros H; inversion H; subst; reflexivity).
    all: destruct (scan_digits (String d s)) as [u' t] eqn:E;
         change (String d (s ++ r)%string) with (String d s ++ r)%string;
         rewrite (scan_digits_app _ r Hd _ _ E); destruct u'; intros H; inversion H; subst; reflexivity.
Qed.

Lemma scan_number_app s t r : num_end r -> scan_number s = Some (t, EmptyString) ->
  scan_number (s ++ r)%string = Some (t, r).
Proof.
  intros Hr. pose proof (num_end_digit r Hr) as Hd. unfold scan_number.
  destruct (scan_sign s) as [neg s0] eqn:E0.
  assert (E0' : s0 <> "" -> scan_sign (s ++ r)%string = (neg, (s0 ++ r)%string)).
  { destruct s as [|c s]; [cbn in E0; inversion E0; now intros|].
    destruct (char_case c "-") as [->|Hc].
    - cbn in *. inversion E0; subst. reflexivity.
    - rewrite scan_sign_other in E0 by exact Hc. inversion E0; subst. intros _. cbn [append].
      apply scan_sign_other, Hc. }
  destruct (scan_int s0) as [[ip s1]|] eqn:E1; [|discriminate].
  assert (N : s0 <> "") by (intros ->; discriminate). rewrite (E0' N).
  rewrite (scan_int_app _ _ _ r Hd E1).
  destruct (scan_frac s1) as [fp s2] eqn:E2. rewrite (scan_frac_app _ _ _ r Hr E2).
  destruct (scan_exp s2) as [ep s3] eqn:E3. intros H. inversion H; subst.
  rewrite (scan_exp_app _ _ r Hr E3). reflexivity.
Qed.

(** ** integers *)
Lemma zdigits_head z : 0 <= z ->
  N.to_uint (Z.to_N z) = D0 Nil \/ exists c r, zdigits z = String c r /\ c <> "0"%char /\ c <> "-"%char /\ dig c Nil <> None.
Proof.
  intros H. destruct (unorm_head _ (to_uint_norm (Z.to_N z))) as [E|(c & r & E & N & D)]; [now left|right].
  exists c, r. unfold zdigits. rewrite E in *. split; [reflexivity|]. split; [exact N|]. cbn in D.
  destruct (dig c Nil) eqn:Ed; [|discriminate]. split; [intros ->; discriminate|discriminate].
Qed.

Lemma scan_int_zdigits z r : 0 <= z -> digit_start r = false ->
  scan_int (zdigits z ++ r)%string = Some (N.to_uint (Z.to_N z), r) /\
  scan_sign (zdigits z ++ r)%string = (false, (zdigits z ++ r)%string).
Proof.
  intros Hz Hr. destruct (zdigits_head z Hz) as [E|(c & t & E & N & M & D)].
  - unfold zdigits. rewrite E. cbn. auto.
  - rewrite E. cbn [append]. rewrite scan_int_other, scan_sign_other by assumption. split; [|reflexivity].
    change (String c (t ++ r)%string) with (String c t ++ r)%string. rewrite <- E.
    unfold zdigits. rewrite scan_digits_ustr by exact Hr.
    destruct (N.to_uint (Z.to_N z)) eqn:F; try reflexivity.
    unfold zdigits in E. rewrite F in E. discriminate.
Qed.

(** a signed integer literal followed by something that is not a digit *)
Lemma scan_int_str z r : digit_start r = false ->
  scan_sign (int_str z ++ r)%string = (z <? 0, (zdigits (Z.abs z) ++ r)%string) /\
  scan_int (zdigits (Z.abs z) ++ r)%string = Some (N.to_uint (Z.to_N (Z.abs z)), r).
Proof.
  intros Hr. destruct (scan_int_zdigits (Z.abs z) r ltac:(lia) Hr) as [A B]. split; [|exact A].
  unfold int_str. destruct (Z.ltb_spec z 0).
  - rewrite Z.abs_neq by lia. reflexivity.
  - rewrite Z.abs_eq in * by lia. exact B.
Qed.

Lemma scan_frac_end r : num_end r -> scan_frac r = (None, r).
Proof. destruct r as [|c r]; [reflexivity|]. cbn. intros H. apply scan_frac_other, H. Qed.
Lemma scan_exp_end r : num_end r -> scan_exp r = (None, r).
Proof. destruct r as [|c r]; [reflexivity|]. cbn. intros H. apply scan_exp_other; apply H. Qed.

Lemma scan_number_int z r : num_end r ->
  exists t, scan_number (int_str z ++ r)%string = Some (t, r) /\ tok_value t = VInt z.
Proof.
  intros Hr. destruct (scan_int_str z r (num_end_digit r Hr)) as [A B]. unfold scan_number.
  rewrite A, B, scan_frac_end, scan_exp_end by exact Hr. eexists. split; [reflexivity|].
  unfold tok_value. cbn [nt_frac nt_exp nt_int nt_neg]. rewrite zdigits_value by lia.
  destruct (Z.ltb_spec z 0); f_equal; lia.
Qed.

(** ** floats *)
Lemma scan_exp_int z : scan_exp (String "e" (int_str z)) = (Some z, "").
Proof.
  pose proof (scan_int_str z "" eq_refl) as [A B]. rewrite !append_nil_r in *.
  unfold scan_exp. cbn [Ascii.eqb Bool.eqb orb].
  assert (E : scan_esign (int_str z) = (z <? 0, zdigits (Z.abs z))).
  { unfold int_str in *. destruct (Z.ltb_spec z 0).
    - rewrite Z.abs_neq by lia. reflexivity.
    - rewrite Z.abs_eq by lia. destruct (zdigits_head z ltac:(lia)) as [E|(c & t & E & N & M & D)].
      + unfold zdigits. rewrite E. reflexivity.
      + rewrite E. apply scan_esign_other; [exact M|]. intros ->. now elim D. }
  rewrite E. cbn [fst snd].
  assert (S : scan_digits (zdigits (Z.abs z)) = (N.to_uint (Z.to_N (Z.abs z)), "")).
  { rewrite <- (append_nil_r (zdigits (Z.abs z))). apply scan_digits_ustr. reflexivity. }
  rewrite S. pose proof (zdigits_value (Z.abs z) ltac:(lia)) as V.
  destruct (N.to_uint (Z.to_N (Z.abs z))) eqn:F.
  - exfalso. pose proof (to_uint_norm (Z.to_N (Z.abs z))) as K. rewrite F in K. discriminate.
  - rewrite V. destruct (Z.ltb_spec z 0); do 2 f_equal; lia.
  - rewrite V. destruct (Z.ltb_spec z 0); do 2 f_equal; lia.
  - rewrite V. destruct (Z.ltb_spec z 0); do 2 f_equal; lia.
  - rewrite V. destruct (Z.ltb_spec z 0); do 2 f_equal; lia.
  - rewrite V. destruct (Z.ltb_spec z 0); do 2 f_equal; lia.
  - rewrite V. destruct (Z.ltb_spec z 0); do 2 f_equal; lia.
  - rewrite V. destruct (Z.ltb_spec z 0); do 2 f_equal; lia.
  - rewrite V. destruct (Z.ltb_spec z 0); do 2 f_equal; lia.
  - rewrite V. destruct (Z.ltb_spec z 0); do 2 f_equal; lia.
  - rewrite V. destruct (Z.ltb_spec z 0); do 2 f_equal; lia.
Qed.

Lemma sf_eqb_eq x y : sf_eqb x y = true -> x = y.
Proof.
  destruct x, y; cbn; try discriminate; try reflexivity; rewrite ?andb_true_iff, ?Bool.eqb_true_iff, ?Pos.eqb_eq, ?Z.eqb_eq;
    intros H; intuition congruence.
Qed.
Lemma reads_back_ok txt f : reads_back txt f = true ->
  exists t, scan_number txt = Some (t, "") /\ tok_value t = VFlt f.
Proof.
  unfold reads_back. destruct (scan_number txt) as [[t [|c r]]|]; try discriminate.
  destruct (tok_value t) as [| | |g| | |] eqn:E; try discriminate. intros H. apply sf_eqb_eq in H. subst.
  exists t. auto.
Qed.

Lemma valid_repr s m e : fvalid (S754_finite s m e) = true -> repr (dyadic (cond_Zopp s (Zpos m)) e).
Proof.
  unfold fvalid, valid_binary, bounded, canonical_mantissa. intros H. apply andb_true_iff in H as [H1 H2].
  apply Zeq_bool_eq in H1. apply Zle_bool_imp_le in H2. change (emax64 - prec64) with 971 in H2.
  exists (cond_Zopp s (Zpos m)), e.
  assert (E : e = Z.max (Zpos (digits2_pos m) + e - 53) (-1074)) by (rewrite <- H1 at 1; reflexivity).
  split; [|split; [lia|reflexivity]].
  pose proof (digits2_pos_bound m) as [_ K].
  assert (2 ^ Zpos (digits2_pos m) <= 2 ^ 53) by (apply Z.pow_le_mono_r; lia).
  destruct s; cbn [cond_Zopp]; lia.
Qed.

Lemma dyadic_nz s m e : ~ (dyadic (cond_Zopp s (Zpos m)) e == 0)%Q.
Proof. intros H. apply dyadic_eq0 in H. destruct s; discriminate. Qed.

Lemma fnormalize_back s m e a b z : fvalid (S754_finite s m e) = true ->
  (dyadic a b == dyadic (cond_Zopp s (Zpos m)) e)%Q -> fnormalize a b z = S754_finite s m e.
Proof.
  intros V E. destruct (fnormalize_exact a b z (dyadic (cond_Zopp s (Zpos m)) e)) as [F G].
  - symmetry. exact E.
  - apply valid_repr, V.
  - apply (canonical_unique _ _ (dyadic (cond_Zopp s (Zpos m)) e)); auto.
    + apply ffin_finite. reflexivity.
    + apply dyadic_nz.
Qed.

Lemma scan_sign_exact s z r : 0 <= z -> digit_start r = false ->
  scan_sign (sign_text s (zdigits z ++ r)) = (s, (zdigits z ++ r)%string).
Proof.
  intros Hz Hr. destruct s; [reflexivity|]. cbn [sign_text]. apply scan_int_zdigits; assumption.
Qed.

Lemma scan_dec_exp s z x : 0 <= z ->
  exists t, scan_number (sign_text s (zdigits z ++ "e" ++ int_str x)) = Some (t, "") /\
            tok_value t = VFlt (float_of_dec s z x).
Proof.
  intros Hz. unfold scan_number. rewrite scan_sign_exact by (exact Hz || reflexivity).
  destruct (scan_int_zdigits z ("e" ++ int_str x) Hz eq_refl) as [-> _].
  cbn [append]. rewrite scan_frac_other by discriminate. rewrite scan_exp_int.
  eexists. split; [reflexivity|]. unfold tok_value. cbn [nt_frac nt_exp nt_neg].
  unfold tok_digits, tok_exp10. cbn [nt_frac nt_int nt_exp]. rewrite zdigits_value by exact Hz.
  now rewrite Z.sub_0_r.
Qed.

Lemma exact_text_ok s m e : fvalid (S754_finite s m e) = true ->
  exists t, scan_number (sign_text s (exact_text m e)) = Some (t, "") /\
            tok_value t = VFlt (S754_finite s m e).
Proof.
  intros V. unfold exact_text. destruct (Z.leb_spec 0 e) as [He|He].
  - assert (P : 0 < 2 ^ e) by (apply Z.pow_pos_nonneg; lia).
    destruct (scan_dec_exp s (Zpos m * 2 ^ e) 0 ltac:(lia)) as (t & A & B). exists t. split; [exact A|].
    rewrite B. f_equal. unfold float_of_dec. rewrite (proj2 (Z.eqb_neq _ 0)) by lia. cbn [Z.leb Z.compare].
    change (10 ^ 0) with 1. rewrite Z.mul_1_r. apply fnormalize_back; [exact V|].
    rewrite <- (dyadic_shift (cond_Zopp s (Zpos m)) e e) by lia. rewrite Z.sub_diag.
    replace (if s then - (Zpos m * 2 ^ e) else Zpos m * 2 ^ e) with (cond_Zopp s (Zpos m) * 2 ^ e)
      by (destruct s; cbn [cond_Zopp]; ring). reflexivity.
  - assert (P : 0 < 5 ^ (- e)) by (apply Z.pow_pos_nonneg; lia).
    destruct (scan_dec_exp s (Zpos m * 5 ^ (- e)) e ltac:(lia)) as (t & A & B). exists t. split; [exact A|].
    rewrite B. f_equal. unfold float_of_dec. rewrite (proj2 (Z.eqb_neq _ 0)) by lia.
    rewrite (proj2 (Z.leb_gt 0 e)) by lia.
    replace (if s then - (Zpos m * 5 ^ (- e)) else Zpos m * 5 ^ (- e)) with (cond_Zopp s (Zpos m) * 5 ^ (- e))
      by (destruct s; cbn [cond_Zopp]; ring).
    rewrite Z.mod_mul, Z.eqb_refl, Z.div_mul by lia.
    apply fnormalize_back; [exact V|reflexivity].
Qed.

Lemma shortest_ok fuel : forall k n d p s m e, fvalid (S754_finite s m e) = true ->
  exists t, scan_number (shortest fuel k n d p s m e) = Some (t, "") /\
            tok_value t = VFlt (S754_finite s m e).
Proof.
  induction fuel as [|fuel IH]; intros k n d p s m e V; cbn [shortest]; [apply exact_text_ok, V|].
  destruct (candidates n d p k) as [[c x] [c' x']].
  destruct (reads_back _ _) eqn:R; [apply reads_back_ok, R|].
  destruct (reads_back (sign_text s (format_r c' x')) _) eqn:R'; [apply reads_back_ok, R'|apply IH, V].
Qed.

(** ** strings *)
Lemma hex_table : forallb (fun n => match hex_val (hex_char (Z.of_nat n)) with
    | Some v => v =? Z.of_nat n | None => false end) (seq 0 16) = true.
Proof. vm_compute. reflexivity. Qed.
Lemma hex_ok v : 0 <= v < 16 -> hex_val (hex_char v) = Some v.
Proof.
  intros H. pose proof hex_table as T. rewrite forallb_forall in T.
  specialize (T (Z.to_nat v)). rewrite in_seq, Z2Nat.id in T by lia. specialize (T ltac:(lia)).
  destruct (hex_val (hex_char v)) as [w|]; [|discriminate]. apply Z.eqb_eq in T. now subst.
Qed.

Lemma u4_shape n r : (u4 n ++ r)%string = String "\" (String "u"
   (String (hex_char (n / 4096)) (String (hex_char ((n / 256) mod 16))
    (String (hex_char ((n / 16) mod 16)) (String (hex_char (n mod 16)) r))))).
Proof. reflexivity. Qed.

Lemma hex4_u4 n r : 0 <= n < 65536 ->
  hex4 (String (hex_char (n / 4096)) (String (hex_char ((n / 256) mod 16))
    (String (hex_char ((n / 16) mod 16)) (String (hex_char (n mod 16)) r)))) = Some (n, r).
Proof.
  intros H. unfold hex4.
  pose proof (Z.div_mod n 16 ltac:(lia)). pose proof (Z.mod_pos_bound n 16 ltac:(lia)).
  pose proof (Z.div_mod (n / 16) 16 ltac:(lia)). pose proof (Z.mod_pos_bound (n / 16) 16 ltac:(lia)).
  pose proof (Z.div_mod (n / 256) 16 ltac:(lia)). pose proof (Z.mod_pos_bound (n / 256) 16 ltac:(lia)).
  assert (E2 : n / 16 / 16 = n / 256) by (rewrite Z.div_div by lia; reflexivity).
  assert (E3 : n / 256 / 16 = n / 4096) by (rewrite Z.div_div by lia; reflexivity).
  rewrite !hex_ok by lia. do 2 f_equal. lia.
Qed.

(** what may follow an escaped high surrogate *)
Definition after_high (r : string) : Prop :=
  match r with
  | String b (String u q) =>
      b = "\"%char -> u = "u"%char -> exists n q', hex4 q = Some (n, q') /\ is_low n = false
  | _ => True
  end.

Lemma scan_u4 fuel n r : 0 <= n < 65536 -> (is_high n = true -> after_high r) ->
  scan_str (S fuel) (u4 n ++ r) = pre (utf8 n) (scan_str fuel r).
Proof.
  intros Hn Hr. rewrite u4_shape. cbn [scan_str]. cbn [Ascii.eqb Bool.eqb].
  rewrite hex4_u4 by exact Hn. destruct (is_high n) eqn:E; [|reflexivity].
  specialize (Hr eq_refl). destruct r as [|b [|u q]]; try reflexivity. cbn in Hr.
  destruct (Ascii.eqb_spec b "\") as [Hb|Hb]; [|reflexivity]. destruct (Ascii.eqb_spec u "u") as [Hu|Hu]; [|reflexivity].
  cbn [andb]. destruct (Hr Hb Hu) as (n2 & q' & -> & ->). reflexivity.
Qed.

Lemma scan_u4_pair fuel c r : 65536 <= c <= 1114111 ->
  scan_str (S fuel) ((u4 (55296 + (c - 65536) / 1024) ++ u4 (56320 + (c - 65536) mod 1024)) ++ r) =
  pre (utf8 c) (scan_str fuel r).
Proof.
  intros Hc. rewrite append_assoc, u4_shape. cbn [scan_str]. cbn [Ascii.eqb Bool.eqb].
  pose proof (Z.div_mod (c - 65536) 1024 ltac:(lia)). pose proof (Z.mod_pos_bound (c - 65536) 1024 ltac:(lia)).
  rewrite hex4_u4 by lia.
  unfold is_high at 1. rewrite (proj2 (between_true 55296 _ 56319)) by lia.
  rewrite u4_shape. cbn [Ascii.eqb Bool.eqb andb]. rewrite hex4_u4 by lia.
  unfold is_low at 1. rewrite (proj2 (between_true 56320 _ 57343)) by lia.
  do 2 f_equal. lia.
Qed.

Lemma scan_plain fuel c r : 32 <= c <= 126 -> c <> 34 -> c <> 92 ->
  scan_str (S fuel) (String (zb c) r) = pre (utf8 c) (scan_str fuel r).
Proof.
  intros H H1 H2. cbn [scan_str].
  assert (N : forall d, bz d <> c -> Ascii.eqb (zb c) d = false).
  { intros d Hd. apply Ascii.eqb_neq. intros <-. apply Hd, bz_zb. lia. }
  rewrite !N by (cbn; lia). rewrite bz_zb by lia. rewrite (proj2 (Z.ltb_ge c 32)) by lia.
  unfold utf8. rewrite (proj2 (Z.ltb_lt c 128)) by lia. reflexivity.
Qed.

Lemma scan_esc fuel c r : is_cp c -> (is_high c = true -> after_high r) ->
  scan_str (S fuel) (esc_cp c ++ r) = pre (utf8 c) (scan_str fuel r).
Proof.
  intros Hc Hr. unfold esc_cp. unfold is_cp in Hc.
  destruct (Z.eqb_spec c 34) as [->|N1]; [reflexivity|].
  destruct (Z.eqb_spec c 92) as [->|N2]; [reflexivity|].
  destruct (Z.eqb_spec c 10) as [->|N3]; [reflexivity|].
  destruct (Z.eqb_spec c 13) as [->|N4]; [reflexivity|].
  destruct (Z.eqb_spec c 9) as [->|N5]; [reflexivity|].
  destruct (Z.eqb_spec c 12) as [->|N6]; [reflexivity|].
  destruct (Z.eqb_spec c 8) as [->|N7]; [reflexivity|].
  destruct (between 32 c 126) eqn:B.
  { apply between_true in B. apply scan_plain; assumption. }
  destruct (Z.ltb_spec c 65536).
  - apply scan_u4; [lia|exact Hr].
  - apply scan_u4_pair. lia.
Qed.

(** escapes other than a low surrogate may follow a high surrogate *)
Lemma after_high_esc c r : is_cp c -> is_low c = false -> after_high (esc_cp c ++ r).
Proof.
  intros Hc Hl. unfold esc_cp. unfold is_cp in Hc.
  destruct (Z.eqb_spec c 34) as [->|N1]; [cbn; discriminate|].
  destruct (Z.eqb_spec c 92) as [->|N2]; [cbn; discriminate|].
  destruct (Z.eqb_spec c 10) as [->|N3]; [cbn; discriminate|].
  destruct (Z.eqb_spec c 13) as [->|N4]; [cbn; discriminate|].
  destruct (Z.eqb_spec c 9) as [->|N5]; [cbn; discriminate|].
  destruct (Z.eqb_spec c 12) as [->|N6]; [cbn; discriminate|].
  destruct (Z.eqb_spec c 8) as [->|N7]; [cbn; discriminate|].
  destruct (between 32 c 126) eqn:B.
  { apply between_true in B. cbn [append]. destruct r as [|u q]; [exact I|]. cbn.
    intros E. exfalso. apply N2. rewrite <- (bz_zb c) by lia. rewrite E. reflexivity. }
  destruct (Z.ltb_spec c 65536).
  - rewrite u4_shape. cbn [after_high]. intros _ _. eexists _, _. split; [apply hex4_u4; lia|exact Hl].
  - pose proof (Z.div_mod (c - 65536) 1024 ltac:(lia)). pose proof (Z.mod_pos_bound (c - 65536) 1024 ltac:(lia)).
    rewrite append_assoc, u4_shape. cbn [after_high]. intros _ _. eexists _, _.
    split; [apply hex4_u4; lia|]. apply between_false. lia.
Qed.

Lemma scan_str_esc l : forall fuel r, Forall is_cp l -> no_surrogate_pair l -> (List.length l < fuel)%nat ->
  scan_str fuel (esc_cps l ++ String """" r) = Some (utf8s l, r).
Proof.
  induction l as [|c l IH]; intros fuel r Hc Hs Hf; destruct fuel as [|fuel]; try (cbn in Hf; lia).
  - reflexivity.
  - inversion Hc as [|? ? Hc1 Hc2]; subst. cbn [esc_cps]. rewrite append_assoc, scan_esc.
    + rewrite IH; [reflexivity|exact Hc2| |cbn in Hf; lia]. destruct l; [exact I|apply Hs].
    + exact Hc1.
    + intros H. apply between_true in H. destruct l as [|d l]; [cbn; destruct r; [exact I|discriminate]|].
      cbn [esc_cps]. rewrite append_assoc. apply after_high_esc; [now inversion Hc2|].
      destruct Hs as [Hs _]. apply between_false. lia.
Qed.

Lemma esc_cp_length c : (1 <= String.length (esc_cp c))%nat.
Proof.
  unfold esc_cp. repeat (match goal with |- context [if ?b then _ else _] => destruct b end; [cbn; lia|]).
  cbn; lia.
Qed.
Lemma esc_cps_length l : (List.length l <= String.length (esc_cps l))%nat.
Proof.
  induction l as [|c l IH]; cbn; [lia|]. rewrite append_length. pose proof (esc_cp_length c). lia.
Qed.

Lemma text_cps s : text s -> exists l, cps true s = Some l /\ utf8s l = s /\ Forall is_cp l /\ no_surrogate_pair l.
Proof.
  intros (l & Hl & Hs & ->). exists l. rewrite cps_utf8s_inv; auto.
Qed.
Lemma text_str_ok s : text s -> str_ok s = true.
Proof. intros H. destruct (text_cps s H) as (l & E & _). unfold str_ok. now rewrite E. Qed.

Lemma scan_string_text s r : text s ->
  exists t, (str_text s ++ r)%string = String """" t /\ scan_string t = Some (s, r).
Proof.
  intros H. destruct (text_cps s H) as (l & E & U & C & P). unfold str_text. rewrite E. cbn [append].
  eexists. split; [reflexivity|]. unfold scan_string. rewrite append_assoc. cbn [append].
  rewrite scan_str_esc; [now rewrite U|exact C|exact P|].
  rewrite append_length. pose proof (esc_cps_length l). cbn. lia.
Qed.

(** ** keys *)
Lemma decimal_int_str z : decimal z = int_str z.
Proof.
  unfold decimal, int_str, zdigits, ustr. destruct z as [|p|p]; cbn.
  - reflexivity.
  - pose proof (to_uint_norm (Npos p)) as K. cbn in K. unfold NilZero.string_of_uint.
    destruct (Pos.to_uint p); [discriminate|reflexivity..].
  - pose proof (to_uint_norm (Npos p)) as K. cbn in K. unfold NilZero.string_of_uint.
    destruct (Pos.to_uint p); [discriminate|reflexivity..].
Qed.

Fixpoint plain (s : string) : bool :=
  match s with
  | EmptyString => true
  | String c r => between 32 (bz c) 126 && negb (bz c =? 34) && negb (bz c =? 92) && plain r
  end.
Lemma plain_text s : plain s = true ->
  exists l, cps true s = Some l /\ esc_cps l = s.
Proof.
  induction s as [|c s IH]; intros H; [exists []; auto|]. cbn [plain] in H.
  apply andb_true_iff in H as [H H4]. apply andb_true_iff in H as [H H3]. apply andb_true_iff in H as [H1 H2].
  apply negb_true_iff, Z.eqb_neq in H2, H3. pose proof (proj1 (between_true _ _ _) H1) as R.
  destruct (IH H4) as (l & E & F). exists (bz c :: l). cbn [cps]. rewrite (proj2 (Z.ltb_lt (bz c) 128)) by lia.
  rewrite E. split; [reflexivity|]. cbn [esc_cps]. rewrite F. unfold esc_cp.
  rewrite !(proj2 (Z.eqb_neq (bz c) _)) by lia. rewrite H1, zb_bz. reflexivity.
Qed.
Lemma plain_ustr u : plain (ustr u) = true.
Proof. unfold ustr. induction u; cbn; auto. Qed.
Lemma plain_int_str z : plain (int_str z) = true.
Proof.
  unfold int_str, zdigits. destruct (z <? 0); [cbn [plain]; rewrite plain_ustr; reflexivity|apply plain_ustr].
Qed.
Lemma key_text_json k : key_text k = str_text (json_key k).
Proof.
  destruct k as [s|z]; [reflexivity|]. cbn [key_text json_key]. rewrite decimal_int_str.
  destruct (plain_text _ (plain_int_str z)) as (l & E & F). unfold str_text. now rewrite E, F.
Qed.

(** ** whole documents *)
Definition delim (r : string) : Prop :=
  match r with EmptyString => True | String c _ => c = ","%char \/ c = "]"%char \/ c = "}"%char end.
Lemma delim_num_end r : delim r -> num_end r.
Proof. destruct r as [|c r]; [auto|]. cbn. intros [->|[->| ->]]; repeat split; discriminate || reflexivity. Qed.
Lemma delim_ws r : delim r -> ws r = r.
Proof. destruct r as [|c r]; [auto|]. cbn. intros [->|[->| ->]]; reflexivity. Qed.

(** first characters of numbers *)
Lemma scan_int_head s p : scan_int s = Some p -> exists c t, s = String c t /\ dig c Nil <> None.
Proof.
  destruct s as [|c t]; [discriminate|]. intros H. exists c, t. split; [reflexivity|]. intros D.
  destruct (char_case c "0") as [->|N]; [discriminate|]. rewrite scan_int_other in H by exact N.
  cbn [scan_digits] in H. rewrite D in H. discriminate.
Qed.
Lemma scan_number_head s p : scan_number s = Some p ->
  exists c t, s = String c t /\ (dig c Nil <> None \/ c = "-"%char /\ exists d q, t = String d q /\ dig d Nil <> None).
Proof.
  unfold scan_number. destruct s as [|c t]; [discriminate|]. intros H. exists c, t. split; [reflexivity|].
  destruct (char_case c "-") as [->|N].
  - right. split; [reflexivity|]. cbn in H. destruct (scan_int t) as [[ip s1]|] eqn:E; [|discriminate].
    destruct (scan_int_head _ _ E) as (d & q & -> & D). eauto.
  - left. rewrite scan_sign_other in H by exact N. destruct (scan_int (String c t)) as [[ip s1]|] eqn:E; [|discriminate].
    destruct (scan_int_head _ _ E) as (d & q & E' & D). inversion E'; subst. exact D.
Qed.

Lemma dig_cases c : dig c Nil <> None ->
  c = "0"%char \/ c = "1"%char \/ c = "2"%char \/ c = "3"%char \/ c = "4"%char \/
  c = "5"%char \/ c = "6"%char \/ c = "7"%char \/ c = "8"%char \/ c = "9"%char.
Proof. destruct c as [[] [] [] [] [] [] [] []]; cbn; intros H; try (now elim H); tauto. Qed.

Lemma pval_number n s t q : scan_number s = Some (t, q) -> pval (S n) s = Ok (tok_value t, q).
Proof.
  intros H. destruct (scan_number_head _ _ H) as (c & r & -> & Hc).
  cbn [pval]. rewrite H.
  destruct Hc as [Hc|[-> (d & q' & -> & Hd)]].
  - apply dig_cases in Hc. decompose [or] Hc; subst; reflexivity.
  - apply dig_cases in Hd. decompose [or] Hd; subst; reflexivity.
Qed.

(** first character of any document *)
Definition starts (s : string) : Prop :=
  exists c t, s = String c t /\ is_jws c = false /\ c <> "]"%char /\ c <> "}"%char /\ c <> "239"%char.
Lemma starts_number s p : scan_number s = Some p -> starts s.
Proof.
  intros H. destruct (scan_number_head _ _ H) as (c & r & -> & Hc). exists c, r. split; [reflexivity|].
  destruct Hc as [Hc|[-> _]]; [|repeat split; discriminate].
  apply dig_cases in Hc. decompose [or] Hc; subst; repeat split; discriminate.
Qed.
Lemma starts_str s : starts (str_text s).
Proof. unfold starts, str_text. do 2 eexists. split; [reflexivity|]. repeat split; discriminate. Qed.

Lemma float_number f : fvalid f = true -> match f with S754_nan | S754_infinity _ => True | _ =>
  exists t, scan_number (float_text f) = Some (t, "") /\ tok_value t = VFlt f end.
Proof.
  intros V. destruct f as [[]|s| |s m e]; try exact I.
  - eexists. split; reflexivity.
  - eexists. split; reflexivity.
  - unfold float_text. destruct (ratio (Zpos m) e) as [n d]. apply shortest_ok, V.
Qed.

Lemma starts_json v : json_like v -> starts (json_text v).
Proof.
  destruct v as [|b|z|f|s|l|d]; intros H; cbn [json_text].
  - repeat eexists; discriminate.
  - destruct b; repeat eexists; discriminate.
  - destruct (scan_number_int z "" I) as (t & E & _). rewrite append_nil_r in E. apply (starts_number _ _ E).
  - pose proof (float_number f H) as K. destruct f as [b|[]| |s m e].
    + destruct K as (t & E & _). apply (starts_number _ _ E).
    + repeat eexists; discriminate.
    + repeat eexists; discriminate.
    + repeat eexists; discriminate.
    + destruct K as (t & E & _). apply (starts_number _ _ E).
  - apply starts_str.
  - repeat eexists; discriminate.
  - repeat eexists; discriminate.
Qed.

Lemma starts_ws s r : starts s -> ws (s ++ r) = (s ++ r)%string.
Proof. intros (c & t & -> & E & _). cbn. now rewrite E. Qed.
Lemma ws_space s : ws (String " " s) = ws s.
Proof. reflexivity. Qed.

Definition reads (v : val) : Prop := forall n r, (2 * String.length (json_text v) < n)%nat -> delim r ->
  json_like v -> pval n (json_text v ++ r) = Ok (as_json v, r).

Lemma list_like_cons x l : json_like (VList (x :: l)) <-> json_like x /\ json_like (VList l).
Proof. reflexivity. Qed.

Lemma join_cons x l : join (x :: l) = match l with [] => x | _ => (x ++ ", " ++ join l)%string end.
Proof. destruct l; reflexivity. Qed.

Lemma parr_ok l : forall n r x, Forall reads (x :: l) -> json_like (VList (x :: l)) ->
  (S (2 * String.length (join (map json_text (x :: l)))) < n)%nat ->
  parr n (join (map json_text (x :: l)) ++ String "]" r) = Ok (map as_json (x :: l), r).
Proof.
  induction l as [|y l IH]; intros n r x F J Hn; (destruct n as [|n]; [lia|]);
    inversion F as [|? ? F1 F2]; subst; apply list_like_cons in J as [J1 J2].
  - cbn [map join parr] in *. rewrite F1; [|lia|cbn; auto|exact J1]. reflexivity.
  - change (map json_text (x :: y :: l)) with (json_text x :: map json_text (y :: l)) in *.
    rewrite join_cons in *. cbn [map] in Hn |- * . cbn [parr].
    change (json_text y :: map json_text l) with (map json_text (y :: l)) in *.
    rewrite !append_length in Hn. cbn [String.length] in Hn.
    rewrite !append_assoc. rewrite F1; [|lia|cbn; auto|exact J1].
    cbn [bind]. cbn [append ws is_jws Ascii.eqb Bool.eqb orb].
    assert (W : ws (join (map json_text (y :: l)) ++ String "]" r) = (join (map json_text (y :: l)) ++ String "]" r)%string).
    { cbn [map]. rewrite join_cons. assert (S0 : starts (json_text y)) by (apply starts_json, J2).
      destruct l; cbn [map]; [|rewrite !append_assoc]; apply starts_ws, S0. }
    rewrite W, IH; [reflexivity|exact F2|exact J2|lia].
Qed.

(** dictionaries *)
Lemma key_eqb_KS a b : key_eqb (KS a) (KS b) = String.eqb a b.
Proof. reflexivity. Qed.
Lemma dset_new {V} (k : key) (v : V) d : ~ In k (dkeys d) -> dset k v d = d ++ [(k, v)].
Proof.
  induction d as [|[k' v'] d IH]; intros H; [reflexivity|]. cbn [dset].
  destruct (key_eqb k k') eqn:E.
  - exfalso. apply H. left. cbn. destruct k, k'; cbn in E; try discriminate.
    + apply String.eqb_eq in E. congruence.
    + apply Z.eqb_eq in E. congruence.
  - rewrite IH; [reflexivity|]. intros K. apply H. now right.
Qed.

Definition member (kv : key * val) : string := (key_text (fst kv) ++ ": " ++ json_text (snd kv))%string.
Definition jmember (kv : key * val) : key * val := (KS (json_key (fst kv)), as_json (snd kv)).

Fixpoint members_like (d : dict) : Prop :=
  match d with [] => True | (k, x) :: r => text (json_key k) /\ json_like x /\ members_like r end.
Lemma dict_like d : json_like (VDict d) <-> NoDup (map (fun kv => json_key (fst kv)) d) /\ members_like d.
Proof. reflexivity. Qed.

Lemma starts_member kv r : ws (member kv ++ r) = (member kv ++ r)%string.
Proof.
  unfold member. rewrite key_text_json, append_assoc. apply starts_ws, starts_str.
Qed.
Lemma starts_members x d r : ws (join (map member (x :: d)) ++ r) = (join (map member (x :: d)) ++ r)%string.
Proof.
  cbn [map]. rewrite join_cons. destruct d; cbn [map]; [|rewrite !append_assoc]; apply starts_member.
Qed.

Lemma member_step n acc k v r : text (json_key k) -> reads v -> json_like v -> delim r ->
  (2 * String.length (member (k, v)) < n)%nat ->
  pobj (S n) acc (member (k, v) ++ r) =
  match r with
  | String "}" q => Ok (dset (KS (json_key k)) (as_json v) acc, q)
  | String "," q => pobj n (dset (KS (json_key k)) (as_json v) acc) (ws q)
  | _ => Err EJSONDecode
  end.
Proof.
  intros T R J D Hn. unfold member in *. cbn [fst snd] in *. rewrite key_text_json in *.
  rewrite !append_length in Hn. cbn [String.length] in Hn.
  rewrite !append_assoc.
  destruct (scan_string_text (json_key k) (": " ++ json_text v ++ r) T) as (t & E & S0). rewrite E.
  cbn [pobj]. rewrite S0. cbn [append ws is_jws Ascii.eqb Bool.eqb orb].
  rewrite starts_ws by (apply starts_json, J). rewrite R; [|lia|exact D|exact J].
  cbn [bind]. rewrite delim_ws by exact D. reflexivity.
Qed.

Lemma pobj_ok d : forall n r acc x, Forall (fun kv => reads (snd kv)) (x :: d) ->
  members_like (x :: d) -> NoDup (map (fun kv => json_key (fst kv)) (x :: d)) ->
  (forall k, In k (map (fun kv => json_key (fst kv)) (x :: d)) -> ~ In (KS k) (dkeys acc)) ->
  (S (2 * String.length (join (map member (x :: d)))) < n)%nat ->
  pobj n acc (join (map member (x :: d)) ++ String "}" r) = Ok (acc ++ map jmember (x :: d), r).
Proof.
  induction d as [|y d IH]; intros n r acc [k v] F M ND NI Hn; (destruct n as [|n]; [lia|]);
    inversion F as [|? ? F1 F2]; subst; cbn [members_like] in M; destruct M as (T & J & M).
  - cbn [map join] in *. rewrite member_step; [|exact T|exact F1|exact J|cbn; auto|lia].
    rewrite dset_new by (apply NI; cbn; auto). reflexivity.
  - change (map member ((k, v) :: y :: d)) with (member (k, v) :: map member (y :: d)) in *.
    rewrite join_cons in *. cbn [map] in Hn |- *.
    change (member y :: map member d) with (map member (y :: d)) in *.
    change (jmember y :: map jmember d) with (map jmember (y :: d)) in *.
    rewrite !append_length in Hn. cbn [String.length] in Hn. rewrite !append_assoc.
    rewrite member_step; [|exact T|exact F1|exact J|cbn; auto|lia].
    cbn [append]. rewrite ws_space, starts_members.
    change (map (fun kv => json_key (fst kv)) ((k, v) :: y :: d))
      with (json_key k :: map (fun kv : key * val => json_key (fst kv)) (y :: d)) in ND, NI.
    inversion ND as [|? ? ND1 ND2]; subst.
    rewrite dset_new by (apply NI; now left).
    rewrite IH; [|exact F2|exact M|exact ND2| |lia].
    + rewrite <- app_assoc. reflexivity.
    + intros k' Hk'. unfold dkeys. rewrite map_app, in_app_iff. cbn [map fst].
      intros [H|[H|[]]]; [exact (NI k' (or_intror Hk') H)|]. inversion H; subst. contradiction.
Qed.

Lemma reads_all v : reads v.
Proof.
  induction v as [|b|z|f|s|l F|d F] using val_ind'; intros n r Hn D J; (destruct n as [|n]; [lia|]).
  - reflexivity.
  - destruct b; reflexivity.
  - cbn [json_text as_json]. destruct (scan_number_int z r (delim_num_end r D)) as (t & E & V).
    rewrite (pval_number _ _ _ _ E), V. reflexivity.
  - cbn [json_text as_json]. pose proof (float_number f J) as K.
    destruct f as [b|[]| |s m e]; try reflexivity; destruct K as (t & E & V);
      apply (scan_number_app _ _ r (delim_num_end r D)) in E;
      rewrite (pval_number _ _ _ _ E), V; reflexivity.
  - cbn [json_text as_json]. destruct (scan_string_text s r J) as (t & E & S0). rewrite E.
    cbn [pval Ascii.eqb Bool.eqb]. rewrite S0. reflexivity.
  - destruct l as [|x l]; [reflexivity|]. cbn [json_text as_json] in *.
    cbn [String.length] in Hn. rewrite append_length in Hn. cbn [String.length] in Hn.
    cbn [append]. rewrite append_assoc. cbn [append]. cbn [pval Ascii.eqb Bool.eqb].
    apply list_like_cons in J as J'. destruct J' as [J1 J2].
    assert (W : exists c t, ws (join (map json_text (x :: l)) ++ String "]" r) = String c t /\ c <> "]"%char /\
              (join (map json_text (x :: l)) ++ String "]" r)%string = String c t).
    { cbn [map]. rewrite join_cons. destruct (starts_json x J1) as (c & t & E & W & N1 & _).
      destruct l; cbn [map]; rewrite ?append_assoc, E; cbn [append ws]; rewrite W; eauto. }
    destruct W as (c & t & W & N & E). rewrite W.
    assert (R : parr n (String c t) = Ok (map as_json (x :: l), r))
      by (rewrite <- E; apply parr_ok; [exact F|exact J|lia]).
    clear - R N. destruct c as [[] [] [] [] [] [] [] []]; try (now elim N); rewrite R; reflexivity.
  - destruct d as [|x d]; [reflexivity|]. cbn [json_text as_json] in *. fold member in *.
    cbn [String.length] in Hn. rewrite append_length in Hn. cbn [String.length] in Hn.
    apply dict_like in J as [ND M].
    change (map (fun kv => (key_text (fst kv) ++ ": " ++ json_text (snd kv))%string) (x :: d))
      with (map member (x :: d)) in *.
    cbn [append]. rewrite append_assoc. cbn [append]. cbn [pval Ascii.eqb Bool.eqb].
    rewrite starts_members.
    assert (W : exists t, (join (map member (x :: d)) ++ String "}" r)%string = String """" t).
    { cbn [map]. rewrite join_cons. destruct x as [k v].
      destruct d; cbn [map]; rewrite ?append_assoc; unfold member at 1; cbn [fst snd];
        rewrite key_text_json, ?append_assoc; unfold str_text at 1; cbn [append]; eexists; reflexivity. }
    destruct W as (t & W). rewrite W. rewrite <- W.
    rewrite pobj_ok; [reflexivity|exact F|exact M|exact ND|intros k _ []|lia].
Qed.

Lemma loads_text v : json_like v -> json_loads (json_text v) = Ok (as_json v).
Proof.
  intros J. unfold json_loads.
  destruct (starts_json v J) as (c & t & E & W & N1 & N2 & N3).
  assert (S0 : strip (utf8 65279) (json_text v) = None).
  { rewrite E. change (utf8 65279) with (String "239" (String "187" (String "191" ""))). cbn [strip].
    rewrite (proj2 (Ascii.eqb_neq _ _)) by congruence. reflexivity. }
  rewrite S0. assert (W' : ws (json_text v) = json_text v) by (rewrite E; cbn; now rewrite W).
  rewrite W'. pose proof (reads_all v (S (2 * String.length (json_text v))) "" ltac:(lia) I J) as R.
  rewrite append_nil_r in R. rewrite R. reflexivity.
Qed.
