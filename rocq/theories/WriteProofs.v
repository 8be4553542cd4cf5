(** * Proofs of C64: what [json.dumps] and [encode] write. *)
From Coq Require Import Lia.
From Verif Require Import Py Num Text TextFacts Json Codec World BpString SpecCodec SpecRound SpecJson RoundProofs JsonFacts JsonGrammar CodecGrammar
  SpecShort ShortText ShortUnique SpecWrite.
Open Scope string_scope.
Open Scope Z_scope.

(** ** characters *)
Lemma low_hex_char v : 0 <= v < 16 -> low_hex (hex_char v) v.
Proof.
  intros H. assert (T : forallb (fun n => (existsb (Z.eqb (bz (hex_char (Z.of_nat n)) - 48)) [Z.of_nat n] && (Z.of_nat n <? 10)) ||
    ((bz (hex_char (Z.of_nat n)) - 87 =? Z.of_nat n) && (10 <=? Z.of_nat n))) (seq 0 16) = true) by (vm_compute; reflexivity).
  rewrite forallb_forall in T. specialize (T (Z.to_nat v)). rewrite in_seq, Z2Nat.id in T by lia. specialize (T ltac:(lia)).
  cbn [existsb] in T. rewrite orb_false_r in T. apply orb_true_iff in T as [T|T]; apply andb_true_iff in T as [T1 T2];
    apply Z.eqb_eq in T1; (apply Z.ltb_lt in T2 || apply Z.leb_le in T2); (split; [|lia]).
  - rewrite <- T1 at 2. apply hd_num. lia.
  - replace v with (bz (hex_char v) - 97 + 10) at 2 by lia. apply hd_lower. lia.
Qed.
Lemma low_hex_inj a b v : low_hex a v -> low_hex b v -> a = b.
Proof. intros [A NA] [B NB]. apply bz_inj. inversion A; subst; inversion B; subst; lia. Qed.
Lemma low_hex_range a v : low_hex a v -> 0 <= v < 16.
Proof. intros [A _]. inversion A; subst; lia. Qed.
Lemma u4_written n : 0 <= n < 65536 -> unit_written n (u4 n).
Proof.
  intros H. replace n with ((((n / 4096) * 16 + (n / 256) mod 16) * 16 + (n / 16) mod 16) * 16 + n mod 16) at 1
    by (Z.to_euclidean_division_equations; lia).
  apply (uw (hex_char (n / 4096)) (hex_char ((n / 256) mod 16)) (hex_char ((n / 16) mod 16)) (hex_char (n mod 16)));
    apply low_hex_char; Z.to_euclidean_division_equations; lia.
Qed.
Lemma unit_inj n s t : unit_written n s -> unit_written n t -> s = t.
Proof.
  intros [a b c d i j k l A B C D] H. remember (((i * 16 + j) * 16 + k) * 16 + l) as m eqn:E.
  destruct H as [a' b' c' d' i' j' k' l' A' B' C' D'].
  pose proof (low_hex_range _ _ A). pose proof (low_hex_range _ _ B). pose proof (low_hex_range _ _ C). pose proof (low_hex_range _ _ D).
  pose proof (low_hex_range _ _ A'). pose proof (low_hex_range _ _ B'). pose proof (low_hex_range _ _ C'). pose proof (low_hex_range _ _ D').
  assert (i' = i /\ j' = j /\ k' = k /\ l' = l) as (-> & -> & -> & ->) by lia.
  now rewrite (low_hex_inj _ _ _ A A'), (low_hex_inj _ _ _ B B'), (low_hex_inj _ _ _ C C'), (low_hex_inj _ _ _ D D').
Qed.
Lemma unit_range n s : unit_written n s -> 0 <= n < 65536.
Proof.
  intros [a b c d i j k l A B C D].
  pose proof (low_hex_range _ _ A). pose proof (low_hex_range _ _ B). pose proof (low_hex_range _ _ C). pose proof (low_hex_range _ _ D). lia.
Qed.
Lemma has_short_cases n : has_short n <-> In n [34; 92; 8; 12; 10; 13; 9].
Proof.
  split.
  - intros (e & H). apply (in_map snd) in H. exact H.
  - intros H. apply (in_map_iff snd short_escapes n) in H as ((e & m) & E & I). cbn in E. subst m. now exists e.
Qed.
Lemma esc_written c : code_point c -> char_written c (esc_cp c).
Proof.
  intros H. unfold esc_cp.
  destruct (c =? 34) eqn:E1; [apply Z.eqb_eq in E1 as ->; apply cw_short; cbn; auto 10|].
  destruct (c =? 92) eqn:E2; [apply Z.eqb_eq in E2 as ->; apply cw_short; cbn; auto 10|].
  destruct (c =? 10) eqn:E3; [apply Z.eqb_eq in E3 as ->; apply cw_short; cbn; auto 10|].
  destruct (c =? 13) eqn:E4; [apply Z.eqb_eq in E4 as ->; apply cw_short; cbn; auto 10|].
  destruct (c =? 9) eqn:E5; [apply Z.eqb_eq in E5 as ->; apply cw_short; cbn; auto 10|].
  destruct (c =? 12) eqn:E6; [apply Z.eqb_eq in E6 as ->; apply cw_short; cbn; auto 10|].
  destruct (c =? 8) eqn:E7; [apply Z.eqb_eq in E7 as ->; apply cw_short; cbn; auto 10|].
  apply Z.eqb_neq in E1, E2, E3, E4, E5, E6, E7.
  assert (N : ~ has_short c) by (rewrite has_short_cases; cbn; lia).
  destruct (between 32 c 126) eqn:B.
  - apply between_true in B. rewrite <- (bz_zb c) at 1 by lia. apply cw_plain; rewrite bz_zb by lia; assumption.
  - apply between_false in B. destruct (c <? 65536) eqn:U.
    + apply Z.ltb_lt in U. unfold code_point in H. apply cw_unit; [unfold printable; lia|exact N|apply u4_written; lia].
    + apply Z.ltb_ge in U. unfold code_point in H. cbv zeta.
      replace c with (65536 + ((55296 + (c - 65536) / 1024) - 55296) * 1024 + ((56320 + (c - 65536) mod 1024) - 56320)) at 1
        by (Z.to_euclidean_division_equations; lia).
      apply cw_pair; [| |apply u4_written|apply u4_written]; unfold high_surrogate, low_surrogate;
        rewrite ?andb_true_iff, ?Z.leb_le; Z.to_euclidean_division_equations; lia.
Qed.
Lemma short_inj e e' n : In (e, n) short_escapes -> In (e', n) short_escapes -> e = e'.
Proof.
  unfold short_escapes. cbn. intros H H'.
  repeat (destruct H as [H|H]; [injection H as <- <-; repeat (destruct H' as [H'|H']; [injection H' as <-; congruence || lia|]); contradiction|]).
  contradiction.
Qed.
Lemma surrogates a : high_surrogate a = true -> 55296 <= a <= 56319.
Proof. unfold high_surrogate. rewrite andb_true_iff, !Z.leb_le. lia. Qed.
Lemma surrogates_low a : low_surrogate a = true -> 56320 <= a <= 57343.
Proof. unfold low_surrogate. rewrite andb_true_iff, !Z.leb_le. lia. Qed.
Lemma has_short_small n : has_short n -> n < 128.
Proof. rewrite has_short_cases. cbn. lia. Qed.
(** the four ways of writing a character exclude each other *)
Lemma written_kind n t : char_written n t ->
  (exists e, In (e, n) short_escapes /\ t = String "\" (String e "")) \/
  (exists c, n = bz c /\ printable n /\ ~ has_short n /\ t = String c "") \/
  (~ printable n /\ ~ has_short n /\ unit_written n t) \/
  (exists a b s u, 55296 <= a <= 56319 /\ 56320 <= b <= 57343 /\ unit_written a s /\ unit_written b u /\
    n = 65536 + (a - 55296) * 1024 + (b - 56320) /\ t = s ++ u).
Proof.
  intros [e m I|c P N|m u P N U|a b s u A B U1 U2].
  - left. eauto.
  - right. left. eauto.
  - right. right. left. auto.
  - right. right. right. exists a, b, s, u. apply surrogates in A. apply surrogates_low in B. auto 10.
Qed.
Lemma char_inj n s t : char_written n s -> char_written n t -> s = t.
Proof.
  intros H H'. apply written_kind in H, H'.
  assert (SM : forall e, In (e, n) short_escapes -> n < 128) by (intros e I; exact (has_short_small _ (ex_intro _ e I))).
  assert (UN : forall u, unit_written n u -> n < 65536) by (intros u U; apply unit_range in U; lia).
  destruct H as [(e & I & ->)|[(c & E & P & N & ->)|[(P & N & U)|(a & b & s1 & s2 & A & B & U1 & U2 & E & ->)]]];
  destruct H' as [(e' & I' & ->)|[(c' & E' & P' & N' & ->)|[(P' & N' & U')|(a' & b' & s1' & s2' & A' & B' & U1' & U2' & E' & ->)]]];
  try contradiction; try (elim N'; now exists e); try (elim N; now exists e');
  try (pose proof (SM _ I); lia); try (pose proof (SM _ I'); lia); try (pose proof (UN _ U); lia); try (pose proof (UN _ U'); lia);
  try (unfold printable in *; lia).
  - now rewrite (short_inj _ _ _ I I').
  - now rewrite (bz_inj c c' ltac:(congruence)).
  - exact (unit_inj _ _ _ U U').
  - assert (a' = a /\ b' = b) as [-> ->] by (clear - A B A' B' E E'; lia).
    now rewrite (unit_inj _ _ _ U1 U1'), (unit_inj _ _ _ U2 U2').
Qed.
Lemma escs_written l : Forall code_point l -> chars_written l (esc_cps l).
Proof. induction 1 as [|c l C F IH]; [constructor|]. cbn. constructor; [apply esc_written, C|exact IH]. Qed.
Lemma chars_inj l : forall s t, chars_written l s -> chars_written l t -> s = t.
Proof.
  induction l as [|c l IH]; intros s t H H'; inversion H; subst; inversion H'; subst; [reflexivity|].
  f_equal; [eapply char_inj; eassumption|apply IH; assumption].
Qed.

(** ** strings *)
Lemma string_written_ok s : str_ok s = true -> string_written s (str_text s).
Proof.
  unfold str_ok, str_text. destruct (cps true s) as [l|] eqn:E; [intros _|discriminate].
  destruct (cps_sound _ _ _ E) as [<- F]. exact (sw l (esc_cps l) F (escs_written l F)).
Qed.
Lemma string_written_str_ok s t : string_written s t -> str_ok s = true.
Proof. intros [l u F _]. unfold str_ok. now rewrite (cps_utf8s_inv l F). Qed.
Lemma string_written_inj s t u : string_written s t -> string_written s u -> t = u.
Proof.
  intros [l t' F C] H. remember (utf8s l) as x eqn:X. destruct H as [l' u' F' C']. subst.
  assert (l' = l) as -> by (pose proof (cps_utf8s_inv l F) as A; pose proof (cps_utf8s_inv l' F') as B; congruence).
  now rewrite (chars_inj l t' u' C C').
Qed.

(** ** integers *)
Lemma int_str_written z : int_written z (int_str z).
Proof.
  unfold int_str. destruct (z <? 0) eqn:L.
  - apply Z.ltb_lt in L. destruct (zdigits_shape (- z) ltac:(lia)) as (c & r & E & D & N & A).
    replace z with (signed true (number_of (zdigits (- z)))) at 1 by (rewrite zdigits_number by lia; cbn; lia).
    change (String "-" (zdigits (- z))) with ("-" ++ zdigits (- z)). rewrite E.
    constructor; [constructor|constructor; assumption|]. intros _ X. congruence.
  - apply Z.ltb_ge in L. rewrite <- (zdigits_number z L) at 1. change (zdigits z) with ("" ++ zdigits z) at 2.
    change (number_of (zdigits z)) with (signed false (number_of (zdigits z))). apply iw; [constructor| |discriminate].
    destruct (Z.eq_dec z 0) as [->|N]; [constructor|].
    destruct (zdigits_shape z ltac:(lia)) as (c & r & E & D & N0 & A). rewrite E. constructor; assumption.
Qed.
Lemma int_part_sign i : int_part i -> 0 <= number_of i /\ (i <> "0" -> 0 < number_of i).
Proof.
  intros [|c s D N A].
  - split; [vm_compute; discriminate|congruence].
  - pose proof (number_low c s D N A). assert (0 < 10 ^ Z.of_nat (String.length s)) by (apply Z.pow_pos_nonneg; lia). lia.
Qed.
Lemma int_written_inj z s t : int_written z s -> int_written z t -> s = t.
Proof.
  intros [sg neg i S I N] H. remember (signed neg (number_of i)) as y eqn:Y. destruct H as [sg' neg' i' S' I' N'].
  destruct (int_part_sign i I) as [P Q]. destruct (int_part_sign i' I') as [P' Q'].
  destruct neg, neg'; cbn in Y; try (specialize (Q (N eq_refl))); try (specialize (Q' (N' eq_refl))); try lia;
    rewrite (int_part_inj i i' I I' ltac:(lia)), (sign_inj _ _ _ S S'); reflexivity.
Qed.
Lemma key_text_written k : match k with KS s => str_ok s | KI _ => true end = true -> key_written k (key_text k).
Proof.
  destruct k as [s|z]; intros H; cbn [key_text].
  - constructor. now apply string_written_ok.
  - change (String """" (int_str z ++ """")) with (quoted (int_str z)). constructor. apply int_str_written.
Qed.
Lemma key_written_inj k s t : key_written k s -> key_written k t -> s = t.
Proof.
  intros [x s' W|z s' W] H; inversion H as [y t' W'|y t' W']; subst.
  - exact (string_written_inj _ _ _ W W').
  - now rewrite (int_written_inj _ _ _ W W').
Qed.

(** ** values *)
Lemma join_concat l : join l = String.concat ", " l.
Proof. induction l as [|x [|y r] IH]; [reflexivity|reflexivity|]. cbn in *. now rewrite IH. Qed.
Lemma map_forall2 {A B} (P : A -> B -> Prop) f l : Forall (fun x => P x (f x)) l -> Forall2 P l (map f l).
Proof. induction 1; cbn; constructor; assumption. Qed.
Lemma forallb_Forall {A} (f : A -> bool) l : forallb f l = true -> Forall (fun x => f x = true) l.
Proof. rewrite forallb_forall, Forall_forall. auto. Qed.

Lemma text_written v : strs_ok v = true -> doubles v -> written v (json_text v).
Proof.
  induction v as [|b|z|f|s|l F|d F] using val_ind'; intros K D.
  - apply w_constant. cbn. auto.
  - apply w_constant. destruct b; cbn; auto.
  - apply w_int, int_str_written.
  - inversion D as [| | |f' V| | |]; subst. cbn [json_text]. destruct f as [s|s| |s m e].
    + apply w_zero. destruct s; cbn; auto.
    + apply w_constant. destruct s; cbn; auto 10.
    + apply w_constant. cbn. auto 10.
    + assert (U : units (S754_finite s m e) <> 0).
      { intros U. discriminate (units_inj (S754_finite s m e) (S754_zero s) V eq_refl I I eq_refl U). }
      apply w_float; [exact I|exact U|]. apply p_C63_written; [exact V|exact I|exact U].
  - apply w_string, string_written_ok, K.
  - cbn [json_text]. rewrite join_concat. inversion D as [| | | | |l' DL|]; subst. cbn [strs_ok] in K. apply forallb_Forall in K.
    change (String "[" ?x) with ("[" ++ x). apply w_list, map_forall2.
    rewrite Forall_forall in *. auto.
  - cbn [json_text]. rewrite join_concat. inversion D as [| | | | | |d' DD]; subst. cbn [strs_ok] in K. apply forallb_Forall in K.
    change (String "{" ?x) with ("{" ++ x). apply w_dict, map_forall2.
    rewrite Forall_forall in *. intros [k x] I. specialize (K _ I). apply andb_true_iff in K as [K1 K2].
    exists (key_text k), (json_text x). split; [apply key_text_written, K1|]. split; [|reflexivity].
    apply (F _ I); [exact K2|apply (DD _ I)].
Qed.

Lemma constants_zero t u v : In (t, v) constants -> In (u, v) zero_texts -> False.
Proof. cbn. intros H. repeat (destruct H as [H|H]; [injection H as <- <-; intros [E|[E|[]]]; discriminate|]). contradiction. Qed.
Lemma constants_inj t u v : In (t, v) constants -> In (u, v) constants -> t = u.
Proof.
  cbn. intros H H'.
  repeat (destruct H as [H|H]; [injection H as <- <-; repeat (destruct H' as [H'|H']; [injection H' as <-; congruence || discriminate|]); contradiction|]).
  contradiction.
Qed.
Lemma zeros_inj t u v : In (t, v) zero_texts -> In (u, v) zero_texts -> t = u.
Proof. cbn. intros [E|[E|[]]] [E'|[E'|[]]]; congruence. Qed.
Lemma constants_kind t v : In (t, v) constants -> match v with
  | VNone | VBool _ => True | VFlt f => ~ finite f | _ => False end.
Proof. cbn. intros H. repeat (destruct H as [H|H]; [injection H as <- <-; cbn; auto|]). contradiction. Qed.
Lemma zeros_kind t v : In (t, v) zero_texts -> match v with VFlt f => finite f /\ units f = 0 | _ => False end.
Proof. cbn. intros [E|[E|[]]]; injection E as <- <-; cbn; auto. Qed.

(** an object has one text *)
Lemma written_inj v : forall s t, written v s -> written v t -> s = t.
Proof.
  induction v as [|b|z|f|x|l F|d F] using val_ind'; intros s t H H'.
  - inversion H as [s' v' C| |s' v' C| | | |]; subst; [|apply zeros_kind in C; contradiction].
    inversion H' as [t' v' C'| |t' v' C'| | | |]; subst; [|apply zeros_kind in C'; contradiction].
    exact (constants_inj _ _ _ C C').
  - inversion H as [s' v' C| |s' v' C| | | |]; subst; [|apply zeros_kind in C; contradiction].
    inversion H' as [t' v' C'| |t' v' C'| | | |]; subst; [|apply zeros_kind in C'; contradiction].
    exact (constants_inj _ _ _ C C').
  - inversion H as [s' v' C|z' s' W|s' v' C| | | |]; subst; [apply constants_kind in C; contradiction| |apply zeros_kind in C; contradiction].
    inversion H' as [t' v' C'|z' t' W'|t' v' C'| | | |]; subst; [apply constants_kind in C'; contradiction| |apply zeros_kind in C'; contradiction].
    exact (int_written_inj _ _ _ W W').
  - inversion H as [s' v' C| |s' v' C|f' s' N U W| | |]; subst;
    inversion H' as [t' v' C'| |t' v' C'|f' t' N' U' W'| | |]; subst.
    + exact (constants_inj _ _ _ C C').
    + elim (constants_zero _ _ _ C C').
    + apply constants_kind in C. contradiction.
    + elim (constants_zero _ _ _ C' C).
    + exact (zeros_inj _ _ _ C C').
    + apply zeros_kind in C as [_ C]. contradiction.
    + apply constants_kind in C'. contradiction.
    + apply zeros_kind in C' as [_ C']. contradiction.
    + exact (p_C63_text_unique _ _ _ W W').
  - inversion H as [s' v' C| |s' v' C| |s' u' W| |]; subst; [apply constants_kind in C; contradiction|apply zeros_kind in C; contradiction|].
    inversion H' as [t' v' C'| |t' v' C'| |t' u' W'| |]; subst; [apply constants_kind in C'; contradiction|apply zeros_kind in C'; contradiction|].
    exact (string_written_inj _ _ _ W W').
  - inversion H as [s' v' C| |s' v' C| | |l' ts W|]; subst; [apply constants_kind in C; contradiction|apply zeros_kind in C; contradiction|].
    inversion H' as [t' v' C'| |t' v' C'| | |l' us W'|]; subst; [apply constants_kind in C'; contradiction|apply zeros_kind in C'; contradiction|].
    assert (E : ts = us); [|now rewrite E]. clear H H'. revert us W'. induction W as [|x t l ts X W IH]; intros us W'; inversion W' as [|x' u l' us' X' W2]; subst; [reflexivity|].
    inversion F as [|x' l' FX FL]; subst. f_equal; [exact (FX _ _ X X')|exact (IH FL _ W2)].
  - inversion H as [s' v' C| |s' v' C| | | |d' ts W]; subst; [apply constants_kind in C; contradiction|apply zeros_kind in C; contradiction|].
    inversion H' as [t' v' C'| |t' v' C'| | | |d' us W']; subst; [apply constants_kind in C'; contradiction|apply zeros_kind in C'; contradiction|].
    assert (E : ts = us); [|now rewrite E]. clear H H'. revert us W'. induction W as [|x t l ts X W IH]; intros us W'; inversion W' as [|x' u l' us' X' W2]; subst; [reflexivity|].
    inversion F as [|x' l' FX FL]; subst. f_equal; [|exact (IH FL _ W2)].
    destruct X as (k & s & K & S & ->), X' as (k' & s' & K' & S' & ->). now rewrite (key_written_inj _ _ _ K K'), (FX _ _ S S').
Qed.
Lemma written_strs v : forall t, written v t -> strs_ok v = true.
Proof.
  induction v as [|b|z|f|x|l F|d F] using val_ind'; intros t H; try reflexivity.
  - inversion H as [s' v' C| |s' v' C| |s' u' W| |]; subst; [apply constants_kind in C; contradiction|apply zeros_kind in C; contradiction|].
    exact (string_written_str_ok _ _ W).
  - inversion H as [s' v' C| |s' v' C| | |l' ts W|]; subst; [apply constants_kind in C; contradiction|apply zeros_kind in C; contradiction|].
    cbn [strs_ok]. clear H. induction W as [|x t l ts X W IH]; [reflexivity|]. inversion F as [|x' l' FX FL]; subst.
    cbn. now rewrite (FX _ X), (IH FL).
  - inversion H as [s' v' C| |s' v' C| | | |d' ts W]; subst; [apply constants_kind in C; contradiction|apply zeros_kind in C; contradiction|].
    cbn [strs_ok]. clear H. induction W as [|x t l ts X W IH]; [reflexivity|]. inversion F as [|x' l' FX FL]; subst.
    destruct X as (k & s & K & S & ->). cbn [forallb]. rewrite (FX _ S), (IH FL), !andb_true_r.
    destruct K as [y u Y|]; [exact (string_written_str_ok _ _ Y)|reflexivity].
Qed.
Lemma p_C64 v t : doubles v -> (json_dumps v = Ok t <-> written v t).
Proof.
  intros D. unfold json_dumps. split.
  - destruct (strs_ok v) eqn:K; [|discriminate]. intros H. injection H as <-. exact (text_written v K D).
  - intros W. pose proof (written_strs v t W) as K. rewrite K. f_equal. exact (written_inj v _ _ (text_written v K D) W).
Qed.

(** ** base64 *)
Lemma char_stands v : 0 <= v < 64 -> stands_for (b64_char v) v.
Proof. intros H. apply stands_for_value. now apply b64_char_ok. Qed.
Lemma stands_inj a b v : stands_for a v -> stands_for b v -> a = b.
Proof.
  rewrite !stands_for_value. intros A B.
  assert (T : forall c, b64_value c = Some v -> c = b64_char v).
  { clear. intros c. destruct c as [[] [] [] [] [] [] [] []]; vm_compute; intros H; try discriminate; injection H as <-; reflexivity. }
  now rewrite (T a A), (T b B).
Qed.
Lemma b64_written_ok s : b64_written s (b64encode s).
Proof.
  induction s as [|x|x y|x y z r IH] using string_ind3; cbn [b64encode].
  - constructor.
  - pose proof (bz_range x). apply (bw_one x _ _ (bz x / 4) (bz x mod 4 * 16)); try apply char_stands; Z.to_euclidean_division_equations; lia.
  - pose proof (bz_range x). pose proof (bz_range y).
    apply (bw_two x y _ _ _ (bz x / 4) (bz x mod 4 * 16 + bz y / 16) (bz y mod 16 * 4)); try apply char_stands; Z.to_euclidean_division_equations; lia.
  - pose proof (bz_range x). pose proof (bz_range y). pose proof (bz_range z).
    apply (bw_three x y z r _ _ _ _ _ (bz x / 4) (bz x mod 4 * 16 + bz y / 16) (bz y mod 16 * 4 + bz z / 64) (bz z mod 64)); try apply char_stands;
      try exact IH; Z.to_euclidean_division_equations; lia.
Qed.
Lemma b64_written_inj s : forall t u, b64_written s t -> b64_written s u -> t = u.
Proof.
  induction s as [|x|x y|x y z r IH] using string_ind3; intros t u H H'.
  - inversion H; inversion H'; reflexivity.
  - inversion H as [| | |x1 a b va vb A B E]; subst. inversion H' as [| | |x2 a' b' va' vb' A' B' E']; subst.
    apply stands_for_range in A as RA. apply stands_for_range in B as RB. apply stands_for_range in A' as RA'. apply stands_for_range in B' as RB'.
    assert (va' = va /\ vb' = vb) as [-> ->] by lia. now rewrite (stands_inj _ _ _ A A'), (stands_inj _ _ _ B B').
  - inversion H as [| |x1 y1 a b c va vb vc A B C E|]; subst. inversion H' as [| |x2 y2 a' b' c' va' vb' vc' A' B' C' E'|]; subst.
    apply stands_for_range in A as RA. apply stands_for_range in B as RB. apply stands_for_range in C as RC.
    apply stands_for_range in A' as RA'. apply stands_for_range in B' as RB'. apply stands_for_range in C' as RC'.
    assert (va' = va /\ vb' = vb /\ vc' = vc) as (-> & -> & ->) by lia.
    now rewrite (stands_inj _ _ _ A A'), (stands_inj _ _ _ B B'), (stands_inj _ _ _ C C').
  - inversion H as [|x1 y1 z1 r1 a b c d t1 va vb vc vd A B C D E W| |]; subst.
    inversion H' as [|x2 y2 z2 r2 a' b' c' d' t2 va' vb' vc' vd' A' B' C' D' E' W'| |]; subst.
    apply stands_for_range in A as RA. apply stands_for_range in B as RB. apply stands_for_range in C as RC. apply stands_for_range in D as RD.
    apply stands_for_range in A' as RA'. apply stands_for_range in B' as RB'. apply stands_for_range in C' as RC'. apply stands_for_range in D' as RD'.
    assert (va' = va /\ vb' = vb /\ vc' = vc /\ vd' = vd) as (-> & -> & -> & ->) by lia.
    now rewrite (stands_inj _ _ _ A A'), (stands_inj _ _ _ B B'), (stands_inj _ _ _ C C'), (stands_inj _ _ _ D D'), (IH _ _ W W').
Qed.
Lemma p_C64_exchange z v s : doubles v -> (encode z v = Ok s <-> exchange_written (compress z) v s).
Proof.
  intros D. unfold encode, exchange_written. split.
  - destruct (json_dumps v) as [t|x] eqn:T; [|discriminate]. intros H. injection H as <-. exists t, (b64encode (compress z t)).
    split; [apply p_C64; assumption|]. split; [apply b64_written_ok|reflexivity].
  - intros (t & b & W & B & ->). apply (p_C64 v t D) in W. rewrite W. cbn. repeat f_equal. exact (b64_written_inj _ _ _ (b64_written_ok _) B).
Qed.
Lemma p_C64_one v s t : written v s -> written v t -> s = t. Proof. apply written_inj. Qed.

(** ** the text is printable ASCII *)
Definition plain (c : ascii) : Prop := printable (bz c).
Lemma digits_plain s : all_chars digit s -> all_chars plain s.
Proof. unfold all_chars. intros H. eapply Forall_impl; [|exact H]. unfold plain, printable, digit. intros c ?. lia. Qed.
Lemma sign_plain sg neg : sign sg neg -> all_chars plain sg.
Proof. intros []; repeat constructor; vm_compute; discriminate. Qed.
Lemma plain_cons c s : plain c -> all_chars plain s -> all_chars plain (String c s).
Proof. intros. apply chars_cons. auto. Qed.
Lemma plain_app a b : all_chars plain a -> all_chars plain b -> all_chars plain (a ++ b).
Proof. intros. apply chars_app. auto. Qed.
Ltac lit := match goal with |- all_chars plain ?s => unfold all_chars; cbn; repeat constructor; vm_compute; discriminate
                          | |- plain _ => unfold plain, printable; vm_compute; split; discriminate end.
Lemma low_hex_plain c v : low_hex c v -> plain c.
Proof. intros [H _]. unfold plain, printable. inversion H; subst; lia. Qed.
Lemma unit_plain n t : unit_written n t -> all_chars plain t.
Proof.
  intros [a b c d i j k l A B C D]. apply low_hex_plain in A, B, C, D.
  apply plain_app; [lit|]. repeat (apply plain_cons; [assumption|]). constructor.
Qed.
Lemma short_plain e n : In (e, n) short_escapes -> plain e.
Proof. cbn. intros H. repeat (destruct H as [H|H]; [injection H as <- <-; lit|]). contradiction. Qed.
Lemma char_plain n t : char_written n t -> all_chars plain t.
Proof.
  intros [e m I|c P N|m u P N U|a b s u A B U1 U2].
  - apply plain_cons; [lit|]. apply plain_cons; [exact (short_plain _ _ I)|constructor].
  - apply plain_cons; [exact P|constructor].
  - exact (unit_plain _ _ U).
  - apply plain_app; eapply unit_plain; eassumption.
Qed.
Lemma chars_plain l t : chars_written l t -> all_chars plain t.
Proof. induction 1; [constructor|]. apply plain_app; [eapply char_plain; eassumption|assumption]. Qed.
Lemma quoted_plain t : all_chars plain t -> all_chars plain (quoted t).
Proof. intros H. apply plain_app; [lit|]. apply plain_app; [exact H|lit]. Qed.
Lemma string_plain s t : string_written s t -> all_chars plain t.
Proof. intros [l u _ C]. apply quoted_plain. exact (chars_plain _ _ C). Qed.
Lemma int_plain z t : int_written z t -> all_chars plain t.
Proof. intros [sg neg i S I _]. apply plain_app; [exact (sign_plain _ _ S)|apply digits_plain, int_part_digits, I]. Qed.
Lemma key_plain k t : key_written k t -> all_chars plain t.
Proof. intros [s u H|z u H]; [exact (string_plain _ _ H)|apply quoted_plain; exact (int_plain _ _ H)]. Qed.
Lemma float_plain f t : float_written f t -> all_chars plain t.
Proof.
  intros (k & m & e & _ & L & _). destruct L as [sg neg i ds S I [_ D] _|sg neg d f0 ds xs esg S D _ FP _ E [_ X] _ _].
  - repeat apply plain_app; [exact (sign_plain _ _ S)|apply digits_plain, int_part_digits, I|lit|now apply digits_plain].
  - repeat apply plain_app; [exact (sign_plain _ _ S)|apply plain_cons; [unfold plain, printable, digit in *; lia|constructor]| |lit| |now apply digits_plain].
    + destruct FP as [|zs [_ Z]]; [constructor|]. apply plain_app; [lit|now apply digits_plain].
    + destruct E as [<-|[<-|[]]]; lit.
Qed.
Lemma concat_plain ts : Forall (all_chars plain) ts -> all_chars plain (String.concat ", " ts).
Proof.
  induction 1 as [|t ts T F IH]; [constructor|]. destruct ts as [|u ts]; [exact T|].
  change (String.concat ", " (t :: u :: ts)) with (t ++ ", " ++ String.concat ", " (u :: ts)).
  apply plain_app; [exact T|]. apply plain_app; [lit|exact IH].
Qed.
Lemma constants_plain t v : In (t, v) constants -> all_chars plain t.
Proof. cbn. intros H. repeat (destruct H as [H|H]; [injection H as <- <-; lit|]). contradiction. Qed.
Lemma zeros_plain t v : In (t, v) zero_texts -> all_chars plain t.
Proof. cbn. intros [E|[E|[]]]; injection E as <- <-; lit. Qed.
Lemma p_C64_ascii v : forall t, written v t -> all_chars plain t.
Proof.
  induction v as [|b|z|f|x|l F|d F] using val_ind'; intros t H;
    inversion H as [s' v' C|z' s' W|s' v' C|f' s' N U W|s' u' W|l' ts W|d' ts W]; subst;
    try (eapply constants_plain; eassumption); try (eapply zeros_plain; eassumption).
  - exact (int_plain _ _ W).
  - exact (float_plain _ _ W).
  - exact (string_plain _ _ W).
  - apply plain_app; [lit|]. apply plain_app; [|lit]. apply concat_plain. clear H.
    induction W as [|y t l ts X W IH]; [constructor|]. inversion F as [|y' l' FX FL]; subst. constructor; [exact (FX _ X)|exact (IH FL)].
  - apply plain_app; [lit|]. apply plain_app; [|lit]. apply concat_plain. clear H.
    induction W as [|y t l ts X W IH]; [constructor|]. inversion F as [|y' l' FX FL]; subst. constructor; [|exact (IH FL)].
    destruct X as (k & s & K & S & ->). apply plain_app; [exact (key_plain _ _ K)|]. apply plain_app; [lit|exact (FX _ S)].
Qed.

(** ** blueprints *)
Lemma p_C64_blueprint z b w w' v s : bp_json b w = (w', Ok v) -> doubles v ->
  (bp_to_string z b w = (w', Ok s) <-> exchange_written (compress z) v s).
Proof.
  intros J D. unfold bp_to_string, mbind. rewrite J. unfold gets. rewrite <- (p_C64_exchange z v s D).
  destruct (encode z v); split; intros H; congruence.
Qed.
Lemma p_C64_blueprint_json b w w' v t : bp_json b w = (w', Ok v) -> doubles v ->
  (bp_to_json_string b w = (w', Ok t) <-> written v t).
Proof.
  intros J D. unfold bp_to_json_string, mbind. rewrite J. unfold gets. rewrite <- (p_C64 v t D).
  destruct (json_dumps v); split; intros H; congruence.
Qed.
