(** * Proofs of the codec properties C01-C05. *)
From Coq Require Import Lia.
From Verif Require Import Py Num Text TextFacts Json SpecCodec JsonFacts JsonTotal Codec.
Open Scope Z_scope.

Definition lossless (z : zlib) : Prop := forall b, decompress z (compress z b) = Some b.

(** C01 *)
Lemma p_C01_roundtrip z v : lossless z -> json_like v ->
  exists s, encode z v = Ok s /\ decode z s = Ok (as_json v).
Proof.
  intros L J. unfold encode, json_dumps. rewrite like_strs_ok by exact J. cbn [bind].
  eexists. split; [reflexivity|]. unfold decode. cbn [Ascii.eqb Bool.eqb].
  unfold decode_0. rewrite b64decode_encode, L.
  destruct (ascii_cps _ (json_text_ascii v J)) as (l & ->). apply loads_text, J.
Qed.

Lemma as_json_id v : str_keys v -> as_json v = v.
Proof.
  induction v as [|b|z|f|s|l F|d F] using val_ind'; try reflexivity; cbn [as_json str_keys]; intros H; f_equal.
  - induction F as [|x l Fx F IH]; [reflexivity|]. destruct H as [H1 H2]. cbn [map]. rewrite Fx, IH; auto.
  - induction F as [|[k x] l Fx F IH]; [reflexivity|]. destruct H as [[s ->] [H1 H2]]. cbn [map fst snd json_key].
    cbn in Fx. rewrite Fx, IH; auto.
Qed.

Lemma as_json_idem v : as_json (as_json v) = as_json v.
Proof.
  apply as_json_id. induction v as [|b|z|f|s|l F|d F] using val_ind'; try exact I; cbn [as_json str_keys].
  - induction F as [|x l Fx F IH]; cbn [map]; auto.
  - induction F as [|[k x] l Fx F IH]; cbn [map fst snd]; [exact I|]. cbn in Fx. eauto.
Qed.

(** C02 *)
Lemma letter_b64 v : 0 <= v < 64 -> letter (b64_char v).
Proof.
  intros H.
  assert (T : forallb (fun n => letterb (b64_char (Z.of_nat n))) (seq 0 64) = true) by (vm_compute; reflexivity).
  rewrite forallb_forall in T. specialize (T (Z.to_nat v)). rewrite in_seq, Z2Nat.id in T by lia.
  specialize (T ltac:(lia)). unfold letterb in T. apply existsb_exists in T as (x & I & E).
  apply Ascii.eqb_eq in E. now subst.
Qed.

Definition b64_shape (s : string) : Prop :=
  exists body pad, s = (body ++ pad)%string /\ all_chars letter body /\ (pad = "" \/ pad = "=" \/ pad = "==") /\
                   exists k, String.length s = (4 * k)%nat.
Lemma all_chars_cons (P : ascii -> Prop) c s : P c -> all_chars P s -> all_chars P (String c s).
Proof. intros. constructor; assumption. Qed.

Lemma b64encode_shape s : b64_shape (b64encode s).
Proof.
  induction s as [|a|a b|a b c r IH] using string_ind3; cbn [b64encode].
  - exists "", "". split; [reflexivity|]. split; [constructor|]. split; [auto|]. now exists 0%nat.
  - pose proof (bz_range a).
    pose proof (Z.div_mod (bz a) 4 ltac:(lia)); pose proof (Z.mod_pos_bound (bz a) 4 ltac:(lia)).
    eexists (String _ (String _ "")), "==". split; [reflexivity|].
    split; [repeat apply all_chars_cons; [apply letter_b64; lia..|constructor]|]. split; [auto|]. now exists 1%nat.
  - pose proof (bz_range a). pose proof (bz_range b).
    pose proof (Z.div_mod (bz a) 4 ltac:(lia)); pose proof (Z.mod_pos_bound (bz a) 4 ltac:(lia)).
    pose proof (Z.div_mod (bz b) 16 ltac:(lia)); pose proof (Z.mod_pos_bound (bz b) 16 ltac:(lia)).
    eexists (String _ (String _ (String _ ""))), "=". split; [reflexivity|].
    split; [repeat apply all_chars_cons; [apply letter_b64; lia..|constructor]|]. split; [auto|]. now exists 1%nat.
  - pose proof (bz_range a). pose proof (bz_range b). pose proof (bz_range c).
    pose proof (Z.div_mod (bz a) 4 ltac:(lia)); pose proof (Z.mod_pos_bound (bz a) 4 ltac:(lia)).
    pose proof (Z.div_mod (bz b) 16 ltac:(lia)); pose proof (Z.mod_pos_bound (bz b) 16 ltac:(lia)).
    pose proof (Z.div_mod (bz c) 64 ltac:(lia)); pose proof (Z.mod_pos_bound (bz c) 64 ltac:(lia)).
    destruct IH as (body & pad & E & A & P & k & K). rewrite E in *.
    eexists (String _ (String _ (String _ (String _ body)))), pad. split; [reflexivity|].
    split; [repeat apply all_chars_cons; [apply letter_b64; lia..|exact A]|]. split; [exact P|].
    exists (S k). cbn. rewrite K. lia.
Qed.

Lemma p_C02_shape z v s : encode z v = Ok s ->
  exists body pad, s = String "0" (body ++ pad) /\ all_chars letter body /\
                   (pad = "" \/ pad = "=" \/ pad = "==") /\ (String.length s mod 4 = 1)%nat /\
                   all_chars ascii_char s.
Proof.
  unfold encode. intros H. destruct (json_dumps v) as [t|e]; [|discriminate]. cbn [bind] in H. inversion H; subst.
  destruct (b64encode_shape (compress z t)) as (body & pad & E & A & P & k & K). exists body, pad. rewrite E in *.
  split; [reflexivity|]. split; [exact A|]. split; [exact P|]. cbn [String.length]. rewrite K. split.
  - replace (S (4 * k)) with (1 + k * 4)%nat by lia. rewrite Nat.mod_add by lia. reflexivity.
  - apply all_chars_cons; [reflexivity|]. rewrite <- E. pose proof (b64encode_ascii (compress z t)) as As.
    revert As. generalize (b64encode (compress z t)). induction s as [|c s IH]; intros As; [constructor|].
    cbn [ascii_only] in As. apply andb_true_iff in As as [A1 A2]. apply all_chars_cons; [|auto].
    apply Z.ltb_lt in A1. unfold bz in A1. unfold ascii_char. lia.
Qed.

(** C03 *)
Lemma p_C03_injective z a b : lossless z -> json_like a -> json_like b ->
  (encode z a = encode z b <-> as_json a = as_json b).
Proof.
  intros L Ja Jb. split; intros H.
  - destruct (p_C01_roundtrip z a L Ja) as (s & E1 & D1). destruct (p_C01_roundtrip z b L Jb) as (t & E2 & D2).
    rewrite H, E2 in E1. inversion E1; subst. congruence.
  - unfold encode, json_dumps. rewrite !like_strs_ok by assumption. cbn [bind].
    now rewrite <- (json_text_as_json a), H, json_text_as_json.
Qed.

(** C04 *)
Lemma letterb_value c : letterb c = match b64_value c with Some _ => true | None => false end.
Proof. destruct c as [[] [] [] [] [] [] [] []]; vm_compute; reflexivity. Qed.
Lemma letterb_letter c : letterb c = true <-> letter c.
Proof.
  unfold letterb, letter. rewrite existsb_exists. split.
  - intros (x & I & E). apply Ascii.eqb_eq in E. now subst.
  - intros I. exists c. split; [exact I|apply Ascii.eqb_refl].
Qed.
Lemma letter_value c : letter c -> exists v, b64_value c = Some v.
Proof. intros H. apply letterb_letter in H. rewrite letterb_value in H. destruct (b64_value c); [eauto|discriminate]. Qed.
Lemma value_letter c v : b64_value c = Some v -> letter c.
Proof. intros H. apply letterb_letter. rewrite letterb_value, H. reflexivity. Qed.
Lemma letter_not_pad c : letter c -> Ascii.eqb c "=" = false.
Proof. intros H. apply Ascii.eqb_neq. intros ->. apply letterb_letter in H. discriminate. Qed.

Lemma a2b_without_junk s : forall q l p, a2b (without_junk s) q l p = a2b s q l p.
Proof.
  induction s as [|c s IH]; intros q l p; [reflexivity|]. cbn [without_junk a2b]. rewrite letterb_value.
  destruct (Ascii.eqb c "=") eqn:E.
  - rewrite orb_true_r. cbn [a2b]. rewrite E, !IH. reflexivity.
  - rewrite orb_false_r. destruct (b64_value c) eqn:V; [|apply IH].
    cbn [a2b]. rewrite E, V. destruct q as [|[|[|q]]]; rewrite IH; reflexivity.
Qed.

Lemma a2b_equals n : forall s q l p, (q < 2)%nat -> a2b (equals n ++ s) q l p = a2b s q l p.
Proof.
  induction n as [|n IH]; intros s q l p H; [reflexivity|]. cbn [equals append a2b Ascii.eqb Bool.eqb].
  rewrite (proj2 (Nat.leb_gt 2 q)) by lia. apply IH, H.
Qed.

Definition accepts (s : string) (q : nat) (p : Z) : Prop := forall l, a2b s q l p <> None.
Lemma omap_none {A B} (f : A -> B) o : option_map f o <> None <-> o <> None.
Proof. destruct o; cbn; split; congruence. Qed.

Lemma a2b_left s : forall q l l' p, a2b s q l p <> None -> a2b s q l' p <> None.
Proof.
  induction s as [|c s0 IH]; intros q m m' p0; cbn [a2b]; [auto|].
  destruct (Ascii.eqb c "="); [destruct (Nat.leb 2 q); [destruct (4 <=? _); [discriminate|]|]; apply IH|].
  destruct (b64_value c); [|apply IH]. destruct q as [|[|[|q]]]; auto; rewrite !omap_none; auto.
Qed.
Lemma accepts_any s q l p : accepts s q p <-> a2b s q l p <> None.
Proof. split; [auto|]. intros H l'. apply (a2b_left s q l l' p H). Qed.

Lemma accepts_letter a s q p : letter a -> (q < 4)%nat ->
  (accepts (String a s) q p <-> accepts s (if Nat.eqb q 3 then 0 else S q) 0).
Proof.
  intros H Hq. destruct (letter_value a H) as (v & V).
  rewrite (accepts_any (String a s) q 0 p). cbn [a2b]. rewrite letter_not_pad, V by exact H.
  destruct q as [|[|[|[|q]]]]; [| | | |lia]; cbn [Nat.eqb]; rewrite ?omap_none, <- accepts_any; reflexivity.
Qed.

Lemma body_accepts s : b64_body s -> accepts s 0 0.
Proof.
  assert (E : forall n s q p, (q < 2)%nat -> accepts s q p -> accepts (equals n ++ s) q p).
  { intros n s0 q p Hq H l. rewrite a2b_equals by exact Hq. apply H. }
  assert (E1 : forall k s, (k <= 1)%nat -> accepts s 2 0 -> accepts s 2 1 -> accepts (equals k ++ s) 2 0).
  { intros k s0 Hk H0 H1. destruct k as [|[|k]]; [exact H0| |lia]. intros l. cbn. apply H1. }
  induction 1 as [n|n m k a b c d r Hk La Lb Lc Ld _ IH|n m a b r La Lb|n m k a b c r Hk La Lb Lc].
  - rewrite <- (append_nil_r (equals n)). apply E; [lia|]. intros l. discriminate.
  - apply E, accepts_letter; [lia|exact La|lia|]. cbn [Nat.eqb].
    apply E, accepts_letter; [lia|exact Lb|lia|]. cbn [Nat.eqb].
    apply E1; [exact Hk| |]; apply accepts_letter; try assumption; try lia; cbn [Nat.eqb];
      apply accepts_letter; try assumption; try lia; exact IH.
  - apply E, accepts_letter; [lia|exact La|lia|]. cbn [Nat.eqb].
    apply E, accepts_letter; [lia|exact Lb|lia|]. intros l. cbn. discriminate.
  - apply E, accepts_letter; [lia|exact La|lia|]. cbn [Nat.eqb].
    apply E, accepts_letter; [lia|exact Lb|lia|]. cbn [Nat.eqb].
    apply E1; [exact Hk| |]; apply accepts_letter; try assumption; try lia; intros l; cbn; discriminate.
Qed.

(** the language accepted from the middle of a group *)
Definition tail3 (s : string) : Prop := (exists r, s = String "=" r) \/ exists d r, s = String d r /\ letter d /\ b64_body r.
Definition tail2 (p : nat) (s : string) : Prop :=
  (exists r, s = (equals (2 - p) ++ r)%string) \/
  exists k c r, s = (equals k ++ String c r)%string /\ (k + p <= 1)%nat /\ letter c /\ tail3 r.
Definition tail1 (s : string) : Prop := exists m b r, s = (equals m ++ String b r)%string /\ letter b /\ tail2 0 r.

Lemma tail_body n a s : letter a -> tail1 s -> b64_body (equals n ++ String a s).
Proof.
  intros La (m & b & r & -> & Lb & [[r' ->]|(k & c & r' & -> & Hk & Lc & [[q ->]|(d & q & -> & Ld & B)])]).
  - apply bb_pad2; assumption.
  - apply bb_pad1; try assumption. lia.
  - apply bb_group; try assumption. lia.
Qed.

Lemma body_equals s : b64_body s -> b64_body (String "=" s).
Proof.
  intros H. inversion H; subst.
  - apply (bb_end (S n)).
  - apply (bb_group (S n)); assumption.
  - apply (bb_pad2 (S n)); assumption.
  - apply (bb_pad1 (S n)); assumption.
Qed.

Lemma accepts_body s : without_junk s = s ->
  (accepts s 0 0 -> b64_body s) /\ (accepts s 1 0 -> tail1 s) /\
  (accepts s 2 0 -> tail2 0 s) /\ (accepts s 2 1 -> tail2 1 s) /\ (accepts s 3 0 -> tail3 s).
Proof.
  induction s as [|c s IH]; intros W.
  - repeat split; intros H; try (now elim (H 0)). apply (bb_end 0).
  - assert (Hc : letterb c || Ascii.eqb c "=" = true /\ without_junk s = s).
    { cbn [without_junk] in W. destruct (letterb c || Ascii.eqb c "=") eqn:E; [inversion W as [W']; rewrite W'; auto|].
      exfalso. assert (K : (String.length (without_junk s) <= String.length s)%nat).
      { clear. induction s as [|d s IH]; cbn [without_junk]; [lia|]. destruct (_ || _); cbn; lia. }
      rewrite W in K. cbn in K. lia. }
    destruct Hc as [Hc W']. destruct (IH W') as (I0 & I1 & I2 & I21 & I3). clear IH.
    apply orb_true_iff in Hc as [Hc|Hc].
    + apply letterb_letter in Hc. repeat split; intros H; apply accepts_letter in H; try assumption; try lia; cbn [Nat.eqb] in H.
      * apply (tail_body 0); auto.
      * exists 0%nat, c, s. auto.
      * right. exists 0%nat, c, s. auto.
      * right. exists 0%nat, c, s. auto.
      * right. exists c, s. auto.
    + apply Ascii.eqb_eq in Hc. subst c. repeat split; intros H.
      * apply body_equals, I0. intros l. apply (H l).
      * destruct I1 as (m & b & r & -> & Hb & T); [intros l; apply (H l)|]. exists (S m), b, r. auto.
      * destruct I21 as [(r & ->)|(k & c & r & -> & Hk & Lc & T)]; [intros l; apply (H l)| |].
        -- left. exists r. reflexivity.
        -- right. exists (S k), c, r. repeat split; auto. lia.
      * left. exists s. reflexivity.
      * left. exists s. reflexivity.
Qed.

Lemma without_junk_idem s : without_junk (without_junk s) = without_junk s.
Proof.
  induction s as [|c s IH]; [reflexivity|]. cbn [without_junk]. destruct (letterb c || Ascii.eqb c "=") eqn:E; [|exact IH].
  cbn [without_junk]. now rewrite E, IH.
Qed.

Lemma a2b_accepts s : a2b s 0 0 0 <> None <-> b64_body (without_junk s).
Proof.
  rewrite <- a2b_without_junk, <- accepts_any. split.
  - apply accepts_body, without_junk_idem.
  - apply body_accepts.
Qed.

Lemma ascii_only_all s : ascii_only s = true <-> all_chars ascii_char s.
Proof.
  induction s as [|c s IH]; [split; [constructor|reflexivity]|]. cbn [ascii_only]. unfold all_chars in *.
  cbn [list_ascii_of_string]. rewrite andb_true_iff, IH, Forall_cons_iff, Z.ltb_lt. unfold bz, ascii_char.
  split; intros [H1 H2]; split; auto; lia.
Qed.

Lemma p_C04_empty z : decode z "" = Err EIndex.
Proof. reflexivity. Qed.
Lemma p_C04_version z c body : c <> "0"%char -> decode z (String c body) = Err EInvalidExchangeString.
Proof. intros H. unfold decode. rewrite (proj2 (Ascii.eqb_neq _ _)) by exact H. reflexivity. Qed.
Lemma p_C04_non_ascii z body : ~ all_chars ascii_char body -> decode z (String "0" body) = Err EValue.
Proof.
  intros H. rewrite <- ascii_only_all in H. unfold decode, decode_0, b64decode. cbn [Ascii.eqb Bool.eqb].
  destruct (ascii_only body); [now elim H|reflexivity].
Qed.
Lemma p_C04_base64 z body : all_chars ascii_char body -> ~ b64_body (without_junk body) ->
  decode z (String "0" body) = Err EInvalidExchangeString.
Proof.
  intros H. rewrite <- ascii_only_all in H. rewrite <- a2b_accepts. intros N.
  unfold decode, decode_0, b64decode. cbn [Ascii.eqb Bool.eqb]. rewrite H.
  destruct (a2b body 0 0 0); [|reflexivity]. exfalso. apply N. discriminate.
Qed.
Lemma p_C04_rest z body : all_chars ascii_char body -> b64_body (without_junk body) ->
  exists bytes, b64decode body = Ok bytes /\
    (decompress z bytes = None -> decode z (String "0" body) = Err EInvalidExchangeString) /\
    (forall t, decompress z bytes = Some t -> cps false t = None -> decode z (String "0" body) = Err EUnicodeDecode) /\
    (forall t l, decompress z bytes = Some t -> cps false t = Some l ->
       decode z (String "0" body) = json_loads t /\
       ((exists v, json_loads t = Ok v) \/ json_loads t = Err EJSONDecode)).
Proof.
  intros H B. rewrite <- ascii_only_all in H. rewrite <- a2b_accepts in B.
  unfold decode, decode_0, b64decode. cbn [Ascii.eqb Bool.eqb]. rewrite H.
  destruct (a2b body 0 0 0) as [bytes|]; [|now elim B]. exists bytes. split; [reflexivity|].
  split; [intros ->; reflexivity|]. split; [intros t -> ->; reflexivity|]. intros t l -> ->. split; [reflexivity|].
  destruct (json_loads t) as [v|e] eqn:E; [eauto|]. right. now rewrite (loads_error t e E).
Qed.
Lemma p_C04_only z s e : decode z s = Err e ->
  e = EInvalidExchangeString \/ e = EIndex \/ e = EValue \/ e = EUnicodeDecode \/ e = EJSONDecode.
Proof.
  unfold decode, decode_0, b64decode. destruct s as [|c body]; [intros H; inversion H; auto|].
  destruct (Ascii.eqb c "0"); [|intros H; inversion H; auto].
  destruct (ascii_only body); [|intros H; inversion H; auto].
  destruct (a2b body 0 0 0) as [b|]; [|intros H; inversion H; auto].
  destruct (decompress z b) as [t|]; [|intros H; inversion H; auto].
  destruct (cps false t); [|intros H; inversion H; auto].
  intros H. rewrite (loads_error _ _ H). auto.
Qed.

(** C05 *)
Lemma without_junk_app a b : without_junk (a ++ b) = (without_junk a ++ without_junk b)%string.
Proof.
  induction a as [|c a IH]; [reflexivity|]. cbn [append without_junk]. rewrite IH. destruct (_ || _); reflexivity.
Qed.
Lemma without_junk_junk j : all_chars junk j -> without_junk j = "".
Proof.
  unfold all_chars. induction j as [|c j IH]; [reflexivity|]. cbn [list_ascii_of_string without_junk].
  intros H. apply Forall_cons_iff in H as [(A & L & N) H]. rewrite <- letterb_letter in L.
  rewrite (proj2 (Ascii.eqb_neq _ _) N). destruct (letterb c); [now elim L|]. apply IH, H.
Qed.
Lemma p_C05_junk z a j b : all_chars junk j ->
  decode z (String "0" (a ++ j ++ b)) = decode z (String "0" (a ++ b)).
Proof.
  intros J. unfold decode, decode_0, b64decode. cbn [Ascii.eqb Bool.eqb]. rewrite !ascii_app.
  assert (A : ascii_only j = true).
  { apply ascii_only_all. unfold all_chars in *. eapply Forall_impl; [|exact J]. intros c (H & _). exact H. }
  rewrite A. cbn [andb].
  rewrite <- (a2b_without_junk (a ++ j ++ b)), <- (a2b_without_junk (a ++ b)), !without_junk_app, (without_junk_junk j) by exact J.
  reflexivity.
Qed.
Lemma p_C05_letters z a b : all_chars ascii_char a -> all_chars ascii_char b -> without_junk a = without_junk b ->
  decode z (String "0" a) = decode z (String "0" b).
Proof.
  intros A B E. rewrite <- ascii_only_all in A, B. unfold decode, decode_0, b64decode. cbn [Ascii.eqb Bool.eqb].
  rewrite A, B, <- (a2b_without_junk a), E, a2b_without_junk. reflexivity.
Qed.
