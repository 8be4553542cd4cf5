(** * What decoding yields: JSON documents with string keys, which can be encoded again. *)
From Coq Require Import Lia.
From Verif Require Import Py Num Text TextFacts Json JsonFacts JsonTotal RoundFacts SpecCodec Codec CodecProofs DictFacts.
Open Scope Z_scope.

(** ** Strings *)
Definition valid (s : string) : Prop := exists l, cps false s = Some l.
Lemma valid_tail c r : bz c < 128 -> valid (String c r) -> valid r.
Proof.
  intros B (l & E). cbn [cps] in E. rewrite (proj2 (Z.ltb_lt _ _) B) in E. apply ocons_some in E as (l' & E & _). exists l'. exact E.
Qed.
Lemma scan_byte f b r : 128 <= bz b -> scan_str (S f) (String b r) = pre (String b "") (scan_str f r).
Proof.
  intros B. cbn [scan_str]. destruct (Ascii.eqb_spec b """"); [subst; cbn in B; lia|]. destruct (Ascii.eqb_spec b "\"); [subst; cbn in B; lia|].
  rewrite (proj2 (Z.ltb_ge _ _)) by lia. reflexivity.
Qed.
Lemma pre_some p o t q : pre p o = Some (t, q) -> exists t', o = Some (t', q) /\ t = (p ++ t')%string.
Proof. destruct o as [[a b]|]; [|discriminate]. intros [= <- <-]. eauto. Qed.
Lemma scan_high f b r t q : 128 <= bz b -> scan_str f (String b r) = Some (t, q) ->
  exists f' t', (f' < f)%nat /\ scan_str f' r = Some (t', q) /\ t = String b t'.
Proof.
  intros B H. destruct f as [|f]; [discriminate|]. rewrite scan_byte in H by auto. apply pre_some in H as (t' & H & ->). exists f, t'. auto.
Qed.
Lemma bz_zb_high z : 128 <= z < 256 -> 128 <= bz (zb z). Proof. intros. rewrite bz_zb by lia. lia. Qed.
Lemma scan_utf8 f c r t q : 128 <= c <= 1114111 -> scan_str f (utf8 c ++ r)%string = Some (t, q) ->
  exists f' t', (f' < f)%nat /\ scan_str f' r = Some (t', q) /\ t = (utf8 c ++ t')%string.
Proof.
  intros Hc H. unfold utf8 in *. rewrite (proj2 (Z.ltb_ge c 128)) in * by lia.
  assert (M : forall x, 128 <= 128 + x mod 64 < 256) by (intros; pose proof (Z.mod_pos_bound x 64 ltac:(lia)); lia).
  destruct (c <? 2048) eqn:E1; [|destruct (c <? 65536) eqn:E2]; cbn [String.append] in *;
    rewrite ?Z.ltb_lt, ?Z.ltb_ge in *.
  - assert (0 <= c / 64 < 32) by (split; [apply Z.div_pos|apply Z.div_lt_upper_bound]; lia).
    apply scan_high in H as (f1 & t1 & L1 & H & ->); [|apply bz_zb_high; lia].
    apply scan_high in H as (f2 & t2 & L2 & H & ->); [|apply bz_zb_high, M]. exists f2, t2. repeat split; auto. lia.
  - assert (0 <= c / 4096 < 16) by (split; [apply Z.div_pos|apply Z.div_lt_upper_bound]; lia).
    apply scan_high in H as (f1 & t1 & L1 & H & ->); [|apply bz_zb_high; lia].
    apply scan_high in H as (f2 & t2 & L2 & H & ->); [|apply bz_zb_high, M].
    apply scan_high in H as (f3 & t3 & L3 & H & ->); [|apply bz_zb_high, M]. exists f3, t3. repeat split; auto. lia.
  - assert (0 <= c / 262144 < 8) by (split; [apply Z.div_pos|apply Z.div_lt_upper_bound]; lia).
    apply scan_high in H as (f1 & t1 & L1 & H & ->); [|apply bz_zb_high; lia].
    apply scan_high in H as (f2 & t2 & L2 & H & ->); [|apply bz_zb_high, M].
    apply scan_high in H as (f3 & t3 & L3 & H & ->); [|apply bz_zb_high, M].
    apply scan_high in H as (f4 & t4 & L4 & H & ->); [|apply bz_zb_high, M]. exists f4, t4. repeat split; auto. lia.
Qed.
Lemma hex_ascii c n : hex_val c = Some n -> bz c < 128 /\ 0 <= n < 16.
Proof.
  unfold hex_val. destruct (between 48 (bz c) 57) eqn:A; [apply between_true in A; intros [= <-]; lia|].
  destruct (between 97 (bz c) 102) eqn:B; [apply between_true in B; intros [= <-]; lia|].
  destruct (between 65 (bz c) 70) eqn:C; [apply between_true in C; intros [= <-]; lia|discriminate].
Qed.
Lemma hex4_valid s n q : hex4 s = Some (n, q) -> valid s -> valid q /\ 0 <= n < 65536.
Proof.
  unfold hex4. destruct s as [|a [|b [|c [|d r]]]]; try discriminate.
  destruct (hex_val a) eqn:A; [|discriminate]. destruct (hex_val b) eqn:B; [|discriminate]. destruct (hex_val c) eqn:C; [|discriminate].
  destruct (hex_val d) eqn:D; [|discriminate]. intros [= <- <-] V. apply hex_ascii in A, B, C, D.
  split; [|lia]. repeat (apply valid_tail in V; [|tauto]). exact V.
Qed.
Definition low_head (l : list Z) : Prop := match l with c :: _ => is_low c = true | [] => False end.
Definition low_esc (s : string) : Prop := exists r n q, s = String "\" (String "u" r) /\ hex4 r = Some (n, q) /\ is_low n = true.
Definition scanned (s t q : string) : Prop :=
  valid q /\ exists l, t = utf8s l /\ Forall code_point l /\ no_surrogate_pair l /\ (low_head l -> low_esc s).
Lemma scanned_cons s c r t q : is_cp c -> (is_high c = true -> ~ low_esc r) -> (is_low c = true -> low_esc s) ->
  scanned r t q -> scanned s (utf8 c ++ t)%string q.
Proof.
  intros Hc Hh Hl (V & l & -> & F & N & L). split; auto. exists (c :: l). split; [reflexivity|]. split; [constructor; auto|]. split; [|exact Hl].
  destruct l as [|d l]; [exact I|]. split; auto. intros [A B]. apply Hh; [apply between_true; lia|]. apply L. apply between_true. exact B.
Qed.
Lemma ascii_utf8 c : bz c < 128 -> String c "" = utf8 (bz c).
Proof. intros B. unfold utf8. rewrite (proj2 (Z.ltb_lt _ _) B), zb_bz. reflexivity. Qed.
Lemma scan_str_text f : forall s t q, valid s -> scan_str f s = Some (t, q) -> scanned s t q.
Proof.
  induction f as [f IH] using (well_founded_induction Wf_nat.lt_wf). intros s t q V H.
  destruct V as (l & E). destruct (cps_cases false s l E) as [[-> ->]|(c & r & l' & Es & El & Er & Hc & Hs & _)]; [destruct f; discriminate|].
  assert (Vr : valid r) by (exists l'; exact Er). destruct (Hs eq_refl) as [NH NL].
  destruct (Z.le_gt_cases 128 c) as [G|L].
  { rewrite Es in H |- *. apply scan_utf8 in H as (f' & t' & Lf & H & ->); [|unfold is_cp in Hc; lia].
    apply (scanned_cons _ c r); auto; [congruence|congruence|]. eapply IH; eauto. }
  assert (Eu : utf8 c = String (zb c) "") by (unfold utf8; rewrite (proj2 (Z.ltb_lt _ _) L); reflexivity).
  rewrite Eu in Es. cbn [String.append] in Es. subst s l. clear E. destruct f as [|f]; [discriminate|]. cbn [scan_str] in H.
  assert (Bc : bz (zb c) = c) by (apply bz_zb; unfold is_cp in Hc; lia).
  destruct (Ascii.eqb_spec (zb c) """") as [Q|NQ].
  { injection H as <- <-. split; auto. exists []. repeat split; auto. intros []. }
  destruct (Ascii.eqb_spec (zb c) "\") as [BS|NB].
  - destruct r as [|e r]; [discriminate|]. destruct (Ascii.eqb_spec e "u") as [->|NU].
    + apply valid_tail in Vr; [|cbn; lia]. destruct (hex4 r) as [[n r']|] eqn:E4; [|discriminate].
      destruct (hex4_valid _ _ _ E4 Vr) as [Vr' Hn]. rewrite BS.
      assert (GO : (is_high n = true -> ~ low_esc r') -> pre (utf8 n) (scan_str f r') = Some (t, q) -> scanned (String "\" (String "u" r)) t q).
      { intros NN P. apply pre_some in P as (t' & P & ->). apply (scanned_cons _ n r'); auto; [unfold is_cp; lia| |eapply IH; eauto].
        intros Ln. exists r, n, r'. auto. }
      destruct (is_high n) eqn:Hi; [|apply GO; [discriminate|exact H]].
      destruct r' as [|b [|u q0]]; [apply GO; [intros _ (? & ? & ? & ? & _); discriminate|exact H]|apply GO; [intros _ (? & ? & ? & ? & _); discriminate|exact H]|].
      destruct (Ascii.eqb_spec b "\") as [->|N1]; cbn [andb] in H; [|apply GO; [intros _ (? & ? & ? & K & _); congruence|exact H]].
      destruct (Ascii.eqb_spec u "u") as [->|N2]; [|apply GO; [intros _ (? & ? & ? & K & _); congruence|exact H]].
      destruct (hex4 q0) as [[n2 q1]|] eqn:E5; [|discriminate].
      assert (Vq : valid q0) by (apply valid_tail in Vr'; [|cbn; lia]; apply valid_tail in Vr'; [|cbn; lia]; exact Vr').
      destruct (hex4_valid _ _ _ E5 Vq) as [Vq1 Hn2].
      destruct (is_low n2) eqn:Lo; [|apply GO; [intros _ (? & ? & ? & K & K2 & K3); injection K as <-; rewrite E5 in K2; congruence|exact H]].
      apply between_true in Hi, Lo. apply pre_some in H as (t' & P & ->).
      apply (scanned_cons _ _ q1); [unfold is_cp; lia| | |eapply IH; eauto]; intros K; apply between_true in K; lia.
    + destruct (simple_escape e) as [x|] eqn:SE; [|discriminate]. apply pre_some in H as (t' & P & ->).
      assert (X : bz x < 128 /\ bz e < 128).
      { destruct e as [[] [] [] [] [] [] [] []]; try discriminate SE; injection SE as <-; cbn; lia. }
      rewrite (ascii_utf8 x) by tauto. apply valid_tail in Vr; [|tauto]. pose proof (bz_range x).
      apply (scanned_cons _ _ r); [unfold is_cp; lia| | |eapply IH; eauto]; intros K; apply between_true in K; lia.
  - destruct (bz (zb c) <? 32); [discriminate|]. apply pre_some in H as (t' & P & ->). rewrite (ascii_utf8 (zb c)) by lia. rewrite Bc.
    apply (scanned_cons _ _ r); auto; try congruence. eapply IH; eauto.
Qed.
Lemma scan_string_like s t q : valid s -> scan_string s = Some (t, q) -> valid q /\ text t.
Proof. intros V H. destruct (scan_str_text _ _ _ _ V H) as (Vq & l & -> & F & N & _). split; auto. exists l. auto. Qed.

(** ** Values *)
Lemma valid_ws s : valid s -> valid (ws s).
Proof.
  induction s as [|c r IH]; cbn [ws]; auto. intros V. destruct (is_jws c) eqn:W; auto. apply IH. apply (valid_tail c); auto.
  unfold is_jws in W. repeat (apply orb_true_iff in W as [W|W]); apply Ascii.eqb_eq in W; subst; cbn; lia.
Qed.
Lemma valid_ascii_app p : forall s, ascii_only p = true -> valid (p ++ s)%string -> valid s.
Proof.
  induction p as [|c p IH]; cbn [String.append ascii_only]; auto. intros s P V. apply andb_true_iff in P as [P1 P2]. apply Z.ltb_lt in P1.
  apply IH; auto. apply (valid_tail c); auto.
Qed.
Lemma strip_app p : forall s q, strip p s = Some q -> s = (p ++ q)%string.
Proof.
  induction p as [|c p IH]; intros s q H; [destruct s; cbn in *; congruence|]. destruct s as [|b s]; [discriminate|]. cbn [strip] in H.
  destruct (Ascii.eqb_spec c b); [|discriminate]. subst. cbn. rewrite (IH _ _ H). reflexivity.
Qed.
Definition fine (v : val) : Prop := json_like v /\ str_keys v.
Definition fined (d : dict) : Prop :=
  NoDup (map fst d) /\ Forall (fun kv => (exists s, fst kv = KS s /\ text s) /\ fine (snd kv)) d.
Lemma fined_dict d : fined d -> fine (VDict d).
Proof.
  intros [N F]. split.
  - apply dict_like. split.
    + replace (map (fun kv => json_key (fst kv)) d) with (map json_key (map fst d)) by (rewrite map_map; reflexivity).
      clear -N F. induction d as [|[k v] d IH]; cbn [map fst] in *; [constructor|]. inversion N; subst. inversion F as [|? ? [(s & E & _) _] F']; subst. cbn in E. subst k.
      constructor; [|apply IH; auto]. intros C. apply in_map_iff in C as (k' & Ek & C). apply H1. apply in_map_iff in C as ((k2, v2) & <- & C).
      rewrite Forall_forall in F'. destruct (F' _ C) as [(s' & E' & _) _]. cbn in E'. subst k2. cbn in Ek. subst s'. apply in_map_iff. exists (KS s, v2). auto.
    + clear -F. induction F as [|[k v] d [(s & E & T) [J _]] F IH]; cbn in *; auto. subst k. cbn. auto.
  - clear -F. induction F as [|[k v] d [(s & E & T) [_ K]] F IH]; cbn in *; auto. subst k. split; [eauto|auto].
Qed.
Lemma fined_set (k : string) v d : text k -> fine v -> fined d -> fined (dset k v d).
Proof.
  intros T V [N F]. induction d as [|[k' v'] d IH]; cbn [dset].
  - split; [cbn; constructor; [intros []|constructor]|]. constructor; [|constructor]. cbn. split; [exists k; auto|auto].
  - inversion N as [|? ? N1 N2]; subst. inversion F as [|? ? F1 F2]; subst. destruct (key_eqb k k') eqn:Q.
    + split; [constructor; auto|constructor; auto]. destruct F1 as [K _]. split; auto.
    + destruct (IH N2 F2) as [N3 F3]. split; [|constructor; auto]. cbn [map fst] in *. constructor; auto.
      intros C. apply N1. clear -C Q. induction d as [|[k2 v2] d IH]; cbn [dset map fst] in *.
      * destruct C as [C|[]]. subst k'. rewrite key_eqb_refl in Q. discriminate.
      * destruct (key_eqb k k2); cbn [map fst] in *; destruct C as [C|C]; cbn [In]; auto.
Qed.
Lemma scan_literal_fine l s v q : Forall (fun tv => ascii_only (fst tv) = true /\ fine (snd tv)) l -> valid s -> scan_literal l s = Some (v, q) -> valid q /\ fine v.
Proof.
  intros F V. induction F as [|[t u] l [A B] F IH]; cbn [scan_literal]; [discriminate|]. destruct (strip t s) as [q'|] eqn:E; auto.
  intros [= <- <-]. split; auto. apply strip_app in E. rewrite E in V. eapply valid_ascii_app; eauto.
Qed.
Lemma literals_fine : Forall (fun tv => ascii_only (fst tv) = true /\ fine (snd tv)) literals.
Proof. repeat (constructor; [split; [reflexivity|split; cbn; auto; reflexivity]|]). constructor. Qed.
Lemma tok_fine t : fine (tok_value t).
Proof. unfold tok_value. split; destruct (nt_frac t), (nt_exp t); cbn [json_like str_keys]; auto; apply float_of_dec_valid. Qed.
Lemma fine_list l : Forall fine l -> fine (VList l).
Proof. intros F. split; induction F as [|x l [A B] F IH]; cbn in *; auto. Qed.

Definition outcome {A} (P : A -> Prop) (r : res (A * string)) : Prop := match r with Ok (a, q) => P a /\ valid q | Err _ => True end.
Lemma parse_fine n :
  (forall s, valid s -> outcome fine (pval n s)) /\
  (forall s, valid s -> outcome (Forall fine) (parr n s)) /\
  (forall acc s, fined acc -> valid s -> outcome fined (pobj n acc s)).
Proof.
  assert (AT : forall c r, valid (String c r) -> (bz c <? 128) = true -> valid r) by (intros c r V B; apply (valid_tail c); auto; apply Z.ltb_lt; auto).
  induction n as [|n (IHv & IHa & IHo)]; [repeat split; intros; exact I|]. split; [|split].
  - intros s V. cbn [pval]. destruct s as [|c r]; [exact I|].
    destruct (Ascii.eqb_spec c """") as [->|N1].
    { destruct (scan_string r) as [[t q]|] eqn:E; [|exact I]. apply scan_string_like in E as [Vq T]; [|apply (AT _ _ V); reflexivity]. split; [split; cbn; auto|auto]. }
    destruct (Ascii.eqb_spec c "[") as [->|N2].
    { apply AT in V; [|reflexivity]. apply valid_ws in V.
      assert (K : outcome fine (let! (l, q) := parr n (ws r) in Ok (VList l, q))).
      { pose proof (IHa (ws r) V) as G. destruct (parr n (ws r)) as [[l q]|e]; [|exact I]. destruct G. split; [apply fine_list|]; auto. }
      destruct (ws r) as [|c' q] eqn:E; [exact K|].
      destruct c' as [[] [] [] [] [] [] [] []]; try exact K. split; [split; exact I|]. apply (AT _ _ V). reflexivity. }
    destruct (Ascii.eqb_spec c "{") as [->|N3].
    { apply AT in V; [|reflexivity]. apply valid_ws in V.
      assert (K : outcome fine (let! (l, q) := pobj n [] (ws r) in Ok (VDict l, q))).
      { pose proof (IHo [] (ws r) ltac:(split; constructor) V) as G. destruct (pobj n [] (ws r)) as [[l q]|e]; [|exact I]. destruct G. split; [apply fined_dict|]; auto. }
      destruct (ws r) as [|c' q] eqn:E; [exact K|].
      destruct c' as [[] [] [] [] [] [] [] []]; try exact K. split; [apply fined_dict; split; constructor|]. apply (AT _ _ V). reflexivity. }
    destruct (scan_literal literals (String c r)) as [[v q]|] eqn:E.
    { apply (scan_literal_fine _ _ _ _ literals_fine V) in E as [A B]. split; auto. }
    destruct (scan_number (String c r)) as [[t q]|] eqn:F; [|exact I].
    destruct (scan_number_consume _ _ _ F) as (p & P & Pp & N). split; [apply tok_fine|]. rewrite P in V. apply plain_ascii in Pp. eapply valid_ascii_app; eauto.
  - intros s V. cbn [parr]. pose proof (IHv s V) as G. destruct (pval n s) as [[v q]|e]; [|exact I]. destruct G as [Fv Vq]. apply valid_ws in Vq.
    cbn [bind]. destruct (ws q) as [|c' q'] eqn:E; [exact I|].
    destruct c' as [[] [] [] [] [] [] [] []]; try exact I.
    + split; [repeat constructor; apply Fv|]. apply (AT _ _ Vq). reflexivity.
    + apply AT in Vq; [|reflexivity]. apply valid_ws in Vq. pose proof (IHa (ws q') Vq) as G'.
      destruct (parr n (ws q')) as [[l q2]|e]; [|exact I]. destruct G'. split; auto.
  - intros acc s FA V. cbn [pobj]. destruct s as [|c r]; [exact I|].
    destruct c as [[] [] [] [] [] [] [] []]; try exact I. apply AT in V; [|reflexivity].
    destruct (scan_string r) as [[k q]|] eqn:E; [|exact I]. apply scan_string_like in E as [Vq T]; auto. apply valid_ws in Vq.
    destruct (ws q) as [|c' q1] eqn:E1; [exact I|].
    destruct c' as [[] [] [] [] [] [] [] []]; try exact I. apply AT in Vq; [|reflexivity]. apply valid_ws in Vq.
    pose proof (IHv (ws q1) Vq) as G. destruct (pval n (ws q1)) as [[v q2]|e]; [|exact I]. cbn [bind]. destruct G as [Fv Vq2]. apply valid_ws in Vq2.
    pose proof (fined_set k v acc T Fv FA) as FD.
    destruct (ws q2) as [|c' q3] eqn:E2; [exact I|].
    destruct c' as [[] [] [] [] [] [] [] []]; try exact I.
    + split; auto. apply (AT _ _ Vq2). reflexivity.
    + apply AT in Vq2; [|reflexivity]. apply valid_ws in Vq2. apply (IHo (dset k v acc) (ws q3)); auto.
Qed.
Lemma loads_fine s v : valid s -> json_loads s = Ok v -> fine v.
Proof.
  intros V. unfold json_loads. destruct (strip _ s); [discriminate|]. destruct (parse_fine (S (2 * String.length (ws s)))) as (P & _).
  specialize (P (ws s) (valid_ws _ V)). destruct (pval _ (ws s)) as [[u q]|e]; [|discriminate]. cbn [bind]. destruct (ws q); [|discriminate]. intros [= <-]. apply P.
Qed.
Lemma p_C57_document z s v : decode z s = Ok v -> json_like v /\ str_keys v.
Proof.
  unfold decode. destruct s as [|c body]; [discriminate|]. destruct (Ascii.eqb c "0"); [|discriminate]. unfold decode_0.
  destruct (b64decode body) as [b|e]; [|destruct e; discriminate]. destruct (decompress z b) as [t|]; [|discriminate].
  destruct (cps false t) as [l|] eqn:C; [|discriminate]. apply loads_fine. exists l. exact C.
Qed.
Lemma p_C57_again z s v : lossless z -> decode z s = Ok v -> exists s', encode z v = Ok s' /\ decode z s' = Ok v.
Proof.
  intros L D. destruct (p_C57_document z s v D) as [J K]. destruct (p_C01_roundtrip z v L J) as (s' & E & D'). rewrite (as_json_id v K) in D'. eauto.
Qed.
Lemma p_C57_normal z v s : lossless z -> json_like v -> encode z v = Ok s -> exists v', decode z s = Ok v' /\ encode z v' = Ok s.
Proof.
  intros L J E. destruct (p_C01_roundtrip z v L J) as (s' & E' & D). assert (s' = s) as -> by congruence. exists (as_json v). split; auto.
  destruct (p_C57_document z s _ D) as [J' _]. rewrite <- E. unfold encode, json_dumps. rewrite (like_strs_ok v J), (like_strs_ok _ J'), json_text_as_json. reflexivity.
Qed.
