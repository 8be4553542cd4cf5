(** * json.loads is total, json.dumps writes ASCII. *)
From Coq Require Import Lia Decimal DecimalString.
From Verif Require Import Py Num Text TextFacts Json SpecCodec JsonFacts.
Open Scope Z_scope.

(** ** scanners consume a prefix *)
Lemma plain_app a b : plain (a ++ b) = plain a && plain b.
Proof. induction a as [|c a IH]; [reflexivity|]. cbn [append plain]. rewrite IH. now rewrite !andb_assoc. Qed.

Lemma dig_plain c : dig c Nil <> None -> plain (String c "") = true.
Proof. intros H. apply dig_cases in H. decompose [or] H; subst; reflexivity. Qed.

Lemma scan_digits_consume s : forall u q, scan_digits s = (u, q) ->
  exists p, s = (p ++ q)%string /\ plain p = true /\ (u <> Nil -> p <> "").
Proof.
  induction s as [|c s IH]; intros u q H; cbn [scan_digits] in H.
  - inversion H; subst. exists "". repeat split. congruence.
  - destruct (dig c Nil) as [d|] eqn:E.
    + destruct (scan_digits s) as [u' t] eqn:F. destruct (dig_some c d u' E) as (e & E' & _). rewrite E' in H.
      inversion H; subst. destruct (IH _ _ eq_refl) as (p & -> & P & _). exists (String c p). split; [reflexivity|].
      split; [|discriminate]. change (String c p) with (String c "" ++ p)%string.
      rewrite plain_app, P, dig_plain by congruence. reflexivity.
    + inversion H; subst. exists "". repeat split. congruence.
Qed.

Lemma scan_int_consume s u q : scan_int s = Some (u, q) -> exists p, s = (p ++ q)%string /\ plain p = true /\ p <> "".
Proof.
  intros H. destruct s as [|c s]; [discriminate|]. destruct (char_case c "0") as [->|N].
  - cbn in H. inversion H; subst. exists "0". repeat split. discriminate.
  - rewrite scan_int_other in H by exact N. destruct (scan_digits (String c s)) as [v t] eqn:E.
    destruct (scan_digits_consume _ _ _ E) as (p & P1 & P2 & P3).
    destruct v; inversion H; subst; exists p; (split; [exact P1|split; [exact P2|apply P3; discriminate]]).
Qed.
Lemma scan_frac_consume s u q : scan_frac s = (u, q) -> exists p, s = (p ++ q)%string /\ plain p = true.
Proof.
  intros H. destruct s as [|c s]; [inversion H; exists ""; auto|]. destruct (char_case c ".") as [->|N].
  - cbn in H. destruct (scan_digits s) as [v t] eqn:E.
    destruct (scan_digits_consume _ _ _ E) as (p & -> & P2 & P3).
    destruct v; inversion H; subst; first [exists ""; split; reflexivity|exists (String "." p); split; [reflexivity|exact P2]].
  - rewrite scan_frac_other in H by exact N. inversion H. exists ""; auto.
Qed.
Lemma scan_exp_consume s u q : scan_exp s = (u, q) -> exists p, s = (p ++ q)%string /\ plain p = true.
Proof.
  intros H. destruct s as [|c s]; [inversion H; exists ""; auto|]. unfold scan_exp in H.
  destruct (Ascii.eqb c "e" || Ascii.eqb c "E") eqn:C; [|inversion H; exists ""; auto].
  assert (Pc : plain (String c "") = true).
  { apply orb_true_iff in C as [C|C]; apply Ascii.eqb_eq in C; subst; reflexivity. }
  destruct (scan_esign s) as [neg r] eqn:E.
  assert (Hs : exists p0, s = (p0 ++ r)%string /\ plain p0 = true).
  { destruct s as [|d s]; [inversion E; exists ""; auto|].
    destruct (char_case d "-") as [->|N1]; [inversion E; exists "-"; auto|].
    destruct (char_case d "+") as [->|N2]; [inversion E; exists "+"; auto|].
    rewrite scan_esign_other in E by assumption. inversion E; exists ""; auto. }
  destruct Hs as (p0 & -> & P0). destruct (scan_digits r) as [v t] eqn:F.
  destruct (scan_digits_consume _ _ _ F) as (p & -> & P & _).
  destruct v; inversion H; subst; first [exists ""; split; reflexivity|
    exists (String c "" ++ p0 ++ p)%string; rewrite !plain_app, Pc, P0, P, !append_assoc; auto].
Qed.
Lemma scan_number_consume s t q : scan_number s = Some (t, q) ->
  exists p, s = (p ++ q)%string /\ plain p = true /\ p <> "".
Proof.
  unfold scan_number. destruct (scan_sign s) as [neg s0] eqn:E0.
  destruct (scan_int s0) as [[ip s1]|] eqn:E1; [|discriminate].
  destruct (scan_frac s1) as [fp s2] eqn:E2. destruct (scan_exp s2) as [ep s3] eqn:E3.
  intros H. inversion H; subst.
  destruct (scan_int_consume _ _ _ E1) as (p1 & -> & P1 & N1).
  destruct (scan_frac_consume _ _ _ E2) as (p2 & -> & P2).
  destruct (scan_exp_consume _ _ _ E3) as (p3 & -> & P3).
  assert (Hs : exists p0, s = (p0 ++ p1 ++ p2 ++ p3 ++ q)%string /\ plain p0 = true).
  { destruct s as [|d s]; [inversion E0 as [[A B]]; exists ""; auto|].
    destruct (char_case d "-") as [->|N]; [cbn in E0; inversion E0; exists "-"; auto|].
    rewrite scan_sign_other in E0 by exact N. inversion E0; exists ""; auto. }
  destruct Hs as (p0 & -> & P0). exists (p0 ++ p1 ++ p2 ++ p3)%string.
  rewrite !plain_app, P0, P1, P2, P3, !append_assoc. repeat split.
  intros K. apply N1. destruct p0; cbn in K; [destruct p1; cbn in K; congruence|discriminate].
Qed.

Lemma hex4_length s n q : hex4 s = Some (n, q) -> String.length s = (4 + String.length q)%nat.
Proof.
  unfold hex4. destruct s as [|a [|b [|c [|d r]]]]; try discriminate.
  destruct (hex_val a), (hex_val b), (hex_val c), (hex_val d); try discriminate. intros H. inversion H. reflexivity.
Qed.

Lemma scan_str_length fuel : forall s t q, scan_str fuel s = Some (t, q) -> (String.length q < String.length s)%nat.
Proof.
  assert (P : forall fuel p s t q, (forall s t q, scan_str fuel s = Some (t, q) -> (String.length q < String.length s)%nat) ->
     pre p (scan_str fuel s) = Some (t, q) -> (String.length q < String.length s)%nat).
  { intros f p s t q IH H. destruct (scan_str f s) as [[a b]|] eqn:E; [|discriminate]. cbn in H. inversion H; subst.
    apply (IH _ _ _ E). }
  induction fuel as [|fuel IH]; intros s t q H; [discriminate|]. cbn [scan_str] in H.
  destruct s as [|c r]; [discriminate|].
  destruct (Ascii.eqb c """"); [inversion H; cbn; lia|].
  destruct (Ascii.eqb c "\").
  - destruct r as [|e r]; [discriminate|]. destruct (Ascii.eqb e "u").
    + destruct (hex4 r) as [[n r']|] eqn:E; [|discriminate]. apply hex4_length in E.
      assert (B : (String.length q < String.length r')%nat ->
                  (String.length q < String.length (String c (String e r)))%nat) by (cbn; lia).
      destruct (is_high n); [|apply B, (P _ _ _ _ _ IH H)].
      destruct r' as [|b [|u q0]]; try (apply B, (P _ _ _ _ _ IH H)).
      destruct (_ && _); [|apply B, (P _ _ _ _ _ IH H)].
      destruct (hex4 q0) as [[n2 q1]|] eqn:E2; [|discriminate]. apply hex4_length in E2.
      destruct (is_low n2); [|apply B, (P _ _ _ _ _ IH H)].
      apply P in H; [|exact IH]. cbn in *. lia.
    + destruct (simple_escape e); [|discriminate]. apply P in H; [|exact IH]. cbn. lia.
  - destruct (bz c <? 32); [discriminate|]. apply P in H; [|exact IH]. cbn. lia.
Qed.

Lemma ws_length s : (String.length (ws s) <= String.length s)%nat.
Proof. induction s as [|c s IH]; [cbn; lia|]. cbn [ws]. destruct (is_jws c); cbn; lia. Qed.

Lemma strip_length p : forall s q, strip p s = Some q -> String.length s = (String.length p + String.length q)%nat.
Proof.
  induction p as [|a p IH]; intros s q H; [inversion H; reflexivity|]. destruct s as [|b s]; [discriminate|].
  cbn in H. destruct (Ascii.eqb a b); [|discriminate]. apply IH in H. cbn. lia.
Qed.
Lemma scan_literal_length s v q : scan_literal literals s = Some (v, q) -> (String.length q < String.length s)%nat.
Proof.
  unfold literals. cbn [scan_literal].
  repeat (match goal with |- context [strip ?p s] => destruct (strip p s) eqn:?E end;
    [intros H; inversion H; subst; match goal with E : strip _ s = Some _ |- _ => apply strip_length in E; cbn in E end; lia|clear E]).
  discriminate.
Qed.

(** ** totality *)
Definition good {A} (s : string) (r : res (A * string)) : Prop :=
  match r with Ok (_, q) => (String.length q < String.length s)%nat | Err e => e = EJSONDecode end.

Lemma sub_match (c0 : ascii) s {A} (f : string -> A) (g : A) (P : A -> Prop) :
  (forall q, s = String c0 q -> P (f q)) -> P g ->
  P (match s with String c q => if Ascii.eqb c c0 then f q else g | EmptyString => g end).
Proof. intros H1 H2. destruct s as [|c q]; [exact H2|]. destruct (Ascii.eqb_spec c c0); subst; auto. Qed.

Lemma parse_total n :
  (forall s, (2 * String.length s < n)%nat -> good s (pval n s)) /\
  (forall s, (2 * String.length s + 1 < n)%nat -> good s (parr n s)) /\
  (forall acc s, (2 * String.length s + 1 < n)%nat -> good s (pobj n acc s)).
Proof.
  induction n as [|n (IHv & IHa & IHo)]; [repeat split; intros; lia|]. split; [|split].
  - intros s Hn. cbn [pval]. destruct s as [|c r]; [reflexivity|]. cbn [String.length] in Hn.
    destruct (Ascii.eqb c """").
    { destruct (scan_string r) as [[t q]|] eqn:E; [|reflexivity]. apply scan_str_length in E. cbn. lia. }
    pose proof (ws_length r) as W.
    destruct (Ascii.eqb c "[").
    { assert (K : good (String c r) (let! (l, q) := parr n (ws r) in Ok (VList l, q))).
      { pose proof (IHa (ws r) ltac:(lia)) as G. destruct (parr n (ws r)) as [[l q]|e]; [|exact G].
        unfold good, bind in *. cbn in *. lia. }
      destruct (ws r) as [|c' q] eqn:E; [exact K|].
      destruct c' as [[] [] [] [] [] [] [] []]; try exact K. unfold good. cbn in *. lia. }
    destruct (Ascii.eqb c "{").
    { assert (K : good (String c r) (let! (l, q) := pobj n [] (ws r) in Ok (VDict l, q))).
      { pose proof (IHo [] (ws r) ltac:(lia)) as G. destruct (pobj n [] (ws r)) as [[l q]|e]; [|exact G].
        unfold good, bind in *. cbn in *. lia. }
      destruct (ws r) as [|c' q] eqn:E; [exact K|].
      destruct c' as [[] [] [] [] [] [] [] []]; try exact K. unfold good. cbn in *. lia. }
    destruct (scan_literal literals (String c r)) as [[v q]|] eqn:E.
    { apply scan_literal_length in E. exact E. }
    destruct (scan_number (String c r)) as [[t q]|] eqn:F; [|reflexivity].
    destruct (scan_number_consume _ _ _ F) as (p & P & _ & N). rewrite P. unfold good. rewrite append_length.
    destruct p; [now elim N|]. cbn. lia.
  - intros s Hn. cbn [parr]. pose proof (IHv s ltac:(lia)) as G. destruct (pval n s) as [[v q]|e]; [|exact G].
    cbn [bind]. unfold good in G. pose proof (ws_length q) as W. destruct (ws q) as [|c' q'] eqn:E; [reflexivity|].
    destruct c' as [[] [] [] [] [] [] [] []]; try reflexivity.
    + unfold good. cbn in *. lia.
    + pose proof (ws_length q') as W'. cbn in W. pose proof (IHa (ws q') ltac:(lia)) as G'.
      destruct (parr n (ws q')) as [[l q2]|e]; [|exact G']. unfold good, bind in *. lia.
  - intros acc s Hn. cbn [pobj]. destruct s as [|c r]; [reflexivity|].
    destruct c as [[] [] [] [] [] [] [] []]; try reflexivity. cbn [String.length] in Hn.
    destruct (scan_string r) as [[k q]|] eqn:E; [|reflexivity]. apply scan_str_length in E.
    pose proof (ws_length q) as W. destruct (ws q) as [|c' q1] eqn:E1; [reflexivity|].
    destruct c' as [[] [] [] [] [] [] [] []]; try reflexivity. cbn in W.
    pose proof (ws_length q1) as W1. pose proof (IHv (ws q1) ltac:(lia)) as G.
    destruct (pval n (ws q1)) as [[v q2]|e]; [|exact G]. cbn [bind]. unfold good in G.
    pose proof (ws_length q2) as W2. destruct (ws q2) as [|c' q3] eqn:E2; [reflexivity|]. cbn in W2.
    destruct c' as [[] [] [] [] [] [] [] []]; try reflexivity.
    + unfold good. cbn in *. lia.
    + pose proof (ws_length q3) as W3. pose proof (IHo (dset k v acc) (ws q3) ltac:(lia)) as G'.
      destruct (pobj n (dset k v acc) (ws q3)) as [[l q4]|e]; [|exact G']. unfold good in *. cbn. lia.
Qed.

Lemma loads_error s e : json_loads s = Err e -> e = EJSONDecode.
Proof.
  unfold json_loads. destruct (strip _ s); [congruence|].
  pose proof (proj1 (parse_total (S (2 * String.length (ws s)))) (ws s) ltac:(lia)) as G.
  destruct (pval _ (ws s)) as [[v q]|e']; cbn [bind] in *; [|unfold good in G; congruence].
  destruct (ws q); congruence.
Qed.

(** ** ASCII output *)
Lemma plain_ascii s : plain s = true -> ascii_only s = true.
Proof.
  induction s as [|c s IH]; [reflexivity|]. cbn [plain ascii_only]. intros H.
  apply andb_true_iff in H as [H H4]. apply andb_true_iff in H as [H H3]. apply andb_true_iff in H as [H1 H2].
  apply between_true in H1. rewrite IH by exact H4. rewrite (proj2 (Z.ltb_lt _ _)) by lia. reflexivity.
Qed.
Lemma ascii_app a b : ascii_only (a ++ b) = ascii_only a && ascii_only b.
Proof. induction a as [|c a IH]; [reflexivity|]. cbn [append ascii_only]. rewrite IH. now rewrite andb_assoc. Qed.

Lemma hex_char_ascii n : bz (hex_char n) <? 128 = true.
Proof.
  unfold hex_char. destruct (String.get (Z.to_nat n) "0123456789abcdef") as [c|] eqn:E; [|reflexivity].
  revert E. generalize (Z.to_nat n). intros k.
  do 16 (destruct k as [|k]; [cbn; intros E; inversion E; reflexivity|]). cbn. destruct k; discriminate.
Qed.
Lemma u4_ascii n : ascii_only (u4 n) = true.
Proof. unfold u4. cbn [ascii_only]. rewrite !hex_char_ascii. reflexivity. Qed.
Lemma esc_cp_ascii c : ascii_only (esc_cp c) = true.
Proof.
  unfold esc_cp. do 7 (match goal with |- context [if ?b then _ else _] => destruct b end; [reflexivity|]).
  destruct (between 32 c 126) eqn:B.
  - apply between_true in B. cbn [ascii_only]. rewrite bz_zb by lia. rewrite (proj2 (Z.ltb_lt _ _)) by lia. reflexivity.
  - destruct (c <? 65536); [apply u4_ascii|]. rewrite ascii_app, !u4_ascii. reflexivity.
Qed.
Lemma esc_cps_ascii l : ascii_only (esc_cps l) = true.
Proof. induction l as [|c l IH]; [reflexivity|]. cbn [esc_cps]. now rewrite ascii_app, esc_cp_ascii, IH. Qed.
Lemma str_text_ascii s : ascii_only (str_text s) = true.
Proof. unfold str_text. cbn [ascii_only]. rewrite ascii_app, esc_cps_ascii. reflexivity. Qed.
Lemma join_ascii l : Forall (fun s => ascii_only s = true) l -> ascii_only (join l) = true.
Proof.
  induction 1 as [|x l H _ IH]; [reflexivity|]. rewrite join_cons. destruct l; [exact H|].
  now rewrite !ascii_app, H, IH.
Qed.

Lemma members_Forall d : members_like d -> Forall (fun kv => text (json_key (fst kv)) /\ json_like (snd kv)) d.
Proof. induction d as [|[k x] d IH]; constructor; cbn in *; tauto. Qed.
Lemma list_Forall l : json_like (VList l) -> Forall json_like l.
Proof. induction l as [|x l IH]; constructor; cbn in *; [tauto|]. apply IH. cbn. tauto. Qed.

Lemma json_text_ascii v : json_like v -> ascii_only (json_text v) = true.
Proof.
  induction v as [|b|z|f|s|l F|d F] using val_ind'; intros J; cbn [json_text].
  - reflexivity.
  - destruct b; reflexivity.
  - apply plain_ascii, plain_int_str.
  - pose proof (float_number f J) as K. destruct f as [b|[]| |s m e]; try reflexivity;
      destruct K as (t & E & _); destruct (scan_number_consume _ _ _ E) as (p & -> & P & _);
      rewrite append_nil_r; apply plain_ascii, P.
  - apply str_text_ascii.
  - cbn [ascii_only]. rewrite ascii_app, join_ascii; [reflexivity|]. apply list_Forall in J.
    apply Forall_map. rewrite Forall_forall in *. auto.
  - cbn [ascii_only]. rewrite ascii_app, join_ascii; [reflexivity|]. apply dict_like in J as [_ J].
    apply members_Forall in J. apply Forall_map. rewrite Forall_forall in *. intros kv H.
    rewrite key_text_json, !ascii_app, str_text_ascii, F by (try assumption; apply J, H). reflexivity.
Qed.

Lemma ascii_cps s : ascii_only s = true -> exists l, cps false s = Some l.
Proof.
  induction s as [|c s IH]; intros H; [eexists; reflexivity|]. cbn [ascii_only] in H.
  apply andb_true_iff in H as [H1 H2]. destruct (IH H2) as (l & E). cbn [cps]. rewrite H1, E. eexists. reflexivity.
Qed.

Lemma like_strs_ok v : json_like v -> strs_ok v = true.
Proof.
  induction v as [|b|z|f|s|l F|d F] using val_ind'; intros J; cbn [strs_ok]; try reflexivity.
  - apply text_str_ok, J.
  - apply list_Forall in J. apply forallb_forall. rewrite Forall_forall in *. auto.
  - apply dict_like in J as [_ J]. apply members_Forall in J. apply forallb_forall.
    rewrite Forall_forall in *. intros [k x] H. cbn [fst snd]. destruct (J _ H) as [T L].
    rewrite (F _ H L : strs_ok x = true), andb_true_r. destruct k as [s|z]; [apply text_str_ok, T|reflexivity].
Qed.

Lemma json_text_as_json v : json_text (as_json v) = json_text v.
Proof.
  induction v as [|b|z|f|s|l F|d F] using val_ind'; try reflexivity; cbn [as_json json_text]; rewrite map_map.
  - do 3 f_equal. apply map_ext_in. rewrite Forall_forall in F. exact F.
  - do 3 f_equal. apply map_ext_in. rewrite Forall_forall in F. intros [k x] H. cbn [fst snd].
    rewrite (key_text_json k), (F _ H : json_text (as_json x) = json_text x). reflexivity.
Qed.
