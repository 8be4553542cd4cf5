(** * Proofs about the texts of objects (C71). *)
From Verif Require Import Py Num Util Json Values Classes Mixins Entity World SpecCodec SpecRound SpecJson SpecShort SpecWrite SpecRepr Repr
  TextFacts JsonFacts JsonGrammar RoundProofs ShortText ShortUnique WriteProofs.
From Coq Require Import Lia.
Open Scope string_scope.
Open Scope Z_scope.

(** ** Splitting texts *)
Definition without (c : ascii) (s : string) : Prop := ~ In c (list_ascii_of_string s).
Lemma without_nil c : without c "". Proof. intros []. Qed.
Lemma without_cons c x s : without c (String x s) <-> x <> c /\ without c s.
Proof. unfold without. cbn. intuition. Qed.
Lemma without_app c s t : without c (s ++ t) <-> without c s /\ without c t.
Proof. induction s as [|x s IH]; cbn [append]; [split; [split; [apply without_nil|assumption]|tauto]|]. rewrite !without_cons, IH. tauto. Qed.
Lemma without_chars (P : ascii -> Prop) c s : all_chars P s -> ~ P c -> without c s.
Proof. intros A N I. unfold all_chars in A. rewrite Forall_forall in A. exact (N (A _ I)). Qed.
(** the first [c] *)
Lemma split_first c a b : forall x y, without c a -> without c b -> a ++ String c x = b ++ String c y -> a = b /\ x = y.
Proof.
  revert b. induction a as [|p a IH]; intros [|q b] x y A B H; cbn [append] in H; injection H.
  - auto.
  - intros _ ->. apply without_cons in B as [[] _]. reflexivity.
  - intros _ <-. apply without_cons in A as [[] _]. reflexivity.
  - intros E <-. apply without_cons in A as [_ A]. apply without_cons in B as [_ B]. destruct (IH b x y A B E). now subst.
Qed.
(** the last [c] *)
Lemma split_last c a : forall b x y, without c x -> without c y -> a ++ String c x = b ++ String c y -> a = b /\ x = y.
Proof.
  induction a as [|p a IH]; intros [|q b] x y A B H; cbn [append] in H; injection H.
  - auto.
  - intros -> ->. apply without_app in A as [_ A]. apply without_cons in A as [[] _]. reflexivity.
  - intros <- ->. apply without_app in B as [_ B]. apply without_cons in B as [[] _]. reflexivity.
  - intros E <-. destruct (IH b x y A B E). now subst.
Qed.
Lemma cut_end a : forall b t, a ++ t = b ++ t -> a = b.
Proof.
  assert (L : forall s t, String.length (s ++ t) = (String.length s + String.length t)%nat) by (induction s as [|c s IH]; intros t; cbn; [reflexivity|now rewrite IH]).
  induction a as [|p a IH]; intros [|q b] t H; trivial.
  - exfalso. apply (f_equal String.length) in H. cbn in H. rewrite L in H. lia.
  - exfalso. apply (f_equal String.length) in H. cbn in H. rewrite L in H. lia.
  - cbn in H. injection H as <- H. now rewrite (IH b t H).
Qed.

(** ** Numbers *)
Lemma num_text n : a_number n -> number_text n (num_str n).
Proof.
  destruct n as [z|[[]|[]| |s m e]]; intros V.
  - apply nt_int, int_str_written.
  - apply nt_minus_zero.
  - apply nt_zero.
  - apply nt_minus_infinity.
  - apply nt_infinity.
  - apply nt_nan.
  - assert (U : units (S754_finite s m e) <> 0).
    { intros U. discriminate (units_inj (S754_finite s m e) (S754_zero s) V eq_refl I I eq_refl U). }
    apply nt_float; [exact I|exact U|]. apply (p_C63_written (S754_finite s m e)); [exact V|exact I|exact U].
Qed.
Lemma num_text_one n s t : number_text n s -> number_text n t -> s = t.
Proof.
  intros A B. destruct A; inversion B; subst; trivial; try contradiction; try (exfalso; auto; fail).
  - eapply int_written_inj; eassumption.
  - eapply p_C63_text_unique; eassumption.
Qed.
Definition numeric (c : ascii) : Prop := digit c \/ In c ["-"; "+"; "."; "e"; "E"; "n"; "a"; "i"; "f"]%char.
Lemma digits_numeric s : all_chars digit s -> all_chars numeric s.
Proof. unfold all_chars. apply Forall_impl. intros c H. now left. Qed.
Ltac here := unfold all_chars; cbn; repeat (constructor; [right; cbn; tauto|]); constructor.
Lemma int_part_numeric i : int_part i -> all_chars numeric i.
Proof.
  intros [|c s D _ A]; apply digits_numeric.
  - apply chars_cons. split; [unfold digit; cbn; lia|constructor].
  - apply chars_cons. auto.
Qed.
Lemma int_numeric z t : int_written z t -> all_chars numeric t.
Proof. intros [sg neg i [] I _]; [|apply chars_app; split; [here|]]; apply int_part_numeric, I. Qed.
Lemma decimal_numeric t s m e : decimal_text t s m e -> all_chars numeric t.
Proof.
  intros [sg neg i f ds ex x S I F X _]. rewrite !chars_app. split; [destruct S; here|]. split; [apply int_part_numeric, I|]. split.
  - destruct F as [|ds [_ A]]; [here|]. apply chars_app. split; [here|]. now apply digits_numeric.
  - destruct X as [|c sgn xs C Sg [_ A]]; [here|]. apply chars_cons. split.
    + right. cbn in *. intuition.
    + apply chars_app. split; [|now apply digits_numeric]. cbn in Sg. destruct Sg as [<-|[<-|[<-|[]]]]; here.
Qed.
Lemma num_numeric n : a_number n -> all_chars numeric (num_str n).
Proof.
  destruct n as [z|f]; intros V; [eapply int_numeric, int_str_written|].
  destruct f as [[]|[]| |s m e]; cbn [num_str float_text]; try (repeat (apply chars_cons; split; [first [left; unfold digit; cbn; lia|right; cbn; tauto]|]); apply chars_nil).
  destruct (p_C63 (S754_finite s m e) V I) as (k & c & x & _ & D & _). exact (decimal_numeric _ _ _ _ D).
Qed.
Lemma numeric_without c s : ~ digit c -> ~ In c ["-"; "+"; "."; "e"; "E"; "n"; "a"; "i"; "f"]%char -> all_chars numeric s -> without c s.
Proof. intros D N A. eapply without_chars; [exact A|]. intros [H|H]; auto. Qed.
Ltac nonnumeric := apply numeric_without; [unfold digit; cbn; lia|cbn; intuition discriminate|].
Lemma num_without n c : a_number n -> ~ digit c -> ~ In c ["-"; "+"; "."; "e"; "E"; "n"; "a"; "i"; "f"]%char -> without c (num_str n).
Proof. intros V D N. apply (numeric_without c _ D N), num_numeric, V. Qed.
Lemma num_json n : a_number n -> num_str n = json_text (val_of_num n) \/ exists f, n = NF f /\ num_str n = match f with S754_nan => "nan" | S754_infinity s => if s then "-inf" else "inf" | _ => "" end /\ (f = S754_nan \/ exists s, f = S754_infinity s).
Proof.
  destruct n as [z|f]; [now left|]. destruct f as [s|s| |s m e]; cbn; auto; right; eexists; (split; [reflexivity|]); cbn; eauto.
Qed.
Lemma num_str_inj a b : a_number a -> a_number b -> num_str a = num_str b -> a = b.
Proof.
  assert (V : forall n, a_number n -> json_like (val_of_num n)) by (intros [z|f] H; [exact I|exact H]).
  assert (J : forall n, as_json (val_of_num n) = val_of_num n) by (now intros [z|f]).
  assert (P : forall n s, a_number n -> (s = "nan" \/ s = "inf" \/ s = "-inf") -> json_text (val_of_num n) <> s).
  { intros n s H S E. pose proof (loads_text _ (V n H)) as L. rewrite E in L. destruct S as [->|[->| ->]]; vm_compute in L; discriminate. }
  intros A B H. destruct (num_json a A) as [E|(f & -> & E & F)]; destruct (num_json b B) as [E'|(g & -> & E' & G)].
  - assert (val_of_num a = val_of_num b) as X.
    { pose proof (loads_text _ (V a A)) as L. pose proof (loads_text _ (V b B)) as L'. rewrite J in L, L'. rewrite <- E, H, E', L' in L. congruence. }
    destruct a, b; cbn in X; congruence.
  - exfalso. rewrite E, E' in H. refine (P a _ A _ H). destruct G as [->|[[] ->]]; auto.
  - exfalso. rewrite E, E' in H. refine (P b _ B _ (eq_sym H)). destruct F as [->|[[] ->]]; auto.
  - rewrite E, E' in H. destruct F as [->|[[] ->]], G as [->|[[] ->]]; try discriminate; reflexivity.
Qed.

(** ** Vectors and colours *)
Lemma vector_shown v : a_vector v -> vector_text v (vec_repr v).
Proof. destruct v as [x y]. intros [X Y]. apply (vt x y); apply num_text; assumption. Qed.
Lemma vector_one v s t : vector_text v s -> vector_text v t -> s = t.
Proof.
  intros S T. destruct S as [x y a b A B]. inversion T as [x' y' a' b' A' B' E3 E4]; subst.
  now rewrite (num_text_one _ _ _ A A'), (num_text_one _ _ _ B B').
Qed.
Lemma p_C71_vector v t : a_vector v -> (vec_repr v = t <-> vector_text v t).
Proof. intros V. split; [intros <-; now apply vector_shown|]. apply vector_one, vector_shown, V. Qed.
Lemma pair_inj x y x' y' : a_vector (mkVec x y) -> a_vector (mkVec x' y') -> num_str x ++ ", " ++ num_str y = num_str x' ++ ", " ++ num_str y' -> x = x' /\ y = y'.
Proof.
  intros [X Y] [X' Y'] H. cbn [vx vy] in *. cbn [append] in H.
  destruct (split_first "," _ _ _ _ (num_without x "," X ltac:(unfold digit; cbn; lia) ltac:(cbn; intuition discriminate)) (num_without x' "," X' ltac:(unfold digit; cbn; lia) ltac:(cbn; intuition discriminate)) H) as [A B].
  injection B as B. split; apply num_str_inj; assumption.
Qed.
Lemma p_C71_vector_identifies v v' : a_vector v -> a_vector v' -> vec_repr v = vec_repr v' -> v = v'.
Proof.
  destruct v as [x y], v' as [x' y']. intros V V' H. unfold vec_repr in H. cbn [vx vy] in H.
  cbn [append] in H. repeat match type of H with String ?c ?a = String ?c ?b => injection H as H end.
  assert (E : (num_str x ++ ", " ++ num_str y) ++ ")>" = (num_str x' ++ ", " ++ num_str y') ++ ")>") by (rewrite !append_assoc; exact H).
  apply cut_end in E. destruct (pair_inj _ _ _ _ V V' E). now subst.
Qed.

Lemma color_shown c : a_color c -> color_text c (color_repr c).
Proof. destruct c as [r g b a]. intros (R & G & B & A). apply (ct r g b a); apply num_text; assumption. Qed.
Lemma color_one c s t : color_text c s -> color_text c t -> s = t.
Proof.
  intros S T. destruct S as [r g b a s1 s2 s3 s4 H1 H2 H3 H4]. inversion T as [r' g' b' a' t1 t2 t3 t4 J1 J2 J3 J4 E3 E4]; subst.
  now rewrite (num_text_one _ _ _ H1 J1), (num_text_one _ _ _ H2 J2), (num_text_one _ _ _ H3 J3), (num_text_one _ _ _ H4 J4).
Qed.
Lemma p_C71_color c t : a_color c -> (color_repr c = t <-> color_text c t).
Proof. intros V. split; [intros <-; now apply color_shown|]. apply color_one, color_shown, V. Qed.
Lemma num_comma n : a_number n -> without "," (num_str n).
Proof. intros V. apply num_without; [exact V|unfold digit; cbn; lia|cbn; intuition discriminate]. Qed.
Lemma p_C71_color_identifies c c' : a_color c -> a_color c' -> color_repr c = color_repr c' -> c = c'.
Proof.
  destruct c as [r g b a], c' as [r' g' b' a']. intros (R & G & B & A) (R' & G' & B' & A') H. unfold color_repr in H. cbn [col_r col_g col_b col_a] in *.
  cbn [append] in H. repeat match type of H with String ?c ?a = String ?c ?b => injection H as H end.
  apply split_first in H as [E1 H]; try (apply num_comma; assumption). cbn [append] in H. repeat match type of H with String ?c ?a = String ?c ?b => injection H as H end.
  apply split_first in H as [E2 H]; try (apply num_comma; assumption). cbn [append] in H. repeat match type of H with String ?c ?a = String ?c ?b => injection H as H end.
  apply split_first in H as [E3 H]; try (apply num_comma; assumption). cbn [append] in H. repeat match type of H with String ?c ?a = String ?c ?b => injection H as H end.
  apply cut_end in H. apply num_str_inj in E1, E2, E3, H; trivial. now subst.
Qed.

(** ** Entities *)
Lemma p_C71_entity e n : placed e -> e_name e = VStr n -> exists t, ent_repr e = Ok t /\ entity_text n e t.
Proof.
  intros P N. unfold ent_repr. rewrite N. cbn [name_text bind]. eexists. split; [reflexivity|]. constructor; [|apply int_str_written].
  unfold placed in P. destruct (e_pos e) as [p|]; constructor. now apply vector_shown.
Qed.
Lemma vector_quote v : a_vector v -> without """" (vec_repr v).
Proof.
  intros [X Y]. unfold vec_repr. rewrite !without_app. repeat split; try (apply num_without; [assumption|unfold digit; cbn; lia|cbn; intuition discriminate]);
  unfold without; cbn; intuition discriminate.
Qed.
Lemma int_str_inj a b : int_str a = int_str b -> a = b.
Proof. intros H. assert (NI a = NI b) as E by (apply num_str_inj; [exact I|exact I|exact H]). congruence. Qed.
Lemma int_without z c : ~ digit c -> ~ In c ["-"; "+"; "."; "e"; "E"; "n"; "a"; "i"; "f"]%char -> without c (int_str z).
Proof. intros D N. exact (num_without (NI z) c I D N). Qed.
Definition place_str (o : option vec) : string := match o with Some p => vec_repr p | None => "None" end.
Lemma place_inj o o' : match o with Some p => a_vector p | None => True end -> match o' with Some p => a_vector p | None => True end -> place_str o = place_str o' -> o = o'.
Proof. destruct o, o'; cbn [place_str]; intros V V' H; try discriminate H; [|reflexivity]. now rewrite (p_C71_vector_identifies _ _ V V' H). Qed.
Lemma place_quote o : match o with Some p => a_vector p | None => True end -> without """" (place_str o).
Proof. destruct o; cbn [place_str]; [apply vector_quote|]. intros _. unfold without. cbn. intuition discriminate. Qed.
Lemma p_C71_entity_identifies e e' n n' t : placed e -> placed e' -> e_name e = VStr n -> e_name e' = VStr n' ->
  ent_repr e = Ok t -> ent_repr e' = Ok t -> n = n' /\ e_pos e = e_pos e' /\ e_dir e = e_dir e'.
Proof.
  intros P P' N N' H H'. unfold ent_repr in *. rewrite N in H. rewrite N' in H'. cbn [name_text bind] in *. rewrite <- H' in H. injection H as H. clear H' t.
  fold (place_str (e_pos e)) in H. fold (place_str (e_pos e')) in H. unfold placed in *.
  assert (Q : forall o z, match o with Some p => a_vector p | None => True end -> without """" (", position: " ++ place_str o ++ ", direction: " ++ int_str z ++ ")>")).
  { intros o z V. rewrite !without_app. pose proof (place_quote o V). repeat split; trivial; try (unfold without; cbn; intuition discriminate).
    apply int_without; [unfold digit; cbn; lia|cbn; intuition discriminate]. }
  apply (split_last """") in H as [-> H]; [|apply Q, P|apply Q, P']. split; [reflexivity|].
  cbn [append] in H. repeat match type of H with String ?c ?a = String ?c ?b => injection H as H end.
  assert (E : (place_str (e_pos e) ++ ", direction") ++ String ":" (" " ++ int_str (e_dir e) ++ ")>") = (place_str (e_pos e') ++ ", direction") ++ String ":" (" " ++ int_str (e_dir e') ++ ")>"))
    by (rewrite !append_assoc; exact H).
  assert (W : forall z, without ":" (" " ++ int_str z ++ ")>")).
  { intros z. rewrite !without_app. repeat split; try (unfold without; cbn; intuition discriminate). apply int_without; [unfold digit; cbn; lia|cbn; intuition discriminate]. }
  apply split_last in E as [E1 E2]; [|apply W|apply W]. apply cut_end in E1. split; [now apply place_inj|].
  cbn [append] in E2. injection E2 as E2. apply cut_end in E2. now apply int_str_inj.
Qed.
Lemma p_C71_entity_str e e' n n' : e_name e = VStr n -> e_name e' = VStr n' -> ent_str e = Ok (short_text n) /\ (ent_str e = ent_str e' <-> n = n').
Proof.
  intros N N'. unfold ent_str. rewrite N, N'. cbn [name_text bind]. split; [reflexivity|]. split; [|now intros ->].
  intros H. injection H as H. cbn [append] in H. apply cut_end in H. exact H.
Qed.

(** ** Connections *)
Lemma end_named w i n : called w i n -> end_str w (Some i) = Ok (short_text n).
Proof. intros (e & E & N). unfold end_str, ent_str. rewrite E, N. reflexivity. Qed.
Lemma p_C71_connection w c i j a b : c_from c = Some i -> c_to c = Some j -> called w i a -> called w j b ->
  exists s t, int_written (c_fs c) s /\ int_written (c_ts c) t /\
  conn_repr w c = Ok ("<Connection (" ++ c_color c ++ " from:(" ++ short_text a ++ ", " ++ s ++ ") to:(" ++ short_text b ++ ", " ++ t ++ "))>").
Proof.
  intros F T A B. exists (int_str (c_fs c)), (int_str (c_ts c)). split; [apply int_str_written|]. split; [apply int_str_written|].
  unfold conn_repr. rewrite F, T, (end_named _ _ _ A), (end_named _ _ _ B). reflexivity.
Qed.
Lemma p_C71_connection_identifies w c i j a b w' c' i' j' a' b' t : c_from c = Some i -> c_to c = Some j -> called w i a -> called w j b ->
  c_from c' = Some i' -> c_to c' = Some j' -> called w' i' a' -> called w' j' b' ->
  In (c_color c) ["red"; "green"] -> In (c_color c') ["red"; "green"] -> no_quote a -> no_quote b -> no_quote a' -> no_quote b' ->
  conn_repr w c = Ok t -> conn_repr w' c' = Ok t ->
  c_color c = c_color c' /\ a = a' /\ b = b' /\ c_fs c = c_fs c' /\ c_ts c = c_ts c'.
Proof.
  intros F T A B F' T' A' B' K K' Qa Qb Qa' Qb' H H'.
  unfold conn_repr in *. rewrite F, T, (end_named _ _ _ A), (end_named _ _ _ B) in H. rewrite F', T', (end_named _ _ _ A'), (end_named _ _ _ B') in H'.
  cbn [bind] in *. rewrite <- H' in H. injection H as H. clear H' F T A B F' T' A' B' t w w' i j i' j'.
  assert (KC : c_color c = c_color c').
  { cbn in K, K'. destruct K as [K|[K|[]]], K' as [K'|[K'|[]]]; rewrite <- K, <- K' in *; trivial; discriminate H. }
  rewrite <- KC in H. split; [exact KC|]. clear K K' KC. unfold short_text in H. cbn [append] in H.
  assert (P : forall p x y, p ++ x = p ++ y -> x = y) by (induction p as [|q p IH]; intros x y E; [exact E|cbn in E; injection E as E; eauto]).
  repeat match type of H with String ?c ?a = String ?c ?b => injection H as H end. apply P in H.
  repeat match type of H with String ?c ?a = String ?c ?b => injection H as H end. rewrite ?append_assoc in H. cbn [append] in H.
  apply split_first in H as [-> H]; trivial. repeat match type of H with String ?c ?a = String ?c ?b => injection H as H end.
  apply split_first in H as [E1 H]; try (apply int_without; [unfold digit; cbn; lia|cbn; intuition discriminate]).
  repeat match type of H with String ?c ?a = String ?c ?b => injection H as H end. rewrite ?append_assoc in H. cbn [append] in H.
  apply split_first in H as [-> H]; trivial. repeat match type of H with String ?c ?a = String ?c ?b => injection H as H end.
  apply cut_end in H. apply int_str_inj in E1, H. auto.
Qed.
Definition named_thing (n : string) : entity := mkEnt false None VNone VNone (VStr n) entity_cls None 0 VNone None [].
Lemma p_C71_connection_refuted : exists w c c' i j i' j' a b a' b', c_from c = Some i /\ c_to c = Some j /\ c_from c' = Some i' /\ c_to c' = Some j' /\
  called w i a /\ called w j b /\ called w i' a' /\ called w j' b' /\ a <> a' /\ b <> b' /\ conn_repr w c = conn_repr w c'.
Proof.
  pose (m := """)>, 1) to:(<Entity (name: """).
  exists (mkWorld (mkProtos [] [] [] [] []) [named_thing "x"; named_thing ("y" ++ m ++ "z"); named_thing ("x" ++ m ++ "y"); named_thing "z"] []).
  exists (mkConn (Some 0%nat) (Some 1%nat) 1 1 "red"), (mkConn (Some 2%nat) (Some 3%nat) 1 1 "red"), 0%nat, 1%nat, 2%nat, 3%nat.
  exists "x", ("y" ++ m ++ "z"), ("x" ++ m ++ "y"), "z". repeat split; try (eexists; split; reflexivity); discriminate.
Qed.

(** ** Signals *)
Lemma p_C71_signal t n : (forall ty, dget (KS n) t = Some ty -> signal_repr t (Some n) = Ok ("<SignalID (" ++ n ++ ", type: " ++ ty ++ ")>")) /\
  (dget (KS n) t = None -> signal_repr t (Some n) = Err EKey) /\ signal_repr t None = Err EKey.
Proof.
  unfold signal_repr, signal_type. split; [|split]; trivial.
  - intros ty H. now rewrite H.
  - intros H. now rewrite H.
Qed.
Lemma p_C71_signal_identifies t n n' r : no_comma n -> no_comma n' -> signal_repr t (Some n) = Ok r -> signal_repr t (Some n') = Ok r -> n = n'.
Proof.
  unfold signal_repr, signal_type. intros C C' H H'. destruct (dget n t) as [ty|]; [|discriminate]. destruct (dget n' t) as [ty'|]; [|discriminate].
  cbn [bind] in *. rewrite <- H' in H. injection H as H. cbn [append] in H. now apply split_first in H as [-> _].
Qed.
