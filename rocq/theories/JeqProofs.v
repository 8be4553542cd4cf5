(** * Well-formed descriptions stay well-formed when their dictionaries are rearranged. *)
From Coq Require Import Lia Permutation.
From Verif Require Import Py Num NumFacts Util Classes Mixins Entity World SpecWorld SpecDoc SpecEntity SpecTrip SpecBlueprint SpecReload DictFacts ShapeProofs.
Open Scope Z_scope.

Definition dsim (d e : dict) : Prop :=
  (forall k v, dget k d = Some v -> exists u, dget k e = Some u /\ jeq v u) /\ (forall k, dget k d = None -> dget k e = None).
Definition atom (v : val) : Prop := match v with VList _ | VDict _ => False | _ => True end.
Definition closed (P : val -> Prop) : Prop := forall v u, jeq v u -> P v -> P u.

Lemma dsim_refl d : dsim d d.
Proof. split; auto. intros k v E. exists v. split; auto. constructor. Qed.
Lemma jeq_dict_inv d u : jeq (VDict d) u -> exists e, u = VDict e /\ dsim d e.
Proof. intros H. inversion H; subst; [exists d; split; auto; apply dsim_refl|]. eexists. split; [reflexivity|]. split; auto. Qed.
Lemma jeq_list_inv l u : jeq (VList l) u -> exists m, u = VList m /\ Forall2 jeq l m.
Proof.
  intros H. inversion H; subst; [|eauto]. eexists. split; [reflexivity|]. clear. induction l; constructor; auto. constructor.
Qed.
Lemma jeq_atom v u : jeq v u -> atom v -> u = v.
Proof. intros H A. inversion H; subst; cbn in A; auto; tauto. Qed.
Lemma atom_closed (P : val -> Prop) : (forall v, P v -> atom v) -> closed P.
Proof. intros H v u J Pv. rewrite (jeq_atom _ _ J (H _ Pv)). auto. Qed.

Section Dsim.
  Context (d e : dict) (S : dsim d e).
  Lemma ds_back k u : dget k e = Some u -> exists v, dget k d = Some v /\ jeq v u.
  Proof.
    destruct S as (A & B). intros E. destruct (dget k d) as [v|] eqn:D.
    - destruct (A k v D) as (u' & E' & J). exists v. split; auto. congruence.
    - rewrite (B k D) in E. discriminate.
  Qed.
  Lemma ds_none k : dget k e <> None -> dget k d <> None.
  Proof. intros N D. apply N. now apply (proj2 S). Qed.
  Lemma ds_some k : dget k d <> None -> dget k e <> None.
  Proof. intros N D. destruct (dget k d) as [v|] eqn:E; [|congruence]. destruct (proj1 S k v E) as (u & E' & _). congruence. Qed.
  Lemma ds_keys ks : keys_within d ks -> keys_within e ks.
  Proof. intros K k N. apply K. now apply ds_none. Qed.
  Lemma ds_ne : d <> [] -> e <> [].
  Proof.
    intros N E. apply N, dget_none_nil. intros k. destruct (dget k d) eqn:D; auto. exfalso. apply (ds_some k); [rewrite D; discriminate|].
    now rewrite E.
  Qed.
  Lemma ds_atom k v : dget k d = Some v -> atom v -> dget k e = Some v.
  Proof. intros E A. destruct (proj1 S k v E) as (u & E' & J). now rewrite <- (jeq_atom _ _ J A). Qed.
  Lemma ds_get k v P : closed P -> dget k d = Some v -> P v -> exists u, dget k e = Some u /\ P u.
  Proof. intros C E Pv. destruct (proj1 S k v E) as (u & E' & J). exists u. split; auto. eapply C; eauto. Qed.
  Lemma ds_opt k (P : val -> Prop) : closed P -> (forall v, dget k d = Some v -> P v) -> forall u, dget k e = Some u -> P u.
  Proof. intros C H u E. destruct (ds_back k u E) as (v & D & J). eapply C; eauto. Qed.
  Lemma ds_is_none k : dget k d = None -> dget k e = None.
  Proof. apply (proj2 S). Qed.
End Dsim.

Lemma c_builtin : closed builtin.
Proof. apply atom_closed. intros v (s & -> & _). exact I. Qed.
Lemma c_a_signal p : closed (a_signal p).
Proof. apply atom_closed. intros v (s & -> & _). exact I. Qed.
Lemma c_int : closed (fun v => exists z, v = VInt z).
Proof. apply atom_closed. intros v (s & ->). exact I. Qed.
Lemma c_true : closed (fun _ => True).
Proof. intros ? ? ? ?. exact I. Qed.
Lemma c_none : closed (fun v => v <> VNone).
Proof. intros v u J N ->. inversion J; subst; congruence. Qed.
Lemma c_in l : Forall atom l -> closed (fun v => In v l).
Proof. intros F. apply atom_closed. intros v I. rewrite Forall_forall in F. auto. Qed.
Ltac atoms := repeat constructor.

Lemma c_point : closed point_doc.
Proof.
  intros v u J (d & x & y & -> & K & X & Y & NX & NY). destruct (jeq_dict_inv _ _ J) as (e & -> & S).
  assert (A : forall n, is_number n -> atom n) by (intros n [[? ->]|[? ->]]; exact I).
  exists e, x, y. split; [auto|]. split; [now apply (ds_keys _ _ S)|]. split; [apply (ds_atom _ _ S); auto|]. split; [apply (ds_atom _ _ S); auto|auto].
Qed.
Lemma channel_atom c : channel_doc c -> atom c.
Proof. intros [->|[->|(f & -> & _)]]; exact I. Qed.
Lemma c_colour : closed colour_doc.
Proof.
  intros v u J (d & -> & K & H). destruct (jeq_dict_inv _ _ J) as (e & -> & S). exists e. split; auto. split; [now apply (ds_keys _ _ S)|].
  intros s I. destruct (H s I) as (c & E & C). exists c. split; auto. apply (ds_atom _ _ S); auto. now apply channel_atom.
Qed.
Lemma c_signal p : string_types p -> closed (signal_doc p).
Proof.
  intros ST v u J (d & s & data & t & -> & K & N & T & NE & D & DT). destruct (jeq_dict_inv _ _ J) as (e & -> & S).
  destruct (ST _ _ _ D DT) as (x & ->). exists e, s, data, (VStr x). split; auto. split; [now apply (ds_keys _ _ S)|].
  split; [apply (ds_atom _ _ S); cbn; auto|]. split; [apply (ds_atom _ _ S); cbn; auto|auto].
Qed.
Lemma c_with_keys ks Q d e : (forall s, closed (Q s)) -> dsim d e -> with_keys ks Q d -> with_keys ks Q e.
Proof.
  intros C S (K & H). split; [now apply (ds_keys _ _ S)|]. intros s I. destruct (H s I) as (v & E & q).
  destruct (ds_get _ _ S _ _ (Q s) (C s) E q) as (u & E' & q'). eauto.
Qed.
Lemma dict_list ds m : Forall2 jeq (map VDict ds) m -> exists es, m = map VDict es /\ Forall2 dsim ds es.
Proof.
  revert m. induction ds as [|d ds IH]; intros m F; inversion F as [|? u ? m' J F']; subst; [exists []; auto|].
  destruct (jeq_dict_inv _ _ J) as (e & -> & S). destruct (IH m' F') as (es & -> & FS). exists (e :: es). split; auto.
Qed.
Lemma c_slots (P : dict -> Prop) : (forall d e, dsim d e -> P d -> P e) -> closed (slots_doc P).
Proof.
  intros C v u J (ds & zs & -> & ND & F). destruct (jeq_list_inv _ _ J) as (m & -> & FM). destruct (dict_list _ _ FM) as (es & -> & FS).
  exists es, zs. split; auto. split; auto. clear - C F FS. revert zs F. induction FS as [|d e ds es S FS IH]; intros zs F; inversion F as [|? z ? zs' [E Pd] F']; subst; constructor; auto.
  split; [apply (ds_atom _ _ S); cbn; auto|eapply C; eauto].
Qed.
Lemma c_filters (P : dict -> Prop) : (forall d e, dsim d e -> P d -> P e) -> closed (filters_doc P).
Proof.
  intros C v u J (d & ds & -> & F). destruct (jeq_list_inv _ _ J) as (m & -> & FM). destruct (dict_list _ _ FM) as (es & -> & FS).
  assert (FE : Forall P es).
  { clear - C F FS. remember (d :: ds) as l. clear d ds Heql. induction FS; inversion F; subst; constructor; eauto. }
  inversion FS as [|? e ? es' S FS']; subst. exists e, es'. split; auto.
Qed.
Ltac byname := match goal with |- closed (fun _ => _) => idtac | |- closed (?f ?s) => unfold f | |- closed (?f ?p ?s) => unfold f end;
  repeat match goal with |- context [String.eqb ?a ?b] => destruct (String.eqb a b) end.
Lemma c_cargo s : closed (cargo_slot s).
Proof. byname; [apply c_builtin|apply c_true]. Qed.
Lemma c_request s : closed (request_slot s).
Proof. byname; first [apply c_builtin|apply c_int|apply c_true]. Qed.
Lemma c_infslot s : closed (infinity_slot s).
Proof. byname; first [apply c_builtin|apply c_true|apply c_in; atoms]. Qed.
Lemma c_inserter p s : closed (inserter_slot p s).
Proof. byname; [apply c_a_signal|apply c_true]. Qed.
Lemma c_constant p s : string_types p -> closed (constant_slot p s).
Proof. intros ST. byname; [now apply c_signal|apply c_true]. Qed.
Lemma c_nil v u : jeq v u -> v <> VList [] -> u <> VList [].
Proof. intros J N ->. inversion J; subst; [congruence|]. inversion H1; subst. congruence. Qed.
Lemma c_inventory : closed inventory_doc.
Proof.
  intros v u J (d & -> & NE & K & NB & H). destruct (jeq_dict_inv _ _ J) as (e & -> & S). exists e. split; auto. split; [now apply (ds_ne _ _ S)|].
  split; [now apply (ds_keys _ _ S)|]. split.
  - intros E. destruct (ds_back _ _ S _ _ E) as (v & D & JV). inversion JV; subst. congruence.
  - apply (ds_opt _ _ S "filters" (fun fs => fs <> VList [] /\ slots_doc (with_keys ["index"; "name"] cargo_slot) fs)); auto.
    intros v u JV (A & B). split; [eapply c_nil; eauto|]. revert JV B. apply c_slots. intros. eapply c_with_keys; eauto. apply c_cargo.
Qed.
Lemma c_infinity : closed infinity_doc.
Proof.
  intros v u J (d & b & fs & -> & K & B & F & H). destruct (jeq_dict_inv _ _ J) as (e & -> & S).
  destruct (proj1 S _ _ F) as (fs' & F' & JF). exists e, b, fs'. split; auto. split; [now apply (ds_keys _ _ S)|].
  split; [apply (ds_atom _ _ S); cbn; auto|]. split; auto. revert JF H. apply c_slots. intros. eapply c_with_keys; eauto. apply c_infslot.
Qed.
Lemma c_speaker : closed speaker_doc.
Proof.
  intros v u J (d & f & b & c & -> & K & A & B & C). destruct (jeq_dict_inv _ _ J) as (e & -> & S).
  exists e, f, b, c. split; auto. split; [now apply (ds_keys _ _ S)|]. repeat split; apply (ds_atom _ _ S); cbn; auto.
Qed.
Lemma c_icon : closed icon_doc.
Proof.
  intros v u J (d & s & t & -> & K & A & B & C). destruct (jeq_dict_inv _ _ J) as (e & -> & S).
  exists e, s, t. split; auto. split; [now apply (ds_keys _ _ S)|]. repeat split; try (apply (ds_atom _ _ S); cbn; auto). auto.
Qed.
Lemma c_alert : closed alert_doc.
Proof.
  intros v u J (d & b & c & m & -> & K & A & B & C & H). destruct (jeq_dict_inv _ _ J) as (e & -> & S).
  destruct (proj1 S _ _ C) as (m' & C' & _). exists e, b, c, m'. split; auto. split; [now apply (ds_keys _ _ S)|].
  split; [apply (ds_atom _ _ S); cbn; auto|]. split; [apply (ds_atom _ _ S); cbn; auto|]. split; auto.
  apply (ds_opt _ _ S "icon_signal_id" icon_doc); auto. apply c_icon.
Qed.

(** ** control behaviours *)
Lemma ds_signal p d e k : string_types p -> dsim d e -> signal_or_not p d k -> signal_or_not p e k.
Proof. intros ST S H. unfold signal_or_not. apply (ds_opt _ _ S (KS k) (signal_doc p)); auto. now apply c_signal. Qed.
Lemma ds_integer d e k : dsim d e -> integer_or_not d k -> integer_or_not e k.
Proof. intros S H. unfold integer_or_not. apply (ds_opt _ _ S (KS k) (fun v => exists z, v = VInt z)); auto. apply c_int. Qed.
Lemma ds_both d e k k' : dsim d e -> not_both d k k' -> not_both e k k'.
Proof. intros S [H|H]; [left|right]; apply (ds_is_none _ _ S); auto. Qed.
Lemma c_strs l : closed (fun v => In v (map VStr l)).
Proof. apply c_in. apply Forall_forall. intros v I. apply in_map_iff in I as (s & <- & _). exact I. Qed.
Lemma in_str_atom v l : In v (map VStr l) -> atom v.
Proof. intros I. apply in_map_iff in I as (s & <- & _). exact I. Qed.
Lemma c_condition p : string_types p -> closed (condition_doc p).
Proof.
  intros ST v u J (d & -> & NE & K & A & B & C & D & E). destruct (jeq_dict_inv _ _ J) as (e & -> & S). exists e. split; auto.
  split; [now apply (ds_ne _ _ S)|]. split; [now apply (ds_keys _ _ S)|]. split; [eapply ds_signal; eauto|]. split; [eapply ds_signal; eauto|].
  split; [eapply ds_integer; eauto|]. split; [eapply ds_both; eauto|]. apply (ds_opt _ _ S "comparator" (fun v => In v comparators)); auto. apply c_strs.
Qed.
Lemma c_arithmetic p : string_types p -> closed (arithmetic_doc p).
Proof.
  intros ST v u J (d & o & -> & K & O & IO & A1 & A2 & A3 & A4 & A5 & A6 & A7). destruct (jeq_dict_inv _ _ J) as (e & -> & S). exists e, o. split; auto.
  split; [now apply (ds_keys _ _ S)|]. split; [apply (ds_atom _ _ S); auto; eapply in_str_atom; exact IO|]. split; auto.
  repeat split; first [eapply ds_signal; eauto; fail|eapply ds_integer; eauto; fail|eapply ds_both; eauto; fail].
Qed.
Lemma c_decider p : string_types p -> closed (decider_doc p).
Proof.
  intros ST v u J (d & o & c & -> & K & O & IO & C & A1 & A2 & A3 & A4 & A5). destruct (jeq_dict_inv _ _ J) as (e & -> & S).
  destruct (proj1 S _ _ C) as (c' & C' & _). exists e, o, c'. split; auto.
  split; [now apply (ds_keys _ _ S)|]. split; [apply (ds_atom _ _ S); auto; eapply in_str_atom; exact IO|]. split; auto. split; auto.
  repeat split; first [eapply ds_signal; eauto; fail|eapply ds_integer; eauto; fail|eapply ds_both; eauto; fail].
Qed.
Lemma c_circuit : closed circuit_parameters_doc.
Proof.
  intros v u J (d & -> & W). destruct (jeq_dict_inv _ _ J) as (e & -> & S). exists e. split; auto. eapply c_with_keys; eauto. intros; apply c_true.
Qed.
Lemma c_cb_field p k : string_types p -> closed (cb_field p k).
Proof.
  intros ST. unfold cb_field. destruct (existsb _ signal_keys); [now apply c_signal|]. destruct (String.eqb k _); [now apply c_condition|].
  destruct (String.eqb k _); [apply c_filters; intros; eapply c_with_keys; eauto; intros; now apply c_constant|].
  destruct (String.eqb k _); [apply atom_closed; intros v ->; exact I|]. destruct (String.eqb k _); [now apply c_arithmetic|].
  destruct (String.eqb k _); [now apply c_decider|]. destruct (String.eqb k _); [apply c_circuit|apply c_none].
Qed.
Lemma c_cb p ty : string_types p -> closed (cb_doc p ty).
Proof.
  intros ST v u J (d & -> & NE & H & R). destruct (jeq_dict_inv _ _ J) as (e & -> & S). exists e. split; auto. split; [now apply (ds_ne _ _ S)|]. split.
  - intros k u E. destruct (ds_back _ _ S _ _ E) as (v & D & JV). destruct (H k v D) as (s & -> & U & F). exists s. split; auto. split; auto.
    eapply c_cb_field; eauto.
  - intros s I. apply (ds_some _ _ S). auto.
Qed.

(** ** entities *)
Lemma c_field p ty k : string_types p -> closed (field_doc p ty k).
Proof.
  intros ST. unfold field_doc.
  destruct (String.eqb k _); [apply c_point|]. destruct (String.eqb k _); [apply atom_closed; intros v (_ & z & -> & _); exact I|].
  destruct (String.eqb k _); [now apply c_cb|]. destruct (String.eqb k _).
  { intros v u J (d & -> & NE & H). destruct (jeq_dict_inv _ _ J) as (e & -> & S). exists e. split; auto. split; [now apply (ds_ne _ _ S)|].
    intros k0 u I. assert (N : dget k0 e <> None).
    { clear - I. induction e as [|[k' v'] e IH]; [destruct I|]. cbn [dget]. destruct (key_eqb k0 k') eqn:E; [discriminate|].
      destruct I as [[= -> ->]|I]; [now rewrite key_eqb_refl in E|auto]. }
    apply (ds_none _ _ S) in N. destruct (dget k0 d) as [v0|] eqn:D; [|congruence]. exact (H k0 v0 (dget_in _ _ _ D)). }
  destruct (String.eqb k _); [apply atom_closed; intros v (f & -> & _); exact I|]. destruct (String.eqb k _); [apply c_inventory|].
  destruct (String.eqb k _); [apply c_colour|]. destruct (String.eqb k _); [apply c_int|]. destruct (existsb _ _); [apply c_point|].
  destruct (String.eqb k _); [apply c_filters; intros; eapply c_with_keys; eauto; intros; apply c_inserter|].
  destruct (String.eqb k _); [apply c_in; atoms|]. destruct (String.eqb k _); [apply c_infinity|].
  destruct (String.eqb k _); [apply atom_closed; intros v (f & -> & _); exact I|]. destruct (String.eqb k _).
  { intros v u J (N & H). split; [eapply c_nil; eauto|]. revert J H. apply c_slots. intros. eapply c_with_keys; eauto. apply c_request. }
  destruct (String.eqb k _); [apply atom_closed; intros v ->; exact I|]. destruct (String.eqb k _); [apply atom_closed; intros v (f & ->); exact I|].
  destruct (String.eqb k _); [apply c_speaker|]. destruct (String.eqb k _); [apply c_alert|]. destruct (existsb _ _); [apply c_in; atoms|].
  destruct (String.eqb k _); [apply c_builtin|]. destruct (String.eqb k _); [apply c_in; atoms|apply c_none].
Qed.
