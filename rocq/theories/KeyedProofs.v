(** * Dictionaries built from dictionaries without repeated keys have none: the exports of loaded
    documents are JSON documents. *)
From Coq Require Import Lia.
From Verif Require Import Py Num Util Classes Mixins Entity DefaultEntities DictFacts SpecReload ShapeProofs.
Open Scope Z_scope.

Fixpoint wk (v : val) : Prop :=
  match v with
  | VList l => (fix all l := match l with [] => True | x :: r => wk x /\ all r end) l
  | VDict d => NoDup (map fst d) /\ (fix all (d : dict) := match d with [] => True | (_, x) :: r => wk x /\ all r end) d
  | _ => True
  end.
Definition wkd (d : dict) : Prop := NoDup (map fst d) /\ Forall (fun kv => wk (snd kv)) d.
Lemma wk_dict d : wk (VDict d) <-> wkd d.
Proof.
  cbn [wk]. unfold wkd. split; intros [A B]; split; auto; clear A.
  - induction d as [|[k x] d IH]; constructor; [apply B|apply IH, B].
  - induction B as [|[k x] d H B IH]; auto.
Qed.
Lemma wk_list l : wk (VList l) <-> Forall wk l.
Proof. cbn [wk]. split; intros H. - induction l as [|x l IH]; constructor; [apply H|apply IH, H]. - induction H; auto. Qed.
Lemma wkd_nil : wkd [].
Proof. split; constructor. Qed.
Lemma wk_get d k v : wkd d -> dget k d = Some v -> wk v.
Proof. intros [_ H] E. rewrite Forall_forall in H. exact (H _ (dget_in _ _ _ E)). Qed.
Lemma wk_dsc d k : wkd d -> wk (dsc d k).
Proof. intros H. unfold dsc. destruct (dget k d) eqn:E; cbn; [eapply wk_get; eauto|exact I]. Qed.
Lemma wk_odflt d k v : wkd d -> wk v -> wk (odflt v (dget k d)).
Proof. intros H V. destruct (dget k d) eqn:E; cbn; [eapply wk_get; eauto|auto]. Qed.
Lemma wk_aget d k v : wkd d -> aget d k = Ok v -> wk v.
Proof. intros H. unfold aget. destruct (dget k d) eqn:E; intros [= <-]. eapply wk_get; eauto. Qed.
Lemma dset_vals k v (d : dict) : Forall (fun kv => wk (snd kv)) d -> wk v -> Forall (fun kv => wk (snd kv)) (dset k v d).
Proof. intros F V. induction F as [|[a x] d H F IH]; cbn; [repeat constructor; auto|]. destruct (key_eqb k a); constructor; auto. Qed.
Lemma wkd_dset k v d : wkd d -> wk v -> wkd (dset k v d).
Proof. intros [A B] V. split; [now apply dset_nodup|now apply dset_vals]. Qed.
Lemma ddel_in {V} k (d : list (key * V)) x : In x (ddel k d) -> In x d.
Proof. induction d as [|[a u] d IH]; cbn; auto. destruct (key_eqb k a); cbn; intuition. Qed.
Lemma wkd_ddel k d : wkd d -> wkd (ddel k d).
Proof.
  intros [A B]. split.
  - induction d as [|[a u] d IH]; cbn; [constructor|]. cbn in A. inversion A; subst. inversion B; subst. destruct (key_eqb k a); auto. cbn. constructor; auto.
    intros N. apply H1. apply in_map_iff in N as (y & Y & N). apply in_map_iff. exists y. split; auto. eapply ddel_in; eauto.
  - rewrite Forall_forall in *. intros y N. apply B. eapply ddel_in; eauto.
Qed.
Lemma wkd_obj_set o k v : wkd o -> wk v -> wkd (obj_set o k v).
Proof. intros. unfold obj_set. destruct v; auto using wkd_dset. Qed.
Lemma wkd_fold l : forall a, wkd a -> Forall (fun kv => wk (snd kv)) l -> wkd (fold_left (fun a kv => dset (fst kv) (snd kv) a) l a).
Proof. induction l as [|[k x] l IH]; intros a A F; cbn; auto. inversion F; subst. apply IH; auto. now apply wkd_dset. Qed.
Lemma wkd_drop (ks : list string) : forall d, wkd d -> wkd (fold_left (fun kw k => ddel (KS k) kw) ks d).
Proof. induction ks; intros d H; cbn; auto. apply IHks. now apply wkd_ddel. Qed.
Lemma wkd_merge a b : wkd a -> wkd b -> wkd (dmerge a b).
Proof. intros A B. unfold dmerge. apply wkd_fold; [auto|apply B]. Qed.
Lemma wk_getitem v k x : wk v -> getitem v k = Ok x -> wk x.
Proof. destruct v; try discriminate. intros H. apply wk_dict in H. cbn. destruct (dget k d) eqn:E; intros [= <-]. eapply wk_get; eauto. Qed.
Lemma wk_getdef v k u x : wk v -> wk u -> getdef v k u = Ok x -> wk x.
Proof. destruct v; try discriminate. intros H U. apply wk_dict in H. cbn. intros [= <-]. now apply wk_odflt. Qed.
Lemma wk_iter v l : wk v -> iter_val v = Ok l -> Forall wk l.
Proof.
  destruct v as [| | | | |l0|d]; try discriminate; cbn [iter_val]; intros H [= <-]; [now apply wk_list|].
  clear. induction d as [|[[s|z] x] d IH]; constructor; auto; exact I.
Qed.
Lemma wk_kwargs v d : wk v -> as_kwargs v = Ok d -> wkd d.
Proof. destruct v; try discriminate. cbn [as_kwargs]. destruct (all_KS d0); intros H [= <-]. now apply wk_dict. Qed.
Lemma wk_mapM {A} (f : A -> res val) (P : A -> Prop) : (forall x v, P x -> f x = Ok v -> wk v) -> forall l m, Forall P l -> mapM f l = Ok m -> Forall wk m.
Proof.
  intros H l. induction l as [|x l IH]; intros m F; cbn; [intros [= <-]; constructor|]. inversion F; subst.
  destruct (f x) eqn:E; cbn; [|discriminate]. destruct (mapM f l) eqn:M; cbn; [|discriminate]. intros [= <-]. constructor; eauto.
Qed.
Lemma wk_num n : wk (val_of_num n). Proof. destruct n; exact I. Qed.
Lemma wk_key k : wk (val_of_key k). Proof. destruct k; exact I. Qed.
Lemma wk_vec q : wk (vec_to_json q).
Proof. unfold vec_to_json. apply wk_dict. split; [repeat constructor; cbn; intuition discriminate|]. repeat constructor; apply wk_num. Qed.
Lemma wk_color c : wk (color_to_json c).
Proof. unfold color_to_json. apply wk_dict. split; [repeat constructor; cbn; intuition discriminate|]. repeat constructor; apply wk_num. Qed.

Ltac vals := repeat (apply Forall_cons || apply Forall_nil); cbn [fst snd] in *; try exact I.
Ltac nodup_lit := repeat constructor; cbn; intuition discriminate.
Ltac peel := match goal with
  | H : bind ?m _ = Ok _ |- _ => let E := fresh "E" in destruct m eqn:E; cbn [bind] in H; [|discriminate H]
  | H : Ok _ = Ok _ |- _ => inversion H; clear H; subst
  | H : Err _ = Ok _ |- _ => discriminate H
  end.

Section Protos.
Context (p : protos) (ST : string_types p).
Lemma wk_name v u : name_val v = Ok u -> wk u.
Proof. unfold name_val. intros H. repeat peel. destruct a; exact I. Qed.
Lemma wk_signal_check v u : signal_check p v = Ok u -> wk u.
Proof.
  unfold signal_check. destruct (truthy v); [|destruct v; intros [= <-]; exact I].
  intros H. peel. destruct a; [|discriminate]. injection H as <-. destruct v; try exact I; cbn in E; discriminate.
Qed.
Lemma wk_signal_set v u : signal_set p v = Ok u -> wk u.
Proof. destruct v; cbn [signal_set]; try apply wk_signal_check. intros [= <-]. exact I. Qed.
Lemma wk_signal_json v j : signal_json p v = Ok j -> wk j.
Proof.
  destruct v; cbn [signal_json]; try discriminate. destruct (dget s (p_signal p)) as [data|] eqn:E; [|discriminate]. intros H. peel. injection H as <-.
  destruct data; try discriminate. cbn in E0. destruct (dget "type" d) eqn:T; [|discriminate]. injection E0 as <-.
  destruct (ST s d v E T) as (y & ->). apply wk_dict. split; [nodup_lit|repeat constructor].
Qed.
Lemma wk_signal_obj_set o k v o' : wkd o -> wk v -> signal_obj_set p o k v = Ok o' -> wkd o'.
Proof. intros O V. unfold signal_obj_set. destruct v; intros H; repeat peel; auto using wkd_dset. apply wkd_dset; auto. eapply wk_signal_json; eauto. Qed.
Lemma wk_opt_signal o k v o' : wkd o -> opt_signal_json p o k v = Ok o' -> wkd o'.
Proof. intros O. unfold opt_signal_json. destruct (truthy v); intros H; repeat peel; auto. apply wkd_dset; auto. eapply wk_signal_json; eauto. Qed.
Lemma wk_operator l v u : operator_set l v = Ok u -> wk u.
Proof. unfold operator_set. destruct v; cbn; try discriminate; try (intros [= <-]; exact I). destruct (_ || _); [intros [= <-]; exact I|discriminate]. Qed.
Lemma wk_filter_new fc v f : wk v -> filter_new p fc v = Ok f -> wk f.
Proof.
  intros V. destruct fc as [fc|]; cbn [filter_new]; [|discriminate]. intros H. peel. pose proof (wk_kwargs _ _ V E) as K. destruct (dmem "self" a); [discriminate|].
  destruct fc; peel; [destruct (ddel "index" (ddel "count" (ddel "signal" a)))|destruct (ddel "index" (ddel "name" a))]; try discriminate; injection H as <-;
    (apply wk_dict; split; [nodup_lit|vals; eauto using wk_signal_set, wk_dsc]).
Qed.
Lemma wk_filter_json f j : wk f -> filter_json p f = Ok j -> wk j.
Proof.
  destruct f; cbn [filter_json]; try discriminate. intros F. apply wk_dict in F. destruct (dmem "signal" d).
  - intros H. peel. injection H as <-. apply wk_dict; split; [nodup_lit|vals; eauto using wk_signal_json, wk_dsc].
  - intros [= <-]. apply wk_dict; split; [nodup_lit|vals; eauto using wk_dsc].
Qed.
Lemma wk_orientation v u : orientation_set v = Ok u -> wk u.
Proof. destruct v; cbn [orientation_set]; intros H; repeat peel; try exact I; apply wk_num. Qed.
Lemma wk_int v u : int_or_none v = Ok u -> wk u.
Proof. unfold int_or_none. destruct v; intros H; repeat peel; exact I. Qed.
Lemma wk_vector v u : vector_field v = Ok u -> wk u.
Proof. unfold vector_field. intros H. repeat peel. destruct a; [apply wk_vec|exact I]. Qed.
Lemma wk_cargo l : forall acc d, wkd acc -> cargo_filters l acc = Ok d -> wkd d.
Proof. induction l as [|f l IH]; intros acc d A; cbn [cargo_filters]; intros H; repeat peel; auto. eapply IH; [|eauto]. apply wkd_dset; eauto using wk_name. Qed.
Lemma wk_inventory v bar fs : wk v -> inventory_set v = Ok (bar, fs) -> wk bar /\ wkd fs.
Proof.
  unfold inventory_set. intros V. destruct v; try (intros [= <- <-]; split; [exact I|apply wkd_nil]); intros H; repeat peel; try discriminate.
  split; [eapply (wk_getdef _ "bar" VNone); [exact V|exact I|eassumption]|]. eapply wk_cargo; [apply wkd_nil|eauto].
Qed.
Lemma wk_inventory_get bar fs : wk bar -> wkd fs -> wk (inventory_get bar fs).
Proof.
  intros B F. assert (G : wk (VDict (match fs with [] => obj_set [] "bar" bar | _ => dset "filters" (VList (map (fun kv => VDict [(KS "index", val_of_key (fst kv)); (KS "name", snd kv)]) fs)) (obj_set [] "bar" bar) end))).
  { apply wk_dict. assert (O : wkd (obj_set [] "bar" bar)) by (apply wkd_obj_set; auto using wkd_nil). destruct fs; auto. apply wkd_dset; auto.
    apply wk_list. destruct F as [_ F]. clear - F. induction F as [|[k x] l H F IH]; constructor; auto. apply wk_dict. split; [nodup_lit|vals; auto using wk_key]. }
  unfold inventory_get. destruct bar; auto. destruct fs; auto.
Qed.
Lemma wk_request l : forall acc d, wkd acc -> request_set l acc = Ok d -> wkd d.
Proof.
  induction l as [|f l IH]; intros acc d A; cbn [request_set]; intros H; repeat peel; auto. eapply IH; [|eauto]. apply wkd_dset; auto.
  apply wk_dict. split; [nodup_lit|vals; eauto using wk_name].
Qed.
Lemma wk_inf l : forall acc d, wkd acc -> Forall wk l -> infinity_filters l acc = Ok d -> wkd d.
Proof.
  induction l as [|f l IH]; intros acc d A F; cbn [infinity_filters]; intros H; repeat peel; auto. inversion F; subst. destruct (negb _); [discriminate|]. repeat peel. eapply IH; [| |eauto]; auto. apply wkd_dset; auto.
  apply wk_dict. split; [nodup_lit|vals; eauto using wk_name, wk_getitem].
Qed.
Lemma wk_speaker v u : speaker_parameters v = Ok u -> wk u.
Proof. unfold speaker_parameters. destruct v; intros H; repeat peel; try exact I; apply wk_dict; (split; [nodup_lit|repeat constructor]). Qed.
Lemma wk_alert v u : wk v -> speaker_alert v = Ok u -> wk u.
Proof.
  unfold speaker_alert. intros V. destruct v; intros H; repeat peel; try exact I; apply wk_dict; (split; [nodup_lit|]); vals; eauto using wk_name, wk_getitem.
Qed.
Lemma wk_recipe b v u : recipe_set p b v = Ok u -> wk u.
Proof.
  unfold recipe_set. destruct b; cbn [negb]; [|destruct v; intros [= <-]; exact I].
  destruct v; intros H; repeat peel; try (destruct a; [|discriminate]; injection H as <-); try exact I; discriminate.
Qed.
Lemma wk_variation v u : variation_set v = Ok u -> wk u.
Proof. destruct v; cbn; try discriminate; try (intros [= <-]; exact I); destruct (_ || _); intros [= <-]; exact I. Qed.
Lemma wk_strs v l : str_in v l = true -> wk v.
Proof. destruct v; cbn; try discriminate; intros; exact I. Qed.
Lemma wk_side v : side_ok v = true -> wk v.
Proof. unfold side_ok. destruct v; cbn; try discriminate; intros; exact I. Qed.

Definition wki (st : ist) : Prop := wkd (i_kw st) /\ wkd (i_at st).
Lemma wki_consume st ks ats : wki st -> Forall (fun kv => wk (snd kv)) ats -> wki (consume st ks ats).
Proof. intros [A B] F. split; cbn; [now apply wkd_drop|now apply wkd_fold]. Qed.
Lemma wk_kwv st k : wki st -> wk (kwv st k).
Proof. intros [A _]. now apply wk_dsc. Qed.
Lemma negb_false_intro' b : negb b = false -> b = true. Proof. destruct b; auto. Qed.
Lemma wk_bool_like v : bool_like v = true -> wk v.
Proof. destruct v; cbn; try discriminate; intros; exact I. Qed.
Lemma wk_mode v l : is_none v || str_in v l = true -> wk v.
Proof. destruct v; cbn; try discriminate; intros; exact I. Qed.
Lemma wki_init b cls c st st' : wki st -> init_mixin p b cls c st = Ok st' -> wki st'.
Proof.
  intros W. pose proof (fun k => wk_kwv st k W) as KV.
  destruct c; cbn [init_mixin]; intros H; try (injection H as <-; exact W).
  all: try (repeat (peel || match goal with H : (if ?c then _ else _) = Ok _ |- _ => destruct c eqn:?; [discriminate H|] end);
    apply wki_consume; [exact W|]; vals;
    eauto using wk_orientation, wk_int, wk_vector, wk_recipe, wk_speaker, wk_alert, wk_name, wk_variation, wk_bool_like, wk_side, wk_mode, negb_false_intro'; fail).
  - destruct (odflt (VDict []) (dget "items" (i_kw st))) as [| | | | | |d] eqn:E; try discriminate. peel. injection H as <-.
    assert (D : wk (VDict d)) by (rewrite <- E; apply wk_odflt; [apply W|apply wk_dict, wkd_nil]).
    destruct (wki_consume st ["items"] [(KS "items", VDict d)] W) as [_ B]; [vals; exact D|]. split; [apply wkd_nil|exact B].
  - repeat peel. destruct a as [bar fs]. injection H as <-. destruct (wk_inventory _ _ _ (KV "inventory") E) as [B1 B2].
    apply wki_consume; [exact W|]. vals; [exact B1|now apply wk_dict].
  - peel. injection H as <-. apply wki_consume; [exact W|]. vals. destruct (kwv st "color"); repeat peel; try (injection E as <-); try exact I; apply wk_color.
  - peel. peel. destruct (negb _) eqn:N; [discriminate|]. injection H as <-. apply wki_consume; [exact W|]. vals; [|eauto using wk_mode, negb_false_intro'].
    apply wk_list. eapply wk_mapM with (P := wk); [|  |exact E0]; [intros; eapply wk_filter_new; eauto|].
    specialize (KV "filters"). destruct (kwv st "filters"); try (eapply wk_iter; eauto; fail). injection E as <-. constructor.
  - repeat peel. apply wki_consume; [exact W|]. vals. apply wk_dict. eapply wk_inf; [apply wkd_nil| |eauto].
    assert (A0 : wk a0) by (eapply wk_getitem; eauto). destruct a0; try (eapply wk_iter; eauto; fail). injection E1 as <-. constructor.
  - repeat peel. apply wki_consume; [exact W|]. vals; [apply wk_odflt; [apply W|exact I]|]. apply wk_dict. eapply wk_request; [apply wkd_nil|eauto].
  - destruct (dget "type" (i_kw st)) as [v|] eqn:E; [|discriminate]. destruct (negb _) eqn:N; [discriminate|]. injection H as <-. apply wki_consume; [exact W|]. vals. eapply wk_strs, negb_false_intro'; eauto.
Qed.
Lemma wk_init_chain b name cls l : forall st a, wki st -> init_chain p b name cls l st = Ok a -> wkd a.
Proof.
  induction l as [|c l IH]; intros st a W; cbn [init_chain]; [intros [= <-]; apply W|].
  destruct (match c with CBaseMixin => true | _ => false end) eqn:B.
  - destruct c; try discriminate. intros H. repeat peel. apply W.
  - intros H. assert (H' : bind (init_mixin p b cls c st) (fun st => init_chain p b name cls l st) = Ok a) by (destruct c; try discriminate B; exact H). clear H.
    peel. eapply IH; [|eauto]. eapply wki_init; eauto.
Qed.

Definition wkc (st : cst) : Prop := wkd (k_kw st) /\ wkd (k_at st).
Lemma wkc_consume st ks ats : wkc st -> Forall (fun kv => wk (snd kv)) ats -> wkc (cconsume st ks ats).
Proof. intros [A B] F. split; cbn; [now apply wkd_drop|now apply wkd_fold]. Qed.
Lemma wk_ckw st k : wkc st -> wk (ckw st k).
Proof. intros [A _]. now apply wk_dsc. Qed.
Lemma wk_circuit v u : wk v -> circuit_parameters v = Ok u -> wk u.
Proof.
  unfold circuit_parameters. intros V H. peel. pose proof (wk_kwargs _ _ V E) as K. destruct (ddel _ _); [|discriminate]. peel.
  apply wk_dict; split; [nodup_lit|]. vals; auto using wk_dsc.
Qed.
Lemma wkc_simple cls c st st' : wkc st -> cb_simple p cls c st = Ok st' -> wkc st'.
Proof.
  intros W. pose proof (fun k => wk_ckw st k W) as KV.
  destruct c; cbn [cb_simple]; intros H; try (injection H as <-; exact W).
  all: try (repeat peel; apply wkc_consume; [exact W|]; vals; eauto using wk_signal_set; (apply wk_odflt; [apply W|exact I]); fail).
  all: try (repeat peel; apply wkc_consume; [exact W|]; vals; eauto using wk_signal_set; fail).
  - peel. peel. peel. apply wkc_consume; [exact W|]. vals. apply wk_list. eapply wk_mapM with (P := wk); [| |eauto]; [intros; eapply wk_filter_new; eauto|].
    eapply wk_iter; [|eauto]. apply wk_odflt; [apply W|apply wk_list; constructor].
  - destruct (ckw st "circuit_condition"); repeat peel; (apply wkc_consume; [exact W|]); vals; eauto using wk_signal_set, wk_operator.
  - peel. peel. apply wkc_consume; [exact W|]. vals. eapply wk_circuit; [|eauto]. apply wk_odflt; [apply W|apply wk_dict, wkd_nil].
Qed.
Lemma wkd_take typ k d d' r : wkd d -> take_signal p typ k d = (d', r) -> wkd d' /\ forall v, r = Ok v -> wk v.
Proof.
  intros D. unfold take_signal. destruct (get_from typ k d) as [d1 r1] eqn:G. intros [= <- <-]. split.
  - unfold get_from, dpop in G. destruct (odflt _ _); [destruct (odflt _ _)| | | | | |]; injection G as <- _; auto using wkd_ddel.
  - intros v H. peel. eapply wk_signal_set; eauto.
Qed.
Lemma wk_comb_operator l v u : wk v -> comb_operator l v = Ok u -> wk u.
Proof. intros V. induction l as [|c l IH]; cbn [comb_operator]; [intros [= <-]; auto|]. destruct c; eauto using wk_operator. Qed.
Lemma wkd_comb_take cbl typ op d d' r : wkd d -> comb_take p cbl typ op d = (d', r) -> wkd d' /\ forall a, r = Ok a -> Forall (fun kv => wk (snd kv)) a.
Proof.
  intros D. unfold comb_take. destruct (dget op d) as [o|] eqn:G; [|intros [= <- <-]; split; [auto|discriminate]].
  pose proof (wkd_ddel (KS op) _ D) as D1. destruct (comb_operator cbl o) eqn:CO; [|intros [= <- <-]; split; [auto|discriminate]].
  destruct (take_signal p typ "first" _) as [d2 r1] eqn:T1. destruct (wkd_take _ _ _ _ _ D1 T1) as [D2 V1]. destruct r1; [|intros [= <- <-]; split; [auto|discriminate]].
  destruct (take_signal p typ "second" _) as [d3 r2] eqn:T2. destruct (wkd_take _ _ _ _ _ D2 T2) as [D3 V2]. destruct r2; [|intros [= <- <-]; split; [auto|discriminate]].
  destruct (take_signal p typ "output" _) as [d4 r3] eqn:T3. destruct (wkd_take _ _ _ _ _ D3 T3) as [D4 V3]. destruct r3; intros [= <- <-]; (split; [auto|]); [|discriminate].
  intros a3 [= <-]. vals; auto. eapply wk_comb_operator; [|eauto]. exact (wk_get _ _ _ D G).
Qed.
Lemma wkc_link cls cbl c st st' r : wkc st -> cb_link p cls cbl c st = (st', r) -> wkc st'.
Proof.
  intros W.
  assert (G : match cb_simple p cls c st with Ok st' => (st', Ok tt) | Err e => (st, Err e) end = (st', r) -> wkc st').
  { destruct (cb_simple p cls c st) eqn:E; intros [= <- <-]; [eapply wkc_simple; eauto|exact W]. }
  destruct c; try exact G; clear G; cbn [cb_link].
  - unfold comb_init. destruct (comb_names cls) as [[typ op]|]; [|intros [= <- <-]; exact W].
    destruct (odflt (VDict []) _) as [| | | | | |d] eqn:O; try (intros [= <- <-]; exact W).
    assert (D : wkd d) by (apply wk_dict; rewrite <- O; apply wk_odflt; [apply W|apply wk_dict, wkd_nil]).
    destruct (comb_take p cbl typ op d) as [d' r'] eqn:T. destruct (wkd_comb_take _ _ _ _ _ _ D T) as [D' A].
    destruct r' as [ats|]; intros [= <- <-]; [|exact W]. destruct W as [W1 W2]. split; cbn [k_kw k_at].
    + destruct d'; [now apply wkd_ddel|]. apply wkd_dset; [now apply wkd_ddel|now apply wk_dict].
    + apply wkd_fold; [|now apply A]. now apply wkd_dset.
  - unfold decider_init. destruct (comb_names cls) as [[typ op]|]; [|intros [= <- <-]; exact W].
    destruct (dget _ (k_kw st)) as [v|] eqn:G; [|intros [= <- <-]; exact W]. destruct W as [W1 W2]. pose proof (wk_get _ _ _ W1 G) as V.
    destruct v as [| | | | | |d]; try (intros [= <- <-]; split; assumption). apply wk_dict in V. unfold dpop. pose proof (wkd_ddel "copy_count_from_input" _ V) as D'.
    intros [= <- <-]. split; cbn [k_kw k_at].
    + destruct (ddel "copy_count_from_input" d); [now apply wkd_ddel|]. apply wkd_dset; [now apply wkd_ddel|now apply wk_dict].
    + apply wkd_dset; [apply wkd_dset; [auto|exact I]|]. now apply wk_odflt.
Qed.
Lemma wkc_chain name cls all l : forall st st' a, wkc st -> cb_init_chain p name cls all l st = (st', Ok a) -> wkd a.
Proof.
  induction l as [|c l IH]; intros st st' a W; cbn [cb_init_chain]; [intros [= <- <-]; apply W|].
  assert (G : (let '(st, x) := cb_link p cls all c st in match x with Ok _ => cb_init_chain p name cls all l st | Err e => (st, Err e) end) = (st', Ok a) -> wkd a).
  { destruct (cb_link p cls all c st) as [st1 x] eqn:L. destruct x; [|discriminate]. intros H. eapply IH; [|eauto]. eapply wkc_link; eauto. }
  destruct c; try exact G; clear G.
  - destruct (base_init _ _ _ _); [|discriminate]. intros [= <- <-]. cbn. apply wkd_dset; [apply W|exact I].
  - destruct (cb_link p cls all CInserter st) as [st1 x] eqn:L. destruct x; [|discriminate]. intros [= <- <-]. apply (wkc_link _ _ _ _ _ _ W L).
Qed.

(** ** entities *)
Definition wke (e : entity) : Prop := wkd (e_at e) /\ wk (e_name e) /\ forall cb, e_cb e = Some cb -> wkd (cb_at cb).
Lemma set_name_wk cust v e e' : set_name p cust v e = (e', Ok tt) -> wk (e_name e') /\ e_at e' = e_at e /\ e_cb e' = e_cb e.
Proof.
  unfold set_name. destruct (e_strict e); cbn [negb].
  - destruct (in_table v (p_entity p)) as [[]|]; try discriminate. destruct v; try discriminate. destruct (bind _ _); [|discriminate]. intros [= <-]. repeat split.
  - destruct v; try discriminate. intros [= <-]. repeat split.
Qed.
Lemma wk_construct cust layer kw kw' e : wkd kw -> construct p cust layer kw = (kw', Ok e) -> wke e.
Proof.
  intros K. unfold construct. destruct (negb _ || _ || _); [discriminate|].
  destruct (dget "name" kw) as [name|]; [|discriminate]. destruct (dget "position" kw) as [pos|]; [|discriminate].
  set (e0 := mkEnt _ _ _ _ _ _ _ _ _ _ _). destruct (set_name p cust name e0) as [e1 r] eqn:SN. destruct r as [[]|]; [|discriminate].
  apply set_name_wk in SN as (N & _ & CB). cbn in CB.
  destruct (bind _ _) as [e2|] eqn:B; [|discriminate]. assert (N2 : wk (e_name e2) /\ e_cb e2 = None) by (repeat peel; cbn; auto). clear B. destruct N2 as [N2 C2].
  assert (F : forall (e3 : entity) k (kw1 : dict), wk (e_name e3) -> (forall cb, e_cb e3 = Some cb -> wkd (cb_at cb)) ->
            (k, let! a := init_chain p (e_strict e3) (e_name e3) (statics (e_cls e3)) (chain (e_cls e3)) (mkIst 0 (drop_keys entity_keys kw) []) in Ok (with_at a e3)) = (kw', Ok e) -> wke e).
  { intros e3 k _ N3 C3 H. injection H as _ H. peel. peel. split; [|split; [exact N3|exact C3]]. cbn. eapply wk_init_chain; [|eauto]. split; [cbn [i_kw]; repeat apply wkd_ddel; exact K|apply wkd_nil]. }
  destruct (dget "control_behavior" kw) as [cbv|] eqn:CV; [|apply F; [exact kw|exact N2|rewrite C2; discriminate]].
  destruct (as_kwargs cbv) as [cbkw|] eqn:AK; [|discriminate]. destruct (dmem "self" cbkw || dmem "_entity" cbkw); [discriminate|].
  destruct (cb_init_chain _ _ _ _ _ _) as [st r] eqn:CI. destruct r as [a|]; [|discriminate]. apply F; [exact kw|exact N2|]. cbn. intros cb [= <-]. cbn.
  eapply wkc_chain; [|exact CI]. split; cbn; [|apply wkd_nil]. eapply wk_kwargs; [|exact AK]. eapply wk_get; eauto.
Qed.

(** ** exports *)
Lemma wk_none_inner v k : wk v -> wk (odflt VNone (match v with VDict e => dget k e | _ => None end)).
Proof. intros V. destruct v; try exact I. apply wk_dict in V. apply wk_odflt; auto. exact I. Qed.
Lemma wkd_mixin dir c a o o' : wkd a -> wkd o -> json_mixin p dir c a o = Ok o' -> wkd o'.
Proof.
  intros A O. destruct c; cbn [json_mixin]; intros H; try (injection H as <-; exact O).
  all: try (repeat peel; repeat apply wkd_obj_set; eauto using wk_aget, wk_dsc; fail).
  - peel. pose proof (wk_aget _ _ _ A E) as V. destruct a0 as [| | | | | |[|x d]]; injection H as <-; auto using wkd_dset.
  - peel. peel. pose proof (wk_aget _ _ _ A E) as V1. pose proof (wk_aget _ _ _ A E0) as V2. destruct a1; try discriminate. injection H as <-. apply wkd_obj_set; auto. apply wk_inventory_get; auto. now apply wk_dict.
  - peel. peel. pose proof (wk_aget _ _ _ A E) as V1. pose proof (wk_aget _ _ _ A E0) as V2. assert (O1 : wkd (obj_set o "filter_mode" a0)) by auto using wkd_obj_set.
    destruct a1 as [| | | | |[|x r]|]; try (injection H as <-; exact O1). peel. peel. apply wkd_dset; auto. apply wk_list. eapply wk_mapM with (P := wk); [| |eauto]; [intros; eapply wk_filter_json; eauto|now apply wk_list].
  - peel. peel. pose proof (wk_aget _ _ _ A E) as V1. pose proof (wk_aget _ _ _ A E0) as V2. destruct a1; try discriminate. injection H as <-. apply wkd_dset; auto. apply wk_dict. split; [nodup_lit|]. vals; auto.
    apply wk_list. apply wk_dict in V2 as [_ F]. clear - F. induction F as [|[k x] l H F IH]; constructor; auto. apply wk_dict. split; [nodup_lit|]. vals; auto using wk_key, wk_none_inner.
  - peel. peel. pose proof (wk_aget _ _ _ A E) as V1. pose proof (wk_aget _ _ _ A E0) as V2. assert (O1 : wkd (if truthy a0 then dset "request_from_buffers" a0 o else o)) by (destruct (truthy a0); auto using wkd_dset).
    destruct a1 as [| | | | | |[|x r]]; try (injection H as <-; exact O1). injection H as <-. apply wkd_dset; auto. apply wk_list. apply wk_dict in V2 as [_ F]. clear - F.
    change (Forall wk (map (fun kv => VDict [(KS "index", val_of_key (fst kv)); (KS "name", odflt VNone (match snd kv with VDict e => dget "name" e | _ => None end));
                                              (KS "count", odflt VNone (match snd kv with VDict e => dget "count" e | _ => None end))]) (x :: r))).
    induction F as [|[k y] l H F IH]; constructor; auto. apply wk_dict. split; [nodup_lit|]. vals; auto using wk_key, wk_none_inner.
  - injection H as <-. destruct (dir =? 0); auto. now apply wkd_dset.
  - peel. peel. pose proof (wk_aget _ _ _ A E) as V1. pose proof (wk_aget _ _ _ A E0) as V2. assert (O1 : wkd (obj_set o "parameters" a0)) by auto using wkd_obj_set.
    destruct a1 as [| | | | | |d]; try (injection H as <-; exact O1). injection H as <-. apply wkd_dset; auto. apply wk_dict in V2. apply wk_dict.
    destruct (dsc d "icon_signal_id"); cbn [app]; (split; [nodup_lit|]); vals; auto using wk_dsc. apply wk_dict. split; [nodup_lit|]. vals. unfold default_type. destruct (dget _ _); exact I.
Qed.
Lemma wkd_sub o k : wkd o -> wkd (sub o k).
Proof. intros O. unfold sub. destruct (dget k o) as [[]|] eqn:E; auto using wkd_nil. apply wk_dict. eapply wk_get; eauto. Qed.
Lemma wkd_put field k v s s' : wkd s -> wk v -> comb_put p field k v s = Ok s' -> wkd s'.
Proof. intros S V. unfold comb_put. destruct v; try (intros H; eapply wk_signal_obj_set; eauto; fail). intros [= <-]. now apply wkd_dset. Qed.
Lemma wkd_cb_link cls c a o o' : wkd a -> wkd o -> cb_json_link p cls c a o = Ok o' -> wkd o'.
Proof.
  intros A O. assert (DS : forall k, wk (dsc a k)) by (intros; now apply wk_dsc).
  destruct c; cbn [cb_json_link]; intros H; try (injection H as <-; exact O).
  all: try (repeat peel; repeat first [apply wkd_obj_set|apply wkd_dset]; eauto using wk_aget, wk_signal_obj_set; fail).
  all: try (repeat peel; eapply wk_signal_obj_set; [| |eassumption]; eauto; fail).
  - peel. pose proof (wk_aget _ _ _ A E) as V. destruct a0 as [| | | | |[|x r]|]; try (injection H as <-; exact O). peel. peel. apply wkd_dset; auto. apply wk_list. eapply wk_mapM with (P := wk); [| |eauto]; [intros; eapply wk_filter_json; eauto|now apply wk_list].
  - repeat peel. destruct (truthy a0); auto. now apply wkd_dset.
  - peel. destruct (comb_names cls) as [[? op]|]; [|discriminate]. peel. destruct a1; try discriminate. peel. peel. peel. peel. injection H as <-. apply wkd_dset; auto. apply wk_dict. apply wkd_merge; [|now apply wkd_sub].
    assert (V : wk a1) by (destruct (dget "operator" a) eqn:G; [|discriminate]; injection E1 as <-; exact (wk_get _ _ _ A G)).
    eapply wkd_put; [| |eassumption]; auto. eapply wkd_put; [| |eassumption]; auto. eapply wkd_put; [| |eassumption]; auto. split; [nodup_lit|]. vals. exact V.
  - peel. destruct a0; try discriminate. peel. injection H as <-. apply wkd_dset; auto. apply wk_dict. apply wkd_dset; [now apply wkd_sub|]. eapply wk_aget; [exact A|eassumption].
  - peel. assert (O1 : wkd (obj_set o "circuit_read_signal" a0)) by (apply wkd_obj_set; eauto using wk_aget). peel. peel.
    eapply wk_signal_obj_set; [| |exact H]; auto. eapply wk_signal_obj_set; [| |exact E1]; auto. eapply wk_signal_obj_set; [| |exact E0]; auto.
  - peel. peel. injection H as <-. assert (C0 : wkd (obj_set [] "comparator" (dsc a "comparator"))) by (apply wkd_obj_set; auto using wkd_nil).
    assert (C1 : wkd a0).
    { destruct (dsc a "first"); repeat peel; auto; apply wkd_dset; auto; try exact I; eapply wk_signal_json; eauto. }
    assert (C2 : wkd a1).
    { destruct (dsc a "second"); repeat peel; auto; apply wkd_dset; auto; try exact I; eapply wk_signal_json; eauto. }
    destruct a1; auto. apply wkd_dset; auto. now apply wk_dict.
  - peel. peel. peel. peel. peel. peel. repeat apply wkd_obj_set; eauto using wk_aget. eapply wk_signal_obj_set; [| |eassumption]; auto. repeat apply wkd_obj_set; eauto using wk_aget.
  - peel. peel. peel. peel. peel. eapply wk_opt_signal; [|exact H]. eapply wk_opt_signal; [|eassumption]. eapply wk_opt_signal; [|eassumption]. eapply wk_opt_signal; [|eassumption]. repeat apply wkd_obj_set; eauto using wk_aget.
  - peel. peel. peel. eapply wk_opt_signal; [|exact H]. repeat apply wkd_obj_set; eauto using wk_aget.
Qed.
Lemma wk_cb_chain cls l a : forall o v, wkd a -> wkd o -> cb_json_chain p cls l a o = Ok v -> wk v.
Proof.
  induction l as [|c l IH]; intros o v A O; cbn [cb_json_chain]; [intros [= <-]; now apply wk_dict|].
  assert (G : bind (cb_json_link p cls c a o) (fun o => cb_json_chain p cls l a o) = Ok v -> wk v).
  { intros H. peel. eapply IH; [exact A| |exact H]. eapply wkd_cb_link; [exact A|exact O|eassumption]. }
  destruct c; try exact G. intros [= <-]. destruct o; [exact I|]. now apply wk_dict.
Qed.
Lemma wkd_chain dir cls cb l a : (forall c, cb = Some c -> wkd (cb_at c)) -> forall o o', wkd a -> wkd o -> json_chain p dir cls cb l a o = Ok o' -> wkd o'.
Proof.
  intros C. induction l as [|c l IH]; intros o o' A O; cbn [json_chain]; [intros [= <-]; auto|].
  assert (G : bind (json_mixin p dir c a o) (fun o => json_chain p dir cls cb l a o) = Ok o' -> wkd o').
  { intros H. peel. eapply IH; [exact A| |exact H]. eapply wkd_mixin; [exact A|exact O|eassumption]. }
  destruct c; try exact G. destruct cb as [cb|]; [|intros [= <-]; auto]. intros H. peel. peel. apply wkd_obj_set; auto. eapply wk_cb_chain; [apply C; reflexivity|apply wkd_nil|exact E].
Qed.
End Protos.
