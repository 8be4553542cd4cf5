(** * Constructor chains: what one link reads, sets and passes on. *)
From Coq Require Import Lia.
From Verif Require Import Py Num Util Classes Mixins Entity World DictFacts DocProofs.
Open Scope Z_scope.

(** keys a mixin consumes *)
Definition mkeys (c : scls) : list string :=
  match c with
  | CItems => ["items"]
  | CTrain => ["orientation"]
  | CCargo => ["inventory"]
  | CColor => ["color"]
  | CContainer => ["bar"]
  | CInserter => ["override_stack_size"; "drop_position"; "pickup_position"]
  | CFilterInserter => ["filters"; "filter_mode"]
  | CInfinityContainer => ["infinity_settings"]
  | CRecipe => ["recipe"]
  | CRequester => ["request_from_buffers"; "request_filters"]
  | CSilo => ["auto_launch"]
  | CSpeaker => ["parameters"; "alert_parameters"]
  | CSplitter => ["input_priority"; "output_priority"; "filter"]
  | CStation => ["station"]
  | CUnderground => ["type"]
  | CVariation => ["variation"]
  | _ => []
  end.
(** attributes it sets *)
Definition mattrs (c : scls) : list string :=
  match c with
  | CCargo => ["inventory_bar"; "inventory_filters"]
  | CInfinityContainer => ["infinity_remove"; "infinity_filters"]
  | _ => mkeys c
  end.

Definition putall (ats a : dict) : dict := fold_left (fun a kv => dset (fst kv) (snd kv) a) ats a.
Definition mats (p : protos) (strict : bool) (cls : list scls) (c : scls) (kw : dict) : res dict :=
  match init_mixin p strict cls c (mkIst 0 kw []) with Ok st => Ok (i_at st) | Err e => Err e end.

Lemma dget_putall (ats : dict) : forall a k, dget k (putall ats a) = match dget k (rev ats) with Some v => Some v | None => dget k a end.
Proof.
  unfold putall. induction ats as [|[k0 v0] ats IH]; intros a k; cbn [fold_left rev]; [reflexivity|].
  rewrite IH. cbn [fst snd]. rewrite dget_dset'.
  assert (A : forall (l m : dict), dget k (l ++ m) = match dget k l with Some v => Some v | None => dget k m end).
  { induction l as [|[k1 v1] l IHl]; cbn; intros m; auto. destruct (key_eqb k k1); auto. }
  rewrite A. destruct (dget k (rev ats)); auto. cbn. destruct (key_eqb k k0); auto.
Qed.
Lemma putall_other (ats a : dict) k : (forall v, ~ In (k, v) ats) -> dget k (putall ats a) = dget k a.
Proof.
  intros H. rewrite dget_putall. destruct (dget k (rev ats)) eqn:E; auto. exfalso.
  assert (G : forall d : dict, dget k d = Some v -> In (k, v) d).
  { induction d as [|[k1 v1] d IHd]; cbn; [discriminate|]. destruct (key_eqb k k1) eqn:K; auto. apply key_eqb_eq in K. intros [= ->]. subst. auto. }
  apply (H v). apply in_rev. auto.
Qed.

Ltac inres := repeat match goal with
  | |- context [match ?r with Ok _ => _ | Err _ => _ end] => destruct r eqn:?; cbn [bind]; auto
  end.

Lemma init_mixin_char p strict cls c n kw at_ : c <> CItems ->
  init_mixin p strict cls c (mkIst n kw at_) =
  let! a := mats p strict cls c kw in Ok (mkIst n (drop_keys (mkeys c) kw) (putall a at_)).
Proof.
  intros NI. unfold mats.
  destruct c; try congruence; cbn [init_mixin mkeys]; unfold kwv, consume; cbn [i_kw i_args i_at];
    try reflexivity;
    repeat (match goal with
    | |- (let! _ := ?r in _) = _ => destruct r as [?|?]; cbn [bind i_at]; try reflexivity
    | |- context [let (_, _) := ?r in _] => destruct r; cbn [bind i_at]; try reflexivity
    | |- (if ?b then _ else _) = _ => destruct b; cbn [bind]; try reflexivity
    | |- (match ?r with Some _ => _ | None => _ end) = _ => destruct r; cbn [bind]; try reflexivity
    end).
Qed.
Lemma mats_ext p strict cls c (kw kw' : dict) : (forall s, In s (mkeys c) -> dget (KS s) kw = dget (KS s) kw') ->
  mats p strict cls c kw = mats p strict cls c kw'.
Proof.
  intros H. unfold mats.
  destruct c; try reflexivity; cbn [init_mixin]; unfold kwv, consume; cbn [i_kw i_args i_at];
    repeat match goal with
    | |- context [dget (KS ?s) kw] => rewrite (H s) by (cbn; tauto)
    end;
    repeat (match goal with
    | |- context [let! _ := ?r in _] => destruct r as [?|?]; cbn [bind i_at]; try reflexivity
    | |- context [let (_, _) := ?r in _] => destruct r; cbn [bind i_at]; try reflexivity
    | |- context [if ?b then _ else _] => destruct b; cbn [bind i_at]; try reflexivity
    | |- context [match odflt ?r ?q with _ => _ end] => destruct (odflt r q); cbn [bind i_at]; try reflexivity
    | |- context [match ?r with Some _ => _ | None => _ end] => destruct r; cbn [bind i_at]; try reflexivity
    end); try reflexivity.
Qed.
Lemma mats_attrs p strict cls c kw a : mats p strict cls c kw = Ok a ->
  forall k, (exists v, In (k, v) a) <-> exists s, k = KS s /\ In s (mattrs c).
Proof.
  unfold mats. intros H.
  destruct c; cbn [init_mixin] in H; unfold kwv, consume in H; cbn [i_kw i_args i_at] in H;
    repeat (match type of H with
    | context [let! _ := ?r in _] => destruct r as [?|?] eqn:?; cbn [bind i_at] in H; try discriminate
    | context [let (_, _) := ?r in _] => destruct r; cbn [bind i_at] in H; try discriminate
    | context [if ?b then _ else _] => destruct b; cbn [bind i_at] in H; try discriminate
    | context [match odflt ?r ?q with _ => _ end] => destruct (odflt r q); cbn [bind i_at] in H; try discriminate
    | context [match ?r with Some _ => _ | None => _ end] => destruct r; cbn [bind i_at] in H; try discriminate
    end); injection H as <-; cbn; intros k; (split; [intros (vv & G)|intros (ss & -> & G)]);
    try (repeat (destruct G as [G|G]; [inversion G; subst; eauto 10|]); contradiction).
Qed.
Lemma mkeys_disjoint c c' s : In s (mkeys c) -> In s (mkeys c') -> c = c'.
Proof.
  intros A B. destruct c; cbn in A; repeat (destruct A as [<-|A]); try contradiction;
    destruct c'; cbn in B; repeat (destruct B as [B|B]); try contradiction; try reflexivity; discriminate.
Qed.
Lemma mattrs_disjoint c c' s : In s (mattrs c) -> In s (mattrs c') -> c = c'.
Proof.
  intros A B. destruct c; cbn in A; repeat (destruct A as [<-|A]); try contradiction;
    destruct c'; cbn in B; repeat (destruct B as [B|B]); try contradiction; try reflexivity; discriminate.
Qed.
Lemma drop_keys_app a b (d : dict) : drop_keys (a ++ b) d = drop_keys b (drop_keys a d).
Proof. unfold drop_keys. now rewrite fold_left_app. Qed.
Lemma putall_app a b (d : dict) : putall (a ++ b) d = putall b (putall a d).
Proof. unfold putall. now rewrite fold_left_app. Qed.

Definition items_last (ms : list scls) : Prop := exists l, (ms = l \/ ms = l ++ [CItems]) /\ ~ In CItems l.

Lemma mapM_ext {X Y} (f g : X -> res Y) l : (forall x, In x l -> f x = g x) -> mapM f l = mapM g l.
Proof. induction l as [|x l IH]; cbn; intros H; auto. rewrite (H x) by auto. destruct (g x); auto. cbn [bind]. rewrite IH by auto. reflexivity. Qed.

Lemma mapM_cons {X Y} (f : X -> res Y) x l : mapM f (x :: l) = let! y := f x in let! r := mapM f l in Ok (y :: r).
Proof. reflexivity. Qed.

Lemma init_chain_char p strict name cls t ms : forall kw at_, NoDup ms -> ~ In CBaseMixin ms -> items_last ms ->
  init_chain p strict name cls (ms ++ CBaseMixin :: t) (mkIst 0 kw at_) =
  let! ats := mapM (fun c => mats p strict cls c kw) ms in
  match drop_keys (flat_map mkeys ms) kw with
  | [] => Ok (putall (concat ats) at_)
  | _ :: _ => Err (leftover_error p name)
  end.
Proof.
  assert (STEP : forall c r st, c <> CBaseMixin -> init_chain p strict name cls (c :: r) st = let! st' := init_mixin p strict cls c st in init_chain p strict name cls r st').
  { intros c r st N. destruct c; try reflexivity. congruence. }
  induction ms as [|c ms IH]; intros kw at_ ND NB IL.
  - cbn. destruct kw; reflexivity.
  - cbn [app]. rewrite STEP by (intros ->; apply NB; now left). inversion ND as [|? ? NC ND']; subst.
    rewrite mapM_cons. cbn [flat_map]. rewrite drop_keys_app.
    destruct (scls_eq_dec c CItems) as [->|NI].
    + assert (ms = []) as ->. { destruct IL as (l & [E|E] & N); [subst l; exfalso; apply N; now left|]. destruct l as [|c0 l]; [now injection E|]. injection E as <- _. exfalso. apply N. now left. }
      cbn [app mapM bind flat_map]. unfold mats. cbn [init_mixin i_kw mkeys]. destruct (odflt (VDict []) (dget "items" kw)); try reflexivity.
      destruct (items_check p d); [|reflexivity]. cbn [bind init_chain i_args i_kw i_at consume concat app].
      unfold drop_keys. cbn [fold_left]. destruct (ddel "items" kw) as [|kv r]; [reflexivity|]. reflexivity.
    + rewrite init_mixin_char by auto. destruct (mats p strict cls c kw) as [a|e]; cbn [bind]; [|reflexivity].
      rewrite IH; auto.
      * assert (X : mapM (fun c0 => mats p strict cls c0 (drop_keys (mkeys c) kw)) ms = mapM (fun c0 => mats p strict cls c0 kw) ms).
        { apply mapM_ext. intros c0 I0. apply mats_ext. intros s I. rewrite dget_drop_keys.
          destruct (named (mkeys c) (KS s)) eqn:E; [|reflexivity]. apply named_In in E. exfalso. apply NC. now rewrite (mkeys_disjoint _ _ _ E I). }
        rewrite X. clear X. destruct (mapM (fun c0 => mats p strict cls c0 kw) ms) as [r|]; cbn [bind]; [|reflexivity]. cbn [concat]. rewrite putall_app. reflexivity.
      * intros I. apply NB. now right.
      * destruct IL as (l & [E|E] & N).
        -- exists ms. split; [now left|]. subst l. intros I. apply N. now right.
        -- destruct l as [|c0 l]; [injection E as -> _; congruence|]. injection E as <- ->. exists l. split; [now right|]. intros I. apply N. now right.
Qed.
Lemma mats_nodup p strict cls c kw a : mats p strict cls c kw = Ok a -> NoDup (map fst a).
Proof.
  unfold mats. intros H.
  destruct c; cbn [init_mixin] in H; unfold kwv, consume in H; cbn [i_kw i_args i_at] in H;
    repeat (match type of H with
    | context [let! _ := ?r in _] => destruct r as [?|?] eqn:?; cbn [bind i_at] in H; try discriminate
    | context [let (_, _) := ?r in _] => destruct r; cbn [bind i_at] in H; try discriminate
    | context [if ?b then _ else _] => destruct b; cbn [bind i_at] in H; try discriminate
    | context [match odflt ?r ?q with _ => _ end] => destruct (odflt r q); cbn [bind i_at] in H; try discriminate
    | context [match ?r with Some _ => _ | None => _ end] => destruct r; cbn [bind i_at] in H; try discriminate
    end); injection H as <-; cbn; repeat constructor; cbn; intuition discriminate.
Qed.
Lemma dget_in (k : key) v (d : dict) : dget k d = Some v -> In (k, v) d.
Proof. induction d as [|[k1 v1] d IHd]; cbn; [discriminate|]. destruct (key_eqb k k1) eqn:K; auto. apply key_eqb_eq in K. intros [= ->]. subst. auto. Qed.
Lemma in_dget (k : key) v (d : dict) : NoDup (map fst d) -> In (k, v) d -> dget k d = Some v.
Proof.
  induction d as [|[k1 v1] d IHd]; cbn; [contradiction|]. intros ND [E|I].
  - injection E as -> ->. now rewrite key_eqb_refl.
  - inversion ND; subst. destruct (key_eqb k k1) eqn:K; auto. apply key_eqb_eq in K. subst. exfalso. apply H1. now apply (in_map fst) in I.
Qed.
Lemma putall_get (a at_ : dict) k : NoDup (map fst a) -> dget k (putall a at_) = match dget k a with Some v => Some v | None => dget k at_ end.
Proof.
  intros ND. rewrite dget_putall. assert (ND' : NoDup (map fst (rev a))) by (rewrite map_rev; now apply NoDup_rev).
  destruct (dget k a) as [v|] eqn:E.
  - apply dget_in in E. apply in_rev in E. now rewrite (in_dget _ _ _ ND' E).
  - destruct (dget k (rev a)) as [v|] eqn:F; auto. apply dget_in in F. apply in_rev in F. rewrite (in_dget _ _ _ ND F) in E. discriminate.
Qed.
Lemma chain_attr p strict cls kw ms : forall ats at_ c a s, mapM (fun c => mats p strict cls c kw) ms = Ok ats -> NoDup ms -> In c ms ->
  mats p strict cls c kw = Ok a -> In s (mattrs c) -> dget (KS s) (putall (concat ats) at_) = dget (KS s) a.
Proof.
  induction ms as [|c0 ms IH]; intros ats at_ c a s HM ND I HA IS; [contradiction|].
  cbn in HM. destruct (mats p strict cls c0 kw) as [a0|] eqn:E0; [|discriminate]. cbn [bind] in HM. destruct (mapM _ ms) as [r|] eqn:ER; [|discriminate]. injection HM as <-.
  inversion ND as [|? ? NC ND']; subst. cbn [concat]. rewrite putall_app. destruct I as [->|I].
  - rewrite HA in E0. injection E0 as <-. rewrite putall_other.
    + rewrite putall_get by (eapply mats_nodup; eauto). destruct (dget (KS s) a) eqn:D; auto. exfalso.
      destruct (proj2 (mats_attrs _ _ _ _ _ _ HA (KS s))) as (v & IV); [eauto|]. rewrite (in_dget _ _ _ (mats_nodup _ _ _ _ _ _ HA) IV) in D. discriminate.
    + intros v IV. apply in_concat in IV. destruct IV as (a' & IA & IV). apply mapM_F2 in ER.
      assert (X : exists c', In c' ms /\ mats p strict cls c' kw = Ok a').
      { clear - ER IA. induction ER; [contradiction|]. destruct IA as [->|IA]; [exists x; cbn; auto|]. destruct (IHER IA) as (c' & ? & ?). exists c'. cbn. auto. }
      destruct X as (c' & IC & HC). destruct (proj1 (mats_attrs _ _ _ _ _ _ HC (KS s))) as (s' & ES & IS'); [eauto|]. injection ES as <-.
      rewrite (mattrs_disjoint _ _ _ IS IS') in NC. contradiction.
  - eapply IH; eauto.
Qed.

(** ** Control behaviours *)
Definition ckeys (c : scls) : list string :=
  match c with
  | CAccumulator => ["output_signal"]
  | CFilters => ["filters"]
  | CConstantCombinator => ["is_on"]
  | CTransportBelt => ["circuit_enable_disable"; "circuit_read_hand_contents"; "circuit_contents_read_mode"]
  | CTrainSignal => ["circuit_read_signal"; "red_output_signal"; "orange_output_signal"; "green_output_signal"]
  | CChainSignal => ["blue_output_signal"]
  | CRailSignal => ["circuit_close_signal"]
  | CCircuitCondition => ["circuit_condition"]
  | CLamp => ["use_colors"]
  | CMiningDrill => ["circuit_enable_disable"; "circuit_read_resources"; "circuit_resource_read_mode"]
  | CInserter => ["circuit_mode_of_operation"; "circuit_set_stack_size"; "stack_control_input_signal";
                  "circuit_hand_read_mode"; "circuit_read_hand_contents"]
  | CRequester => ["circuit_mode_of_operation"]
  | CRoboport => ["read_logistics"; "read_robot_stats"; "available_construction_output_signal";
                  "total_construction_output_signal"; "available_logistic_output_signal";
                  "total_logistic_output_signal"]
  | CSpeaker => ["circuit_parameters"]
  | CStation => ["circuit_enable_disable"; "read_from_train"; "read_stopped_train"; "train_stopped_signal"]
  | _ => []
  end.
Definition cattrs (c : scls) : list string :=
  match c with
  | CCircuitCondition => ["first"; "second"; "comparator"]
  | _ => ckeys c
  end.
Definition cats (p : protos) (cls : list scls) (c : scls) (kw : dict) : res dict :=
  match cb_simple p cls c (mkCst 0 kw [] None) with Ok st => Ok (k_at st) | Err e => Err e end.

Ltac go_cb H := repeat (match type of H with
    | context [match odflt ?r ?q with _ => _ end] => destruct (odflt r q) eqn:?; cbn [bind k_at] in H; try discriminate
    | context [let! _ := ?r in _] => destruct r as [?|?] eqn:?; cbn [bind k_at] in H; try discriminate
    | context [let (_, _) := ?r in _] => destruct r; cbn [bind k_at] in H; try discriminate
    | context [if ?b then _ else _] => destruct b; cbn [bind k_at] in H; try discriminate
    | context [match ?r with Some _ => _ | None => _ end] => destruct r; cbn [bind k_at] in H; try discriminate
    end).
Ltac go_cbg := repeat (match goal with
    | |- context [match odflt ?r ?q with _ => _ end] => destruct (odflt r q); cbn [bind k_at]; try reflexivity
    | |- context [let! _ := ?r in _] => destruct r as [?|?]; cbn [bind k_at]; try reflexivity
    | |- context [let (_, _) := ?r in _] => destruct r; cbn [bind k_at]; try reflexivity
    | |- context [if ?b then _ else _] => destruct b; cbn [bind k_at]; try reflexivity
    | |- context [match ?r with Some _ => _ | None => _ end] => destruct r; cbn [bind k_at]; try reflexivity
    end).

Lemma cb_simple_char p cls c n kw at_ m :
  cb_simple p cls c (mkCst n kw at_ m) =
  let! a := cats p cls c kw in Ok (mkCst n (drop_keys (ckeys c) kw) (putall a at_) m).
Proof.
  unfold cats. destruct c; cbn [cb_simple ckeys]; unfold ckw, cconsume; cbn [k_kw k_args k_at k_mut]; try reflexivity; go_cbg.
Qed.
Lemma cats_ext p cls c (kw kw' : dict) : (forall s, In s (ckeys c) -> dget (KS s) kw = dget (KS s) kw') ->
  cats p cls c kw = cats p cls c kw'.
Proof.
  intros H. unfold cats. destruct c; try reflexivity; cbn [cb_simple]; unfold ckw, cconsume; cbn [k_kw k_args k_at k_mut];
    repeat match goal with
    | |- context [dget (KS ?s) kw] => rewrite (H s) by (cbn; tauto)
    end; go_cbg; try reflexivity.
Qed.
Lemma cats_attrs p cls c kw a : cats p cls c kw = Ok a -> NoDup (map fst a) /\ forall k v, In (k, v) a -> exists s, k = KS s /\ In s (cattrs c).
Proof.
  unfold cats. intros H.
  destruct c; cbn [cb_simple] in H; unfold ckw, cconsume in H; cbn [k_kw k_args k_at k_mut] in H; go_cb H;
    injection H as <-; cbn; (split; [repeat constructor; cbn; intuition discriminate|]); intros kk vv G;
    try (repeat (destruct G as [G|G]; [inversion G; subst; eauto 10|]); contradiction).
Qed.
Definition plain (c : scls) : bool := match c with CBaseMixin | CCombinator | CDecider | CInserter => false | _ => true end.

Lemma NoDup_app_l {A} (l m : list A) : NoDup (l ++ m) -> NoDup l /\ NoDup m /\ forall x, In x l -> ~ In x m.
Proof.
  induction l as [|a l IH]; cbn; intros H; [repeat split; auto; constructor|]. inversion H as [|? ? NI ND]; subst.
  destruct (IH ND) as (A1 & B1 & C1). split; [|split; auto].
  - constructor; auto. intros I. apply NI, in_or_app. auto.
  - intros x [->|I]; auto. intros J. apply NI, in_or_app. auto.
Qed.
Lemma cb_step p name cls all c r st : plain c = true ->
  cb_init_chain p name cls all (c :: r) st =
  match cb_simple p cls c st with Ok st' => cb_init_chain p name cls all r st' | Err e => (st, Err e) end.
Proof. intros H. destruct c; try discriminate; cbn [cb_init_chain]; unfold cb_link; destruct (cb_simple _ _ _ st); reflexivity. Qed.
Lemma cb_chain_char p name cls all t ms : forall kw at_, forallb plain ms = true -> NoDup (flat_map ckeys ms) ->
  snd (cb_init_chain p name cls all (ms ++ CBaseMixin :: t) (mkCst 0 kw at_ None)) =
  let! ats := mapM (fun c => cats p cls c kw) ms in
  match drop_keys (flat_map ckeys ms) kw with
  | [] => Ok (dset "entity" VNone (putall (concat ats) at_))
  | _ :: _ => Err (leftover_error p name)
  end.
Proof.
  induction ms as [|c ms IH]; intros kw at_ PL ND.
  - cbn. destruct kw; reflexivity.
  - cbn in PL. apply andb_prop in PL as (PC & PL). cbn [app]. rewrite cb_step by auto. rewrite cb_simple_char, mapM_cons.
    cbn [flat_map] in ND |- *. destruct (NoDup_app_l _ _ ND) as (_ & ND' & DJ). rewrite drop_keys_app.
    destruct (cats p cls c kw) as [a|e]; [|reflexivity]. cbn [bind]. rewrite IH by auto.
    assert (X : mapM (fun c0 => cats p cls c0 (drop_keys (ckeys c) kw)) ms = mapM (fun c0 => cats p cls c0 kw) ms).
    { apply mapM_ext. intros c0 I0. apply cats_ext. intros s I. rewrite dget_drop_keys.
      destruct (named (ckeys c) (KS s)) eqn:E; [|reflexivity]. apply named_In in E. exfalso. apply (DJ s E). apply in_flat_map. eauto. }
    rewrite X. clear X. destruct (mapM (fun c0 => cats p cls c0 kw) ms) as [r|]; cbn [bind]; [|reflexivity]. cbn [concat]. rewrite putall_app. reflexivity.
Qed.
Lemma cb_chain_char_ins p name cls all t ms : forall kw at_, forallb plain ms = true -> NoDup (flat_map ckeys (ms ++ [CInserter])) ->
  snd (cb_init_chain p name cls all (ms ++ CInserter :: t) (mkCst 0 kw at_ None)) =
  let! ats := mapM (fun c => cats p cls c kw) (ms ++ [CInserter]) in Ok (putall (concat ats) at_).
Proof.
  induction ms as [|c ms IH]; intros kw at_ PL ND.
  - cbn [app cb_init_chain]. unfold cb_link. rewrite cb_simple_char. cbn [mapM]. destruct (cats p cls CInserter kw); [|reflexivity].
    cbn [bind snd k_at concat]. now rewrite app_nil_r.
  - cbn in PL. apply andb_prop in PL as (PC & PL). cbn [app]. rewrite cb_step by auto. rewrite cb_simple_char, mapM_cons.
    cbn [flat_map app] in ND. destruct (NoDup_app_l _ _ ND) as (_ & ND' & DJ).
    destruct (cats p cls c kw) as [a|e]; [|reflexivity]. cbn [bind]. rewrite IH by auto.
    assert (X : mapM (fun c0 => cats p cls c0 (drop_keys (ckeys c) kw)) (ms ++ [CInserter]) = mapM (fun c0 => cats p cls c0 kw) (ms ++ [CInserter])).
    { apply mapM_ext. intros c0 I0. apply cats_ext. intros s I. rewrite dget_drop_keys.
      destruct (named (ckeys c) (KS s)) eqn:E; [|reflexivity]. apply named_In in E. exfalso. apply (DJ s E). apply in_flat_map. eauto. }
    rewrite X. clear X. destruct (mapM (fun c0 => cats p cls c0 kw) (ms ++ [CInserter])) as [r|]; cbn [bind]; [|reflexivity]. cbn [concat]. rewrite putall_app. reflexivity.
Qed.
Lemma concat_attr {f : scls -> res dict} {g : scls -> list string} ms :
  (forall c a, f c = Ok a -> NoDup (map fst a) /\ forall k v, In (k, v) a -> exists s, k = KS s /\ In s (g c)) ->
  forall ats at_ c a s, mapM f ms = Ok ats -> NoDup (flat_map g ms) -> In c ms -> f c = Ok a -> In s (g c) ->
  dget (KS s) (putall (concat ats) at_) = match dget (KS s) a with Some v => Some v | None => dget (KS s) at_ end.
Proof.
  intros FG. induction ms as [|c0 ms IH]; intros ats at_ c a s HM ND I HA IS; [contradiction|].
  rewrite mapM_cons in HM. destruct (f c0) as [a0|] eqn:E0; [|discriminate]. cbn [bind] in HM. destruct (mapM f ms) as [r|] eqn:ER; [|discriminate]. injection HM as <-.
  cbn [flat_map] in ND. destruct (NoDup_app_l _ _ ND) as (_ & ND' & DJ). cbn [concat]. rewrite putall_app. destruct I as [->|I].
  - rewrite HA in E0. injection E0 as <-. destruct (FG _ _ HA) as (NDa & _). rewrite putall_other.
    + now rewrite putall_get by auto.
    + intros v IV. apply in_concat in IV. destruct IV as (a' & IA & IV). apply mapM_F2 in ER.
      assert (X : exists c', In c' ms /\ f c' = Ok a').
      { clear - ER IA. induction ER; [contradiction|]. destruct IA as [->|IA]; [exists x; cbn; auto|]. destruct (IHER IA) as (c' & ? & ?). exists c'. cbn. auto. }
      destruct X as (c' & IC & HC). destruct (FG _ _ HC) as (_ & K). destruct (K _ _ IV) as (s' & [= <-] & IS'). apply (DJ s IS). apply in_flat_map. eauto.
  - rewrite (IH r _ c a s eq_refl ND' I HA IS). destruct (dget (KS s) a); auto. apply putall_other.
    intros v IV. destruct (FG _ _ E0) as (_ & K). destruct (K _ _ IV) as (s' & [= <-] & IS'). apply (DJ s IS'). apply in_flat_map. eauto.
Qed.
