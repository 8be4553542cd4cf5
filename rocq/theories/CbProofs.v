(** * Control behaviours: which keys are accepted. *)
From Coq Require Import Lia.
From Verif Require Import Py Num Util Classes Mixins Entity World DictFacts DocProofs SpecDoc SpecEntity ChainFacts EntProofs.
Open Scope Z_scope.

Definition cmids (ty : string) : list scls := removelast (cb_chain (cls_of ty)).
Fixpoint snodup (l : list string) : bool := match l with [] => true | x :: r => negb (existsb (String.eqb x) r) && snodup r end.
Lemma snodup_ok l : snodup l = true -> NoDup l.
Proof.
  induction l as [|x r IH]; intros B; constructor.
  - apply andb_prop in B as (B & _). intros I. assert (existsb (String.eqb x) r = true) as X; [|rewrite X in B; discriminate].
    apply existsb_exists. exists x. split; auto. apply String.eqb_refl.
  - apply IH. now apply andb_prop in B as (_ & B).
Qed.
Definition special (ty : string) : bool := existsb (String.eqb ty) ["inserter"; "arithmetic-combinator"; "decider-combinator"].
Definition cb_ok (f : string * (list string * list string)) : bool :=
  let ty := fst f in special ty ||
  ((if list_eq_dec scls_eq_dec (cb_chain (cls_of ty)) (cmids ty ++ [CBaseMixin]) then true else false) &&
   forallb plain (cmids ty) && snodup (flat_map ckeys (cmids ty)) && snodup (flat_map cattrs (cmids ty)) &&
   subsetb (flat_map ckeys (cmids ty)) (snd (snd f)) && subsetb (snd (snd f)) (flat_map ckeys (cmids ty))).
Lemma cbs_ok : forallb cb_ok formats = true.
Proof. vm_compute. reflexivity. Qed.
Record cshape (ty : string) (cbk : list string) : Prop := mkCshape {
  cs_chain : cb_chain (cls_of ty) = cmids ty ++ CBaseMixin :: [];
  cs_plain : forallb plain (cmids ty) = true;
  cs_keys : NoDup (flat_map ckeys (cmids ty));
  cs_attrs : NoDup (flat_map cattrs (cmids ty));
  cs_own : forall s, In s cbk <-> In s (flat_map ckeys (cmids ty)) }.
Lemma special_cases ty : special ty = true -> ty = "inserter" \/ ty = "arithmetic-combinator" \/ ty = "decider-combinator".
Proof. unfold special. intros H. apply existsb_exists in H as (x & I & E). apply String.eqb_eq in E. subst x. cbn in I. intuition. Qed.
Lemma format_cshape ty own cbk : In (ty, (own, cbk)) formats -> special ty = false -> cshape ty cbk.
Proof.
  intros I SP. pose proof cbs_ok as T. rewrite forallb_forall in T. specialize (T _ I). unfold cb_ok in T. cbn [fst snd] in T. rewrite SP in T. cbn [orb] in T.
  repeat (apply andb_prop in T as (T & ?)). constructor; auto.
  - destruct (list_eq_dec _ _ _); [assumption|discriminate].
  - now apply snodup_ok.
  - now apply snodup_ok.
  - intros s. split; now apply subsetb_ok.
Qed.
Lemma cb_make_plain p s ty own cbk cb : In (ty, (own, cbk)) formats -> special ty = false ->
  all_KS cb = true -> dget "self" cb = None -> dget "_entity" cb = None ->
  cb_make p (VStr s) (cls_of ty) (VDict cb) =
  let! ats := mapM (fun c => cats p (statics (cls_of ty)) c cb) (cmids ty) in
  match drop_keys (flat_map ckeys (cmids ty)) cb with
  | [] => Ok (dset "entity" VNone (putall (concat ats) []))
  | _ :: _ => Err (leftover_error p (VStr s))
  end.
Proof.
  intros I SP A S E. destruct (format_cshape _ _ _ I SP) as [CH PL ND _ _]. unfold cb_make. cbn [as_kwargs]. rewrite A. cbn [bind].
  rewrite (dmem_none _ _ S), (dmem_none _ _ E). cbn [orb]. rewrite CH. now rewrite cb_chain_char.
Qed.
Lemma cb_make_inserter p s cb : all_KS cb = true -> dget "self" cb = None -> dget "_entity" cb = None ->
  cb_make p (VStr s) (cls_of "inserter") (VDict cb) =
  let! ats := mapM (fun c => cats p (statics (cls_of "inserter")) c cb) [CCircuitCondition; CInserter] in Ok (putall (concat ats) []).
Proof.
  intros A S E. unfold cb_make. cbn [as_kwargs]. rewrite A. cbn [bind]. rewrite (dmem_none _ _ S), (dmem_none _ _ E). cbn [orb].
  assert (CH : cb_chain (cls_of "inserter") = [CCircuitCondition] ++ CInserter :: [CBaseMixin]) by (vm_compute; reflexivity).
  rewrite CH. rewrite cb_chain_char_ins; [reflexivity|reflexivity|]. apply snodup_ok. vm_compute. reflexivity.
Qed.

(** ** Combinators *)
Definition left_over (p : protos) (s : string) (d' cb : dict) (a : dict) : res dict :=
  match d', cb with [], [] => Ok a | _, _ => Err (leftover_error p (VStr s)) end.
Definition arith_cbl := [CArithmetic; CCombinator; CBaseMixin].
Definition decid_cbl := [CDecider; CCombinator; CBaseMixin].
Lemma ddel_dset_same (k : key) (v : val) (d : dict) : ddel k (dset k v d) = ddel k d.
Proof.
  induction d as [|[k' v'] d IH]; cbn; [now rewrite key_eqb_refl|]. destruct (key_eqb k k') eqn:E; cbn; rewrite ?key_eqb_refl, ?E; auto. now rewrite IH.
Qed.
Lemma cb_make_arith p s cb : all_KS cb = true -> dget "self" cb = None -> dget "_entity" cb = None ->
  cb_make p (VStr s) (cls_of "arithmetic-combinator") (VDict cb) =
  match odflt (VDict []) (dget "arithmetic_conditions" cb) with
  | VDict d => let '(d', r) := comb_take p arith_cbl "arithmetic" "operation" d in
               let! ats := r in
               left_over p s d' (ddel "arithmetic_conditions" cb)
                 (dset "entity" VNone (putall ((KS "field", VStr "arithmetic_conditions") :: ats) []))
  | v => Err (no_pop v)
  end.
Proof.
  intros A S E. unfold cb_make. cbn [as_kwargs]. rewrite A. cbn [bind]. rewrite (dmem_none _ _ S), (dmem_none _ _ E). cbn [orb].
  assert (CH : cb_chain (cls_of "arithmetic-combinator") = arith_cbl) by (vm_compute; reflexivity).
  assert (CN : comb_names (statics (cls_of "arithmetic-combinator")) = Some ("arithmetic", "operation")) by (vm_compute; reflexivity).
  rewrite CH. generalize dependent (statics (cls_of "arithmetic-combinator")). intros cls CN.
  unfold arith_cbl at 2. cbn [cb_init_chain cb_link cb_simple]. unfold comb_init. rewrite CN. cbn [k_kw append].
  destruct (odflt (VDict []) (dget "arithmetic_conditions" cb)) as [| | | | | |d]; try reflexivity.
  destruct (comb_take p arith_cbl "arithmetic" "operation" d) as [d' [ats|e]]; [|reflexivity]. cbn [bind k_kw k_args k_at k_mut].
  unfold left_over. destruct d' as [|kv d'].
  - destruct (ddel "arithmetic_conditions" cb); reflexivity.
  - destruct (dset "arithmetic_conditions" (VDict (kv :: d')) (ddel "arithmetic_conditions" cb)) eqn:D; [|reflexivity].
    pose proof (dget_dset' "arithmetic_conditions" "arithmetic_conditions" (VDict (kv :: d')) (ddel "arithmetic_conditions" cb)) as G. rewrite D, key_eqb_refl in G. discriminate.
Qed.
Lemma cb_make_decid p s cb : all_KS cb = true -> dget "self" cb = None -> dget "_entity" cb = None ->
  cb_make p (VStr s) (cls_of "decider-combinator") (VDict cb) =
  match dget "decider_conditions" cb with
  | None => Err EKey
  | Some (VDict d) =>
      let '(d', r) := comb_take p decid_cbl "decider" "comparator" (ddel "copy_count_from_input" d) in
      let! ats := r in
      left_over p s d' (ddel "decider_conditions" cb)
        (dset "entity" VNone (putall ((KS "field", VStr "decider_conditions") :: ats)
           [(KS "field", VStr "decider_conditions"); (KS "copy_count_from_input", odflt (VBool false) (dget "copy_count_from_input" d))]))
  | Some v => Err (no_pop v)
  end.
Proof.
  intros A S E. unfold cb_make. cbn [as_kwargs]. rewrite A. cbn [bind]. rewrite (dmem_none _ _ S), (dmem_none _ _ E). cbn [orb].
  assert (CH : cb_chain (cls_of "decider-combinator") = decid_cbl) by (vm_compute; reflexivity).
  assert (CN : comb_names (statics (cls_of "decider-combinator")) = Some ("decider", "comparator")) by (vm_compute; reflexivity).
  rewrite CH. generalize dependent (statics (cls_of "decider-combinator")). intros cls CN.
  unfold decid_cbl at 2. cbn [cb_init_chain cb_link]. unfold decider_init, comb_init. rewrite CN. cbn [k_kw append].
  destruct (dget "decider_conditions" cb) as [v|] eqn:DF; [|reflexivity].
  destruct v as [| | | | | |d]; try reflexivity. unfold dpop. cbn [k_kw k_args k_at k_mut].
  set (d1 := ddel "copy_count_from_input" d).
  set (kw1 := match d1 with [] => _ | _ => _ end).
  assert (K1 : odflt (VDict []) (dget "decider_conditions" kw1) = VDict d1 /\ ddel "decider_conditions" kw1 = ddel "decider_conditions" cb).
  { subst kw1. destruct d1 as [|kv d1].
    - rewrite dget_ddel_same. split; [reflexivity|apply ddel_twice].
    - rewrite dget_dset', key_eqb_refl. split; [reflexivity|]. rewrite ddel_dset_same. apply ddel_twice. }
  destruct K1 as (K1 & K2). rewrite K1.
  destruct (comb_take p decid_cbl "decider" "comparator" d1) as [d' [ats|e]]; [|reflexivity]. cbn [bind k_kw k_args k_at k_mut].
  rewrite K2. unfold left_over. destruct d' as [|kv d'].
  - destruct (ddel "decider_conditions" cb); reflexivity.
  - destruct (dset "decider_conditions" (VDict (kv :: d')) (ddel "decider_conditions" cb)) eqn:D; [|reflexivity].
    pose proof (dget_dset' "decider_conditions" "decider_conditions" (VDict (kv :: d')) (ddel "decider_conditions" cb)) as G. rewrite D, key_eqb_refl in G. discriminate.
Qed.
Lemma get_from_ddel typ key d k : k <> (if String.eqb typ "decider" && String.eqb key "first" then KS "constant" else KS (key ++ "_constant")%string) ->
  k <> KS (key ++ "_signal")%string ->
  get_from typ key (ddel k d) = (ddel k (fst (get_from typ key d)), snd (get_from typ key d)).
Proof.
  intros N1 N2. unfold get_from, dpop. destruct (_ && _); cbn [fst snd]; rewrite dget_ddel_other by congruence;
    rewrite (ddel_comm _ k); destruct (odflt VNone (dget _ d)); cbn [fst snd]; try reflexivity;
    rewrite dget_ddel_other by congruence; rewrite (ddel_comm _ k); destruct (odflt VNone _); reflexivity.
Qed.
Lemma take_signal_ddel p typ key d k : k <> (if String.eqb typ "decider" && String.eqb key "first" then KS "constant" else KS (key ++ "_constant")%string) ->
  k <> KS (key ++ "_signal")%string ->
  take_signal p typ key (ddel k d) = (ddel k (fst (take_signal p typ key d)), snd (take_signal p typ key d)).
Proof.
  intros N1 N2. unfold take_signal. rewrite get_from_ddel by auto. destruct (get_from typ key d) as [d1 r1]. reflexivity.
Qed.
Lemma comb_take_ddel p cbl typ op d k : k <> KS op -> k <> KS "first_signal" -> k <> KS "second_signal" -> k <> KS "output_signal" ->
  k <> KS "second_constant" -> k <> KS "output_constant" -> k <> (if String.eqb typ "decider" then KS "constant" else KS "first_constant") ->
  comb_take p cbl typ op (ddel k d) = (ddel k (fst (comb_take p cbl typ op d)), snd (comb_take p cbl typ op d)).
Proof.
  intros N0 N1 N2 N3 N4 N5 N6. unfold comb_take. rewrite dget_ddel_other by congruence. destruct (dget op d) as [o|]; [|reflexivity].
  rewrite (ddel_comm _ k). destruct (comb_operator cbl o) as [o'|]; [|reflexivity].
  rewrite take_signal_ddel; [|destruct (String.eqb typ "decider"); cbn; auto|cbn; auto].
  destruct (take_signal p typ "first" _) as [d1 [f|]]; cbn [fst snd]; [|reflexivity].
  rewrite take_signal_ddel; [|rewrite andb_false_r; cbn; auto|cbn; auto].
  destruct (take_signal p typ "second" _) as [d2 [g|]]; cbn [fst snd]; [|reflexivity].
  rewrite take_signal_ddel; [|rewrite andb_false_r; cbn; auto|cbn; auto].
  destruct (take_signal p typ "output" _) as [d3 [h|]]; reflexivity.
Qed.

Lemma get_from_other typ key d k : k <> (if String.eqb typ "decider" && String.eqb key "first" then KS "constant" else KS (key ++ "_constant")%string) ->
  k <> KS (key ++ "_signal")%string -> dget k d = dget k (fst (get_from typ key d)).
Proof.
  intros N1 N2. unfold get_from, dpop. destruct (_ && _); destruct (odflt VNone (dget _ d)); cbn [fst snd]; rewrite ?dget_ddel_other by congruence; try reflexivity;
    destruct (odflt VNone _); cbn [fst]; rewrite ?dget_ddel_other by congruence; reflexivity.
Qed.
Lemma take_signal_other p typ key d k : k <> (if String.eqb typ "decider" && String.eqb key "first" then KS "constant" else KS (key ++ "_constant")%string) ->
  k <> KS (key ++ "_signal")%string -> dget k d = dget k (fst (take_signal p typ key d)).
Proof. intros N1 N2. unfold take_signal. rewrite (get_from_other typ key d k) by auto. destruct (get_from typ key d) as [d1 r1]. reflexivity. Qed.
Lemma comb_take_other p cbl typ op d k : k <> KS op -> k <> KS "first_signal" -> k <> KS "second_signal" -> k <> KS "output_signal" ->
  k <> KS "second_constant" -> k <> KS "output_constant" -> k <> (if String.eqb typ "decider" then KS "constant" else KS "first_constant") ->
  dget k d = dget k (fst (comb_take p cbl typ op d)).
Proof.
  intros N0 N1 N2 N3 N4 N5 N6. unfold comb_take. destruct (dget op d) as [o|]; [|reflexivity].
  destruct (comb_operator cbl o) as [o'|]; [|cbn [fst]; now rewrite dget_ddel_other].
  rewrite <- (dget_ddel_other (KS op) k d) by auto. generalize (ddel (KS op) d). clear d. intros d.
  rewrite (take_signal_other p typ "first" d k); [|destruct (String.eqb typ "decider"); cbn; auto|cbn; auto].
  destruct (take_signal p typ "first" _) as [d1 [f|]]; cbn [fst snd]; [|reflexivity].
  rewrite (take_signal_other p typ "second" d1 k); [|rewrite andb_false_r; cbn; auto|cbn; auto].
  destruct (take_signal p typ "second" _) as [d2 [g|]]; cbn [fst snd]; [|reflexivity].
  rewrite (take_signal_other p typ "output" d2 k); [|rewrite andb_false_r; cbn; auto|cbn; auto].
  destruct (take_signal p typ "output" _) as [d3 [h|]]; reflexivity.
Qed.

(** ** C33 *)
Lemma drop_dset ks (k : key) (v : val) (d : dict) : named ks k = true -> drop_keys ks (dset k v d) = drop_keys ks d.
Proof.
  intros N. rewrite !drop_keys_filter. induction d as [|[k' v'] d IH]; cbn; [now rewrite N|].
  destruct (key_eqb k k') eqn:E; cbn.
  - apply key_eqb_eq in E. subst. now rewrite N.
  - now rewrite IH.
Qed.
Lemma all_KS_dset (s : string) (v : val) (d : dict) : all_KS (dset (KS s) v d) = all_KS d.
Proof. induction d as [|[[x|z] v'] d IH]; cbn; auto. destruct (String.eqb s x); cbn; auto. Qed.
Lemma typed_dset p kw s ty v : typed p kw s ty -> typed p (dset "control_behavior" v kw) s ty.
Proof.
  intros ((A & B & C & D & E) & CK & R). split; [|split; auto].
  - split; [now rewrite all_KS_dset|]. rewrite !dget_dset'. auto.
  - intros u U. rewrite dget_dset' in U. cbn in U. now apply CK.
Qed.
Lemma construct_cb p cust l kw s ty own cbk v : typed p kw s ty -> dget ty cust = None -> In (ty, (own, cbk)) formats ->
  snd (construct p cust l (dset "control_behavior" v kw)) =
  let! pos := vec_of_val (dsc kw "position") in
  let! dir := dir_of_val (odflt (VInt 0) (dget "direction" kw)) in
  let! a := cb_make p (VStr s) (cls_of ty) v in
  let! ats := mapM (fun c => mats p true (statics (cls_of ty)) c (drop_keys entity_keys kw)) (mids ty) in
  match drop_keys (flat_map mkeys (mids ty)) (drop_keys entity_keys kw) with
  | [] => Ok (mkEnt true l (dsc kw "entity_number") (dsc kw "entity_number") (VStr s) (cls_of ty) pos dir
                (dsc kw "connections") (Some (mkCb (cb_chain (cls_of ty)) a)) (putall (concat ats) []))
  | _ :: _ => Err EType
  end.
Proof.
  intros T CU I. rewrite (construct_typed _ _ _ _ _ _ _ _ (typed_dset _ _ _ _ v T) CU I).
  unfold dsc. rewrite !dget_dset'. cbn [key_eqb String.eqb Ascii.eqb Bool.eqb]. rewrite (drop_dset entity_keys) by reflexivity.
  destruct (vec_of_val _) as [pos|]; [|reflexivity]. cbn [bind]. destruct (dir_of_val _) as [dir|]; [|reflexivity]. cbn [bind].
  unfold cb_part. rewrite dget_dset', key_eqb_refl. destruct (cb_make _ _ _ v) as [a|]; reflexivity.
Qed.
Lemma dset_same (k : key) (v : val) (d : dict) : dget k d = Some v -> dset k v d = d.
Proof. induction d as [|[k' v'] d IH]; cbn; [discriminate|]. destruct (key_eqb k k') eqn:E; [apply key_eqb_eq in E; intros [= ->]; now subst|]. intros H. now rewrite IH. Qed.
Lemma dset_twice (k : key) (v v' : val) (d : dict) : dset k v (dset k v' d) = dset k v d.
Proof. induction d as [|[k' u] d IH]; cbn; [now rewrite key_eqb_refl|]. destruct (key_eqb k k') eqn:E; cbn; rewrite ?key_eqb_refl, ?E; auto. now rewrite IH. Qed.
Lemma construct_cb_ok p cust l kw s ty own cbk v e : typed p kw s ty -> dget ty cust = None -> In (ty, (own, cbk)) formats ->
  snd (construct p cust l (dset "control_behavior" v kw)) = Ok e -> exists a, cb_make p (VStr s) (cls_of ty) v = Ok a.
Proof.
  intros T CU I H. rewrite (construct_cb _ _ _ _ _ _ _ _ _ T CU I) in H.
  apply bind_ok in H as (pos & _ & H). apply bind_ok in H as (dir & _ & H). apply bind_ok in H as (c & Hc & H). eauto.
Qed.
(** changing the control behaviour to a bad one gives its error *)
Lemma construct_cb_err p cust l kw s ty own cbk v v' e x : typed p kw s ty -> dget ty cust = None -> In (ty, (own, cbk)) formats ->
  snd (construct p cust l (dset "control_behavior" v kw)) = Ok e -> cb_make p (VStr s) (cls_of ty) v' = Err x ->
  snd (construct p cust l (dset "control_behavior" v' kw)) = Err x.
Proof.
  intros T CU I H X. rewrite (construct_cb _ _ _ _ _ _ _ _ _ T CU I) in H. rewrite (construct_cb _ _ _ _ _ _ _ _ _ T CU I).
  apply bind_ok in H as (pos & -> & H). apply bind_ok in H as (dir & -> & _). cbn [bind]. now rewrite X.
Qed.
Lemma typed_leftover p kw s ty : typed p kw s ty -> leftover_error p (VStr s) = EType.
Proof. intros (_ & _ & data & ED & TY). cbn. rewrite ED. cbn [getitem]. now rewrite TY. Qed.
Lemma cb_make_ok p n ic v a : cb_make p n ic v = Ok a -> exists cb, v = VDict cb /\ all_KS cb = true /\ dget "self" cb = None /\ dget "_entity" cb = None.
Proof.
  unfold cb_make. intros H. apply bind_ok in H as (d & A & H). destruct v; try discriminate. cbn in A. destruct (all_KS d0) eqn:K; [|discriminate]. injection A as <-.
  exists d0. destruct (dmem "self" d0) eqn:M1; [discriminate|]. destruct (dmem "_entity" d0) eqn:M2; [discriminate|]. apply dmem_false in M1, M2. auto.
Qed.
Lemma left_over_ok p s d' cb a r : left_over p s d' cb a = Ok r -> d' = [] /\ cb = [] /\ r = a.
Proof. unfold left_over. destruct d', cb; try discriminate. intros [= ->]. auto. Qed.
Lemma arith_in : In ("arithmetic-combinator", ([] : list string, ["arithmetic_conditions"])) formats. Proof. cbn. auto 12. Qed.
Lemma decid_in : In ("decider-combinator", ([] : list string, ["decider_conditions"])) formats. Proof. cbn. auto 12. Qed.
Lemma ddel_nil_key (f : string) (cb : dict) k : ddel (KS f) cb = [] -> dget k cb <> None -> k = KS f.
Proof.
  intros H N. destruct (key_dec k (KS f)) as [E|E]; auto. pose proof (dget_ddel_other (KS f) k cb E) as G. rewrite H in G. cbn in G. congruence.
Qed.
Lemma cb_keys p s ty own cbk cb a k : In (ty, (own, cbk)) formats -> ty <> "inserter" -> leftover_error p (VStr s) = EType ->
  cb_make p (VStr s) (cls_of ty) (VDict cb) = Ok a -> dget k cb <> None -> cb_understood ty k.
Proof.
  intros I NI LE H N. destruct (cb_make_ok _ _ _ _ _ H) as (cb' & [= <-] & A & S & E).
  destruct (special ty) eqn:SP.
  - destruct (special_cases _ SP) as [->|[->| ->]]; [congruence| |].
    + rewrite cb_make_arith in H by auto. destruct (odflt _ _) as [| | | | | |d]; try discriminate. destruct (comb_take _ _ _ _ d) as [d' r].
      apply bind_ok in H as (ats & _ & H). apply left_over_ok in H as (_ & H & _). rewrite (ddel_nil_key _ _ _ H N).
      exists "arithmetic_conditions", [], ["arithmetic_conditions"]. split; [apply arith_in|]. cbn. auto.
    + rewrite cb_make_decid in H by auto. destruct (dget "decider_conditions" cb) as [[| | | | | |d]|]; try discriminate. destruct (comb_take _ _ _ _ _) as [d' r].
      apply bind_ok in H as (ats & _ & H). apply left_over_ok in H as (_ & H & _). rewrite (ddel_nil_key _ _ _ H N).
      exists "decider_conditions", [], ["decider_conditions"]. split; [apply decid_in|]. cbn. auto.
  - destruct (format_cshape _ _ _ I SP) as [_ _ _ _ OWN]. rewrite (cb_make_plain _ _ _ _ _ _ I SP A S E) in H. apply bind_ok in H as (ats & _ & H).
    destruct (drop_keys _ cb) eqn:D; [|discriminate]. pose proof (drop_nil _ _ _ D N) as NM. destruct k as [x|z].
    + apply named_In in NM. exists x, own, cbk. split; auto. split; auto. now apply OWN.
    + rewrite (all_KS_dget _ _ A) in N. congruence.
Qed.
Lemma p_C33_keys p cust l kw s ty own cbk e cb k : typed p kw s ty -> dget ty cust = None -> In (ty, (own, cbk)) formats -> ty <> "inserter" ->
  snd (construct p cust l kw) = Ok e -> dget "control_behavior" kw = Some (VDict cb) -> dget k cb <> None -> cb_understood ty k.
Proof.
  intros T CU I NI H CB N. rewrite <- (dset_same _ _ _ CB) in H. destruct (construct_cb_ok _ _ _ _ _ _ _ _ _ _ T CU I H) as (a & Ha).
  eapply cb_keys; eauto. eapply typed_leftover; eauto.
Qed.
Lemma dget_dmem (k : key) (d : dict) : dget k d <> None -> dmem k d = true.
Proof. unfold dmem. destruct (dget k d); congruence. Qed.
Lemma cb_rejected p s ty own cbk cb a k : In (ty, (own, cbk)) formats -> ty <> "inserter" -> leftover_error p (VStr s) = EType ->
  cb_make p (VStr s) (cls_of ty) (VDict (ddel k cb)) = Ok a -> dget k cb <> None -> ~ cb_understood ty k ->
  cb_make p (VStr s) (cls_of ty) (VDict cb) = Err EType.
Proof.
  intros I NI LE H N NU. destruct (cb_make_ok _ _ _ _ _ H) as (cb' & [= <-] & A & S & E).
  destruct k as [x|z]; [|unfold cb_make; cbn [as_kwargs]; rewrite (all_KS_false _ _ N); reflexivity].
  apply all_KS_ddel_inv in A as A'.
  destruct (String.eqb_spec x "self") as [->|NS].
  { unfold cb_make. cbn [as_kwargs]. rewrite A'. cbn [bind]. now rewrite (dget_dmem _ _ N). }
  destruct (String.eqb_spec x "_entity") as [->|NE].
  { unfold cb_make. cbn [as_kwargs]. rewrite A'. cbn [bind]. rewrite (dget_dmem _ _ N), orb_true_r. reflexivity. }
  assert (S' := S). assert (E' := E). rewrite dget_ddel_other in S', E' by congruence.
  destruct (special ty) eqn:SP.
  - destruct (special_cases _ SP) as [->|[->| ->]]; [congruence| |].
    + assert (NX : x <> "arithmetic_conditions").
      { intros ->. apply NU. exists "arithmetic_conditions", [], ["arithmetic_conditions"]. split; [apply arith_in|]. cbn. auto. }
      rewrite cb_make_arith in H by auto. rewrite cb_make_arith by auto. rewrite dget_ddel_other in H by congruence.
      destruct (odflt _ _) as [| | | | | |d]; try discriminate. destruct (comb_take _ _ _ _ d) as [d' r].
      apply bind_ok in H as (ats & -> & _). cbn [bind]. unfold left_over. rewrite LE.
      destruct d'; [|reflexivity]. destruct (ddel "arithmetic_conditions" cb) eqn:D; [|reflexivity]. pose proof (ddel_nil_key _ _ _ D N). congruence.
    + assert (NX : x <> "decider_conditions").
      { intros ->. apply NU. exists "decider_conditions", [], ["decider_conditions"]. split; [apply decid_in|]. cbn. auto. }
      rewrite cb_make_decid in H by auto. rewrite cb_make_decid by auto. rewrite dget_ddel_other in H by congruence.
      destruct (dget "decider_conditions" cb) as [[| | | | | |d]|]; try discriminate. destruct (comb_take _ _ _ _ _) as [d' r].
      apply bind_ok in H as (ats & -> & _). cbn [bind]. unfold left_over. rewrite LE.
      destruct d'; [|reflexivity]. destruct (ddel "decider_conditions" cb) eqn:D; [|reflexivity]. pose proof (ddel_nil_key _ _ _ D N). congruence.
  - destruct (format_cshape _ _ _ I SP) as [_ _ _ _ OWN]. rewrite (cb_make_plain _ _ _ _ _ _ I SP A S E) in H.
    rewrite (cb_make_plain _ _ _ _ _ _ I SP A' S' E'). apply bind_ok in H as (ats & Ha & _).
    assert (NM : ~ In x (flat_map ckeys (cmids ty))). { intros J. apply NU. exists x, own, cbk. split; auto. split; auto. now apply OWN. }
    assert (X : mapM (fun c => cats p (statics (cls_of ty)) c cb) (cmids ty) = mapM (fun c => cats p (statics (cls_of ty)) c (ddel (KS x) cb)) (cmids ty)).
    { apply mapM_ext. intros c0 I0. apply cats_ext. intros g G. rewrite dget_ddel_other; auto. intros [= ->]. apply NM. apply in_flat_map. eauto. }
    rewrite X, Ha. cbn [bind]. rewrite LE. destruct (drop_keys _ cb) eqn:D; auto. pose proof (drop_nil _ _ _ D N) as Q. apply named_In in Q. contradiction.
Qed.
Lemma p_C33_rejected p cust l kw s ty own cbk e cb k : typed p kw s ty -> dget ty cust = None -> In (ty, (own, cbk)) formats -> ty <> "inserter" ->
  snd (construct p cust l (dset "control_behavior" (VDict (ddel k cb)) kw)) = Ok e ->
  dget k cb <> None -> ~ cb_understood ty k ->
  snd (construct p cust l (dset "control_behavior" (VDict cb) kw)) = Err EType.
Proof.
  intros T CU I NI H N NU. destruct (construct_cb_ok _ _ _ _ _ _ _ _ _ _ T CU I H) as (a & Ha).
  eapply construct_cb_err; eauto. eapply cb_rejected; eauto. eapply typed_leftover; eauto.
Qed.
Lemma inserter_in : exists own cbk, In ("inserter", (own, cbk)) formats /\ cbk = flat_map ckeys [CCircuitCondition; CInserter].
Proof. eexists. eexists. split; [|reflexivity]. cbn. auto 40. Qed.
Lemma p_C33_inserter p cust l kw s cb (x : string) : typed p kw s "inserter" -> dget "inserter" cust = None ->
  ~ cb_understood "inserter" x -> x <> "self" -> x <> "_entity" ->
  snd (construct p cust l (dset "control_behavior" (VDict cb) kw)) =
  snd (construct p cust l (dset "control_behavior" (VDict (ddel x cb)) kw)).
Proof.
  intros T CU NU NS NE. destruct inserter_in as (own & cbk & I & EK).
  rewrite !(construct_cb _ _ _ _ _ _ _ _ _ T CU I).
  assert (X : cb_make p (VStr s) (cls_of "inserter") (VDict cb) = cb_make p (VStr s) (cls_of "inserter") (VDict (ddel x cb))); [|now rewrite X].
  destruct (all_KS cb) eqn:A.
  2:{ unfold cb_make. cbn [as_kwargs]. rewrite A. destruct (all_KS (ddel x cb)) eqn:A'; [|reflexivity]. apply all_KS_ddel_inv in A'. congruence. }
  assert (A' := all_KS_ddel (KS x) _ A).
  destruct (dget "self" cb) as [v|] eqn:S.
  { unfold cb_make. cbn [as_kwargs]. rewrite A, A'. cbn [bind]. unfold dmem. rewrite dget_ddel_other by congruence. now rewrite S. }
  destruct (dget "_entity" cb) as [v|] eqn:E.
  { unfold cb_make. cbn [as_kwargs]. rewrite A, A'. cbn [bind]. unfold dmem. rewrite !dget_ddel_other by congruence. now rewrite S, E. }
  rewrite !cb_make_inserter; auto; try (rewrite dget_ddel_other by congruence; auto).
  assert (Y : mapM (fun c => cats p (statics (cls_of "inserter")) c cb) [CCircuitCondition; CInserter] = mapM (fun c => cats p (statics (cls_of "inserter")) c (ddel x cb)) [CCircuitCondition; CInserter]); [|now rewrite Y].
  apply mapM_ext. intros c0 I0. apply cats_ext. intros g G. rewrite dget_ddel_other; auto. intros [= ->]. apply NU.
  exists x, own, cbk. split; auto. split; auto. rewrite EK. apply in_flat_map. eauto.
Qed.
(** inside the conditions of combinators *)
Lemma in_cond_arith k : (forall x, k = KS x -> ~ In x (cond_keys "arithmetic-combinator")) ->
  k <> KS "operation" /\ k <> KS "first_signal" /\ k <> KS "second_signal" /\ k <> KS "output_signal" /\
  k <> KS "second_constant" /\ k <> KS "output_constant" /\ k <> KS "first_constant".
Proof. intros H. repeat split; intros ->; eapply H; try reflexivity; cbn; auto 10. Qed.
Lemma in_cond_decid k : (forall x, k = KS x -> ~ In x (cond_keys "decider-combinator")) ->
  k <> KS "copy_count_from_input" /\ k <> KS "comparator" /\ k <> KS "first_signal" /\ k <> KS "second_signal" /\ k <> KS "output_signal" /\
  k <> KS "second_constant" /\ k <> KS "output_constant" /\ k <> KS "constant".
Proof. intros H. repeat split; intros ->; eapply H; try reflexivity; cbn; auto 10. Qed.
Lemma cond_keys_in ty k : (exists x, k = KS x /\ In x (cond_keys ty)) \/ (forall x, k = KS x -> ~ In x (cond_keys ty)).
Proof.
  destruct k as [x|z]; [|right; congruence]. destruct (in_dec string_dec x (cond_keys ty)); [left; eauto|]. right. intros y [= <-]. auto.
Qed.
Lemma cb_conditions p s ty f cb d a k : conditions_of ty = Some f -> leftover_error p (VStr s) = EType ->
  cb_make p (VStr s) (cls_of ty) (VDict cb) = Ok a -> dget f cb = Some (VDict d) -> dget k d <> None -> exists x, k = KS x /\ In x (cond_keys ty).
Proof.
  intros CF LE H F N. destruct (cond_keys_in ty k) as [?|NU]; auto. exfalso.
  destruct (cb_make_ok _ _ _ _ _ H) as (cb' & [= <-] & A & S & E).
  unfold conditions_of in CF. destruct (String.eqb_spec ty "arithmetic-combinator") as [->|]; [|destruct (String.eqb_spec ty "decider-combinator") as [->|]; [|discriminate]];
    injection CF as <-.
  - apply in_cond_arith in NU as (? & ? & ? & ? & ? & ? & ?). rewrite cb_make_arith, F in H by auto. cbn [odflt] in H.
    destruct (comb_take p arith_cbl "arithmetic" "operation" d) as [d' r] eqn:CT. apply bind_ok in H as (ats & _ & H). apply left_over_ok in H as (-> & _ & _).
    pose proof (comb_take_other p arith_cbl "arithmetic" "operation" d k) as SH. cbn in SH.
    rewrite CT in SH. cbn [fst] in SH. rewrite SH in N by auto. now apply N.
  - apply in_cond_decid in NU as (? & ? & ? & ? & ? & ? & ? & ?). rewrite cb_make_decid, F in H by auto.
    destruct (comb_take p decid_cbl "decider" "comparator" (ddel "copy_count_from_input" d)) as [d' r] eqn:CT. apply bind_ok in H as (ats & _ & H). apply left_over_ok in H as (-> & _ & _).
    pose proof (comb_take_other p decid_cbl "decider" "comparator" (ddel "copy_count_from_input" d) k) as SH. cbn in SH.
    rewrite CT in SH. cbn [fst] in SH. rewrite dget_ddel_other in SH by auto. rewrite SH in N by auto. now apply N.
Qed.
Lemma p_C33_conditions p cust l kw s ty f cb d e k : typed p kw s ty -> dget ty cust = None -> conditions_of ty = Some f ->
  snd (construct p cust l (with_conditions f d cb kw)) = Ok e -> dget k d <> None -> exists x, k = KS x /\ In x (cond_keys ty).
Proof.
  intros T CU CF H N. assert (I : exists own cbk, In (ty, (own, cbk)) formats).
  { unfold conditions_of in CF. destruct (String.eqb_spec ty "arithmetic-combinator") as [->|]; [|destruct (String.eqb_spec ty "decider-combinator") as [->|]; [|discriminate]];
      eexists; eexists; [apply arith_in|apply decid_in]. }
  destruct I as (own & cbk & I). unfold with_conditions in H. destruct (construct_cb_ok _ _ _ _ _ _ _ _ _ _ T CU I H) as (a & Ha).
  eapply cb_conditions; eauto; [eapply typed_leftover; eauto|]. rewrite dget_dset', key_eqb_refl. reflexivity.
Qed.
(** a key of the conditions that nothing takes is an error *)
Lemma conditions_left p s ty f cb d a k : conditions_of ty = Some f -> leftover_error p (VStr s) = EType ->
  (ty = "arithmetic-combinator" -> comb_take p arith_cbl "arithmetic" "operation" (ddel k d) =
     (ddel k (fst (comb_take p arith_cbl "arithmetic" "operation" d)), snd (comb_take p arith_cbl "arithmetic" "operation" d)) /\
     dget k (fst (comb_take p arith_cbl "arithmetic" "operation" d)) <> None) ->
  (ty = "decider-combinator" -> k <> KS "copy_count_from_input" /\
     let d := ddel "copy_count_from_input" d in comb_take p decid_cbl "decider" "comparator" (ddel k d) =
     (ddel k (fst (comb_take p decid_cbl "decider" "comparator" d)), snd (comb_take p decid_cbl "decider" "comparator" d)) /\
     dget k (fst (comb_take p decid_cbl "decider" "comparator" d)) <> None) ->
  cb_make p (VStr s) (cls_of ty) (VDict (dset (KS f) (VDict (ddel k d)) cb)) = Ok a ->
  cb_make p (VStr s) (cls_of ty) (VDict (dset (KS f) (VDict d) cb)) = Err EType.
Proof.
  intros CF LE HA HD H. destruct (cb_make_ok _ _ _ _ _ H) as (cb' & [= <-] & A & S & E).
  unfold conditions_of in CF. destruct (String.eqb_spec ty "arithmetic-combinator") as [->|]; [|destruct (String.eqb_spec ty "decider-combinator") as [->|]; [|discriminate]];
    injection CF as <-; rewrite all_KS_dset in A; rewrite dget_dset' in S, E; cbn in S, E.
  - destruct (HA eq_refl) as (TK & NN). rewrite cb_make_arith in H by (rewrite ?all_KS_dset, ?dget_dset'; auto).
    rewrite cb_make_arith by (rewrite ?all_KS_dset, ?dget_dset'; auto). rewrite dget_dset', key_eqb_refl in H |- *. cbn [odflt] in H |- *. rewrite TK in H.
    destruct (comb_take p arith_cbl "arithmetic" "operation" d) as [d' r]. cbn [fst snd] in *. apply bind_ok in H as (ats & -> & _). cbn [bind].
    unfold left_over. rewrite LE. destruct d'; [now cbn in NN|reflexivity].
  - destruct (HD eq_refl) as (NC & TK & NN). rewrite cb_make_decid in H by (rewrite ?all_KS_dset, ?dget_dset'; auto).
    rewrite cb_make_decid by (rewrite ?all_KS_dset, ?dget_dset'; auto). rewrite dget_dset', key_eqb_refl in H |- *. rewrite ddel_comm, TK in H.
    destruct (comb_take p decid_cbl "decider" "comparator" (ddel "copy_count_from_input" d)) as [d' r]. cbn [fst snd] in *. apply bind_ok in H as (ats & -> & _). cbn [bind].
    unfold left_over. rewrite LE. destruct d'; [now cbn in NN|reflexivity].
Qed.
Lemma cond_format ty f : conditions_of ty = Some f -> exists own cbk, In (ty, (own, cbk)) formats.
Proof.
  unfold conditions_of. intros CF. destruct (String.eqb_spec ty "arithmetic-combinator") as [->|]; [|destruct (String.eqb_spec ty "decider-combinator") as [->|]; [|discriminate]];
      eexists; eexists; [apply arith_in|apply decid_in].
Qed.
Lemma p_C33_condition_rejected p cust l kw s ty f cb d e k : typed p kw s ty -> dget ty cust = None -> conditions_of ty = Some f ->
  snd (construct p cust l (with_conditions f (ddel k d) cb kw)) = Ok e -> dget k d <> None -> (forall x, k = KS x -> ~ In x (cond_keys ty)) ->
  snd (construct p cust l (with_conditions f d cb kw)) = Err EType.
Proof.
  intros T CU CF H N NU. destruct (cond_format _ _ CF) as (own & cbk & I). unfold with_conditions in *.
  destruct (construct_cb_ok _ _ _ _ _ _ _ _ _ _ T CU I H) as (a & Ha).
  eapply construct_cb_err; eauto. eapply conditions_left; eauto; [eapply typed_leftover; eauto| |].
  - intros ->. apply in_cond_arith in NU as (? & ? & ? & ? & ? & ? & ?). split; [apply comb_take_ddel; auto|].
    rewrite <- comb_take_other; auto.
  - intros ->. apply in_cond_decid in NU as (? & ? & ? & ? & ? & ? & ? & ?). split; auto. cbv zeta. split; [apply comb_take_ddel; auto|].
    rewrite <- comb_take_other; auto. rewrite dget_ddel_other; auto.
Qed.

(** ** C36 *)
Lemma first_constant p d v : dget "constant" d = Some v -> v <> VNone ->
  take_signal p "decider" "first" d = (ddel "constant" d, signal_set p v).
Proof.
  intros C N. unfold take_signal, get_from, dpop. cbn [String.eqb andb Ascii.eqb Bool.eqb]. rewrite C. cbn [odflt]. destruct v; try congruence; reflexivity.
Qed.
Lemma comb_take_first p d v : dget "constant" d = Some v -> v <> VNone ->
  comb_take p decid_cbl "decider" "comparator" (ddel "first_signal" d) =
    (ddel "first_signal" (fst (comb_take p decid_cbl "decider" "comparator" d)), snd (comb_take p decid_cbl "decider" "comparator" d)) /\
  dget "first_signal" (fst (comb_take p decid_cbl "decider" "comparator" d)) = dget "first_signal" d.
Proof.
  intros C N. unfold comb_take. rewrite dget_ddel_other by congruence. destruct (dget "comparator" d) as [o|]; [|split; reflexivity].
  rewrite (ddel_comm _ "first_signal"). destruct (comb_operator decid_cbl o) as [o'|]; [|split; [reflexivity|cbn [fst]; now rewrite dget_ddel_other by congruence]].
  rewrite (first_constant p (ddel "comparator" d) v) by (rewrite ?dget_ddel_other by congruence; auto).
  rewrite (first_constant p (ddel "first_signal" (ddel "comparator" d)) v) by (rewrite ?dget_ddel_other by congruence; auto).
  destruct (signal_set p v) as [f|]; [|split; cbn [fst snd]; [now rewrite ddel_comm|now rewrite !dget_ddel_other by congruence]].
  rewrite (ddel_comm _ "first_signal").
  rewrite <- (dget_ddel_other "comparator" "first_signal" d) by congruence. rewrite <- (dget_ddel_other "constant" "first_signal" (ddel _ d)) by congruence.
  generalize (ddel "constant" (ddel "comparator" d)). clear d C. intros d.
  rewrite take_signal_ddel; [|cbn; congruence|cbn; congruence].
  pose proof (take_signal_other p "decider" "second" d (KS "first_signal") ltac:(cbn; congruence) ltac:(cbn; congruence)) as O1.
  destruct (take_signal p "decider" "second" d) as [d2 [g|]]; cbn [fst snd] in *; [|auto].
  rewrite take_signal_ddel; [|cbn; congruence|cbn; congruence].
  pose proof (take_signal_other p "decider" "output" d2 (KS "first_signal") ltac:(cbn; congruence) ltac:(cbn; congruence)) as O2.
  destruct (take_signal p "decider" "output" d2) as [d3 [h|]]; cbn [fst snd] in *; (split; [reflexivity|congruence]).
Qed.
Lemma decider_stuck p s cb d c a : dget "first_signal" d <> None -> dget "constant" d = Some c -> c <> VNone ->
  cb_make p (VStr s) (cls_of "decider-combinator") (VDict (dset "decider_conditions" (VDict d) cb)) <> Ok a.
Proof.
  intros F C N H. destruct (cb_make_ok _ _ _ _ _ H) as (cb' & [= <-] & A & S & E).
  rewrite cb_make_decid in H by auto. rewrite dget_dset', key_eqb_refl in H.
  destruct (comb_take_first p (ddel "copy_count_from_input" d) c ltac:(rewrite dget_ddel_other by congruence; auto) N) as (_ & FS).
  destruct (comb_take _ _ _ _ _) as [d' r]. apply bind_ok in H as (ats & -> & H). apply left_over_ok in H as (-> & _ & _).
  rewrite dget_ddel_other in FS by congruence. cbn in FS. congruence.
Qed.
Lemma p_C36_never p cust l kw s cb d c e : typed p kw s "decider-combinator" -> dget "decider-combinator" cust = None ->
  dget "first_signal" d <> None -> dget "constant" d = Some c -> c <> VNone ->
  snd (construct p cust l (with_conditions "decider_conditions" d cb kw)) <> Ok e.
Proof.
  intros T CU F C N H. unfold with_conditions in H. destruct (construct_cb_ok _ _ _ _ _ _ _ _ _ _ T CU decid_in H) as (a & Ha).
  eapply decider_stuck; eauto.
Qed.
Lemma p_C36_only p cust l kw s cb d c e : typed p kw s "decider-combinator" -> dget "decider-combinator" cust = None ->
  dget "first_signal" d <> None -> dget "constant" d = Some c -> c <> VNone ->
  snd (construct p cust l (with_conditions "decider_conditions" (ddel "first_signal" d) cb kw)) = Ok e ->
  snd (construct p cust l (with_conditions "decider_conditions" d cb kw)) = Err EType.
Proof.
  intros T CU F C N H. unfold with_conditions in *.
  destruct (construct_cb_ok _ _ _ _ _ _ _ _ _ _ T CU decid_in H) as (a & Ha).
  eapply construct_cb_err; eauto using decid_in. eapply (conditions_left p s "decider-combinator"); eauto; [eapply typed_leftover; eauto|discriminate|].
  intros _. split; [congruence|]. cbv zeta.
  destruct (comb_take_first p (ddel "copy_count_from_input" d) c ltac:(rewrite dget_ddel_other by congruence; auto) N) as (X & FS). split; auto.
  rewrite FS, dget_ddel_other by congruence. auto.
Qed.
