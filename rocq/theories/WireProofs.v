(** * Proofs about wires in exported entities (C16, C18) and about the exported fields. *)
From Coq Require Import Lia Permutation Sorted.
From Verif Require Import Py Num NumFacts Util SpecUtil UtilFacts Classes Mixins Entity World WorldFacts
  Inv SortFacts SpecWorld LayerProofs PersistProofs.
Open Scope Z_scope.

Lemma dget_dset_same {V} k (v : V) d : dget k (dset k v d) = Some v.
Proof. rewrite dget_dset, key_eqb_refl. auto. Qed.
Lemma dget_dset_other {V} k (v : V) d k' : k' <> k -> dget k' (dset k v d) = dget k' d.
Proof. intros H. rewrite dget_dset. destruct (key_eqb k' k) eqn:E; auto. apply key_eqb_eq in E. congruence. Qed.

(** ** ports of the object under construction *)
Lemma slot_dset_same obj s d : slot (dset (KI s) (VDict d) obj) s = d.
Proof. unfold slot. rewrite dget_dset_same. auto. Qed.
Lemma port_slot obj s col : port obj s col = slot_list (slot obj s) col.
Proof. unfold port, slot, slot_list. destruct (dget (KI s) obj) as [[]|]; simpl; auto. Qed.
Lemma port_dset obj s d s' col : port (dset (KI s) (VDict d) obj) s' col = if s =? s' then slot_list d col else port obj s' col.
Proof.
  destruct (Z.eqb_spec s s') as [<-|N].
  - rewrite port_slot, slot_dset_same. auto.
  - unfold port. rewrite dget_dset_other; auto. congruence.
Qed.
Lemma slot_list_dset d col l col' : slot_list (dset (KS col) (VList l) d) col' = if String.eqb col col' then l else slot_list d col'.
Proof.
  unfold slot_list. destruct (String.eqb_spec col col') as [<-|N].
  - rewrite dget_dset_same. auto.
  - rewrite dget_dset_other; auto. congruence.
Qed.
Lemma port_ensure side col obj s c : port (ensure_slot side col obj) s c = port obj s c.
Proof.
  unfold ensure_slot. set (o := if dmem (KI side) obj then obj else dset (KI side) (VDict []) obj).
  assert (E : forall s c, port o s c = port obj s c).
  { intros s0 c0. unfold o. destruct (dmem (KI side) obj) eqn:D; auto. rewrite port_dset.
    destruct (Z.eqb_spec side s0) as [<-|]; auto. unfold port. unfold dmem in D. destruct (dget (KI side) obj); auto. discriminate. }
  destruct (dmem col (slot o side)) eqn:D; auto. rewrite port_dset, <- E.
  destruct (Z.eqb_spec side s) as [<-|]; auto. rewrite slot_list_dset, port_slot.
  destruct (String.eqb_spec col c) as [<-|]; auto. unfold slot_list. unfold dmem in D.
  destruct (dget col (slot o side)); auto. discriminate.
Qed.
Lemma port_append side col v obj s c : port (append_slot side col v obj) s c =
  port obj s c ++ (if (side =? s) && String.eqb col c then [v] else []).
Proof.
  unfold append_slot. rewrite port_dset. destruct (Z.eqb_spec side s) as [<-|]; simpl; [|rewrite app_nil_r; auto].
  rewrite slot_list_dset, <- !port_slot. destruct (String.eqb_spec col c) as [<-|]; auto.
  rewrite app_nil_r. reflexivity.
Qed.

(** ** one entity's wires *)
Definition oriented (e : nat) (c : conn) : Prop := c_from c = Some e.
(** how an oriented wire is seen *)
Definition oviews (e : nat) (c : conn) : list (Z * string * nat * Z) :=
  match c_to c with
  | Some t => (if Nat.eqb t e then [(c_ts c, c_color c, t, c_fs c)] else []) ++ [(c_fs c, c_color c, t, c_fs c)]
  | None => []
  end.
Definition entry (w : world) (o : Z * string * nat * Z) : val :=
  let '(_, _, f, s) := o in match ent w f with Some fe => conn_entry fe s | None => VNone end.
Lemma entry_ok w o : (let '(_, _, f, _) := o in exists fe, ent w f = Some fe) -> entry_of w o (entry w o).
Proof.
  destruct o as [[[s col] f] t]. intros [fe H]. simpl. exists fe. split; auto. rewrite H.
  unfold conn_entry, nr_connections, two_sided.
  destruct (has_cls CCombinator (statics (e_cls fe))) eqn:E; simpl; [left|right]; split; auto.
  - unfold has_cls in E. apply existsb_exists in E as (c & I & Ec). unfold scls_eqb in Ec.
    destruct (scls_eq_dec CCombinator c) as [<-|]; auto. discriminate.
  - intros I. unfold has_cls in E. rewrite <- not_true_iff_false in E. apply E. apply existsb_exists.
    exists CCombinator. split; auto.
Qed.
Lemma entry_uniq w o v v' : entry_of w o v -> entry_of w o v' -> v = v'.
Proof.
  destruct o as [[[s col] f] t]. intros (e & H & [[A ->]|[A ->]]) (e' & H' & [[B ->]|[B ->]]);
    rewrite H in H'; injection H' as <-; auto; tauto.
Qed.
Lemma conn_json1_port w e obj c obj' : conn_json1 w e obj c = Ok obj' ->
  forall s col, port obj' s col = port obj s col ++ map (entry w) (filter (seen_at s col) (oviews e c)).
Proof.
  unfold conn_json1, oviews. destruct (c_to c) as [t|]; [|discriminate].
  destruct (ent w t) as [te|] eqn:Ht; [|discriminate]. intros H s col. injection H as <-.
  rewrite port_append. destruct (Nat.eqb_spec t e) as [<-|N].
  - rewrite port_append, !port_ensure. simpl. rewrite <- app_assoc. f_equal.
    destruct ((c_ts c =? s) && (c_color c =? col)%string), ((c_fs c =? s) && (c_color c =? col)%string);
      simpl; rewrite ?Ht; auto.
  - rewrite port_ensure. simpl. f_equal.
    destruct ((c_fs c =? s) && (c_color c =? col)%string); simpl; rewrite ?Ht; auto.
Qed.
Lemma conns_json_port w e l : forall obj obj', conns_json w e l obj = Ok obj' ->
  forall s col, port obj' s col = port obj s col ++ map (entry w) (filter (seen_at s col) (flat_map (oviews e) l)).
Proof.
  induction l as [|c r IH]; simpl; intros obj obj' H s col.
  - injection H as <-. rewrite app_nil_r. auto.
  - destruct (conn_json1 w e obj c) as [o1|] eqn:E; [|discriminate]. simpl in H.
    rewrite (IH _ _ H), (conn_json1_port _ _ _ _ _ E), filter_app, map_app, app_assoc. auto.
Qed.
Lemma views_turn e c : (exists i j, c_from c = Some i /\ c_to c = Some j) ->
  views e c = if attached_to c e then oviews e (turn_towards e c) else [].
Proof.
  intros (i & j & Hi & Hj). unfold views, turn_towards, attached_to, orientate, oviews. rewrite Hi, Hj. simpl.
  destruct (Nat.eqb_spec i e) as [->|]; simpl.
  - destruct (Nat.eqb_spec j e) as [->|]; simpl; rewrite ?Hi, ?Hj, ?Nat.eqb_refl; simpl; auto.
    destruct (Nat.eqb_spec j e); [congruence|]. auto.
  - destruct (Nat.eqb_spec j e) as [->|]; simpl; auto. rewrite Hi.
    destruct (Nat.eqb_spec i e); [congruence|]. auto.
Qed.
Lemma attached_turn e c : attached_to (turn_towards e c) e = attached_to c e.
Proof.
  unfold turn_towards. destruct (attached_to c e) eqn:E; auto. unfold orientate.
  destruct (end_eqb (c_to c) (Some e)) eqn:T; auto. unfold attached_to in *. simpl. rewrite T. auto.
Qed.
Lemma filter_map_turn e cs : filter (fun c => attached_to c e) (map (turn_towards e) cs) =
  map (turn_towards e) (filter (fun c => attached_to c e) cs).
Proof.
  induction cs as [|c r IH]; simpl; auto. rewrite attached_turn. destruct (attached_to c e); simpl; rewrite IH; auto.
Qed.

(** the wires an export of [e] reads, in order *)
Definition mine (e : nat) (cs : list conn) : list conn := map (turn_towards e) (filter (fun c => attached_to c e) cs).
Definition my_wires (w : world) (e : nat) (cs : list conn) : res (list conn) :=
  let! ks := mapM (fun c => let! k := conn_key w c in Ok (k, c)) (mine e cs) in sorted_conns ks.
Definition turned (e b : nat) (x : bp) (w : world) : world :=
  upd_bp b (b_set_conns (map (turn_towards e) (b_conns x))) w.
Lemma conn_key_ents w w' c : w_ents w' = w_ents w -> conn_key w' c = conn_key w c.
Proof. intros E. unfold conn_key, end_auto, ent. rewrite E. auto. Qed.
Lemma my_wires_ents w w' e cs : w_ents w' = w_ents w -> my_wires w' e cs = my_wires w e cs.
Proof.
  intros E. unfold my_wires.
  rewrite (mapM_ext _ (fun c => let! k := conn_key w c in Ok (k, c)) (mine e cs)); auto.
  intros c _. rewrite (conn_key_ents _ _ _ E). auto.
Qed.
Lemma get_connections_eq e w en b x : ent w e = Some en -> e_layer en = Some b -> blu w b = Some x ->
  get_connections e w = (turned e b x w, my_wires w e (b_conns x)).
Proof.
  intros He Hl Hx. unfold get_connections, mbind, get_ent, get_bp, gets, modify. rewrite He, Hl, Hx. cbv beta iota.
  rewrite filter_map_turn. f_equal.
Qed.
Lemma conns_json_ents w w' e l : w_ents w' = w_ents w -> forall obj, conns_json w' e l obj = conns_json w e l obj.
Proof.
  intros E. induction l as [|c r IH]; simpl; intros obj; auto.
  assert (E1 : conn_json1 w' e obj c = conn_json1 w e obj c) by (unfold conn_json1, ent; rewrite E; auto).
  rewrite E1. destruct (conn_json1 w e obj c); simpl; auto.
Qed.
Lemma connections_to_json_eq e w en b x : ent w e = Some en -> e_layer en = Some b -> blu w b = Some x ->
  connections_to_json e w =
  (turned e b x w, let! l := my_wires w e (b_conns x) in conns_json w e l []).
Proof.
  intros He Hl Hx. unfold connections_to_json, mbind. rewrite (get_connections_eq _ _ _ _ _ He Hl Hx).
  destruct (my_wires w e (b_conns x)); simpl; auto. unfold gets. rewrite (conns_json_ents w); auto.
Qed.

Lemma sorted_conns_perm ks l : sorted_conns ks = Ok l -> Permutation (map snd ks) l.
Proof.
  unfold sorted_conns. destruct (existsb _ ks); [discriminate|]. destruct (negb _); [discriminate|].
  intros [= <-]. apply Permutation_map. apply isort_perm.
Qed.
Lemma mapM_keys_snd {A} (f : A -> res (val * val)) l ks :
  mapM (fun c => let! k := f c in Ok (k, c)) l = Ok ks -> map snd ks = l.
Proof.
  revert ks. induction l as [|c r IH]; simpl; intros ks H; [injection H as <-; auto|].
  destruct (f c); [|discriminate]. simpl in H. destruct (mapM _ r) as [t|]; [|discriminate]. simpl in H.
  injection H as <-. simpl. f_equal. apply IH. auto.
Qed.
Lemma my_wires_perm w e cs l : my_wires w e cs = Ok l -> Permutation (mine e cs) l.
Proof.
  unfold my_wires. destruct (mapM _ (mine e cs)) as [ks|] eqn:E; [|discriminate]. simpl. intros H.
  apply mapM_keys_snd in E. rewrite <- E. apply sorted_conns_perm. auto.
Qed.
Lemma my_wires_ends w e cs l : my_wires w e cs = Ok l -> forall c, In c cs -> attached_to c e = true ->
  exists i j ei ej, c_from c = Some i /\ c_to c = Some j /\ ent w i = Some ei /\ ent w j = Some ej.
Proof.
  unfold my_wires. destruct (mapM _ (mine e cs)) as [ks|] eqn:E; [|discriminate]. intros _ c Hc Ha.
  apply mapM_ok in E. assert (Hm : In (turn_towards e c) (mine e cs)).
  { apply in_map. apply filter_In. auto. }
  assert (exists k, conn_key w (turn_towards e c) = Ok k) as [k Hk].
  { induction E as [|? ? ? ? H]; [destruct Hm|]. destruct Hm as [->|]; auto.
    destruct (conn_key w (turn_towards e c)) as [k|]; [eauto|discriminate]. }
  unfold conn_key, end_auto in Hk.
  destruct (c_from (turn_towards e c)) as [i|] eqn:Fi; [|discriminate]. destruct (ent w i) as [ei|] eqn:Ei; [|discriminate].
  destruct (c_to (turn_towards e c)) as [j|] eqn:Fj; [|discriminate]. simpl in Hk. destruct (ent w j) as [ej|] eqn:Ej; [|discriminate].
  unfold turn_towards in *. rewrite Ha in *. unfold orientate in *.
  destruct (end_eqb (c_to c) (Some e)); simpl in *; eauto 10.
Qed.
Lemma flat_map_perm {A B} (f : A -> list B) l l' : Permutation l l' -> Permutation (flat_map f l) (flat_map f l').
Proof.
  induction 1; simpl; auto.
  - apply Permutation_app; auto.
  - rewrite !app_assoc. apply Permutation_app; auto. apply Permutation_app_comm.
  - etransitivity; eauto.
Qed.
Lemma filter_perm {A} (f : A -> bool) l l' : Permutation l l' -> Permutation (filter f l) (filter f l').
Proof.
  induction 1 as [|a ? ? ? IH|a b ?|]; simpl; auto.
  - destruct (f a); auto.
  - destruct (f a), (f b); auto. apply perm_swap.
  - etransitivity; eauto.
Qed.
Lemma views_mine e cs : (forall c, In c cs -> attached_to c e = true -> exists i j, c_from c = Some i /\ c_to c = Some j) ->
  flat_map (views e) cs = flat_map (oviews e) (mine e cs).
Proof.
  induction cs as [|c r IH]; simpl; intros H; auto. unfold mine in *. simpl.
  rewrite IH by eauto. destruct (attached_to c e) eqn:A; simpl.
  - rewrite views_turn, A by eauto. auto.
  - unfold views. unfold attached_to in A. apply orb_false_iff in A as [A1 A2].
    destruct (c_from c) as [i|]; auto. destruct (c_to c) as [j|]; auto. simpl in A1, A2. rewrite A1, A2. auto.
Qed.
Lemma views_ent w e cs o : (forall c, In c cs -> attached_to c e = true ->
     exists i j ei ej, c_from c = Some i /\ c_to c = Some j /\ ent w i = Some ei /\ ent w j = Some ej) ->
  In o (flat_map (views e) cs) -> let '(_, _, f, _) := o in exists fe, ent w f = Some fe.
Proof.
  intros H I. apply in_flat_map in I as (c & Hc & I). unfold views in I.
  destruct (c_from c) as [i|] eqn:Fi; [|destruct I]. destruct (c_to c) as [j|] eqn:Fj; [|destruct I].
  destruct (attached_to c e) eqn:A.
  - destruct (H c Hc A) as (i' & j' & ei & ej & Hi & Hj & Ei & Ej).
    rewrite Fi in Hi; rewrite Fj in Hj; injection Hi as <-; injection Hj as <-.
    destruct (Nat.eqb_spec i e) as [->|]; destruct (Nat.eqb_spec j e) as [->|]; simpl in I;
      repeat (destruct I as [<-|I]; [eauto|]); destruct I.
  - unfold attached_to in A. rewrite Fi, Fj in A. simpl in A. apply orb_false_iff in A as [A1 A2].
    rewrite A1, A2 in I. destruct I.
Qed.

(** ** C16: the exported object lists exactly the wires of the entity *)
Lemma p_C16_exact w e en b x w' obj : ent w e = Some en -> e_layer en = Some b -> blu w b = Some x ->
  connections_to_json e w = (w', Ok obj) ->
  forall s col, exists l, Permutation (port obj s col) l /\
    Forall2 (entry_of w) (filter (seen_at s col) (flat_map (views e) (b_conns x))) l.
Proof.
  intros He Hl Hx H s col. rewrite (connections_to_json_eq _ _ _ _ _ He Hl Hx) in H.
  destruct (my_wires w e (b_conns x)) as [l|] eqn:E; [|discriminate]. injection H as _ H. simpl in H.
  pose proof (my_wires_ends _ _ _ _ E) as K.
  exists (map (entry w) (filter (seen_at s col) (flat_map (views e) (b_conns x)))). split.
  - rewrite (conns_json_port _ _ _ _ _ H). simpl. apply Permutation_map.
    rewrite views_mine.
    + apply my_wires_perm in E. apply (flat_map_perm (oviews e)) in E. 
      apply Permutation_sym, filter_perm, E.
    + intros c Hc A. destruct (K c Hc A) as (i & j & _ & _ & Hi & Hj & _). eauto.
  - assert (G : forall o, In o (filter (seen_at s col) (flat_map (views e) (b_conns x))) ->
      let '(_, _, f, _) := o in exists fe, ent w f = Some fe).
    { intros o Ho. apply filter_In in Ho as [Ho _]. eapply views_ent; eauto. }
    induction (filter _ _) as [|o r IH]; simpl; constructor.
    + apply entry_ok, G. left; auto.
    + apply IH. intros; apply G; right; auto.
Qed.
Lemma sorted_conns_ints ks : (forall k c, In (k, c) ks -> exists n m, k = (VInt n, VInt m)) ->
  exists l, sorted_conns ks = Ok l.
Proof.
  intros H. unfold sorted_conns.
  assert (A : existsb (fun kc : val * val * conn => (auto_kind (fst (fst kc)) =? 3) || (auto_kind (snd (fst kc)) =? 3)) ks = false).
  { apply not_true_iff_false. intros C. apply existsb_exists in C as ([k c] & I & C).
    destruct (H _ _ I) as (n & m & ->). discriminate. }
  rewrite A.
  assert (B : forall f : val * val * conn -> val, (forall x, In x ks -> exists n, f x = VInt n) -> same_kinds (map f ks) = true).
  { intros f Hf. destruct ks as [|x r]; auto. simpl. destruct (Hf x (or_introl eq_refl)) as [n ->].
    apply forallb_forall. intros y Hy. apply in_map_iff in Hy as (z & <- & Hz).
    destruct (Hf z (or_intror Hz)) as [m ->]. auto. }
  rewrite !B; simpl; eauto; intros [k c] I; destruct (H _ _ I) as (n & m & ->); simpl; eauto.
Qed.
Lemma my_wires_ok w e cs : numbered_ends w e cs -> exists l, my_wires w e cs = Ok l.
Proof.
  intros H. unfold my_wires.
  assert (K : forall c, In c (mine e cs) -> exists n m, conn_key w c = Ok (VInt n, VInt m)).
  { intros c Hc. unfold mine in Hc. apply in_map_iff in Hc as (d & <- & Hd). apply filter_In in Hd as [Hd A].
    assert (A' : c_from d = Some e \/ c_to d = Some e).
    { unfold attached_to in A. apply orb_true_iff in A as [A|A]; [left|right];
      [destruct (c_from d)|destruct (c_to d)]; simpl in A; try discriminate; apply Nat.eqb_eq in A; congruence. }
    destruct (H d Hd A') as (i & j & ei & ej & n & m & Hi & Hj & Ei & Ej & Ni & Nj).
    unfold turn_towards. rewrite A. unfold orientate, conn_key, end_auto.
    destruct (end_eqb (c_to d) (Some e)); simpl; rewrite Hi, Hj, Ei, Ej; simpl; rewrite Ni, Nj; eauto. }
  assert (exists ks, mapM (fun c => let! k := conn_key w c in Ok (k, c)) (mine e cs) = Ok ks /\
      forall k c, In (k, c) ks -> exists n m, k = (VInt n, VInt m)) as (ks & Hk & HK).
  { induction (mine e cs) as [|c r IH]; simpl; [exists []; split; auto; intros ? ? []|].
    destruct (K c (or_introl eq_refl)) as (n & m & Ec). rewrite Ec. simpl.
    destruct IH as (ks & -> & HK); [intros; apply K; right; auto|]. simpl. eexists. split; auto.
    intros k c0 [[= <- <-]|I]; eauto. }
  rewrite Hk. simpl. apply sorted_conns_ints. auto.
Qed.
Lemma conns_json_ok w e l : (forall c, In c l -> exists t te, c_to c = Some t /\ ent w t = Some te) ->
  forall obj, exists obj', conns_json w e l obj = Ok obj'.
Proof.
  induction l as [|c r IH]; simpl; intros H obj; eauto. unfold conn_json1.
  destruct (H c (or_introl eq_refl)) as (t & te & -> & ->). simpl. apply IH. intros; apply H; auto.
Qed.
Lemma p_C16_succeeds w e en b x : ent w e = Some en -> e_layer en = Some b -> blu w b = Some x ->
  numbered_ends w e (b_conns x) -> exists obj, snd (connections_to_json e w) = Ok obj.
Proof.
  intros He Hl Hx H. rewrite (connections_to_json_eq _ _ _ _ _ He Hl Hx). simpl.
  destruct (my_wires_ok _ _ _ H) as [l El]. rewrite El. simpl.
  destruct (conns_json_ok w e l) with (obj := @nil (key * val)) as [o Ho]; [|eauto].
  intros c Hc. apply (Permutation_in _ (Permutation_sym (my_wires_perm _ _ _ _ El))) in Hc.
  unfold mine in Hc. apply in_map_iff in Hc as (d & <- & Hd). apply filter_In in Hd as [Hd A].
  destruct (my_wires_ends _ _ _ _ El _ Hd A) as (i & j & ei & ej & Hi & Hj & Ei & Ej).
  unfold turn_towards. rewrite A. unfold orientate. destruct (end_eqb _ _); simpl; eauto.
Qed.
(** both ends of a wire list it *)
Lemma in_views_port w e en b x w' obj s col f t : ent w e = Some en -> e_layer en = Some b -> blu w b = Some x ->
  connections_to_json e w = (w', Ok obj) ->
  In (s, col, f, t) (flat_map (views e) (b_conns x)) -> exists v, In v (port obj s col) /\ entry_for w f t v.
Proof.
  intros He Hl Hx H I. destruct (p_C16_exact _ _ _ _ _ _ _ He Hl Hx H s col) as (l & P & F).
  assert (I' : In (s, col, f, t) (filter (seen_at s col) (flat_map (views e) (b_conns x)))).
  { apply filter_In. split; auto. simpl. rewrite Z.eqb_refl, String.eqb_refl. auto. }
  clear -P F I'. apply Permutation_sym in P.
  assert (exists v, In v l /\ entry_of w (s, col, f, t) v) as (v & Hv & Ev).
  { clear P. induction F as [|o v os vs E F IH]; [destruct I'|]. destruct I' as [->|I'].
    - exists v. split; [left|]; auto.
    - destruct (IH I') as (v' & Hv & Ev). exists v'. split; [right|]; auto. }
  exists v. split; [|exact Ev]. eapply Permutation_in; eauto.
Qed.
Lemma p_C16_from w e en b x w' obj c f : ent w e = Some en -> e_layer en = Some b -> blu w b = Some x ->
  connections_to_json e w = (w', Ok obj) -> In c (b_conns x) ->
  c_from c = Some e -> c_to c = Some f -> e <> f ->
  exists v, In v (port obj (c_fs c) (c_color c)) /\ entry_for w f (c_fs c) v.
Proof.
  intros He Hl Hx H Hc Ff Ft N. eapply in_views_port; eauto. apply in_flat_map. exists c. split; auto.
  unfold views. rewrite Ff, Ft, Nat.eqb_refl. destruct (Nat.eqb_spec f e); [congruence|]. left. auto.
Qed.
Lemma p_C16_to w e en b x w' obj c f : ent w e = Some en -> e_layer en = Some b -> blu w b = Some x ->
  connections_to_json e w = (w', Ok obj) -> In c (b_conns x) ->
  c_from c = Some f -> c_to c = Some e -> e <> f ->
  exists v, In v (port obj (c_ts c) (c_color c)) /\ entry_for w f (c_ts c) v.
Proof.
  intros He Hl Hx H Hc Ff Ft N. eapply in_views_port; eauto. apply in_flat_map. exists c. split; auto.
  unfold views. rewrite Ff, Ft, Nat.eqb_refl. destruct (Nat.eqb_spec f e); [congruence|]. left. auto.
Qed.
Lemma p_C16_only w e en b x w' obj s col v : ent w e = Some en -> e_layer en = Some b -> blu w b = Some x ->
  connections_to_json e w = (w', Ok obj) -> In v (port obj s col) ->
  exists c f t, In c (b_conns x) /\ In (s, col, f, t) (views e c) /\ entry_for w f t v.
Proof.
  intros He Hl Hx H I. destruct (p_C16_exact _ _ _ _ _ _ _ He Hl Hx H s col) as (l & P & F).
  apply (Permutation_in _ P) in I.
  assert (exists o, In o (filter (seen_at s col) (flat_map (views e) (b_conns x))) /\ entry_of w o v) as (o & Ho & Eo).
  { clear P. induction F as [|o v' os vs E F IH]; [destruct I|]. destruct I as [->|I].
    - exists o. split; [left|]; auto.
    - destruct (IH I) as (o' & Ho & Eo). exists o'. split; [right|]; auto. }
  apply filter_In in Ho as [Ho S]. destruct o as [[[s' col'] f] t]. simpl in S. apply andb_true_iff in S as [S1 S2].
  apply Z.eqb_eq in S1. apply String.eqb_eq in S2. subst. apply in_flat_map in Ho as (c & Hc & Ho).
  exists c, f, t. auto.
Qed.
