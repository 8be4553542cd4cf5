(** * Proofs for C75. *)
From Coq Require Import Lia Permutation.
From Verif Require Import Py Num NumFacts Util SpecUtil Classes Mixins Entity Setters World SpecWorld SpecDoc SpecEntity SpecAttr SpecValues SpecSetting SpecBehaviour SpecParts SpecTake.
From Verif Require Import DictFacts WorldFacts SortFacts Inv LayerProofs WireProofs ExportProofs PartsProofs.
From Verif Require DocProofs RenameProofs LoadProofs.
Open Scope string_scope. Open Scope Z_scope. Open Scope list_scope.
Import RenameProofs.

(** ** The others export as before *)
Definition same_autos (w w' : world) : Prop := forall i, option_map e_auto (ent w' i) = option_map e_auto (ent w i).
Lemma end_auto_same w w' o : same_autos w w' -> end_auto w' o = end_auto w o.
Proof. intros S. unfold end_auto. destruct o as [i|]; [|reflexivity]. specialize (S i). destruct (ent w' i), (ent w i); cbn in S; congruence. Qed.
Lemma my_wires_same w w' e cs : same_autos w w' -> my_wires w' e cs = my_wires w e cs.
Proof.
  intros S. unfold my_wires. rewrite (mapM_ext _ (fun c => let! k := conn_key w c in Ok (k, c)) (mine e cs)); auto.
  intros c _. unfold conn_key. now rewrite !(end_auto_same w w') by exact S.
Qed.
Definition wire_same (w w' : world) : Prop := forall i, option_map (with_layer None) (ent w' i) = option_map (with_layer None) (ent w i).
Lemma wire_autos w w' : wire_same w w' -> same_autos w w'.
Proof. intros S i. specialize (S i). destruct (ent w' i), (ent w i); cbn in *; try congruence. injection S as S. intros. congruence. Qed.
Lemma conns_json_same w w' e l : wire_same w w' -> forall obj, conns_json w' e l obj = conns_json w e l obj.
Proof.
  intros S. induction l as [|c r IH]; simpl; intros obj; auto.
  assert (E1 : conn_json1 w' e obj c = conn_json1 w e obj c).
  { unfold conn_json1. destruct (c_to c) as [t|]; [|reflexivity]. specialize (S t).
    destruct (ent w' t) as [a|], (ent w t) as [a'|]; cbn in S; try discriminate; [|reflexivity].
    assert (CE : forall v, conn_entry a v = conn_entry a' v); [|now rewrite !CE].
    intros u. destruct a, a'. injection S. intros. subst. reflexivity. }
  rewrite E1. destruct (conn_json1 w e obj c); simpl; auto.
Qed.
Lemma alone_same w w' j e b x x' : wire_same w w' -> w_protos w' = w_protos w -> ent w j = Some e -> ent w' j = Some e -> e_layer e = Some b ->
  blu w b = Some x -> blu w' b = Some x' -> b_conns x' = b_conns x -> entity_alone w' j = entity_alone w j.
Proof.
  intros S P He He' Hl Hx Hx' C. unfold entity_alone. rewrite !ent_json_eq, He, He'. destruct (e_pos e) as [v|]; [|reflexivity].
  rewrite (connections_to_json_eq _ _ _ _ _ He Hl Hx), (connections_to_json_eq _ _ _ _ _ He' Hl Hx'), C, (my_wires_same w w') by now apply wire_autos.
  destruct (my_wires w j (b_conns x)) as [l|]; [|reflexivity]. cbn [bind]. rewrite (conns_json_same w w') by exact S.
  destruct (conns_json w j l []); [|reflexivity]. cbn [snd]. unfold turned, upd_bp. cbn [w_protos]. now rewrite P.
Qed.
Lemma takes_dropped w b o gone : reachable w -> takes_out w b o gone -> snd (step o w) = Ok tt /\ dropped w (fst (step o w)) b gone /\ reachable (fst (step o w)).
Proof.
  intros R [i x Hx Hi|pt l x Hx HL].
  - destruct (p_C22_remove w b i x R Hx Hi). split; [assumption|]. split; [assumption|]. apply reach_step; [exact R|exact I].
  - destruct (p_C23_delete w b pt x l R Hx HL). split; [assumption|]. split; [assumption|]. apply reach_step; [exact R|exact I].
Qed.
Lemma dropped_wire w w' b gone : dropped w w' b gone -> wire_same w w'.
Proof. intros (_ & _ & D & _) i. rewrite D. destruct (gone i), (ent w i); reflexivity. Qed.
Lemma p_C75_others w b o gone x j : reachable w -> takes_out w b o gone -> blu w b = Some x -> In j (b_objs x) ->
  entity_alone (fst (step o w)) j = if gone j then Err EAttribute else entity_alone w j.
Proof.
  intros R T Hx Hj. destruct (takes_dropped _ _ _ _ R T) as (_ & D & R'). pose proof (reach_inv _ R) as I. destruct (inv_owner _ I _ _ _ Hx Hj) as (e & He & Hl).
  pose proof D as (D1 & D2 & D3 & D4). pose proof (D3 j) as Hj'. rewrite He in Hj'. specialize (D1 x Hx). destruct (gone j) eqn:G.
  - unfold entity_alone. rewrite ent_json_eq, Hj'. cbn [option_map]. change (e_pos (with_layer None e)) with (e_pos e). destruct (e_pos e); [|reflexivity].
    unfold connections_to_json, get_connections, mbind, get_ent, gets. rewrite Hj'. reflexivity.
  - exact (alone_same _ _ _ _ _ _ _ (dropped_wire _ _ _ _ D) D4 He Hj' Hl Hx D1 eq_refl).
Qed.

(** ** The document *)
Lemma dget_dset_same (k : key) (v : val) (o : dict) : dget k (dset k v o) = Some v.
Proof. rewrite DocProofs.dget_dset'. now rewrite DictFacts.key_eqb_refl. Qed.
Lemma dget_dset_other (k k' : key) (v : val) (o : dict) : k <> k' -> dget k (dset k' v o) = dget k o.
Proof. intros N. rewrite DocProofs.dget_dset'. apply DictFacts.key_eqb_neq in N. now rewrite N. Qed.
Lemma dget_obj_set k k' v o : k <> KS k' -> dget k (obj_set o k' v) = dget k o.
Proof. intros N. unfold obj_set. destruct v; auto; apply dget_dset_other; auto. Qed.
Lemma whole_rest w w' x x' vs vs' ic k : (forall i, option_map e_auto (ent w' i) = option_map e_auto (ent w i)) -> (exists l, x' = b_set_objs l x) -> k <> KS "entities" ->
  dget k (whole w' x' vs' ic) = dget k (whole w x vs ic).
Proof.
  intros S [l ->] N. unfold whole. cbn [b_set_objs b_item b_label b_label_color b_version b_scheds].
  assert (SV : map (sched_val w') (b_scheds x) = map (sched_val w) (b_scheds x)).
  { apply map_ext. intros s. unfold sched_val. match goal with |- VDict [(_, VList (map ?f _)); _] = VDict [(_, VList (map ?g _)); _] => rewrite (map_ext f g); [reflexivity|] end. intros i. specialize (S i). destruct (ent w' i), (ent w i); cbn in S; congruence. }
  rewrite SV. set (o := match b_label_color x with Some _ => _ | None => _ end).
  assert (B : forall v1 v2, dget k (dset "version" (b_version x) (dset "icons" (VList ic) (obj_set o "entities" v1))) = dget k (dset "version" (b_version x) (dset "icons" (VList ic) (obj_set o "entities" v2)))).
  { intros v1 v2. destruct (key_eqb k "version") eqn:E1.
    - apply key_eqb_eq in E1 as ->. now rewrite !dget_dset_same.
    - assert (k <> KS "version") by (intros ->; discriminate E1). rewrite !(dget_dset_other k "version") by auto. destruct (key_eqb k "icons") eqn:E2.
      + apply key_eqb_eq in E2 as ->. now rewrite !dget_dset_same.
      + assert (k <> KS "icons") by (intros ->; discriminate E2). now rewrite !(dget_dset_other k "icons"), !dget_obj_set by auto. }
  destruct (map (sched_val w) (b_scheds x)) as [|s r]; [apply B|].
  destruct (key_eqb k "schedules") eqn:E1.
  - apply key_eqb_eq in E1 as ->. now rewrite !dget_dset_same.
  - assert (k <> KS "schedules") by (intros ->; discriminate E1). rewrite !(dget_dset_other k "schedules") by auto. apply B.
Qed.
Lemma leave_mapM w w' gone l ds : (forall j, In j l -> gone j = false -> entity_alone w' j = entity_alone w j) -> Forall2 (fun i v => entity_alone w i = Ok v) l ds ->
  mapM (entity_alone w') (filter (fun j => negb (gone j)) l) = Ok (leave_out gone l ds).
Proof.
  intros H F. induction F as [|i v l ds E F IH]; [reflexivity|]. cbn [filter leave_out]. assert (IH' := IH (fun j Hj => H j (or_intror Hj))). clear IH.
  destruct (gone i) eqn:G; cbn [negb]; [exact IH'|]. cbn [mapM]. rewrite (H i (or_introl eq_refl) G), E, IH'. reflexivity.
Qed.
Lemma p_C75_document w b o gone x d : reachable w -> takes_out w b o gone -> blu w b = Some x -> blueprint_doc w b = Ok (VDict [(KS "blueprint", VDict d)]) ->
  exists d' ds, blueprint_doc (fst (step o w)) b = Ok (VDict [(KS "blueprint", VDict d')]) /\ Forall2 (fun i v => entity_alone w i = Ok v) (b_objs x) ds /\
    says d "entities" (SpecParts.listed ds) /\ says d' "entities" (SpecParts.listed (leave_out gone (b_objs x) ds)) /\
    forall k, k <> KS "entities" -> dget k d' = dget k d.
Proof.
  intros R T Hx D. destruct (takes_dropped _ _ _ _ R T) as (_ & DR & R'). set (w' := fst (step o w)) in *.
  pose proof DR as (D1 & D2 & D3 & D4). specialize (D1 x Hx).
  destruct (p_C73_document _ _ _ _ R Hx D) as (d0 & E0 & WD). injection E0 as <-. destruct (wd_entities _ _ _ WD) as (ds & F & SA).
  pose proof (leave_mapM w w' gone (b_objs x) ds (fun j Hj G => eq_trans (p_C75_others w b o gone x j R T Hx Hj) ltac:(now rewrite G)) F) as MM.
  pose proof (doc_eq _ _ _ (reach_inv _ R) Hx) as Q. pose proof (doc_eq _ _ _ (reach_inv _ R') D1) as Q'. cbn [b_objs b_set_objs b_icons] in Q'. rewrite MM, D4 in Q'.
  rewrite D in Q. destruct (mapM (entity_alone w) (b_objs x)) as [vs|]; [|discriminate Q]. destruct (icons_json (w_protos w) 1 (b_icons x)) as [ic|]; [|discriminate Q].
  cbn [bind] in Q, Q'. injection Q as Q. destruct (p_C73_document _ _ _ _ R' D1 Q') as (d1 & E1 & WD'). injection E1 as <-.
  destruct (wd_entities _ _ _ WD') as (ds' & F' & SA'). cbn [b_objs b_set_objs] in F'.
  assert (ds' = leave_out gone (b_objs x) ds) as ->.
  { assert (ME : mapM (entity_alone w') (filter (fun j => negb (gone j)) (b_objs x)) = Ok ds'); [|congruence]. clear -F'. induction F' as [|i v q r Ei _ IH]; cbn [mapM]; [reflexivity|]. now rewrite Ei, IH. }
  eexists _, ds. split; [exact Q'|]. split; [exact F|]. split; [exact SA|]. split; [exact SA'|].
  intros k N. rewrite Q. apply whole_rest; [|eauto|exact N]. intros i. apply (wire_autos w w' (dropped_wire _ _ _ _ DR) i).
Qed.

(** ** Putting an entity back *)
Lemma order_unique w l : forall l', in_order w l -> in_order w l' -> Permutation l l' -> (forall v, filter (at_pos w v) l' = filter (at_pos w v) l) -> l' = l.
Proof.
  induction l as [|a r IH]; intros l' O O' P F; [now apply Permutation_nil in P|]. destruct l' as [|a' r']; [apply Permutation_sym, Permutation_nil in P; discriminate P|].
  assert (TL : forall c q, in_order w (c :: q) -> in_order w q) by (intros c q H k m i j L Hi Hj; apply (H (S k) (S m) i j); auto; lia).
  destruct (Nat.eq_dec a a') as [<-|N].
  - f_equal. apply IH; eauto using Permutation_cons_inv. intros v. specialize (F v). cbn [filter] in F. destruct (at_pos w v a); [now injection F|exact F].
  - exfalso. assert (I1 : In a' r). { pose proof (Permutation_in a' (Permutation_sym P) (or_introl eq_refl)) as [H|H]; [congruence|exact H]. }
    assert (I2 : In a r'). { pose proof (Permutation_in a P (or_introl eq_refl)) as [H|H]; [congruence|exact H]. }
    apply In_nth_error in I1 as [m Hm]. apply In_nth_error in I2 as [n Hn].
    destruct (O 0%nat (S m) a a' ltac:(lia) eq_refl Hm) as (v & u & (e & He & Pe) & (e' & He' & Pe') & LE).
    destruct (O' 0%nat (S n) a' a ltac:(lia) eq_refl Hn) as (u2 & v2 & (f' & Hf' & Pf') & (f & Hf & Pf) & LE').
    assert (u2 = u) as -> by congruence. assert (v2 = v) as -> by congruence. destruct (LoadProofs.pos_le_antisym _ _ LE LE') as [X Y].
    specialize (F u). cbn [filter] in F. rewrite (LoadProofs.at_pos_at w u a e v He Pe X Y) in F.
    rewrite (LoadProofs.at_pos_at w u a' e' u He' Pe') in F by (eapply xeq_trans; [apply xeq_sym|]; eassumption). congruence.
Qed.
Lemma nth_error_same {A} (l l' : list A) : (forall k, nth_error l k = nth_error l' k) -> l = l'.
Proof.
  revert l'. induction l as [|a l IH]; intros [|a' l'] H; [reflexivity|discriminate (H 0%nat)|discriminate (H 0%nat)|].
  injection (H 0%nat) as ->. f_equal. apply IH. intros k. exact (H (S k)).
Qed.
Lemma world_same w w' : w_protos w' = w_protos w -> (forall i, ent w' i = ent w i) -> (forall b, blu w' b = blu w b) -> w' = w.
Proof. destruct w as [p es bs], w' as [p' es' bs']. cbn. intros -> E B. f_equal; apply nth_error_same; [exact E|exact B]. Qed.
Lemma p_C75_restore w b i x : reachable w -> blu w b = Some x -> In i (b_objs x) -> in_place w (b_objs x) -> alone_there w (b_objs x) i ->
  step (OAdd b (OEnt i)) (fst (step (ORemove b (OEnt i)) w)) = (w, Ok tt).
Proof.
  intros R Hx Hi [IP IO IN] AL. pose proof (reach_inv _ R) as I. destruct (inv_owner _ I _ _ _ Hx Hi) as (e & He & Hl). pose proof (inv_nodup _ I _ _ Hx) as ND.
  cbn [step layer_remove]. rewrite (drop_ok _ _ _ _ Hx Hi). cbn [fst]. set (F := remove1 i (b_objs x)). set (w1 := upd_ent i _ _).
  assert (He1 : ent w1 i = Some (with_layer None e)) by (unfold w1; now rewrite ent_upd, Nat.eqb_refl, ent_upd_bp, He).
  assert (Hx1 : blu w1 b = Some (b_set_objs F x)) by (unfold w1; now rewrite blu_upd_ent, blu_upd, Nat.eqb_refl, Hx).
  assert (FE : F = filter (fun j => negb (Nat.eqb j i)) (b_objs x)) by now apply remove1_filter.
  assert (NF : mem_nat i F = false).
  { destruct (mem_nat i F) eqn:E; [|reflexivity]. apply mem_nat_In in E. rewrite FE in E. apply filter_In in E as [_ E]. rewrite Nat.eqb_refl in E. discriminate E. }
  unfold layer_add, mbind at 1 2, get_ent, get_bp, gets. rewrite He1, Hx1. change (e_layer (with_layer None e)) with (@None nat). cbn [opt_nat_eqb negb andb]. cbn [b_objs b_set_objs]. rewrite NF.
  unfold mbind at 1 2, modify. set (wl := upd_ent i (with_layer (Some b)) _).
  assert (EL : forall j, ent wl j = ent w j).
  { intros j. unfold wl. rewrite ent_upd, ent_upd_bp. unfold w1. rewrite ent_upd, ent_upd_bp. destruct (Nat.eqb_spec i j) as [<-|]; [|reflexivity]. rewrite He. cbn [option_map]. f_equal. destruct e. cbn in *. now subst. }
  assert (BL : blu wl b = Some (b_set_objs (F ++ [i]) x)) by (unfold wl; now rewrite blu_upd_ent, blu_upd, Nat.eqb_refl, Hx1).
  assert (BO : forall c, c <> b -> blu wl c = blu w c).
  { intros c N. unfold wl. rewrite blu_upd_ent, blu_upd. destruct (Nat.eqb_spec b c); [congruence|]. unfold w1. rewrite blu_upd_ent, blu_upd. destruct (Nat.eqb_spec b c); [congruence|reflexivity]. }
  assert (IF : forall j, In j (F ++ [i]) -> In j (b_objs x)).
  { intros j Hj. apply in_app_or in Hj as [Hj|[<-|[]]]; [|exact Hi]. rewrite FE in Hj. now apply filter_In in Hj. }
  assert (SO : exists l, sorted_objs wl (F ++ [i]) = Ok l).
  { unfold sorted_objs. match goal with |- context [mapM ?f _] => destruct (proj2 (mapM_all f (F ++ [i]))) as (ks & ->) end; [|cbn [bind]; eauto].
    intros j Hj. destruct (IP j (IF j Hj)) as (v & (ej & Hej & Pj) & NX & NY). rewrite EL, Hej. unfold pos_key. rewrite Pj.
    unfold nanb. destruct (nval (vx v)); [congruence|..]; (destruct (nval (vy v)); [congruence|..]; cbn; eauto). }
  destruct SO as [l SO]. pose proof (sorted_objs_spec _ _ _ SO) as RO.
  apply (reordered_pos wl w) in RO; [|intros j; now rewrite EL]. destruct RO as (PM & OR & ST).
  assert (PF : Permutation (b_objs x) (F ++ [i])).
  { rewrite FE. clear -Hi ND. induction (b_objs x) as [|a r IH]; [destruct Hi|]. inversion ND as [|? ? NA NR]; subst. cbn [filter]. destruct (Nat.eqb_spec a i) as [->|N]; cbn [negb].
    - replace (filter (fun j => negb (j =? i)%nat) r) with r; [apply Permutation_cons_append|]. clear -NA. induction r as [|c r IH]; [reflexivity|]. cbn [filter].
      destruct (Nat.eqb_spec c i) as [->|]; [destruct NA; now left|]. cbn [negb]. f_equal. apply IH. intros H. apply NA. now right.
    - cbn [app]. constructor. apply IH; [destruct Hi; [congruence|assumption]|exact NR]. }
  assert (LE : l = b_objs x).
  { apply (order_unique w); auto. { now rewrite PF. } intros v. rewrite ST, filter_app. cbn [filter].
    destruct (at_pos w v i) eqn:AI.
    - assert (OTH : forall j, In j (b_objs x) -> j <> i -> at_pos w v j = false).
      { intros j Hj N. destruct (at_pos w v j) eqn:AJ; [|reflexivity]. exfalso. unfold at_pos in AI, AJ.
        destruct (ent w i) as [ei|] eqn:Ei; [|discriminate AI]. destruct (e_pos ei) as [pi|] eqn:Pi; [|discriminate AI].
        destruct (ent w j) as [ej|] eqn:Ej; [|discriminate AJ]. destruct (e_pos ej) as [pj|] eqn:Pj; [|discriminate AJ].
        apply andb_true_iff in AI as [A1 A2]. apply andb_true_iff in AJ as [A3 A4]. apply neqb_spec in A1, A2, A3, A4.
        apply (AL j pi pj Hj N); [exists ei; auto|exists ej; auto|]. split; eapply xeq_trans; eauto using xeq_sym. }
      rewrite FE. clear -Hi ND AI OTH. induction (b_objs x) as [|a r IH]; [destruct Hi|]. inversion ND as [|? ? NA NR]; subst. cbn [filter]. destruct (Nat.eqb_spec a i) as [->|N]; cbn [negb].
      + rewrite AI. assert (Z : forall q, (forall j, In j q -> at_pos w v j = false) -> filter (at_pos w v) q = []).
        { induction q as [|c q IHq]; intros H; [reflexivity|]. cbn [filter]. rewrite (H c (or_introl eq_refl)). apply IHq. intros j Hj. apply H. now right. }
        assert (ZR : forall j, In j r -> at_pos w v j = false) by (intros j Hj; apply OTH; [now right|intros ->; auto]).
        rewrite (Z r ZR). rewrite Z; [reflexivity|]. intros j Hj. apply filter_In in Hj as [Hj _]. auto.
      + cbn [filter]. rewrite (OTH a (or_introl eq_refl) N). apply IH; [destruct Hi; [congruence|assumption]|exact NR|]. intros j Hj. apply OTH. now right.
    - rewrite app_nil_r, FE. clear -AI. induction (b_objs x) as [|a r IH]; [reflexivity|]. cbn [filter]. destruct (Nat.eqb_spec a i) as [->|N]; cbn [negb filter].
      + now rewrite AI.
      + destruct (at_pos w v a); now rewrite IH. }
  unfold sort_layer, mbind, get_bp, gets, modify. rewrite BL. cbn [b_objs b_set_objs]. rewrite SO, LE. f_equal.
  apply world_same.
  - rewrite reindex_protos. reflexivity.
  - intros j. destruct (in_dec Nat.eq_dec j (b_objs x)) as [Hj|Hj].
    + apply In_nth_error in Hj as [k Hk]. destruct (IN k j Hk) as (ej & Hej & Aj). rewrite (reindex_nth _ ND k _ _ j ej Hk); [|rewrite ent_upd_bp, EL; exact Hej].
      rewrite Hej. f_equal. replace (1 + Z.of_nat k) with (Z.of_nat k + 1) by lia. rewrite <- Aj. now destruct ej.
    + rewrite reindex_not_in by exact Hj. now rewrite ent_upd_bp, EL.
  - intros c. rewrite blu_reindex, blu_upd. destruct (Nat.eqb_spec b c) as [<-|N]; [|apply BO; congruence]. rewrite BL, Hx. cbn [option_map]. f_equal. now destruct x.
Qed.
