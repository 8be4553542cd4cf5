(** * Proofs for C73. *)
From Coq Require Import Lia Permutation.
From Verif Require Import Py Num Util SpecUtil Classes Mixins Entity Setters World SpecWorld SpecDoc SpecEntity SpecAttr SpecValues SpecSetting SpecBehaviour SpecParts.
From Verif Require Import DictFacts WorldFacts SortFacts Inv LayerProofs WireProofs ExportProofs.
From Verif Require SettingProofs BehaviourProofs.
Open Scope string_scope. Open Scope Z_scope. Open Scope list_scope.

(** ** What an entity exports does not depend on the other exports before it *)
Lemma mine_keep e cs ds : Forall2 (keep e) cs ds -> mine e ds = mine e cs.
Proof.
  unfold mine. induction 1 as [|c d cs ds T F IH]; simpl; auto.
  assert (A : attached_to d e = attached_to c e).
  { destruct T as [->|[-> _]]; auto. unfold attached_to, conn_flip. simpl. apply orb_comm. }
  rewrite A. destruct (attached_to c e) eqn:Ac; [|apply IH]. simpl. f_equal; [|apply IH].
  destruct T as [->|[-> NL]]; auto. unfold turn_towards. rewrite A, Ac. unfold orientate. simpl.
  destruct (end_eqb (c_from c) (Some e)) eqn:Ef, (end_eqb (c_to c) (Some e)) eqn:Et; rewrite ?flip_flip; auto.
  - destruct c as [[f|] [t|] fs ts col]; try discriminate. apply Nat.eqb_eq in Ef, Et. subst. destruct NL. split; reflexivity.
  - unfold attached_to in Ac. rewrite Ef, Et in Ac. discriminate.
Qed.
Lemma get_connections_keep e w w' : simr (keep e) w w' -> snd (get_connections e w') = snd (get_connections e w).
Proof.
  intros (P & E & S). destruct (ent w e) as [en|] eqn:He.
  2: { unfold get_connections, mbind, get_ent, gets, ent in *. rewrite E, He. auto. }
  assert (He' : ent w' e = Some en) by (unfold ent in *; congruence).
  destruct (e_layer en) as [b|] eqn:Hl.
  2: { unfold get_connections, mbind, get_ent, gets. rewrite He, He'. cbv beta iota. rewrite Hl. auto. }
  specialize (S b). destruct (blu w b) as [x|] eqn:Hx; destruct (blu w' b) as [x'|] eqn:Hx'; try tauto.
  - rewrite (get_connections_eq _ _ _ _ _ He Hl Hx), (get_connections_eq _ _ _ _ _ He' Hl Hx'). simpl.
    rewrite (my_wires_ents w w') by auto. unfold my_wires. rewrite (mine_keep e (b_conns x) (b_conns x')); auto. tauto.
  - unfold get_connections, mbind, get_ent, get_bp, gets. rewrite He, He'. cbv beta iota. rewrite Hl, Hx, Hx'. auto.
Qed.
Lemma connections_keep e w w' : simr (keep e) w w' -> snd (connections_to_json e w') = snd (connections_to_json e w).
Proof.
  intros S. unfold connections_to_json. rewrite !mbind_snd, (get_connections_keep e w w' S).
  destruct (snd (get_connections e w)); auto. unfold gets. simpl. apply conns_json_ents.
  pose proof (sim_get_connections e w) as (_ & E1 & _). pose proof (sim_get_connections e w') as (_ & E2 & _).
  destruct S as (_ & E & _). congruence.
Qed.
Lemma ent_json_keep i w w' : simr (keep i) w w' -> entity_alone w' i = entity_alone w i.
Proof.
  intros S. unfold entity_alone, ent_json. rewrite !mbind_snd. unfold get_ent, gets. simpl.
  rewrite (simr_ent _ _ _ i S). destruct (ent w i) as [e|] eqn:He; auto. destruct (e_pos e); auto. rewrite !mbind_snd.
  rewrite (connections_keep i w w' S). destruct (snd (connections_to_json i w)); auto. simpl.
  pose proof (sims_connections i w) as (P1 & _). pose proof (sims_connections i w') as (P2 & _).
  destruct S as (P & _). rewrite P1, P2, P. auto.
Qed.
Lemma mapMM_alone w l : NoDup l -> forall w', (forall i, In i l -> simr (keep i) w w') ->
  snd (mapMM ent_json l w') = mapM (entity_alone w) l.
Proof.
  induction 1 as [|i r N ND IH]; intros w' S; [reflexivity|]. cbn [mapMM mapM]. rewrite mbind_snd.
  change (snd (ent_json i w')) with (entity_alone w' i). rewrite (ent_json_keep i w w') by (apply S; now left).
  destruct (entity_alone w i) as [v|]; [|reflexivity]. cbn [bind]. rewrite mbind_snd, IH.
  - destruct (mapM (entity_alone w) r); reflexivity.
  - intros j Hj. eapply simr_trans; [apply keep_trans|apply S; now right|]. apply simsr_ent_json; [apply keep_refl|apply keep_trans|].
    intros c. apply keep_turn. intros ->. auto.
Qed.

(** ** The parts of the document *)
Definition sched_val (w : world) (s : list nat * val) : val :=
  VDict [(KS "locomotives", VList (map (fun i => match ent w i with Some e => e_auto e | None => VNone end) (fst s))); (KS "schedule", snd s)].
Definition whole (w : world) (x : bp) (vs ic : list val) : dict :=
  let o := obj_set [(KS "item", b_item x)] "label" (b_label x) in
  let o := match b_label_color x with Some c => dset "label_color" (color_to_json c) o | None => o end in
  let o := obj_set o "entities" (none_if_empty vs) in
  let o := dset "icons" (VList ic) o in
  let o := dset "version" (b_version x) o in
  match map (sched_val w) (b_scheds x) with [] => o | l => dset "schedules" (VList l) o end.
Lemma scheds_ok w l : (forall s i, In s l -> In i (fst s) -> exists e, ent w i = Some e) -> mapM (sched_json w) l = Ok (map (sched_val w) l).
Proof.
  induction l as [|s r IH]; intros H; [reflexivity|]. cbn [mapM map]. rewrite IH by (intros; eapply H; eauto; now right).
  unfold sched_json at 1. replace (mapM _ (fst s)) with (@Ok (list val) (map (fun i => match ent w i with Some e => e_auto e | None => VNone end) (fst s))).
  - reflexivity.
  - assert (K : forall i, In i (fst s) -> exists e, ent w i = Some e) by (intros i; apply H; now left). clear -K.
    induction (fst s) as [|i r IH]; [reflexivity|]. cbn [mapM map]. destruct (K i) as [e E]; [now left|]. rewrite E, <- IH; [reflexivity|].
    intros j Hj. apply K. now right.
Qed.
Lemma doc_eq w b x : inv w -> blu w b = Some x -> blueprint_doc w b =
  let! vs := mapM (entity_alone w) (b_objs x) in let! ic := icons_json (w_protos w) 1 (b_icons x) in Ok (VDict [(KS "blueprint", VDict (whole w x vs ic))]).
Proof.
  intros I Hx. unfold blueprint_doc, bp_json. rewrite mbind_snd. unfold get_bp, gets. cbn [fst snd]. rewrite Hx. cbn [fst snd].
  rewrite mbind_snd. pose proof (sims_layer_json b w) as (P & E & _).
  assert (L : snd (layer_json b w) = let! vs := mapM (entity_alone w) (b_objs x) in Ok (none_if_empty vs)).
  { unfold layer_json. rewrite mbind_snd. unfold get_bp, gets. cbn [fst snd]. rewrite Hx. cbn [fst snd]. rewrite mbind_snd.
    rewrite (mapMM_alone w) by (try apply (inv_nodup _ I _ _ Hx); intros; apply simr_refl, keep_refl).
    destruct (mapM (entity_alone w) (b_objs x)); reflexivity. }
  rewrite L. destruct (mapM (entity_alone w) (b_objs x)) as [vs|]; [|reflexivity]. cbn [bind]. rewrite mbind_snd. cbn [fst snd].
  rewrite P. destruct (icons_json (w_protos w) 1 (b_icons x)) as [ic|]; [|reflexivity]. cbn [bind]. rewrite mbind_snd. cbn [fst snd].
  assert (Q : mapM (sched_json (fst (layer_json b w))) (b_scheds x) = Ok (map (sched_val w) (b_scheds x))).
  { rewrite <- scheds_ok by (intros; eapply (inv_scheds _ I); eauto). apply mapM_ext. intros s _. unfold sched_json, ent. now rewrite E. }
  rewrite Q. cbn [ret snd]. rewrite (inv_tiles _ I _ _ Hx). unfold whole. cbn [map none_if_empty obj_set].
  destruct (map (sched_val w) (b_scheds x)); reflexivity.
Qed.

(** ** Icons *)
Lemma no_unmodelled p v : signal_json p v <> Err EUnmodelled.
Proof.
  destruct v as [| | | |s| |]; try discriminate. cbn [signal_json]. destruct (dget s (p_signal p)) as [data|]; [|discriminate].
  unfold getitem. destruct data as [| | | | | |d]; try discriminate. destruct (dget "type" d); discriminate.
Qed.
Lemma icon_iff p v r : icon_doc (p_signal p) v r <-> signal_json p v = r.
Proof.
  split.
  - intros [n r' D|u N].
    + now apply (proj1 (BehaviourProofs.d_doc p n)).
    + destruct u as [| | | |s| |]; try reflexivity. destruct (N s). reflexivity.
  - intros <-. destruct v as [| | | |s| |]; try (cbn [signal_json]; apply ic_other; congruence). apply ic_name, (proj2 (BehaviourProofs.d_doc p s)). apply no_unmodelled.
Qed.
Lemma icons_ok p l : forall k ic, icons_json p k l = Ok ic <-> Forall2 (icon_entry (p_signal p)) (set_icons k l) ic.
Proof.
  induction l as [|[v|] r IH]; intros k ic; cbn [icons_json set_icons].
  - split; [intros [= <-]; constructor|]. intros H. inversion H. reflexivity.
  - split.
    + destruct (signal_json p v) as [j|] eqn:J; [|discriminate]. cbn [bind]. destruct (icons_json p (k + 1) r) as [t|] eqn:T; [|discriminate].
      intros [= <-]. constructor; [|now apply IH]. exists j. split; [now apply icon_iff|reflexivity].
    + intros H. inversion H as [|a d l' m (j & J & ->) F E1 E2]. subst. apply icon_iff in J. cbn [snd] in J. rewrite J. cbn [bind].
      apply IH in F. rewrite F. reflexivity.
  - apply IH.
Qed.
Lemma icons_err p l e : forall k, icons_json p k l = Err e <->
  exists pre v post, l = pre ++ Some v :: post /\ (forall u, In (Some u) pre -> exists d, icon_doc (p_signal p) u (Ok d)) /\ icon_doc (p_signal p) v (Err e).
Proof.
  induction l as [|[v|] r IH]; intros k; cbn [icons_json].
  - split; [discriminate|]. intros ([|? ?] & v & post & E & _); discriminate.
  - destruct (signal_json p v) as [j|e'] eqn:J; cbn [bind].
    + specialize (IH (k + 1)). destruct (icons_json p (k + 1) r) as [t|e'] eqn:T; cbn [bind].
      * split; [discriminate|]. intros (pre & u & post & E & H & D). destruct pre as [|a pre]; injection E as <- E.
        { apply icon_iff in D. congruence. }
        destruct IH as [_ IH]. exfalso. assert (X : @Ok (list val) t = Err e); [|discriminate]. apply IH. exists pre, u, post. split; [auto|]. split; [|auto]. intros; apply H. now right.
      * split.
        { intros H. injection H as ->. destruct IH as [IH _]. destruct (IH eq_refl) as (pre & u & post & -> & H & D). exists (Some v :: pre), u, post.
          split; [reflexivity|]. split; [|auto]. intros u' [[= <-]|H']; [|auto]. exists j. now apply icon_iff. }
        { intros (pre & u & post & E & H & D). destruct pre as [|a pre]; injection E as <- E. { apply icon_iff in D. congruence. }
          destruct IH as [_ IH]. assert (X : @Err (list val) e' = Err e); [|congruence]. apply IH. exists pre, u, post. split; [auto|]. split; [|auto]. intros; apply H. now right. }
    + split.
      * intros H. injection H as ->. exists [], v, r. split; [reflexivity|]. split; [intros u []|]. now apply icon_iff.
      * intros (pre & u & post & E & H & D). destruct pre as [|a pre]; injection E as <- E. { apply icon_iff in D. congruence. }
        destruct (H v) as [d Hd]; [now left|]. apply icon_iff in Hd. congruence.
  - rewrite IH. split; intros (pre & u & post & E & H & D).
    + exists (None :: pre), u, post. rewrite E. split; [reflexivity|]. split; [|auto]. intros u' [H'|H']; [discriminate|auto].
    + destruct pre as [|a pre]; [discriminate|]. injection E as <- E. exists pre, u, post. split; [auto|]. split; [|auto]. intros; apply H. now right.
Qed.
Lemma mapM_first {A B} (f : A -> res B) l e : mapM f l = Err e <->
  exists pre a post, l = pre ++ a :: post /\ (forall u, In u pre -> exists v, f u = Ok v) /\ f a = Err e.
Proof.
  induction l as [|v r IH]; cbn [mapM].
  - split; [discriminate|]. intros ([|? ?] & v & post & E & _); discriminate.
  - destruct (f v) as [j|e'] eqn:J; cbn [bind].
    + transitivity (mapM f r = Err e). { destruct (mapM f r); cbn [bind]; split; congruence. }
      rewrite IH. split; intros (pre & u & post & E & H & D).
      * exists (v :: pre), u, post. rewrite E. split; [reflexivity|]. split; [|auto]. intros u' [<-|H']; eauto.
      * destruct pre as [|a pre]; injection E as <- E; [congruence|]. exists pre, u, post. split; [auto|]. split; [|auto]. intros; apply H. now right.
    + split.
      * intros H. injection H as ->. exists [], v, r. split; [reflexivity|]. split; [intros u []|]. auto.
      * intros (pre & u & post & E & H & D). destruct pre as [|a pre]; injection E as <- E; [congruence|].
        destruct (H v) as [d Hd]; [now left|]. congruence.
Qed.
Lemma mapM_all {A B} (f : A -> res B) l : (exists r, mapM f l = Ok r) <-> forall a, In a l -> exists v, f a = Ok v.
Proof.
  induction l as [|v r IH]; cbn [mapM].
  - split; [intros _ a []|]. eauto.
  - split.
    + intros [q H] a [<-|Ha].
      * destruct (f v); [eauto|discriminate].
      * destruct (f v); [|discriminate]. cbn [bind] in H. apply IH; [|auto]. destruct (mapM f r); [eauto|discriminate].
    + intros H. destruct (H v) as [y E]; [now left|]. rewrite E. destruct IH as [_ IH]. destruct IH as [q Q]; [intros; apply H; now right|].
      rewrite Q. cbn [bind]. eauto.
Qed.

(** ** C73 *)
Lemma p_C73_failure w b x e : reachable w -> blu w b = Some x -> (blueprint_doc w b = Err e <-> bad_part w x e).
Proof.
  intros R Hx. rewrite (doc_eq w b x (reach_inv w R) Hx). split.
  - destruct (mapM (entity_alone w) (b_objs x)) as [vs|e'] eqn:V; cbn [bind].
    + destruct (icons_json (w_protos w) 1 (b_icons x)) as [ic|e'] eqn:IC; cbn [bind]; [discriminate|]. intros H. injection H as ->.
      apply icons_err in IC as (pre & v & post & E & H & D). eapply bp_icon; eauto. apply mapM_all. eauto.
    + intros H. injection H as ->. apply mapM_first in V as (pre & a & post & E & H & D). eapply bp_entity; eauto.
  - intros [pre i post e' E H D|pre v post e' A E H D].
    + assert (V : mapM (entity_alone w) (b_objs x) = Err e') by (apply mapM_first; eauto 8). now rewrite V.
    + apply mapM_all in A as [vs V]. rewrite V. cbn [bind].
      assert (C : icons_json (w_protos w) 1 (b_icons x) = Err e') by (apply icons_err; eauto 8). now rewrite C.
Qed.
Lemma keys_dset (d : dict) k v q u : In (q, u) (dset k v d) -> q = k \/ exists u', In (q, u') d.
Proof.
  induction d as [|[k' v'] r IH]; cbn [dset]; [intros [[= <- <-]|[]]; now left|]. destruct (key_eqb k k') eqn:E.
  - intros [[= <- <-]|H].
    + right. exists v'. now left.
    + right. exists u. now right.
  - intros [[= <- <-]|H]; [right; exists v'; now left|]. destruct (IH H) as [->|[u' H']]; [now left|]. right. exists u'. now right.
Qed.
Lemma keys_obj_set (d : dict) (k : string) v q u : In (q, u) (obj_set d k v) -> q = KS k \/ exists u', In (q, u') d.
Proof. unfold obj_set. destruct v; try apply keys_dset. intros H. right. eauto. Qed.
Lemma sched_val_ok w l : (forall s i, In s l -> In i (fst s) -> exists e, ent w i = Some e) -> Forall2 (schedule_doc w) l (map (sched_val w) l).
Proof.
  induction l as [|s r IH]; intros H; [constructor|]. cbn [map]. constructor; [|apply IH; intros; eapply H; eauto; now right].
  eexists. split; [|reflexivity]. assert (K : forall i, In i (fst s) -> exists e, ent w i = Some e) by (intros i; apply H; now left). clear -K.
  induction (fst s) as [|i r IH]; cbn [map]; constructor.
  - destruct (K i) as [e E]; [now left|]. exists e. now rewrite E.
  - apply IH. intros j Hj. apply K. now right.
Qed.
Lemma p_C73_document w b x v : reachable w -> blu w b = Some x -> blueprint_doc w b = Ok v -> exists d, v = VDict [(KS "blueprint", VDict d)] /\ whole_doc w x d.
Proof.
  intros R Hx. pose proof (reach_inv w R) as I. rewrite (doc_eq w b x I Hx).
  destruct (mapM (entity_alone w) (b_objs x)) as [vs|e'] eqn:V; [|discriminate]. cbn [bind].
  destruct (icons_json (w_protos w) 1 (b_icons x)) as [ic|e'] eqn:IC; [|discriminate]. cbn [bind]. intros [= <-].
  exists (whole w x vs ic). split; [reflexivity|]. apply mapM_ok in V. apply icons_ok in IC.
  pose proof (sched_val_ok w (b_scheds x) (fun s i => inv_scheds _ I b x s i Hx)) as SC. unfold whole. cbv zeta.
  set (sc := map (sched_val w) (b_scheds x)) in *.
  set (o1 := obj_set [(KS "item", b_item x)] "label" (b_label x)).
  assert (I1 : dget "item" o1 = Some (b_item x) /\ dget "label" o1 = (match b_label x with VNone => None | v => Some v end) /\
     forall k, k <> KS "item" -> k <> KS "label" -> dget k o1 = None).
  { assert (NE : forall k s, k <> KS s -> key_eqb k (KS s) = false) by (intros k s NK; destruct (key_eqb k (KS s)) eqn:E; auto; apply key_eqb_eq in E; congruence).
    unfold o1, obj_set. destruct (b_label x); (split; [reflexivity|split; [reflexivity|]]); intros k A B; cbn [dset dget]; cbn; rewrite ?NE by auto; reflexivity. }
  assert (K1 : forall q u, In (q, u) o1 -> q = KS "label" \/ q = KS "item").
  { intros q u H. apply keys_obj_set in H as [->|[u' [[= <- _]|[]]]]; auto. }
  clearbody o1. destruct I1 as (A1 & A2 & A3).
  set (o2 := match b_label_color x with Some c => dset "label_color" (color_to_json c) o1 | None => o1 end).
  assert (B1 : dget "label_color" o2 = match b_label_color x with
               | Some c => Some (VDict [(KS "r", val_of_num (col_r c)); (KS "g", val_of_num (col_g c)); (KS "b", val_of_num (col_b c)); (KS "a", val_of_num (col_a c))]) | None => None end).
  { unfold o2. destruct (b_label_color x); [apply dget_dset_same|]. apply A3; discriminate. }
  assert (B2 : forall k, k <> KS "label_color" -> dget k o2 = dget k o1).
  { unfold o2. destruct (b_label_color x); auto. intros k N. now apply dget_dset_other. }
  assert (K2 : forall q u, In (q, u) o2 -> In q [KS "label"; KS "item"; KS "label_color"]).
  { unfold o2. destruct (b_label_color x).
    - intros q u H. apply keys_dset in H as [->|[u' H]]; [cbn; auto|]. destruct (K1 _ _ H) as [->| ->]; cbn; auto.
    - intros q u H. destruct (K1 _ _ H) as [->| ->]; cbn; auto. }
  clearbody o2.
  set (o3 := obj_set o2 "entities" (none_if_empty vs)).
  assert (C1 : dget "entities" o3 = listed vs).
  { unfold o3, obj_set, none_if_empty. destruct vs; [|apply dget_dset_same]. rewrite B2, A3 by discriminate. reflexivity. }
  assert (C2 : forall k, k <> KS "entities" -> dget k o3 = dget k o2).
  { unfold o3, obj_set, none_if_empty. destruct vs; auto. intros k N. now apply dget_dset_other. }
  assert (K3 : forall q u, In (q, u) o3 -> In q [KS "entities"; KS "label"; KS "item"; KS "label_color"]).
  { intros q u H. apply keys_obj_set in H as [->|[u' H]]; [now left|]. right. eauto. }
  clearbody o3.
  set (o5 := dset "version" (b_version x) (dset "icons" (VList ic) o3)).
  set (o6 := match sc with [] => o5 | _ => dset "schedules" (VList sc) o5 end).
  assert (D1 : forall k, k <> KS "version" -> k <> KS "icons" -> dget k o5 = dget k o3) by (intros k N N'; unfold o5; rewrite !dget_dset_other; auto).
  assert (D2 : dget "version" o5 = Some (b_version x)) by apply dget_dset_same.
  assert (D3 : dget "icons" o5 = Some (VList ic)) by (unfold o5; rewrite dget_dset_other by discriminate; apply dget_dset_same).
  assert (K5 : forall q u, In (q, u) o5 -> In q [KS "version"; KS "icons"; KS "entities"; KS "label"; KS "item"; KS "label_color"]).
  { intros q u H. apply keys_dset in H as [->|[u' H]]; [now left|]. apply keys_dset in H as [->|[u2 H]]; right; [now left|]. right. eauto. }
  clearbody o5.
  assert (E1 : dget "schedules" o6 = listed sc).
  { unfold o6. destruct sc; [|apply dget_dset_same]. rewrite D1, C2, B2, A3 by discriminate. reflexivity. }
  assert (E2 : forall k, k <> KS "schedules" -> dget k o6 = dget k o5) by (unfold o6; destruct sc; auto; intros; now apply dget_dset_other).
  assert (K6 : forall q u, In (q, u) o6 -> In q [KS "schedules"; KS "version"; KS "icons"; KS "entities"; KS "label"; KS "item"; KS "label_color"]).
  { unfold o6. destruct sc; intros q u H; [right; eauto|]. apply keys_dset in H as [->|[u' H]]; [now left|]. right. eauto. }
  match goal with |- whole_doc w x ?D => replace D with o6 by (unfold o6; destruct sc; reflexivity) end.
  clearbody o6. constructor; unfold says.
  - rewrite E2, D1, C2, B2 by discriminate. exact A1.
  - rewrite E2, D1, C2, B2 by discriminate. exact A2.
  - rewrite E2, D1, C2 by discriminate. exact B1.
  - exists vs. split; [exact V|]. rewrite E2, D1 by discriminate. exact C1.
  - rewrite E2, D1, C2, B2, A3 by discriminate. reflexivity.
  - exists ic. split; [exact IC|]. rewrite E2 by discriminate. exact D3.
  - rewrite E2 by discriminate. exact D2.
  - exists sc. split; [exact SC|exact E1].
  - intros k u H. apply K6 in H. cbn in H. repeat destruct H as [<-|H]; try contradiction; eexists; (split; [reflexivity|cbn; tauto]).
Qed.

(** ** Wires *)
Lemma turn_from i c : attached_to c i = true -> c_from (turn_towards i c) = Some i.
Proof.
  intros A. unfold turn_towards. rewrite A. unfold orientate. unfold attached_to in A. destruct (end_eqb (c_to c) (Some i)) eqn:T.
  - destruct (c_to c) as [t|] eqn:E; [|discriminate]. apply Nat.eqb_eq in T. subst. cbn. exact E.
  - rewrite orb_false_r in A. destruct (c_from c) as [t|]; [|discriminate]. apply Nat.eqb_eq in A. now subst.
Qed.
Lemma far_end_iff i c o : far_end i c o <-> attached_to c i = true /\ c_to (turn_towards i c) = o.
Proof.
  unfold far_end, turn_towards, attached_to, orientate. destruct c as [f t fs ts col]. cbn.
  destruct f as [f|], t as [t|]; cbn; try destruct (Nat.eqb_spec f i); try destruct (Nat.eqb_spec t i); subst; cbn; split; intros H;
    repeat match goal with
      | H : _ \/ _ |- _ => destruct H
      | H : _ /\ _ |- _ => destruct H
      end; subst; try congruence; try (split; congruence); auto.
Qed.
Lemma mine_in i cs c' : In c' (mine i cs) <-> exists c, In c cs /\ attached_to c i = true /\ c' = turn_towards i c.
Proof.
  unfold mine. rewrite in_map_iff. split.
  - intros (c & <- & H). apply filter_In in H as [H A]. eauto.
  - intros (c & H & A & ->). exists c. split; auto. now apply filter_In.
Qed.
Definition num_of (w : world) (o : option nat) : val := match o with Some j => match ent w j with Some e => e_auto e | None => VNone end | None => VNone end.
Lemma plain_kind v : plain_number v -> (auto_kind v =? 3) = false.
Proof. intros [->|[[z ->]|[s ->]]]; reflexivity. Qed.
Lemma kind_comparable u v : plain_number u -> plain_number v -> (auto_kind u = auto_kind v <-> comparable u v).
Proof.
  intros [->|[[y ->]|[s ->]]] [->|[[z ->]|[t ->]]]; cbn; split; intros H; try discriminate; try reflexivity; unfold comparable; eauto 10;
    destruct H as [[A B]|[(a & b & A & B)|(a & b & A & B)]]; discriminate.
Qed.
Lemma same_kinds_spec l : (forall v, In v l -> plain_number v) -> (same_kinds l = true <-> forall u v, In u l -> In v l -> comparable u v).
Proof.
  intros P. unfold same_kinds. destruct l as [|x r]; [split; auto; intros _ u v []|]. rewrite forallb_forall. split.
  - intros H. assert (K : forall v, In v (x :: r) -> auto_kind v = auto_kind x).
    { intros v [<-|Hv]; auto. specialize (H v Hv). apply Z.eqb_eq in H. auto. }
    intros u v Hu Hv. apply kind_comparable; auto. rewrite (K u), (K v); auto.
  - intros H v Hv. apply Z.eqb_eq. apply kind_comparable; [apply P; now left|apply P; now right|apply H; [now left|now right]].
Qed.
Lemma p_C73_wires w i en b x e : reachable w -> ent w i = Some en -> e_layer en = Some b -> blu w b = Some x ->
  plain_number (e_auto en) -> (forall n, far_number w x i n -> plain_number n) ->
  (snd (connections_to_json i w) = Err e <->
   (loose_wire x i /\ e = EAttribute) \/
   (~ loose_wire x i /\ (exists m n, far_number w x i m /\ far_number w x i n /\ ~ comparable m n) /\ e = EType)).
Proof.
  intros R He Hl Hx PO PF. pose proof (reach_inv w R) as I. rewrite (connections_to_json_eq _ _ _ _ _ He Hl Hx). cbn [snd].
  assert (FM : forall c', In c' (mine i (b_conns x)) -> c_from c' = Some i /\ exists c, In c (b_conns x) /\ far_end i c (c_to c')).
  { intros c' H. apply mine_in in H as (c & Hc & A & ->). split; [now apply turn_from|]. exists c. split; auto. now apply far_end_iff. }
  assert (FE : forall c j, In c (b_conns x) -> far_end i c (Some j) -> exists ej, ent w j = Some ej).
  { intros c j Hc F. apply (inv_conns _ I b x c j Hx Hc). destruct F as [[_ F]|[_ F]]; auto. }
  destruct (mapM (fun c => let! k := conn_key w c in Ok (k, c)) (mine i (b_conns x))) as [ks|e'] eqn:K.
  - (* no loose wire *)
    assert (NLc : forall c', In c' (mine i (b_conns x)) -> exists j ej, c_to c' = Some j /\ ent w j = Some ej).
    { intros c' H. pose proof (mapM_ok _ _ _ K) as F. destruct (FM c' H) as (_ & c & Hc & FE').
      destruct (Forall2_In_l _ _ _ _ F H) as (kc & _ & E). unfold conn_key in E. destruct (end_auto w (c_from c')); [|discriminate].
      cbn [bind] in E. unfold end_auto in E. destruct (c_to c') as [j|]; [|discriminate]. destruct (FE c j Hc FE') as [ej Ej]. eauto. }
    assert (NL : ~ loose_wire x i).
    { intros (c & Hc & F). apply far_end_iff in F as [A T]. destruct (NLc (turn_towards i c)) as (j & _ & E & _); [apply mine_in; eauto|congruence]. }
    assert (KS' : ks = map (fun c => ((e_auto en, num_of w (c_to c)), c)) (mine i (b_conns x))).
    { assert (K' : mapM (fun c => let! k := conn_key w c in Ok (k, c)) (mine i (b_conns x)) = Ok (map (fun c => ((e_auto en, num_of w (c_to c)), c)) (mine i (b_conns x)))); [|congruence].
      clear K. induction (mine i (b_conns x)) as [|c r IH]; [reflexivity|]. cbn [mapM map]. rewrite IH; [|intros; apply FM; now right|intros; apply NLc; now right].
      destruct (FM c) as [F _]; [now left|]. destruct (NLc c) as (j & ej & T & Ej); [now left|]. unfold conn_key, end_auto. rewrite F, T, He. cbn [bind num_of]. now rewrite Ej. }
    assert (NU : forall n, far_number w x i n <-> exists c', In c' (mine i (b_conns x)) /\ num_of w (c_to c') = n).
    { intros n. split.
      - intros (c & j & ej & Hc & F & Ej & ->). apply far_end_iff in F as [A T]. exists (turn_towards i c). split; [apply mine_in; eauto|]. rewrite T. cbn. now rewrite Ej.
      - intros (c' & Hc' & <-). destruct (NLc c' Hc') as (j & ej & T & Ej). destruct (FM c' Hc') as (_ & c & Hc & F). rewrite T in *. exists c, j, ej. cbn. rewrite Ej. auto. }
    assert (S : my_wires w i (b_conns x) = sorted_conns ks) by (unfold my_wires; now rewrite K).
    assert (S1 : existsb (fun kc => (auto_kind (fst (fst kc)) =? 3) || (auto_kind (snd (fst kc)) =? 3)) ks = false).
    { apply not_true_is_false. intros E. apply existsb_exists in E as (kc & H & E). subst ks. apply in_map_iff in H as (c & <- & H). cbn [fst snd] in E.
      rewrite plain_kind, plain_kind in E; auto; [discriminate|]. apply PF, NU. eauto. }
    assert (S2 : same_kinds (map (fun kc => fst (fst kc)) ks) = true).
    { apply same_kinds_spec.
      - intros v H. subst ks. rewrite map_map in H. apply in_map_iff in H as (c & <- & _). exact PO.
      - intros u v Hu Hv. subst ks. rewrite map_map in *. apply in_map_iff in Hu as (c & <- & _). apply in_map_iff in Hv as (c' & <- & _). cbn. apply kind_comparable; auto. }
    assert (S3 : same_kinds (map (fun kc => snd (fst kc)) ks) = true <-> forall m n, far_number w x i m -> far_number w x i n -> comparable m n).
    { subst ks. rewrite map_map. cbn [fst snd]. rewrite same_kinds_spec.
      - assert (NI : forall n, far_number w x i n <-> In n (map (fun c => num_of w (c_to c)) (mine i (b_conns x)))).
        { intros n. rewrite NU, in_map_iff. split; intros (c & A & B); eauto. }
        split; intros H m n Hm Hn; apply H; apply NI; assumption.
      - intros v H. apply in_map_iff in H as (c & <- & H). apply PF, NU. eauto. }
    rewrite S. unfold sorted_conns. rewrite S1, S2. cbn [andb].
    destruct (same_kinds (map (fun kc => snd (fst kc)) ks)) eqn:SK; cbn [negb bind].
    + destruct (conns_json_ok w i (map snd (isort conn_key_ltb ks))) with (obj := @nil (key * val)) as [d D].
      * intros c H. apply in_map_iff in H as (kc & <- & H). apply (Permutation_in _ (isort_perm _ _)) in H || apply (Permutation_in _ (Permutation_sym (isort_perm _ _))) in H.
        subst ks. apply in_map_iff in H as (c & <- & H). cbn [snd]. destruct (NLc c H) as (j & ej & ? & ?). eauto.
      * rewrite D. split; [discriminate|]. intros [[L _]|(_ & (m & n & Hm & Hn & C) & _)]; [contradiction|]. destruct C. apply S3; auto.
    + split.
      * intros H. assert (e = EType) by congruence. subst e. right. split; [auto|]. split; [|reflexivity].
        assert (X : exists u v, In u (map (fun kc => snd (fst kc)) ks) /\ In v (map (fun kc => snd (fst kc)) ks) /\ ~ comparable u v).
        { assert (PK : forall v, In v (map (fun kc => snd (fst kc)) ks) -> plain_number v).
          { intros v H'. subst ks. rewrite map_map in H'. apply in_map_iff in H' as (c & <- & H'). apply PF, NU. eauto. }
          clear -SK PK. unfold same_kinds in SK. destruct (map (fun kc => snd (fst kc)) ks) as [|u r]; [discriminate|].
          assert (exists v, In v r /\ (auto_kind u =? auto_kind v) = false) as (v & Hv & E).
          { clear PK. induction r as [|v r IH]; [discriminate|]. cbn [forallb] in SK. destruct (auto_kind u =? auto_kind v) eqn:E.
            - destruct (IH SK) as (v' & ? & ?). exists v'. split; [now right|auto].
            - exists v. split; [now left|auto]. }
          exists u, v. split; [now left|]. split; [now right|]. intros C. apply kind_comparable in C; [|apply PK; now left|apply PK; now right].
          apply Z.eqb_neq in E. contradiction. }
        destruct X as (u & v & Hu & Hv & C). exists u, v. subst ks. rewrite map_map in Hu, Hv. apply in_map_iff in Hu as (c & <- & Hu). apply in_map_iff in Hv as (c' & <- & Hv).
        split; [apply NU; eauto|]. split; [apply NU; eauto|exact C].
      * intros [[L _]|(_ & _ & ->)]; [contradiction|reflexivity].
  - assert (L : loose_wire x i /\ e' = EAttribute).
    { destruct (mapM_err _ _ _ K) as (c' & Hc & E). destruct (FM c' Hc) as (F & c & Hc' & FF). unfold conn_key in E. unfold end_auto at 1 in E.
      rewrite F, He in E. cbn [bind] in E. unfold end_auto in E. destruct (c_to c') as [j|].
      - destruct (FE c j Hc' FF) as [ej Ej]. rewrite Ej in E. discriminate E.
      - cbn [bind] in E. split; [exists c; auto|congruence]. }
    destruct L as [L ->]. unfold my_wires. rewrite K. cbn [bind]. split.
    + intros H. left. split; [auto|congruence].
    + intros [[_ ->]|[N _]]; [reflexivity|contradiction].
Qed.
