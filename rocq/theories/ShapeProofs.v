(** * The shape of the exported wires. *)
From Coq Require Import Lia Permutation Sorted.
From Verif Require Import Py Num NumFacts Util SpecUtil UtilFacts Classes Mixins Entity World WorldFacts
  Inv SortFacts SpecWorld SpecTrip SpecBlueprint DictFacts LayerProofs PersistProofs WireProofs ExportProofs.
Open Scope Z_scope.

Lemma dset_keys {V} k (v : V) d : forall x, In x (map fst (dset k v d)) -> x = k \/ In x (map fst d).
Proof.
  induction d as [|[k' v'] d IH]; cbn; intros x; [intros [<-|[]]; auto|].
  destruct (key_eqb k k') eqn:E; cbn; [tauto|]. intros [<-|I]; auto. apply IH in I. tauto.
Qed.
Lemma dset_nodup {V} k (v : V) d : NoDup (map fst d) -> NoDup (map fst (dset k v d)).
Proof.
  induction d as [|[k' v'] d IH]; cbn; intros N; [repeat constructor; auto|].
  inversion N; subst. destruct (key_eqb k k') eqn:E; cbn; constructor; auto. intros I. apply dset_keys in I as [->|I]; auto.
  rewrite key_eqb_refl in E. discriminate.
Qed.
Lemma in_dget_nd {V} (k : key) (v : V) d : NoDup (map fst d) -> In (k, v) d -> dget k d = Some v.
Proof.
  induction d as [|[k' v'] d IH]; cbn; intros N [].
  - injection H as <- <-. now rewrite key_eqb_refl.
  - inversion N; subst. destruct (key_eqb k k') eqn:E; auto. apply key_eqb_eq in E as ->. exfalso. apply H2. now apply (in_map fst) in H.
Qed.
Lemma dget_in {V} (k : key) (v : V) d : dget k d = Some v -> In (k, v) d.
Proof.
  induction d as [|[k' v'] d IH]; cbn; [discriminate|]. destruct (key_eqb k k') eqn:E; auto. apply key_eqb_eq in E as ->. intros [= ->]. auto.
Qed.

(** [P] says which slots may hold an empty list *)
Definition tidy_cols (P : string -> Prop) (cols : dict) : Prop :=
  NoDup (map fst cols) /\ cols <> [] /\ forall c u, dget c cols = Some u -> exists col l, c = KS col /\ u = VList l /\ (l = [] -> P col).
Definition tidyx (P : Z -> string -> Prop) (raw : dict) : Prop :=
  NoDup (map fst raw) /\ forall k v, dget k raw = Some v -> exists s cols, k = KI s /\ v = VDict cols /\ tidy_cols (P s) cols.
Lemma tidyx_tidy raw : tidyx (fun _ _ => False) raw -> tidy raw.
Proof.
  intros (N & H). split; auto. intros k v I. destruct (H k v (in_dget_nd _ _ _ N I)) as (s & cols & -> & -> & NC & NE & HC).
  exists s, cols. repeat split; auto. intros c u J. destruct (HC c u (in_dget_nd _ _ _ NC J)) as (col & l & -> & -> & F). exists col, l. repeat split; auto.
Qed.
Lemma dset_ne {V} k (v : V) d : dset k v d <> [].
Proof. destruct d as [|[k' v'] d]; cbn; [discriminate|]. destruct (key_eqb k k'); discriminate. Qed.
Lemma tidyx_imp (P Q : Z -> string -> Prop) raw : (forall s c, P s c -> Q s c) -> tidyx P raw -> tidyx Q raw.
Proof.
  intros I (N & H). split; auto. intros k v E. destruct (H k v E) as (s & cols & -> & -> & NC & NE & HC). exists s, cols. repeat split; auto.
  intros c u J. destruct (HC c u J) as (col & l & -> & -> & F). exists col, l. auto.
Qed.
(** setting one slot *)
Lemma tidyx_set (P Q : Z -> string -> Prop) side col l obj : (forall s c, P s c -> Q s c \/ (s = side /\ c = col)) -> (l = [] -> Q side col) ->
  tidyx P obj -> tidyx Q (dset (KI side) (VDict (dset (KS col) (VList l) (slot obj side))) obj).
Proof.
  intros PQ L (N & H). split; [now apply dset_nodup|]. intros k v E. rewrite dget_dset in E. destruct (key_eqb k (KI side)) eqn:EK.
  - apply key_eqb_eq in EK as ->. injection E as <-. eexists _, _. split; [reflexivity|]. split; [reflexivity|].
    assert (SL : (slot obj side = [] \/ tidy_cols (P side) (slot obj side))).
    { unfold slot. destruct (dget (KI side) obj) as [u|] eqn:ES; auto. destruct (H _ _ ES) as (s & cols & [= <-] & -> & T). auto. }
    split; [|split].
    + apply dset_nodup. destruct SL as [->|(NC & _)]; [constructor|auto].
    + apply dset_ne.
    + intros c u E. rewrite dget_dset in E. destruct (key_eqb c (KS col)) eqn:EC.
      * apply key_eqb_eq in EC as ->. injection E as <-. eauto.
      * destruct SL as [SL|(_ & _ & HC)]; [rewrite SL in E; discriminate|]. destruct (HC c u E) as (col' & l' & -> & -> & F).
        exists col', l'. split; auto. split; auto. intros EL. destruct (PQ side col' (F EL)) as [|[_ ->]]; auto. now rewrite key_eqb_refl in EC.
  - destruct (H k v E) as (s & cols & -> & -> & NC & NE & HC). exists s, cols. split; auto. split; auto. split; auto. split; auto.
    intros c u J. destruct (HC c u J) as (col' & l' & -> & -> & F). exists col', l'. split; auto. split; auto. intros EL.
    destruct (PQ s col' (F EL)) as [|[-> _]]; auto. now rewrite key_eqb_refl in EK.
Qed.
Lemma slot_dset_new side obj : dmem (KI side) obj = false -> slot (dset (KI side) (VDict []) obj) side = slot obj side.
Proof. intros D. unfold slot. rewrite dget_dset_same. unfold dmem in D. destruct (dget (KI side) obj); [discriminate|auto]. Qed.
Lemma dset_dset_same {V} k (v u : V) d : dset k v (dset k u d) = dset k v d.
Proof.
  induction d as [|[k' v'] d IH]; cbn; [now rewrite key_eqb_refl|]. destruct (key_eqb k k') eqn:E; cbn; rewrite E; auto. now rewrite IH.
Qed.
Lemma tidyx_ensure P side col obj : tidyx P obj -> tidyx (fun s c => P s c \/ (s = side /\ c = col)) (ensure_slot side col obj).
Proof.
  intros T. unfold ensure_slot. destruct (dmem (KI side) obj) eqn:D.
  - destruct (dmem (KS col) (slot obj side)) eqn:DC; [eapply tidyx_imp; [|exact T]; auto|].
    apply (tidyx_set P); auto.
  - rewrite slot_dset_new by auto. assert (SN : slot obj side = []) by (unfold slot; unfold dmem in D; destruct (dget (KI side) obj); [discriminate|auto]).
    rewrite SN. cbn [dmem dget]. rewrite dset_dset_same. pose proof (tidyx_set P (fun s c => P s c \/ (s = side /\ c = col)) side col [] obj) as X.
    rewrite SN in X. apply X; auto.
Qed.
Lemma tidyx_append (P Q : Z -> string -> Prop) side col v obj : (forall s c, P s c -> Q s c \/ (s = side /\ c = col)) -> tidyx P obj -> tidyx Q (append_slot side col v obj).
Proof. intros PQ T. unfold append_slot. apply (tidyx_set P); auto. intros E. now apply app_eq_nil in E as []. Qed.
Lemma conn_json1_tidy w e obj c obj' : conn_json1 w e obj c = Ok obj' -> tidyx (fun _ _ => False) obj -> tidyx (fun _ _ => False) obj'.
Proof.
  unfold conn_json1. destruct (c_to c) as [t|]; [|discriminate]. destruct (ent w t) as [te|]; [|discriminate]. intros [= <-] T.
  eapply (tidyx_append (fun s c0 => s = c_fs c /\ c0 = c_color c)); [cbn; tauto|]. destruct (Nat.eqb t e).
  - eapply (tidyx_append (fun s c0 => (s = c_fs c /\ c0 = c_color c) \/ (s = c_ts c /\ c0 = c_color c))); [cbn; tauto|].
    eapply tidyx_imp; [|apply tidyx_ensure; apply tidyx_ensure; exact T]. cbn. intros s c0 [[[]|A]|A]; auto.
  - eapply tidyx_imp; [|apply tidyx_ensure; exact T]. cbn. tauto.
Qed.
Lemma conns_json_tidy w e l : forall obj obj', conns_json w e l obj = Ok obj' -> tidyx (fun _ _ => False) obj -> tidyx (fun _ _ => False) obj'.
Proof.
  induction l as [|c r IH]; cbn [conns_json]; intros obj obj' H T; [injection H as <-; auto|].
  destruct (conn_json1 w e obj c) as [o1|] eqn:E; [|discriminate]. cbn in H. eapply IH; eauto. eapply conn_json1_tidy; eauto.
Qed.
Lemma connections_tidy e w w' cs : connections_to_json e w = (w', Ok cs) -> tidy cs.
Proof.
  intros H. unfold connections_to_json in H. apply mbind_ok in H as (l & w1 & _ & H). unfold gets in H. injection H as _ H.
  apply tidyx_tidy. eapply conns_json_tidy; [exact H|]. split; [constructor|]. discriminate.
Qed.
Lemma p_C16_shape w e w' v : ent_json e w = (w', Ok v) -> exists d, v = VDict d /\ tidy_wires d.
Proof.
  intros H. destruct (ent_json_ok _ _ _ _ H) as (en & q & cs & d & _ & _ & -> & Hc & _ & _ & _ & D). exists d. split; auto.
  intros u E. rewrite D in E. destruct cs as [|c cs]; [discriminate|]. injection E as <-. eexists. split; [reflexivity|].
  split; [discriminate|]. exact (connections_tidy _ _ _ _ Hc).
Qed.
