(** * Proofs for C76. *)
From Coq Require Import Lia Permutation.
From Verif Require Import Py Num NumFacts Util SpecUtil Classes Mixins Entity Setters World SpecWorld SpecDoc SpecEntity SpecAttr SpecValues SpecSetting SpecBehaviour SpecMake SpecWrite SpecExport SpecShow SpecParts SpecBuild SpecOrder.
From Verif Require Import DictFacts WorldFacts SortFacts Inv LayerProofs WireProofs ExportProofs PartsProofs BuildProofs.
From Verif Require RenameProofs LoadProofs.
Open Scope string_scope. Open Scope Z_scope. Open Scope list_scope.
Import RenameProofs.

(** ** What a description decides *)
Section Descr.
Variables (pt : protos) (cust : customs) (b : nat).
Definition clear_pos (v : vec) : Prop := nanb (vx v) || nanb (vy v) = false.
Definition good_kw (kw : dict) : Prop := exists e v, snd (construct pt cust (Some b) kw) = Ok e /\ e_pos e = Some v /\ clear_pos v.
Definition says_of (kw : dict) : vec * res val :=
  match snd (construct pt cust (Some b) kw) with
  | Ok e => (match e_pos e with Some v => v | None => mkVec (NI 0) (NI 0) end, renum (VInt 0) (bare pt e))
  | Err x => (mkVec (NI 0) (NI 0), Err x)
  end.
End Descr.
Definition norm (a : vec * res val) : vec * res val := (fst a, renum (VInt 0) (snd a)).

Lemma key_ok w l : (forall i, In i l -> exists e v, ent w i = Some e /\ e_pos e = Some v /\ clear_pos v) -> exists r, sorted_objs w l = Ok r.
Proof.
  intros H. unfold sorted_objs. match goal with |- context [mapM ?f _] => destruct (proj2 (mapM_all f l)) as (ks & ->) end; [|cbn [bind]; eauto].
  intros i Hi. destruct (H i Hi) as (e & v & -> & P & N). unfold pos_key. rewrite P, N. cbn [bind]. eauto.
Qed.
Lemma key_need w l r i : sorted_objs w l = Ok r -> In i l -> exists e v, ent w i = Some e /\ e_pos e = Some v /\ clear_pos v.
Proof.
  unfold sorted_objs. destruct (mapM _ l) as [ks|] eqn:M; [|discriminate]. intros _ Hi.
  destruct (proj1 (mapM_all _ _) (ex_intro _ _ M) i Hi) as [k K]. cbn beta in K. destruct (ent w i) as [e|]; [|discriminate K].
  unfold pos_key in K. destruct (e_pos e) as [v|] eqn:P; [|discriminate K]. destruct (nanb (vx v) || nanb (vy v)) eqn:N; [discriminate K|]. eauto.
Qed.
Definition clear_objs (w : world) (l : list nat) : Prop := forall i, In i l -> exists e v, ent w i = Some e /\ e_pos e = Some v /\ clear_pos v.
Lemma clear_same w w' l : same_pos w w' -> clear_objs w l -> clear_objs w' l.
Proof.
  intros S H i Hi. destruct (H i Hi) as (e & v & He & P & N). specialize (S i). rewrite He in S. destruct (ent w' i) as [e'|]; [|discriminate S].
  injection S as S. exists e', v. split; [reflexivity|]. split; [congruence|exact N].
Qed.
(** the new entity comes from its description *)
Lemma make_what w b x kw : reachable w -> blu w b = Some x -> snd (step (OMake b kw) w) = Ok tt ->
  exists e n, snd (construct (w_protos w) (b_custom x) (Some b) kw) = Ok e /\ ent (fst (step (OMake b kw) w)) (length (w_ents w)) = Some (with_auto n e) /\
    good_kw (w_protos w) (b_custom x) b kw.
Proof.
  intros R Hx OK. cbn [step] in *. destruct (layer_make b kw w) as [w1 [i|err]] eqn:M; [|discriminate OK]. cbn [drop_res fst snd]. clear OK.
  apply reach_inv in R as I. unfold layer_make in M.
  apply mbind_ok in M as (j & w0 & H1 & H2). apply mbind_ok in H2 as ([] & w2 & H2 & H3). injection H3 as <- <-.
  apply new_entity_ok in H1 as (-> & e & -> & HL & cust & CO & x0 & Hx0 & ->). rewrite Hx in Hx0. injection Hx0 as <-.
  assert (He : ent (new_ent e w) (length (w_ents w)) = Some e) by (rewrite ent_new, Nat.eqb_refl; reflexivity).
  assert (Hb : blu (new_ent e w) b = Some x) by exact Hx.
  assert (FR : ~ In (length (w_ents w)) (b_objs x)) by (apply fresh_not_listed with (b := b); auto).
  pose proof (add_ok _ _ _ _ _ _ He Hb FR H2) as HS.
  apply sort_layer_ok in HS as (x3 & l & Hx3 & SO & ->). set (wl := upd_ent _ _ _) in *.
  assert (Hl : ent wl (length (w_ents w)) = Some e).
  { unfold wl. rewrite ent_upd, Nat.eqb_refl, ent_upd_bp, He. cbn [option_map]. f_equal. destruct e. cbn in HL. now subst. }
  unfold wl in Hx3. rewrite blu_upd_ent, blu_upd, Nat.eqb_refl, Hb in Hx3. cbn [option_map] in Hx3. injection Hx3 as <-. cbn [b_objs b_set_objs] in SO.
  destruct (key_need _ _ _ (length (w_ents w)) SO) as (e' & v & He' & P & N); [apply in_or_app; right; now left|]. rewrite Hl in He'. injection He' as <-.
  pose proof (reindex_ent 1 l (upd_bp b (b_set_objs l) wl) (length (w_ents w))) as RI. rewrite ent_upd_bp, Hl in RI.
  destruct (ent (reindex 1 l _) (length (w_ents w))) as [u|] eqn:U; [|discriminate RI]. injection RI as RI.
  exists e, (e_auto u). split; [exact CO|]. split; [f_equal; destruct u, e; unfold with_auto in RI |- *; cbn in *; congruence|]. exists e, v. auto.
Qed.
Lemma make_can w b x kw : reachable w -> blu w b = Some x -> clear_objs w (b_objs x) -> good_kw (w_protos w) (b_custom x) b kw ->
  snd (step (OMake b kw) w) = Ok tt.
Proof.
  intros R Hx CL (e & v & CO & P & N). apply reach_inv in R as I. cbn [step]. rewrite (layer_make_eq b kw w x e I Hx CO).
  assert (HL : e_layer e = Some b) by (eapply construct_layer; eauto).
  unfold sort_layer, mbind, get_bp, gets, modify. rewrite (listed_new_blu _ _ _ _ Hx). cbn [b_objs b_set_objs].
  destruct (key_ok (listed_new b x e w) (b_objs x ++ [length (w_ents w)])) as [r ->]; [|reflexivity].
  intros i Hi. assert (EI : ent (listed_new b x e w) i = if Nat.eqb i (length (w_ents w)) then Some e else ent w i).
  { unfold listed_new. rewrite ent_upd, ent_upd_bp, ent_new, (Nat.eqb_sym i). destruct (Nat.eqb_spec (length (w_ents w)) i); [|reflexivity]. cbn [option_map]. f_equal. destruct e. cbn in HL. now subst. }
  rewrite EI. destruct (Nat.eqb_spec i (length (w_ents w))) as [->|NI]; [eauto|]. apply in_app_or in Hi as [Hi|[Hi|[]]]; [now apply CL|congruence].
Qed.
Lemma make_clear w b x kw : reachable w -> blu w b = Some x -> clear_objs w (b_objs x) -> snd (step (OMake b kw) w) = Ok tt ->
  exists x1, blu (fst (step (OMake b kw) w)) b = Some x1 /\ b_custom x1 = b_custom x /\ b_conns x1 = b_conns x /\ b_scheds x1 = b_scheds x /\ b_objs x1 <> [] /\
    w_protos (fst (step (OMake b kw) w)) = w_protos w /\ clear_objs (fst (step (OMake b kw) w)) (b_objs x1).
Proof.
  intros R Hx CL OK. destruct (make_step w b x kw R Hx OK) as (P & L & OLD & _ & o & B & (PM & _) & _).
  destruct (make_what w b x kw R Hx OK) as (e & n & CO & He & e' & v & CO' & P' & N'). rewrite CO in CO'. injection CO' as <-.
  exists (b_set_objs o x). split; [exact B|]. do 3 (split; [reflexivity|]). split; [|split; [exact P|]].
  - cbn [b_objs b_set_objs]. intros ->. apply Permutation_sym, Permutation_nil in PM. destruct (b_objs x); discriminate PM.
  - cbn [b_objs b_set_objs]. intros i Hi. apply (Permutation_in i (Permutation_sym PM)) in Hi. apply in_app_or in Hi as [Hi|[<-|[]]].
    + destruct (CL i Hi) as (ei & vi & Hei & Pi & Ni). destruct (OLD i ei Hei) as [m Hm]. exists (with_auto m ei), vi. auto.
    + exists (with_auto n e), v. auto.
Qed.

(** ** Sequences *)
Lemma builds_says b pt cust w kws l w' : builds b w kws l w' -> forall x, reachable w -> blu w b = Some x -> b_conns x = [] -> w_protos w = pt -> b_custom x = cust -> clear_objs w (b_objs x) ->
  map norm l = map (says_of pt cust b) kws /\ Forall (good_kw pt cust b) kws.
Proof.
  intros H. induction H as [w|w kw v kws l w' OK HP HB IH]; intros x R Hx C EP EC CL; [split; [reflexivity|constructor]|].
  destruct (make_what w b x kw R Hx OK) as (e & n & CO & He & G). destruct (make_clear w b x kw R Hx CL OK) as (x1 & Hx1 & E1 & E2 & _ & _ & E3 & CL1).
  destruct (IH x1 (reach_step w (OMake b kw) R I) Hx1 ltac:(congruence) ltac:(congruence) ltac:(congruence) CL1) as [M F]. rewrite EP, EC in *.
  split; [|constructor; assumption]. cbn [map]. rewrite M. f_equal. unfold norm, says_of. cbn [fst snd]. rewrite CO. destruct HP as (e1 & He1 & P1). rewrite He in He1. injection He1 as <-.
  change (e_pos (with_auto n e)) with (e_pos e) in P1. rewrite P1. f_equal. unfold export_of.
  assert (HL : e_layer e = Some b) by (eapply construct_layer; exact CO).
  pose proof (alone_bare _ _ _ b x1 He HL Hx1 ltac:(congruence)) as AB. unfold entity_alone in AB. rewrite AB, E3, bare_number. apply renum_renum.
Qed.
Lemma builds_can b pt cust kws : forall w x, reachable w -> blu w b = Some x -> w_protos w = pt -> b_custom x = cust -> clear_objs w (b_objs x) -> Forall (good_kw pt cust b) kws ->
  exists l w', builds b w kws l w'.
Proof.
  induction kws as [|kw kws IH]; intros w x R Hx EP EC CL F; [do 2 eexists; constructor|]. inversion F as [|? ? G F']; subst.
  pose proof (make_can w b x kw R Hx CL G) as OK. destruct (make_clear w b x kw R Hx CL OK) as (x1 & Hx1 & E1 & _ & _ & _ & E3 & CL1).
  destruct (IH _ x1 (reach_step w (OMake b kw) R I) Hx1 ltac:(congruence) ltac:(congruence) CL1 F') as (l & w' & B).
  destruct (p_C74_position w b kw R (ex_intro _ _ Hx) OK) as [v HV]. do 2 eexists. eapply bu_next; eauto.
Qed.

(** ** Sorted lists *)
Lemma apart_perm l p : Permutation l p -> apart l -> apart p.
Proof.
  intros P A k m a c N Ha Hc. apply Permutation_nth_error in P as (LE & f & INJ & Hf).
  apply (A (f k) (f m) a c); [intros E; apply INJ in E; congruence|now rewrite <- Hf|now rewrite <- Hf].
Qed.
Lemma sorted_same p : forall q, Permutation p q -> apart p ->
  (forall k m a c, (k < m)%nat -> nth_error p k = Some a -> nth_error p m = Some c -> pos_le (fst a) (fst c)) ->
  (forall k m a c, (k < m)%nat -> nth_error q k = Some a -> nth_error q m = Some c -> pos_le (fst a) (fst c)) -> p = q.
Proof.
  induction p as [|a r IH]; intros q P A S T; [now apply Permutation_nil in P|]. destruct q as [|a' r']; [apply Permutation_sym, Permutation_nil in P; discriminate P|].
  pose proof (Permutation_in a' (Permutation_sym P) (or_introl eq_refl)) as I1. pose proof (Permutation_in a P (or_introl eq_refl)) as I2.
  assert (E : a = a').
  { destruct I1 as [I1|I1]; [exact I1|]. destruct I2 as [I2|I2]; [now symmetry|]. exfalso. apply In_nth_error in I1 as [m Hm]. apply In_nth_error in I2 as [n Hn].
    apply (A 0%nat (Datatypes.S m) a a'); [discriminate|reflexivity|exact Hm|]. apply LoadProofs.pos_le_antisym; [apply (S 0%nat (Datatypes.S m)); [lia|reflexivity|exact Hm]|apply (T 0%nat (Datatypes.S n)); [lia|reflexivity|exact Hn]]. }
  subst a'. f_equal. apply IH.
  - now apply Permutation_cons_inv in P.
  - intros k m c d N Hc Hd. apply (A (Datatypes.S k) (Datatypes.S m) c d); auto.
  - intros k m c d L Hc Hd. apply (S (Datatypes.S k) (Datatypes.S m) c d); auto. lia.
  - intros k m c d L Hc Hd. apply (T (Datatypes.S k) (Datatypes.S m) c d); auto. lia.
Qed.
Lemma apart_norm l : apart l -> apart (map norm l).
Proof. intros A k m a c N Ha Hc. rewrite nth_error_map in Ha, Hc. destruct (nth_error l k) as [a0|] eqn:E1; [|discriminate Ha]. destruct (nth_error l m) as [c0|] eqn:E2; [|discriminate Hc]. injection Ha as <-. injection Hc as <-. exact (A k m a0 c0 N E1 E2). Qed.
Lemma order_norm p : (forall k m a c, (k < m)%nat -> nth_error p k = Some a -> nth_error p m = Some c -> pos_le (fst a) (fst c)) ->
  forall k m a c, (k < m)%nat -> nth_error (map norm p) k = Some a -> nth_error (map norm p) m = Some c -> pos_le (fst a) (fst c).
Proof. intros S k m a c L Ha Hc. rewrite nth_error_map in Ha, Hc. destruct (nth_error p k) as [a0|] eqn:E1; [|discriminate Ha]. destruct (nth_error p m) as [c0|] eqn:E2; [|discriminate Hc]. injection Ha as <-. injection Hc as <-. exact (S k m a0 c0 L E1 E2). Qed.

(** ** The document in terms of the sorted list *)
Definition numberall (n : Z) (p : list (vec * res val)) : res (list val) :=
  (fix go (n : Z) (p : list (vec * res val)) : res (list val) := match p with [] => Ok [] | a :: r => let! d := renum (VInt n) (snd a) in let! t := go (n + 1) r in Ok (d :: t) end) n p.
Lemma numberall_norm p : forall n, numberall n (map norm p) = numberall n p.
Proof. induction p as [|a p IH]; intros n; [reflexivity|]. unfold numberall in *. cbn [map]. rewrite IH. unfold norm. cbn [snd]. now rewrite renum_renum. Qed.
Lemma numbered_numberall p : forall n out, numbered_docs n p out -> numberall n p = Ok out.
Proof. intros n out H. induction H as [|n v d p out H IH]; [reflexivity|]. unfold numberall in *. cbn [snd renum bind]. now rewrite IH. Qed.
Lemma bad_numberall p : forall n e, first_bad p e -> numberall n p = Err e.
Proof.
  intros n e (pre & v & post & -> & H). revert n. induction pre as [|a pre IH]; intros n; [reflexivity|]. unfold numberall in *. cbn [app].
  rewrite IH by (intros u Hu; apply H; now right). destruct (H a (or_introl eq_refl)) as [d ->]. destruct d; reflexivity.
Qed.
Lemma built_doc b n0 pt x l w o : b_conns x = [] -> built b n0 pt x l w o -> exists p, arranged l p /\ mapM (entity_alone w) o = numberall 1 p.
Proof.
  intros C T. pose proof (p_arranged _ _ _ _ _ _ _ C T) as AR. pose proof (p_docs _ _ _ _ _ _ _ C T o 1) as DO. cbv zeta in AR, DO. set (p := map _ o) in *.
  exists p. split; [exact AR|]. destruct DO as [(out & N & M)|(e & FB & M)].
  { intros k i Hk. split; [now apply nth_error_In in Hk|]. exact (bt_nums _ _ _ _ _ _ _ T k i Hk). }
  - rewrite M. symmetry. now apply numbered_numberall.
  - rewrite M. symmetry. now apply bad_numberall.
Qed.

Lemma p_C76_order w b x kws kws' l l' w1 w2 : reachable w -> blu w b = Some x -> b_objs x = [] -> b_conns x = [] -> b_scheds x = [] ->
  builds b w kws l w1 -> builds b w kws' l' w2 -> Permutation kws kws' -> apart l -> blueprint_doc w1 b = blueprint_doc w2 b.
Proof.
  intros R Hx E C S H1 H2 P A.
  assert (CL : clear_objs w (b_objs x)) by (rewrite E; intros i []).
  destruct (builds_says b _ _ _ _ _ _ H1 x R Hx C eq_refl eq_refl CL) as [M1 _]. destruct (builds_says b _ _ _ _ _ _ H2 x R Hx C eq_refl eq_refl CL) as [M2 _].
  destruct (built_all _ _ _ _ C _ _ _ _ H1 _ _ (start_built _ _ _ R Hx E)) as [o1 T1]. destruct (built_all _ _ _ _ C _ _ _ _ H2 _ _ (start_built _ _ _ R Hx E)) as [o2 T2]. cbn [app] in T1, T2.
  destruct (built_doc _ _ _ _ _ _ _ C T1) as (p1 & A1 & D1). destruct (built_doc _ _ _ _ _ _ _ C T2) as (p2 & A2 & D2).
  assert (Q : map norm p1 = map norm p2).
  { apply sorted_same.
    - transitivity (map norm l); [apply Permutation_map, Permutation_sym, (ar_all _ _ A1)|]. rewrite M1. transitivity (map norm l'); [|apply Permutation_map, (ar_all _ _ A2)]. rewrite M2. now apply Permutation_map.
    - apply apart_norm. apply (apart_perm l); [apply (ar_all _ _ A1)|exact A].
    - apply order_norm, (ar_order _ _ A1).
    - apply order_norm, (ar_order _ _ A2). }
  rewrite (doc_eq _ _ _ (reach_inv _ (bt_reach _ _ _ _ _ _ _ T1)) (bt_bp _ _ _ _ _ _ _ T1)), (doc_eq _ _ _ (reach_inv _ (bt_reach _ _ _ _ _ _ _ T2)) (bt_bp _ _ _ _ _ _ _ T2)).
  cbn [b_objs b_set_objs b_icons]. rewrite D1, D2, <- (numberall_norm p1), <- (numberall_norm p2), Q, (bt_protos _ _ _ _ _ _ _ T1), (bt_protos _ _ _ _ _ _ _ T2).
  destruct (numberall 1 (map norm p2)) as [vs|]; [|reflexivity]. cbn [bind]. destruct (icons_json (w_protos w) 1 (b_icons x)) as [ic|]; [|reflexivity]. cbn [bind]. do 4 f_equal.
  unfold whole. cbn [b_set_objs b_item b_label b_label_color b_version b_scheds]. rewrite S. reflexivity.
Qed.
Lemma p_C76_possible w b x kws kws' l w1 : reachable w -> blu w b = Some x -> b_objs x = [] -> b_conns x = [] ->
  builds b w kws l w1 -> Permutation kws kws' -> exists l' w2, builds b w kws' l' w2.
Proof.
  intros R Hx E C H1 P. assert (CL : clear_objs w (b_objs x)) by (rewrite E; intros i []).
  destruct (builds_says b _ _ _ _ _ _ H1 x R Hx C eq_refl eq_refl CL) as [_ F]. apply (builds_can b _ _ kws' w x R Hx eq_refl eq_refl CL).
  rewrite Forall_forall in *. intros kw Hk. apply F. now apply (Permutation_in kw (Permutation_sym P)).
Qed.
