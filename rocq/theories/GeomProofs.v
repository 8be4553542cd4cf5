(** * Bounding box, centre, recentring. *)
From Coq Require Import Lia Lqa Permutation QArith Qround SpecFloat.
From Verif Require Import Py Num NumFacts Util UtilFacts UtilProofs SpecUtil Classes Mixins Entity World WorldFacts Inv
  SpecWorld LayerProofs SpecRotate RotateProofs TurnProofs SpecGeom.
Open Scope Z_scope.

(** ** int() *)
Lemma nint_cut n q : nfin n q -> exists z, nint n = Ok z /\ cut q z.
Proof.
  intros H.
  assert (Z0 : forall z, (inject_Z z == q)%Q -> cut q z).
  { intros z E. assert (A : (inject_Z (z + 1) == q + 1)%Q) by (rewrite inject_Z_plus, E; reflexivity).
    assert (B : (inject_Z (z - 1) == q - 1)%Q) by (unfold Zminus; rewrite inject_Z_plus, E; reflexivity).
    split; intros _; rewrite ?A, ?B, E; split; lra. }
  destruct n as [z|[s|s| |s m e]]; unfold nint; simpl; unfold nfin, xfin in H; simpl in H; try tauto.
  - exists z. split; auto.
  - exists 0. split; auto.
  - destruct s; tauto.
  - eexists. split; [reflexivity|]. unfold ztrunc. set (M := cond_Zopp s (Z.pos m)) in *.
    pose proof (zfloor_spec M e) as F. pose proof (zceil_spec M e) as C.
    assert (S : (0 <= M -> (0 <= q)%Q) /\ (M <= 0 -> (q <= 0)%Q)).
    { rewrite <- H. unfold dyadic. destruct e as [|e|e]; unfold Qle; cbn [Qnum Qden]; split; intros; try nia;
        pose proof (Z.pow_pos_nonneg 2 (Z.pos e) ltac:(lia) ltac:(lia)); nia. }
    destruct (M <? 0) eqn:L.
    + apply Z.ltb_lt in L. rewrite H in C. destruct C as [C1 C2]. split; [|auto]. intros Q0.
      assert (Q1 : (q == 0)%Q) by (apply Qle_antisym; [apply S; lia|auto]). exfalso.
      revert H Q1. clear - L. intros H Q1. rewrite <- H in Q1. unfold dyadic in Q1. destruct e as [|e|e]; unfold Qeq in Q1; cbn [Qnum Qden] in Q1; try nia.
    + apply Z.ltb_ge in L. rewrite H in F. destruct F as [F1 F2]. split; [auto|]. intros Q0.
      assert (Q1 : (q == 0)%Q) by (apply Qle_antisym; [auto|apply S; lia]).
      assert (zfloor M e = 0) as ->; [|rewrite Q1; split; unfold Qle, Qlt; simpl; lia].
      rewrite Q1 in F1, F2. unfold Qle, Qlt in F1, F2; simpl in F1, F2. lia.
Qed.
Lemma inj_lt a b : (inject_Z a < inject_Z b)%Q <-> a < b.
Proof. unfold Qlt; simpl. lia. Qed.
Lemma cut_bounds q z : cut q z -> (inject_Z (z - 1) < q)%Q /\ (q < inject_Z (z + 1))%Q.
Proof.
  intros [A B]. assert (X : (inject_Z (z + 1) == inject_Z z + 1)%Q) by (rewrite inject_Z_plus; reflexivity).
  assert (Y : (inject_Z (z - 1) == inject_Z z - 1)%Q) by (unfold Zminus; rewrite inject_Z_plus; reflexivity).
  rewrite X in *. rewrite Y in *. destruct (Qlt_le_dec q 0) as [N|P].
  - destruct (B (Qlt_le_weak _ _ N)). split; lra.
  - destruct (A P). split; lra.
Qed.
(** comparing before cutting is comparing cut values *)
Lemma cut_mono q q' z z' : cut q z -> cut q' z' -> (q <= q')%Q -> z <= z'.
Proof.
  intros C C' L. destruct (Qlt_le_dec q 0) as [N|P].
  - destruct (proj2 C (Qlt_le_weak _ _ N)) as [_ _]. destruct (Qlt_le_dec q' 0) as [N'|P'].
    + destruct (proj2 C (Qlt_le_weak _ _ N)) as [A _]. destruct (proj2 C' (Qlt_le_weak _ _ N')) as [_ B].
      assert (inject_Z (z - 1) < inject_Z z')%Q as T by (eapply Qlt_le_trans; [exact A|]; eapply Qle_trans; eauto). apply (proj1 (inj_lt _ _)) in T. lia.
    + destruct (proj2 C (Qlt_le_weak _ _ N)) as [A _]. destruct (proj1 C' P') as [_ B].
      assert (inject_Z (z - 1) < 0)%Q as T1 by (eapply Qlt_trans; eauto).
      assert (0 < inject_Z (z' + 1))%Q as T2 by (eapply Qle_lt_trans; eauto).
      change 0%Q with (inject_Z 0) in *. apply (proj1 (inj_lt _ _)) in T1. apply (proj1 (inj_lt _ _)) in T2. lia.
  - destruct (proj1 C P) as [A _]. destruct (proj1 C' (Qle_trans _ _ _ P L)) as [_ B].
    assert (inject_Z z < inject_Z (z' + 1))%Q as T by (eapply Qle_lt_trans; [exact A|]; eapply Qle_lt_trans; eauto). apply (proj1 (inj_lt _ _)) in T. lia.
Qed.
Lemma cut_eq q q' z z' : cut q z -> cut q' z' -> (q == q')%Q -> z = z'.
Proof. intros C C' E. apply Z.le_antisymm; eapply cut_mono; eauto; rewrite E; apply Qle_refl. Qed.
Lemma cut_int z : cut (inject_Z z) z.
Proof.
  assert (X : (inject_Z (z + 1) == inject_Z z + 1)%Q) by (rewrite inject_Z_plus; reflexivity).
  assert (Y : (inject_Z (z - 1) == inject_Z z - 1)%Q) by (unfold Zminus; rewrite inject_Z_plus; reflexivity).
  split; intros _; rewrite ?X, ?Y; split; lra.
Qed.
Definition top_of (l : list Q) (m : num) : Prop :=
  match l with
  | [] => m = ninf
  | _ => exists z, m = NI z /\ (exists q, In q l /\ cut q z) /\ (forall q z', In q l -> cut q z' -> z' <= z)
  end.
Definition bot_of (l : list Q) (m : num) : Prop :=
  match l with
  | [] => m = pinf
  | _ => exists z, m = NI z /\ (exists q, In q l /\ cut q z) /\ (forall q z', In q l -> cut q z' -> z <= z')
  end.
Lemma top_step l m n q : top_of l m -> nfin n q ->
  exists m', (if ngtb n m then let! z := nint n in Ok (NI z) else Ok m) = Ok m' /\ top_of (q :: l) m'.
Proof.
  intros T F. destruct (nint_cut n q F) as (z & E & C). rewrite E. cbn [bind]. rewrite ngtb_nltb.
  destruct l as [|q0 l].
  - cbn in T. subst m. assert (nltb ninf n = true) as ->.
    { apply nltb_spec. unfold xlt, nfin, xfin in *. destruct (nval n); simpl in *; tauto. }
    exists (NI z). split; auto. exists z. split; auto. split; [exists q; split; [left|]; auto|].
    intros q' z' [<-|[]] C'. pose proof (cut_eq _ _ _ _ C C' (Qeq_refl _)). lia.
  - destruct T as (z0 & -> & (q1 & I1 & C1) & U).
    assert (FZ : nfin (NI z0) (inject_Z z0)) by reflexivity.
    pose proof (nfin_nltb _ _ _ _ FZ F) as L. destruct (nltb (NI z0) n).
    + exists (NI z). split; auto. exists z. split; auto. split; [exists q; split; [left|]; auto|].
      intros q' z' [<-|I'] C'; [pose proof (cut_eq _ _ _ _ C C' (Qeq_refl _)); lia|].
      pose proof (U q' z' I' C'). assert (z0 <= z); [|lia]. apply (cut_mono _ _ _ _ (cut_int z0) C). apply Qlt_le_weak. tauto.
    + exists (NI z0). split; auto. exists z0. split; auto. split; [exists q1; split; [right|]; auto|].
      intros q' z' [<-|I'] C'; [|eauto]. apply (cut_mono _ _ _ _ C' (cut_int z0)).
      apply Qnot_lt_le. intros X. apply L in X. discriminate.
Qed.
Lemma bot_step l m n q : bot_of l m -> nfin n q ->
  exists m', (if nltb n m then let! z := nint n in Ok (NI z) else Ok m) = Ok m' /\ bot_of (q :: l) m'.
Proof.
  intros T F. destruct (nint_cut n q F) as (z & E & C). rewrite E. cbn [bind].
  destruct l as [|q0 l].
  - cbn in T. subst m. assert (nltb n pinf = true) as ->.
    { apply nltb_spec. unfold xlt, nfin, xfin in *. destruct (nval n); simpl in *; tauto. }
    exists (NI z). split; auto. exists z. split; auto. split; [exists q; split; [left|]; auto|].
    intros q' z' [<-|[]] C'. pose proof (cut_eq _ _ _ _ C C' (Qeq_refl _)). lia.
  - destruct T as (z0 & -> & (q1 & I1 & C1) & U).
    assert (FZ : nfin (NI z0) (inject_Z z0)) by reflexivity.
    pose proof (nfin_nltb _ _ _ _ F FZ) as L. destruct (nltb n (NI z0)).
    + exists (NI z). split; auto. exists z. split; auto. split; [exists q; split; [left|]; auto|].
      intros q' z' [<-|I'] C'; [pose proof (cut_eq _ _ _ _ C C' (Qeq_refl _)); lia|].
      pose proof (U q' z' I' C'). assert (z <= z0); [|lia]. apply (cut_mono _ _ _ _ C (cut_int z0)). apply Qlt_le_weak. tauto.
    + exists (NI z0). split; auto. exists z0. split; auto. split; [exists q1; split; [right|]; auto|].
      intros q' z' [<-|I'] C'; [|eauto]. apply (cut_mono _ _ _ _ (cut_int z0) C').
      apply Qnot_lt_le. intros X. apply L in X. discriminate.
Qed.
Definition pts_ok (p : protos) (e : entity) (c : (Q * Q) * (Q * Q)) : Prop :=
  exists u v, ent_top_left p e = Ok u /\ ent_bottom_right p e = Ok v /\ at_point u (fst c) /\ at_point v (snd c).
Definition box_of (cs : list ((Q * Q) * (Q * Q))) (m : num * num * num * num) : Prop :=
  let '(maxx, minx, maxy, miny) := m in
  top_of (map (fun c => fst (snd c)) cs) maxx /\ bot_of (map (fun c => fst (fst c)) cs) minx /\
  top_of (map (fun c => snd (snd c)) cs) maxy /\ bot_of (map (fun c => snd (fst c)) cs) miny.
Lemma max_fold_box p l cs : Forall2 (pts_ok p) l cs -> forall m cs0, box_of cs0 m ->
  exists m', max_fold p l m = Ok m' /\ box_of (rev cs ++ cs0) m'.
Proof.
  induction 1 as [|e c l cs (u & v & A & B & [U1 U2] & [V1 V2]) F IH]; intros m cs0 Bx.
  - exists m. split; auto.
  - destruct m as [[[maxx minx] maxy] miny]. destruct Bx as (T1 & T2 & T3 & T4).
    destruct (top_step _ _ _ _ T1 V1) as (m1 & E1 & T1'). destruct (bot_step _ _ _ _ T2 U1) as (m2 & E2 & T2').
    destruct (top_step _ _ _ _ T3 V2) as (m3 & E3 & T3'). destruct (bot_step _ _ _ _ T4 U2) as (m4 & E4 & T4').
    destruct (IH (m1, m2, m3, m4) (c :: cs0)) as (m' & E & Bx').
    { exact (conj T1' (conj T2' (conj T3' T4'))). }
    exists m'. split.
    + cbn [max_fold]. unfold max_step. rewrite A, B. cbn [bind]. rewrite E1. cbn [bind]. rewrite E2. cbn [bind]. rewrite E3. cbn [bind].
      rewrite E4. exact E.
    + cbn [rev]. rewrite <- app_assoc. exact Bx'.
Qed.
Lemma layer_ents_get w x : (forall i, In i (b_objs x) -> exists e, ent w i = Some e) ->
  exists l, layer_ents w x = Ok l /\ Forall2 (fun i e => ent w i = Some e) (b_objs x) l.
Proof.
  unfold layer_ents. induction (b_objs x) as [|i o IH]; intros H; [exists []; split; auto|].
  destruct (H i (or_introl eq_refl)) as (e & He). destruct IH as (l & E & F); [intros; apply H; right; auto|].
  exists (e :: l). split; [|constructor; auto]. cbn [mapM]. rewrite He. cbn [bind]. now rewrite E.
Qed.
(** ** C42 *)
Lemma corner_fun w i tl br tl' br' : corner_points w i tl br -> corner_points w i tl' br' ->
  (fst tl == fst tl')%Q /\ (snd tl == snd tl')%Q /\ (fst br == fst br')%Q /\ (snd br == snd br')%Q.
Proof.
  intros (e & u & v & A & B & C & D & E) (e' & u' & v' & A' & B' & C' & D' & E').
  assert (e' = e) as -> by congruence. assert (u' = u) as -> by congruence. assert (v' = v) as -> by congruence.
  destruct (at_point_unique _ _ _ D D'), (at_point_unique _ _ _ E E'). auto.
Qed.
Lemma maximum_values_box w b x : blu w b = Some x -> (forall i, In i (b_objs x) -> exists tl br, corner_points w i tl br) ->
  exists m cs, maximum_values b w = (w, Ok m) /\ Forall2 (fun i c => corner_points w i (fst c) (snd c)) (b_objs x) cs /\ box_of (rev cs) m.
Proof.
  intros Hx H. destruct (layer_ents_get w x) as (l & E & F).
  { intros i Hi. destruct (H i Hi) as (tl & br & e & _ & _ & He & _). eauto. }
  assert (G : exists cs, Forall2 (pts_ok (w_protos w)) l cs /\ Forall2 (fun i c => corner_points w i (fst c) (snd c)) (b_objs x) cs).
  { clear E. revert H. generalize dependent (b_objs x). intros o F. induction F as [|i e o l He F IH]; intros H.
    - exists []. split; constructor.
    - destruct IH as (cs & A & B); [intros; apply H; right; auto|].
      destruct (H i (or_introl eq_refl)) as (tl & br & e' & u & v & He' & P & Q & R & S). assert (e' = e) as -> by congruence.
      exists ((tl, br) :: cs). split; constructor; auto; [exists u, v; auto|exists e, u, v; auto]. }
  destruct G as (cs & A & B).
  destruct (max_fold_box _ _ _ A (ninf, pinf, ninf, pinf) []) as (m & M & Bx); [repeat split|].
  rewrite app_nil_r in Bx. exists m, cs. split; auto. unfold maximum_values, mbind, get_bp, gets. rewrite Hx, E. cbn [bind]. now rewrite M.
Qed.
Lemma top_of_cut w l cs (f : Q * Q -> Q * Q -> Q) m : Forall2 (fun i c => corner_points w i (fst c) (snd c)) l cs ->
  (forall tl br tl' br', (fst tl == fst tl')%Q -> (snd tl == snd tl')%Q -> (fst br == fst br')%Q -> (snd br == snd br')%Q -> (f tl br == f tl' br')%Q) ->
  l <> [] -> top_of (map (fun c => f (fst c) (snd c)) (rev cs)) m -> exists z, m = NI z /\ largest_cut w l f z.
Proof.
  intros F P N T.
  assert (NE : map (fun c => f (fst c) (snd c)) (rev cs) <> []).
  { intros E. apply map_eq_nil in E. destruct F; [congruence|]. simpl in E. now apply app_eq_nil in E as [_ E]. }
  assert (T' : exists z, m = NI z /\ (exists q, In q (map (fun c => f (fst c) (snd c)) (rev cs)) /\ cut q z) /\
     (forall q z', In q (map (fun c => f (fst c) (snd c)) (rev cs)) -> cut q z' -> z' <= z)) by (destruct (map _ _); [congruence|exact T]).
  destruct T' as (z & -> & (q & I & C) & U). exists z. split; auto. split.
  - apply in_map_iff in I as (c & <- & I). rewrite <- in_rev in I. clear U.
    assert (exists i, In i l /\ corner_points w i (fst c) (snd c)) as (i & Hi & Hc); [|exists i, (fst c), (snd c); auto].
    clear - F I. induction F as [|i c' l cs H F IH]; [destruct I|]. destruct I as [->|I]; [exists i; split; [left|]; auto|].
    destruct (IH I) as (k & K & R). exists k. split; [right|]; auto.
  - intros i tl br z' I' H C'.
    assert (exists c, In c cs /\ corner_points w i (fst c) (snd c)) as (c & Ic & Hc).
    { clear - F I'. induction F as [|j c l cs H F IH]; [destruct I'|]. destruct I' as [->|I']; [exists c; split; [left|]; auto|].
      destruct (IH I') as (c' & A & B). exists c'. split; [right|]; auto. }
    destruct (corner_fun _ _ _ _ _ _ H Hc) as (A & B & D & E).
    pose proof (P _ _ _ _ A B D E) as Q1.
    apply (U (f (fst c) (snd c)) z'); [apply in_map_iff; exists c; split; auto; now apply -> in_rev|].
    unfold cut in *. now rewrite <- Q1.
Qed.
Lemma bot_of_cut w l cs (f : Q * Q -> Q * Q -> Q) m : Forall2 (fun i c => corner_points w i (fst c) (snd c)) l cs ->
  (forall tl br tl' br', (fst tl == fst tl')%Q -> (snd tl == snd tl')%Q -> (fst br == fst br')%Q -> (snd br == snd br')%Q -> (f tl br == f tl' br')%Q) ->
  l <> [] -> bot_of (map (fun c => f (fst c) (snd c)) (rev cs)) m -> exists z, m = NI z /\ smallest_cut w l f z.
Proof.
  intros F P N T.
  assert (NE : map (fun c => f (fst c) (snd c)) (rev cs) <> []).
  { intros E. apply map_eq_nil in E. destruct F; [congruence|]. simpl in E. now apply app_eq_nil in E as [_ E]. }
  assert (T' : exists z, m = NI z /\ (exists q, In q (map (fun c => f (fst c) (snd c)) (rev cs)) /\ cut q z) /\
     (forall q z', In q (map (fun c => f (fst c) (snd c)) (rev cs)) -> cut q z' -> z <= z')) by (destruct (map _ _); [congruence|exact T]).
  destruct T' as (z & -> & (q & I & C) & U). exists z. split; auto. split.
  - apply in_map_iff in I as (c & <- & I). rewrite <- in_rev in I. clear U.
    assert (exists i, In i l /\ corner_points w i (fst c) (snd c)) as (i & Hi & Hc); [|exists i, (fst c), (snd c); auto].
    clear - F I. induction F as [|i c' l cs H F IH]; [destruct I|]. destruct I as [->|I]; [exists i; split; [left|]; auto|].
    destruct (IH I) as (k & K & R). exists k. split; [right|]; auto.
  - intros i tl br z' I' H C'.
    assert (exists c, In c cs /\ corner_points w i (fst c) (snd c)) as (c & Ic & Hc).
    { clear - F I'. induction F as [|j c l cs H F IH]; [destruct I'|]. destruct I' as [->|I']; [exists c; split; [left|]; auto|].
      destruct (IH I') as (c' & A & B). exists c'. split; [right|]; auto. }
    destruct (corner_fun _ _ _ _ _ _ H Hc) as (A & B & D & E).
    pose proof (P _ _ _ _ A B D E) as Q1.
    apply (U (f (fst c) (snd c)) z'); [apply in_map_iff; exists c; split; auto; now apply -> in_rev|].
    unfold cut in *. now rewrite <- Q1.
Qed.
Lemma p_C42 w b x : blu w b = Some x -> b_objs x <> [] -> (forall i, In i (b_objs x) -> exists tl br, corner_points w i tl br) ->
  exists x2 x1 y2 y1, maximum_values b w = (w, Ok (NI x2, NI x1, NI y2, NI y1)) /\
    largest_cut w (b_objs x) (fun _ br => fst br) x2 /\ smallest_cut w (b_objs x) (fun tl _ => fst tl) x1 /\
    largest_cut w (b_objs x) (fun _ br => snd br) y2 /\ smallest_cut w (b_objs x) (fun tl _ => snd tl) y1.
Proof.
  intros Hx N H. destruct (maximum_values_box w b x Hx H) as ([[[a b0] c] d] & cs & M & F & (B1 & B2 & B3 & B4)).
  destruct (top_of_cut w _ cs (fun _ br => fst br) a F) as (z1 & -> & L1); auto.
  destruct (bot_of_cut w _ cs (fun tl _ => fst tl) b0 F) as (z2 & -> & L2); auto.
  destruct (top_of_cut w _ cs (fun _ br => snd br) c F) as (z3 & -> & L3); auto.
  destruct (bot_of_cut w _ cs (fun tl _ => snd tl) d F) as (z4 & -> & L4); auto.
  exists z1, z2, z3, z4. auto.
Qed.
Lemma p_C42_empty w b x : blu w b = Some x -> b_objs x = [] -> maximum_values b w = (w, Ok (ninf, pinf, ninf, pinf)).
Proof. intros Hx E. unfold maximum_values, mbind, get_bp, gets. rewrite Hx. unfold layer_ents. rewrite E. reflexivity. Qed.
(** what the box cuts off *)
Lemma cut_exists q : exists z, cut q z.
Proof.
  destruct (Qlt_le_dec q 0) as [N|P].
  - exists (- Qfloor (- q)). pose proof (Qfloor_le (- q)) as A. pose proof (Qlt_floor (- q)) as B.
    set (k := Qfloor (- q)) in *. rewrite inject_Z_plus in B. change (inject_Z 1) with 1%Q in B.
    assert (X : (inject_Z (- k) == - inject_Z k)%Q) by (rewrite inject_Z_opp; reflexivity).
    assert (Y : (inject_Z (- k - 1) == - inject_Z k - 1)%Q) by (unfold Zminus; rewrite inject_Z_plus, X; reflexivity).
    split; [intros; lra|]. intros _. rewrite X, Y. split; lra.
  - exists (Qfloor q). pose proof (Qfloor_le q) as A. pose proof (Qlt_floor q) as B.
    set (k := Qfloor q) in *. split; [intros _; split; auto|]. intros Z.
    assert (E : (q == 0)%Q) by (apply Qle_antisym; auto).
    assert (k = 0) as ->.
    { rewrite E in A, B. unfold Qle, Qlt in A, B; simpl in A, B. lia. }
    rewrite E. unfold Qle, Qlt; simpl. lia.
Qed.
Lemma p_C42_contains w l f m : largest_cut w l f m -> forall i tl br, In i l -> corner_points w i tl br ->
  (f tl br < inject_Z (m + 1))%Q /\ ((exists z, f tl br == inject_Z z)%Q -> (f tl br <= inject_Z m)%Q).
Proof.
  intros [_ U] i tl br I H. destruct (cut_exists (f tl br)) as (z & C). pose proof (U i tl br z I H C) as L. split.
  - destruct (cut_bounds _ _ C) as [_ B]. eapply Qlt_le_trans; [exact B|]. unfold Qle; simpl. lia.
  - intros (z' & E). assert (z' = z) as -> by (eapply cut_eq; [apply cut_int|exact C|symmetry; exact E]).
    rewrite E. unfold Qle; simpl. lia.
Qed.
Lemma p_C42_contains_low w l f m : smallest_cut w l f m -> forall i tl br, In i l -> corner_points w i tl br ->
  (inject_Z (m - 1) < f tl br)%Q /\ ((exists z, f tl br == inject_Z z)%Q -> (inject_Z m <= f tl br)%Q).
Proof.
  intros [_ U] i tl br I H. destruct (cut_exists (f tl br)) as (z & C). pose proof (U i tl br z I H C) as L. split.
  - destruct (cut_bounds _ _ C) as [B _]. eapply Qle_lt_trans; [|exact B]. unfold Qle; simpl. lia.
  - intros (z' & E). assert (z' = z) as -> by (eapply cut_eq; [apply cut_int|exact C|symmetry; exact E]).
    rewrite E. unfold Qle; simpl. lia.
Qed.
(** only the set of entities matters *)
Lemma p_C42_order w w' b b' x x' : blu w b = Some x -> blu w' b' = Some x' -> w_protos w' = w_protos w -> w_ents w' = w_ents w ->
  (forall i, In i (b_objs x) <-> In i (b_objs x')) -> (forall i, In i (b_objs x) -> exists tl br, corner_points w i tl br) ->
  snd (maximum_values b' w') = snd (maximum_values b w).
Proof.
  intros Hx Hx' P E S H.
  assert (CP : forall i tl br, corner_points w' i tl br <-> corner_points w i tl br).
  { intros. unfold corner_points, ent. now rewrite P, E. }
  destruct (b_objs x) as [|i0 o] eqn:O.
  - assert (b_objs x' = []) by (destruct (b_objs x') as [|i o]; auto; destruct (proj2 (S i) (or_introl eq_refl))).
    rewrite (p_C42_empty w' b' x'), (p_C42_empty w b x); auto.
  - rewrite <- O in *.
    assert (N : b_objs x <> []) by congruence.
    assert (N' : b_objs x' <> []) by (intros Q; assert (In i0 (b_objs x')) by (apply S; rewrite O; left; auto); rewrite Q in *; auto).
    destruct (p_C42 w b x Hx N H) as (a1 & a2 & a3 & a4 & M & L1 & L2 & L3 & L4).
    destruct (p_C42 w' b' x' Hx' N') as (c1 & c2 & c3 & c4 & M' & K1 & K2 & K3 & K4).
    { intros i Hi. apply S in Hi. destruct (H i Hi) as (tl & br & C). exists tl, br. now apply CP. }
    rewrite M, M'. cbn [snd].
    assert (UL : forall f m m', largest_cut w (b_objs x) f m -> largest_cut w' (b_objs x') f m' -> m' = m).
    { intros f m m' [(i & tl & br & A & B & C) U] [(i' & tl' & br' & A' & B' & C') U']. apply Z.le_antisymm.
      - apply (U i' tl' br'); [now apply S|now apply CP|auto].
      - apply (U' i tl br); [now apply S|now apply CP|auto]. }
    assert (US : forall f m m', smallest_cut w (b_objs x) f m -> smallest_cut w' (b_objs x') f m' -> m' = m).
    { intros f m m' [(i & tl & br & A & B & C) U] [(i' & tl' & br' & A' & B' & C') U']. apply Z.le_antisymm.
      - apply (U' i tl br); [now apply S|now apply CP|auto].
      - apply (U i' tl' br'); [now apply S|now apply CP|auto]. }
    rewrite (UL _ _ _ L1 K1), (US _ _ _ L2 K2), (UL _ _ _ L3 K3), (US _ _ _ L4 K4). reflexivity.
Qed.
(** ** halving an integer is exact *)
Lemma half_pos s m : Zpos m < 2 ^ 53 ->
  exists m' e', fdiv (S754_finite s m 0) (S754_finite false 2 0) = S754_finite s m' e' /\ veq (Zpos m) (-1) (Zpos m') e'.
Proof.
  intros Hm. pose proof (digits2_le m 53 ltac:(lia) Hm) as Hd. set (d := Zpos (digits2_pos m)) in *. assert (1 <= d) by lia.
  set (q := Zpos m * 2 ^ (53 - d)). assert (Hq : 0 < q) by (unfold q; apply Z.mul_pos_pos; [lia|apply Z.pow_pos_nonneg; lia]).
  exists (Z.to_pos q), (d - 54). split.
  - unfold fdiv, SFdiv, SFdiv_core_binary. cbn [Zdigits2]. fold d.
    change (Z.pos (digits2_pos 2)) with 2. replace (d + 0 - (2 + 0)) with (d - 2) by lia.
    assert (F : Z.min (fexp64 (d - 2)) (0 - 0) = d - 55).
    { unfold fexp. change (emin prec64 emax64) with (-1074). change prec64 with 53. lia. }
    rewrite F. replace (0 - 0 - (d - 55)) with (55 - d) by lia.
    assert (S : match 55 - d with Z0 => Zpos m | Zpos _ => Z.shiftl (Zpos m) (55 - d) | Zneg _ => 0 end = (q * 2) * 2).
    { destruct (55 - d) eqn:E; try lia. rewrite <- E, Z.shiftl_mul_pow2 by lia.
      replace (55 - d) with (53 - d + 1 + 1) by lia. rewrite !Z.pow_add_r by lia. unfold q. change (2 ^ 1) with 2. ring. }
    rewrite S. assert (DE : Z.div_eucl (q * 2 * 2) 2 = (q * 2, 0)).
    { pose proof (Z.div_mul (q * 2) 2 ltac:(lia)) as A. pose proof (Z.mod_mul (q * 2) 2 ltac:(lia)) as B.
      unfold Z.div, Z.modulo in *. destruct (Z.div_eucl (q * 2 * 2) 2). congruence. }
    rewrite DE. change (new_location 2 0) with loc_Exact. rewrite xorb_false_r.
    replace (q * 2) with (Zpos (Z.to_pos q) * 2 ^ Zpos 1) by (rewrite Z2Pos.id by lia; reflexivity).
    rewrite round_aux_shift.
    + f_equal. lia.
    + assert (Zpos (digits2_pos (Z.to_pos q)) = d + (53 - d)) as -> by (apply digits2_mul; [lia|]; rewrite Z2Pos.id by lia; reflexivity).
      unfold fexp. change (emin prec64 emax64) with (-1074). change prec64 with 53. lia.
    + lia.
  - apply (veq_base (d - 54)); try lia. rewrite Z2Pos.id by lia. rewrite Z.sub_diag, Z.pow_0_r, Z.mul_1_r. unfold q. f_equal. f_equal. lia.
Qed.
Lemma half_int z : Z.abs z < 2 ^ 53 -> exists f, ntruediv (NI z) (NI 2) = Ok (NF f) /\ nfin (NF f) (z # 2).
Proof.
  intros B. unfold ntruediv. change (2 =? 0) with false. cbn iota.
  destruct z as [|m|m]; cbn [exact_float].
  - eexists. split; [reflexivity|]. reflexivity.
  - destruct (half_pos false m ltac:(lia)) as (m' & e' & E & V). rewrite E. eexists. split; [reflexivity|].
    unfold nfin, xfin; simpl. apply dyadic_Qeq in V. rewrite <- V. reflexivity.
  - destruct (half_pos true m ltac:(lia)) as (m' & e' & E & V). rewrite E. eexists. split; [reflexivity|].
    unfold nfin, xfin; simpl. apply dyadic_Qeq in V. change (Zneg m') with (- Zpos m'). rewrite <- dyadic_opp, <- V. reflexivity.
Qed.
(** ** C43 *)
Lemma center_ints w b x2 x1 y2 y1 : maximum_values b w = (w, Ok (NI x2, NI x1, NI y2, NI y1)) ->
  Z.abs (x2 + x1) < 2 ^ 53 -> Z.abs (y2 + y1) < 2 ^ 53 ->
  exists cx cy, (do c <- center b; gets (fun _ => vceil c)) w = (w, Ok (mkVec (NI cx) (NI cy))) /\
    is_ceil ((x2 + x1) # 2) cx /\ is_ceil ((y2 + y1) # 2) cy.
Proof.
  intros M Bx By. unfold center, mbind. rewrite M. unfold center_of, nadd, arith. cbn [bind].
  destruct (half_int _ Bx) as (fx & Ex & Fx). destruct (half_int _ By) as (fy & Ey & Fy). rewrite Ex, Ey. cbn [bind].
  destruct (nceil_spec _ _ Fx) as (cx & Cx & Ix). destruct (nceil_spec _ _ Fy) as (cy & Cy & Iy).
  exists cx, cy. split; auto. unfold gets, vceil. cbn [vx vy]. rewrite Cx, Cy. reflexivity.
Qed.
Definition shift_ent (c : vec) (i : nat) : M unit :=
  do e <- get_ent i; match e_pos e with
                     | None => raise EType
                     | Some v => do q <- gets (fun _ => vsub v (OVec c)); modify (upd_ent i (with_pos (Some q)))
                     end.

Lemma vsub_grid v c : game_pos v -> game_pos c -> exists q p pc, vsub v (OVec c) = Ok q /\ at_point v p /\ at_point c pc /\
  vec_valid q /\ at_point q ((fst p - fst pc)%Q, (snd p - snd pc)%Q).
Proof.
  intros [(a & Ga & Ba) (b & Gb & Bb)] [(d & Gd & Bd) (e & Ge & Be)].
  destruct (grid_sub _ _ _ _ Ga Gd) as (x & X & [Vx Fx]); try lia.
  destruct (grid_sub _ _ _ _ Gb Ge) as (y & Y & [Vy Fy]); try lia.
  exists (mkVec x y), (a # 256, b # 256), (d # 256, e # 256). unfold vsub, vop, operand_vec, vlift. cbn [bind]. rewrite X. cbn [bind]. rewrite Y.
  split; [reflexivity|]. split; [split; [apply Ga|apply Gb]|]. split; [split; [apply Gd|apply Ge]|]. split; [split; auto|].
  split; cbn [fst snd vx vy].
  - assert ((a # 256) - (d # 256) == (a - d) # 256)%Q as -> by (unfold Qeq, Qminus, Qplus, Qopp; cbn [Qnum Qden]; lia). auto.
  - assert ((b # 256) - (e # 256) == (b - e) # 256)%Q as -> by (unfold Qeq, Qminus, Qplus, Qopp; cbn [Qnum Qden]; lia). auto.
Qed.
Lemma forM_shift c l : NoDup l -> forall w, game_pos c ->
  (forall i, In i l -> exists e v, ent w i = Some e /\ e_pos e = Some v /\ game_pos v) ->
  exists w', forM (shift_ent c) l w = (w', Ok tt) /\ w_bps w' = w_bps w /\ w_protos w' = w_protos w /\
    (forall i, ~ In i l -> ent w' i = ent w i) /\
    (forall i e, In i l -> ent w i = Some e -> exists e', ent w' i = Some e' /\ moved_by c e e').
Proof.
  induction 1 as [|i l Ni N IH]; intros w G H.
  - exists w. split; [reflexivity|]. split; auto. split; auto. split; [auto|intros i e []].
  - destruct (H i (or_introl eq_refl)) as (e & v & He & Hv & Gv). destruct (vsub_grid v c Gv G) as (q & p & pc & Q & P1 & P2 & P3 & P4).
    set (w1 := upd_ent i (with_pos (Some q)) w).
    assert (D : forall j, j <> i -> ent w1 j = ent w j).
    { intros j J. unfold w1. rewrite ent_upd. destruct (Nat.eqb_spec i j); congruence. }
    destruct (IH w1 G) as (w' & E & B & P & O & I).
    { intros j J. rewrite D by (intros ->; tauto). apply H; right; auto. }
    exists w'. split.
    + unfold forM in *. cbn [foldE]. unfold shift_ent at 1, mbind, get_ent, gets. rewrite He, Hv, Q. exact E.
    + split; [exact B|]. split; [exact P|]. split.
      * intros j J. rewrite O, D; auto; intros X; apply J; simpl; auto.
      * intros j e0 [<-|J] He0.
        -- assert (e0 = e) as -> by congruence. exists (with_pos (Some q) e). split.
           ++ rewrite O by auto. unfold w1. rewrite ent_upd, Nat.eqb_refl, He. reflexivity.
           ++ unfold moved_by. repeat (split; [reflexivity|]). exists v, q, p, pc. destruct e; cbn in *. repeat split; auto; apply P1 || apply P2 || apply P3 || apply P4.
        -- apply I; auto. rewrite D by (intros ->; tauto). auto.
Qed.
Lemma origin_veqb c : game_pos c -> (veqb c vzero = true <-> at_origin c).
Proof.
  intros [(a & [Va Fa] & _) (b & [Vb Fb] & _)]. unfold veqb, vzero, at_origin, at_point. cbn [vx vy fst snd].
  assert (Z : nfin (NI 0) 0) by reflexivity.
  rewrite andb_true_iff, (nfin_neqb _ _ _ _ Fa Z), (nfin_neqb _ _ _ _ Fb Z). split; intros [A B].
  - split; [rewrite <- A|rewrite <- B]; auto.
  - split; eapply nfin_fun; eauto.
Qed.
Lemma p_C43_origin w b x c : blu w b = Some x -> game_pos c -> at_origin c -> recenter b (Some c) w = (w, Ok tt).
Proof.
  intros Hx G O. apply origin_veqb in O; auto. unfold recenter, mbind, get_bp, gets. rewrite Hx. unfold ret. now rewrite O.
Qed.
Lemma p_C43_moves w b x c : inv w -> blu w b = Some x -> game_pos c -> ~ at_origin c ->
  (forall i, In i (b_objs x) -> exists e v, ent w i = Some e /\ e_pos e = Some v /\ game_pos v) ->
  exists w', recenter b (Some c) w = (w', Err EAttribute) /\ w_bps w' = w_bps w /\ w_protos w' = w_protos w /\
    (forall i, ~ In i (b_objs x) -> ent w' i = ent w i) /\
    (forall i e, In i (b_objs x) -> ent w i = Some e -> exists e', ent w' i = Some e' /\ moved_by c e e').
Proof.
  intros I Hx G O H. assert (N : NoDup (b_objs x)) by (eapply inv_nodup; eauto).
  destruct (forM_shift c _ N w G H) as (w' & E & R). exists w'. split; auto.
  unfold recenter, mbind at 1 2, get_bp, gets at 1. rewrite Hx. unfold ret at 1.
  destruct (veqb c vzero) eqn:V; [apply origin_veqb in V; tauto|].
  unfold mbind at 1. unfold shift_ent in E. rewrite E. reflexivity.
Qed.
(** no way to succeed but by doing nothing *)
Lemma p_C43_ok w b a w' : recenter b a w = (w', Ok tt) -> w' = w.
Proof.
  unfold recenter. unfold mbind at 1. unfold get_bp at 1, gets at 1. destruct (blu w b) as [x|] eqn:Hx; [|discriminate].
  unfold mbind at 1. destruct a as [c|].
  - unfold ret at 1. destruct (veqb c vzero); [intros E; now inversion E|].
    unfold mbind at 1. destruct (forM _ (b_objs x) w) as [w1 [[]|]]; discriminate.
  - assert (K : forall r, (do c <- center b; gets (fun _ => vceil c)) w = r -> fst r = w).
    { intros r <-. unfold center, maximum_values, mbind, get_bp, gets. destruct (blu w b); [|auto].
      destruct (let! l := layer_ents w b0 in _); [|auto]. destruct (center_of a); auto. }
    destruct ((do c <- center b; gets (fun _ => vceil c)) w) as [w1 [c|e]] eqn:E; [|discriminate].
    specialize (K _ eq_refl). cbn [fst] in K. subst w1. destruct (veqb c vzero); [intros X; now inversion X|].
    unfold mbind at 1. destruct (forM _ (b_objs x) w) as [w1 [[]|]]; discriminate.
Qed.
Lemma p_C43_default w b x x2 x1 y2 y1 : blu w b = Some x -> maximum_values b w = (w, Ok (NI x2, NI x1, NI y2, NI y1)) ->
  Z.abs (x2 + x1) < 2 ^ 53 -> Z.abs (y2 + y1) < 2 ^ 53 ->
  exists cx cy, is_ceil ((x2 + x1) # 2) cx /\ is_ceil ((y2 + y1) # 2) cy /\
    recenter b None w = recenter b (Some (mkVec (NI cx) (NI cy))) w.
Proof.
  intros Hx Mv Bx By. destruct (center_ints w b _ _ _ _ Mv Bx By) as (cx & cy & E & X & Y). exists cx, cy. split; auto. split; auto.
  assert (K : forall m m' : M vec, m w = m' w -> forall k : vec -> M unit, (do c <- m; k c) w = (do c <- m'; k c) w).
  { intros m m' H k. unfold mbind. now rewrite H. }
  unfold recenter. unfold mbind at 1. unfold get_bp, gets at 1. rewrite Hx. symmetry. unfold mbind at 1. unfold gets at 1. rewrite Hx.
  symmetry. apply K. rewrite E. reflexivity.
Qed.
Lemma p_C43_empty w b x : blu w b = Some x -> b_objs x = [] -> recenter b None w = (w, Err EValue).
Proof.
  intros Hx N. unfold recenter, center. unfold mbind at 1. unfold get_bp, gets at 1. rewrite Hx. unfold mbind. rewrite (p_C42_empty w b x Hx N). reflexivity.
Qed.
(** ** C44 *)
Lemma p_C44 w b : exists e, weighted_center b w = (w, Err e).
Proof.
  unfold weighted_center, mbind, get_bp, gets. destruct (blu w b) as [x|]; [|eauto].
  destruct (layer_ents w x); cbn [bind]; [|eauto]. destruct (sum_positions _ _); cbn [bind]; eauto.
Qed.

Definition small_num (k : Z) (n : num) : Prop := match n with NI z => Z.abs z <= k | NF _ => True end.
Lemma small_float k n : small_num k n -> k < 2 ^ 53 -> exists f, to_float n = Ok f.
Proof.
  destruct n as [z|f]; simpl; [|eauto]. intros A B. destruct (float_of_int_exact z) as (f & E & _); eauto. apply repr_int. lia.
Qed.
Lemma game_small n : game_num n -> small_num (2 ^ 40) n.
Proof.
  intros (k & [_ F] & B). destruct n as [z|f]; simpl; auto. unfold nfin, xfin in F; simpl in F. unfold Qeq in F; simpl in F. lia.
Qed.
Lemma nadd_small k n m : small_num k n -> small_num (2 ^ 40) m -> k + 2 ^ 40 < 2 ^ 53 -> exists r, nadd n m = Ok r /\ small_num (k + 2 ^ 40) r.
Proof.
  intros A B C. unfold nadd, arith. destruct n as [z|f], m as [z'|f'].
  - eexists. split; eauto. simpl in *. lia.
  - destruct (small_float k (NI z)) as (g & E); auto; [lia|]. rewrite E. eexists. split; [reflexivity|]. simpl; auto.
  - destruct (small_float (2 ^ 40) (NI z')) as (g & E); auto; [lia|]. rewrite E. eexists. split; [reflexivity|]. simpl; auto.
  - eexists. split; [reflexivity|]. simpl; auto.
Qed.
Lemma sum_small l : (forall e, In e l -> exists v, e_pos e = Some v /\ game_pos v) ->
  forall a k, small_num k (vx a) -> small_num k (vy a) -> k + Z.of_nat (length l) * 2 ^ 40 < 2 ^ 53 -> exists r, sum_positions l a = Ok r.
Proof.
  induction l as [|e l IH]; intros H a k A B C; [cbn; eauto|].
  destruct (H e (or_introl eq_refl)) as (v & Hv & Gx & Gy). cbn [length] in C.
  destruct (nadd_small k (vx a) (vx v)) as (x & X & Sx); auto; [now apply game_small|lia|].
  destruct (nadd_small k (vy a) (vy v)) as (y & Y & Sy); auto; [now apply game_small|lia|].
  cbn [sum_positions]. unfold pos_operand. rewrite Hv. unfold vadd, vop, operand_vec, vlift. cbn [bind]. rewrite X. cbn [bind]. rewrite Y. cbn [bind].
  apply (IH (fun e' I => H e' (or_intror I)) (mkVec x y) (k + 2 ^ 40)); auto. lia.
Qed.
Lemma p_C44_type w b x : blu w b = Some x -> (length (b_objs x) < 2 ^ 12)%nat ->
  (forall i, In i (b_objs x) -> exists e v, ent w i = Some e /\ e_pos e = Some v /\ game_pos v) ->
  weighted_center b w = (w, Err EType).
Proof.
  intros Hx L H. destruct (layer_ents_get w x) as (l & E & F); [intros i Hi; destruct (H i Hi) as (e & _ & He & _); eauto|].
  assert (HL : length l = length (b_objs x)) by (clear - F; induction F; cbn [length]; auto).
  destruct (sum_small l) with (a := vzero) (k := 0) as (r & R); try (cbn; lia).
  { intros e I. clear E HL L. induction F as [|i e0 o l0 He F IH]; [destruct I|]. destruct I as [->|I].
    - destruct (H i (or_introl eq_refl)) as (e' & v & He' & Hv & G). assert (e' = e) as -> by congruence. eauto.
    - apply IH; auto. intros; apply H; right; auto. }
  { rewrite HL. change (2 ^ 12)%nat with 4096%nat in L. lia. }
  unfold weighted_center, mbind, get_bp, gets. rewrite Hx, E. cbn [bind]. now rewrite R.
Qed.
Lemma nadd_err a b e : nadd a b = Err e -> e = EOverflow.
Proof.
  unfold nadd, arith. destruct a, b; try discriminate; unfold to_float;
  repeat (match goal with |- context [float_of_int ?z] => destruct (float_of_int z) eqn:?; cbn [bind] end); intros H; inversion H; subst;
  eauto using float_of_int_err.
Qed.
Lemma sum_err l : forall a e, sum_positions l a = Err e -> e = EType \/ e = EOverflow.
Proof.
  induction l as [|en l IH]; intros a e; cbn [sum_positions]; [discriminate|].
  unfold pos_operand, vadd, vop. destruct (e_pos en) as [v|]; cbn [operand_vec bind].
  - unfold vlift. destruct (nadd (vx a) _) eqn:X; cbn [bind]; [|intros H; inversion H; subst; right; eapply nadd_err; eauto].
    destruct (nadd (vy a) _) eqn:Y; cbn [bind]; [apply IH|intros H; inversion H; subst; right; eapply nadd_err; eauto].
  - intros H. inversion H; auto.
Qed.
Lemma p_C44_errors w b x : inv w -> blu w b = Some x -> snd (weighted_center b w) = Err EType \/ snd (weighted_center b w) = Err EOverflow.
Proof.
  intros I Hx. destruct (layer_ents_get w x) as (l & E & _); [intros i Hi; destruct (inv_owner _ I b x i Hx Hi) as (e & He & _); eauto|].
  unfold weighted_center, mbind, get_bp, gets. rewrite Hx, E. cbn [bind snd].
  destruct (sum_positions l vzero) eqn:S; cbn [bind]; auto. apply sum_err in S as [-> | ->]; auto.
Qed.
(** ** C52 *)
Lemma rect_corners p e tl br : ent_top_left p e = Ok tl -> ent_bottom_right p e = Ok br ->
  ent_top_right p e = Ok (mkVec (vx br) (vy tl)) /\ ent_bottom_left p e = Ok (mkVec (vx tl) (vy br)).
Proof.
  unfold ent_top_left, ent_bottom_right, ent_top_right, ent_bottom_left. destruct (selection_box p e) as [[a b]|]; cbn [bind]; [|discriminate].
  unfold pos_plus. destruct (e_pos e) as [v|]; [|discriminate]. unfold vadd, vop, operand_vec, vlift. cbn [bind vx vy].
  intros A B. destruct (nadd (vx v) (vx a)), (nadd (vy v) (vy a)), (nadd (vx v) (vx b)), (nadd (vy v) (vy b)); cbn [bind] in *; try discriminate.
  inversion A; inversion B; subst. auto.
Qed.
Lemma corners_grid p e v lt rb x y l t r b : e_pos e = Some v -> proto_box p (e_name e) = Ok (lt, rb) ->
  on_grid x (vx v) -> on_grid y (vy v) -> on_grid l (vx lt) -> on_grid t (vy lt) -> on_grid r (vx rb) -> on_grid b (vy rb) ->
  Z.abs x < 2 ^ 48 -> Z.abs y < 2 ^ 48 -> Z.abs l < 2 ^ 48 -> Z.abs t < 2 ^ 48 -> Z.abs r < 2 ^ 48 -> Z.abs b < 2 ^ 48 -> 0 <= e_dir e ->
  exists tl br, ent_top_left p e = Ok tl /\ ent_bottom_right p e = Ok br /\
    at_point tl (corner_at (e_dir e) x y l t) /\ at_point br (corner_at (e_dir e) x y r b).
Proof.
  intros Hv Hb Gx Gy Gl Gt Gr Gb Bx By Bl Bt Br Bb D.
  unfold ent_top_left, ent_bottom_right, selection_box. rewrite Hb. cbn [bind]. rewrite swap_boxn_parity.
  unfold pos_plus. rewrite Hv. unfold corner_at.
  assert (P : Nat.even (Z.to_nat (e_dir e / 2)) = negb (Z.odd (e_dir e / 2))).
  { rewrite <- (Z2Nat.id (e_dir e / 2)) at 2 by (apply Z.div_pos; lia). set (n := Z.to_nat (e_dir e / 2)). clearbody n. clear.
    rewrite Z.negb_odd. induction n as [|n IH]; [reflexivity|]. rewrite Nat.even_succ, Nat2Z.inj_succ, Z.even_succ.
    rewrite <- Nat.negb_even, <- Z.negb_even. now rewrite IH. }
  rewrite P. unfold vadd, vop, operand_vec, vlift. cbn [bind].
  assert (A : forall m n c d, on_grid m c -> on_grid n d -> Z.abs m < 2 ^ 48 -> Z.abs n < 2 ^ 48 -> exists z, nadd c d = Ok z /\ nfin z ((m + n) # 256)).
  { intros m n c d H H' B B'. destruct (grid_add _ _ _ _ H H') as (z & E & _ & F); try lia. eauto. }
  destruct (Z.odd (e_dir e / 2)); cbn [negb swap_box fst snd vyx vx vy].
  - destruct (A _ _ _ _ Gx Gt) as (z1 & E1 & F1); auto. destruct (A _ _ _ _ Gy Gl) as (z2 & E2 & F2); auto.
    destruct (A _ _ _ _ Gx Gb) as (z3 & E3 & F3); auto. destruct (A _ _ _ _ Gy Gr) as (z4 & E4 & F4); auto.
    exists (mkVec z1 z2), (mkVec z3 z4). rewrite E1, E2, E3, E4. repeat split; auto.
  - destruct (A _ _ _ _ Gx Gl) as (z1 & E1 & F1); auto. destruct (A _ _ _ _ Gy Gt) as (z2 & E2 & F2); auto.
    destruct (A _ _ _ _ Gx Gr) as (z3 & E3 & F3); auto. destruct (A _ _ _ _ Gy Gb) as (z4 & E4 & F4); auto.
    exists (mkVec z1 z2), (mkVec z3 z4). rewrite E1, E2, E3, E4. repeat split; auto.
Qed.
