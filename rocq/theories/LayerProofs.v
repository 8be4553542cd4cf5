(** * Proofs about layers: ownership, ordering, numbering, add / make / remove / lookup. *)
From Coq Require Import Lia Permutation Sorted QArith.
From Verif Require Import Py Num NumFacts Util SpecUtil UtilFacts Classes Mixins Entity World WorldFacts
  Inv SortFacts SpecWorld.
Open Scope Z_scope.

(** ** reachable states satisfy the invariant *)
Lemma reach_inv w : reachable w -> inv w.
Proof.
  induction 1 as [|w o R IH L]; [apply start_inv|]. apply step_inv; auto.
Qed.
Lemma reachp_reach w : reachable_plain w -> reachable w.
Proof. induction 1; constructor; auto. Qed.
Lemma reachp_wires w : reachable_plain w -> wires_ok w.
Proof.
  induction 1 as [|w o R IH L Rc]; [apply start_inv|].
  destruct (step_good True o w) as [_ W].
  - split; auto. apply reach_inv, reachp_reach, R.
  - destruct o; auto.
  - destruct o; auto.
  - auto.
Qed.

Lemma p_C14_distinct w b x : reachable_plain w -> blu w b = Some x -> distinct_wires (b_conns x).
Proof. intros R H. exact (reachp_wires w R b x H). Qed.

Lemma existsb_wire c l : existsb (fun d => conn_eqb c d) l = true <-> exists d, In d l /\ same_wire c d.
Proof.
  rewrite existsb_exists. split; intros (d & H1 & H2); exists d; split; auto; apply conn_eqb_spec; auto.
Qed.
Lemma upd_bp_id b f w : (forall x, blu w b = Some x -> f x = x) -> upd_bp b f w = w.
Proof. intros H. destruct w as [p es bs]. unfold upd_bp; simpl. f_equal. apply lupd_id. exact H. Qed.
Lemma upd_bp_ext b f g w x : blu w b = Some x -> f x = g x -> upd_bp b f w = upd_bp b g w.
Proof.
  intros H E. unfold upd_bp. f_equal. unfold blu in H. revert H. generalize (w_bps w).
  induction b; destruct l; simpl; intros H; try discriminate; auto.
  - congruence.
  - f_equal. auto.
Qed.

Lemma connect_eq e t fs ts col w en b x fz tz :
  ent w e = Some en -> e_layer en = Some b -> blu w b = Some x -> py_int fs = Ok fz -> py_int ts = Ok tz ->
  connect e t fs ts col w =
  let c := mkConn (Some e) t fz tz col in
  if existsb (fun d => conn_eqb c d) (b_conns x) then (w, Ok tt)
  else (upd_bp b (b_set_conns (b_conns x ++ [c])) w, Ok tt).
Proof.
  intros He Hl Hx Hf Ht. unfold connect, mbind, get_ent, gets, get_bp, conn_new. rewrite He, Hf, Ht. simpl.
  rewrite Hl, Hx. destruct (existsb _ _); reflexivity.
Qed.
Lemma p_C14_connect e t fs ts col w en b x fz tz :
  ent w e = Some en -> e_layer en = Some b -> blu w b = Some x -> py_int fs = Ok fz -> py_int ts = Ok tz ->
  let c := mkConn (Some e) t fz tz col in
  ((exists d, In d (b_conns x) /\ same_wire c d) -> connect e t fs ts col w = (w, Ok tt)) /\
  (~ (exists d, In d (b_conns x) /\ same_wire c d) ->
   snd (connect e t fs ts col w) = Ok tt /\
   conns_of (fst (connect e t fs ts col w)) b = Some (b_conns x ++ [c])).
Proof.
  intros He Hl Hx Hf Ht. pose proof (connect_eq e t fs ts col w en b x fz tz He Hl Hx Hf Ht) as E.
  cbv zeta in *. pose proof (existsb_wire (mkConn (Some e) t fz tz col) (b_conns x)) as X.
  destruct (existsb _ _); rewrite E; split; intros H; auto.
  - exfalso. apply H, X. auto.
  - apply X in H. discriminate.
  - simpl. split; auto. unfold conns_of. rewrite blu_upd, Nat.eqb_refl, Hx. reflexivity.
Qed.

Lemma p_C14_either_way e f fs ts col w ee ef b x fz tz :
  ent w e = Some ee -> e_layer ee = Some b -> ent w f = Some ef -> e_layer ef = Some b -> blu w b = Some x ->
  py_int fs = Ok fz -> py_int ts = Ok tz ->
  let w' := fst (connect e (Some f) fs ts col w) in
  connect e (Some f) fs ts col w' = (w', Ok tt) /\ connect f (Some e) ts fs col w' = (w', Ok tt).
Proof.
  intros He Hle Hf Hlf Hx Fz Tz. cbv zeta.
  pose proof (connect_eq e (Some f) fs ts col w ee b x fz tz He Hle Hx Fz Tz) as E. cbv zeta in E.
  set (c := mkConn (Some e) (Some f) fz tz col) in *.
  set (w' := fst (connect e (Some f) fs ts col w)).
  assert (X : exists y, blu w' b = Some y /\ ent w' e = Some ee /\ ent w' f = Some ef /\
                        exists d, In d (b_conns y) /\ same_wire c d).
  { unfold w'. destruct (existsb _ _) eqn:Ex; rewrite E; simpl.
    - apply existsb_wire in Ex. exists x; auto.
    - rewrite blu_upd, Nat.eqb_refl, Hx. simpl. eexists. split; [reflexivity|].
      split; [auto|]. split; [auto|]. simpl. exists c. split; [apply in_or_app; simpl; auto|apply same_wire_refl]. }
  destruct X as (y & Hy & He' & Hf' & d & Hd & S). split.
  - rewrite (connect_eq e (Some f) fs ts col w' ee b y fz tz); auto. cbv zeta. fold c.
    replace (existsb _ _) with true; auto. symmetry. apply existsb_wire. eauto.
  - rewrite (connect_eq f (Some e) ts fs col w' ef b y tz fz); auto. cbv zeta.
    replace (existsb _ _) with true; auto. symmetry. apply existsb_wire. exists d; split; auto.
    eapply same_wire_trans; [|exact S]. apply same_wire_sym.
    change (mkConn (Some f) (Some e) tz fz col) with (conn_flip c). apply same_wire_sym, same_wire_flip.
Qed.

(** ** C15 *)
Lemma p_C15_accepts e t fs ts col w en b x :
  ent w e = Some en -> e_layer en = Some b -> blu w b = Some x ->
  (snd (connect e t fs ts col w) = Ok tt <-> (exists z, py_int fs = Ok z) /\ (exists z, py_int ts = Ok z)) /\
  (forall err, snd (connect e t fs ts col w) = Err err -> fst (connect e t fs ts col w) = w).
Proof.
  intros He Hl Hx. unfold connect, mbind, get_ent, gets, get_bp, conn_new. rewrite He.
  destruct (py_int fs) as [fz|e1]; simpl.
  2: { split; [split; [discriminate|intros [[z H] _]; discriminate]|auto]. }
  destruct (py_int ts) as [tz|e2]; simpl.
  2: { split; [split; [discriminate|intros [_ [z H]]; discriminate]|auto]. }
  rewrite Hl, Hx. destruct (existsb _ _); simpl; (split; [split; eauto|discriminate]).
Qed.
Lemma p_C15_default e t col w en : ent w e = Some en ->
  connect e t (VStr "in") (VStr "in") col w = (w, Err EValue).
Proof. intros He. unfold connect, mbind, get_ent, gets. rewrite He. reflexivity. Qed.

(** int() of a text *)
Lemma is_ws_blank c : is_ws c = true <-> blank c.
Proof.
  unfold is_ws, blank. rewrite orb_true_iff, !andb_true_iff, !Nat.leb_le, Nat.eqb_eq. simpl.
  remember (nat_of_ascii c) as n eqn:En. clear En c. lia.
Qed.
Lemma digit_of_spec c d : digit_of c = Some d <-> digit c d.
Proof.
  unfold digit_of, digit. destruct (_ && _) eqn:E.
  - apply andb_true_iff in E as [A B]. apply Z.leb_le in A, B. split; [intros [= <-]; lia|].
    intros [H1 H2]. f_equal. lia.
  - split; [discriminate|]. intros [H1 H2]. apply andb_false_iff in E as [E|E]; apply Z.leb_gt in E; lia.
Qed.
Lemma skip_ws_spec s : exists l, blanks l /\ s = (l ++ skip_ws s)%string /\
  match skip_ws s with EmptyString => True | String c _ => ~ blank c end.
Proof.
  induction s as [|c r (l & Hl & E & H)]; simpl.
  - exists ""%string. split; [constructor|auto].
  - destruct (is_ws c) eqn:W.
    + exists (String c l). split; [constructor; auto; apply is_ws_blank, W|]. split; [simpl; congruence|auto].
    + exists ""%string. split; [constructor|]. split; auto. rewrite <- is_ws_blank. congruence.
Qed.
Lemma skip_blanks l s : blanks l -> match s with EmptyString => True | String c _ => ~ blank c end ->
  skip_ws (l ++ s)%string = s.
Proof.
  intros Hl Hs. induction Hl as [|c l Hc Hl IH]; simpl.
  - destruct s as [|c r]; auto. simpl. destruct (is_ws c) eqn:W; auto. apply is_ws_blank in W. tauto.
  - apply is_ws_blank in Hc. rewrite Hc. exact IH.
Qed.
Lemma digit_not_und c d : digit c d -> Ascii.eqb c "_" = false.
Proof.
  intros H. destruct (Ascii.eqb_spec c "_") as [->|]; auto. destruct H as [H1 H2].
  change (Z.of_nat (nat_of_ascii "_")) with 95 in H2. lia.
Qed.
Lemma digit_not_blank c d : digit c d -> ~ blank c.
Proof. intros [H1 H2] B. unfold blank in B. simpl in B. lia. Qed.
Lemma digit_not_sign c d : digit c d -> c <> "-"%char /\ c <> "+"%char.
Proof.
  intros [H1 H2]. split; intros ->; [change (Z.of_nat (nat_of_ascii "-")) with 45 in H2|change (Z.of_nat (nat_of_ascii "+")) with 43 in H2]; lia.
Qed.
Definition stops (r : string) : Prop :=
  match r with EmptyString => True | String c _ => digit_of c = None /\ c <> "_"%char end.
Lemma number_sound need acc s v r : int_digits need acc s = Some (v, r) ->
  stops r /\
  ((need = false /\ ((v = acc /\ s = r) \/ exists body, number body acc v /\ s = body ++ r \/
                     (exists body, number body acc v /\ s = String "_" (body ++ r)))) \/
   (need = true /\ exists body, number body acc v /\ s = (body ++ r)))%string.
Proof.
  revert need acc. induction s as [|c s IH]; simpl; intros need acc H.
  - destruct need; [discriminate|]. injection H as <- <-. split; [exact I|]. left. auto.
  - destruct (digit_of c) as [d|] eqn:D.
    + assert (Dg : digit c d) by (apply digit_of_spec, D).
      apply IH in H as (Hr & H). split; [exact Hr|].
      replace (acc * 10 + d) with (10 * acc + d) in H by lia.
      assert (X : exists body, number body acc v /\ String c s = (body ++ r)%string).
      { destruct H as [[_ [[-> ->]|(body & [[Hb ->]|(body' & Hb & ->)])]]|[? _]]; [| | |discriminate].
        - exists (String c ""). split; [constructor; auto|reflexivity].
        - exists (String c body). split; [eapply num_dig; eauto|reflexivity].
        - exists (String c (String "_" body')). split; [eapply num_und; eauto|reflexivity]. }
      destruct X as (body & Hb & E). destruct need; [right|left]; split; auto; [exists body; auto|].
      right. exists body. left. auto.
    + destruct need; [discriminate|]. destruct (Ascii.eqb_spec c "_") as [->|N].
      * apply IH in H as (Hr & H). split; [exact Hr|]. left. split; auto.
        destruct H as [[? _]|[_ (body & Hb & ->)]]; [discriminate|]. right. exists ""%string. right. exists body. auto.
      * injection H as <- <-. split; [simpl; auto|]. left. auto.
Qed.
Lemma number_complete need body acc v r : number body acc v -> stops r ->
  int_digits need acc (body ++ r)%string = Some (v, r).
Proof.
  intros H Hr. revert need. induction H as [c d acc D|c d s acc v D H IH|c d s acc v D H IH]; intros need; simpl;
    rewrite (proj2 (digit_of_spec c d) D); replace (acc * 10 + d) with (10 * acc + d) by lia.
  - destruct r as [|c' r]; simpl; auto. destruct Hr as [E N]. rewrite E.
    destruct (Ascii.eqb_spec c' "_"); [tauto|auto].
  - apply IH.
  - apply IH.
Qed.
Lemma blanks_stop r : blanks r -> stops r.
Proof.
  destruct 1 as [|c s B]; simpl; auto. split.
  - destruct (digit_of c) as [d|] eqn:E; auto. apply digit_of_spec, digit_not_blank in E. tauto.
  - intros ->. unfold blank in B. vm_compute in B. intuition discriminate.
Qed.
Lemma skip_blanks_nil r : blanks r -> skip_ws r = ""%string.
Proof. induction 1 as [|c s B H IH]; simpl; auto. apply is_ws_blank in B. rewrite B. exact IH. Qed.
Lemma skip_ws_nil r : skip_ws r = ""%string -> blanks r.
Proof.
  destruct (skip_ws_spec r) as (l & Hl & E & _). intros H. rewrite H in E. rewrite E.
  clear -Hl. induction Hl; simpl; constructor; auto.
Qed.
Lemma number_head body acc v : number body acc v -> exists c d s, body = String c s /\ digit c d.
Proof. destruct 1; eauto. Qed.
Lemma int_of_string_spec s z : all_ascii s = true -> (int_of_string s = Ok z <-> int_text s z).
Proof.
  intros A. unfold int_of_string. rewrite A. cbn [negb].
  destruct (skip_ws_spec s) as (l & Hl & El & Hn). remember (skip_ws s) as t eqn:Et. split.
  - intros H.
    assert (X : forall neg body, match int_digits true 0 body with
              | Some (z, r) => match skip_ws r with EmptyString => Ok (if neg : bool then - z else z) | _ => Err EValue end
              | None => Err EValue end = Ok z ->
              exists bd r v, blanks r /\ number bd 0 v /\ body = (bd ++ r)%string /\ z = if neg then - v else v).
    { intros neg body H'. destruct (int_digits true 0 body) as [[v r]|] eqn:D; [|discriminate].
      destruct (skip_ws r) eqn:Sr; [|discriminate]. injection H' as <-.
      apply number_sound in D as (_ & [[? _]|[_ (bd & Hb & ->)]]); [discriminate|].
      exists bd, r, v. split; [apply skip_ws_nil, Sr|auto]. }
    destruct t as [|c t'].
    + apply (X false) in H as (bd & r & v & Hr & Hb & E & ->).
      apply number_head in Hb as (c & d & s' & -> & _). discriminate.
    + assert (Y : (c = "-"%char /\ exists bd r v, blanks r /\ number bd 0 v /\ t' = (bd ++ r)%string /\ z = - v) \/
                  (c = "+"%char /\ exists bd r v, blanks r /\ number bd 0 v /\ t' = (bd ++ r)%string /\ z = v) \/
                  (exists bd r v, blanks r /\ number bd 0 v /\ String c t' = (bd ++ r)%string /\ z = v)).
      { destruct (ascii_dec c "-") as [->|N1]; [left; split; auto; apply (X true t'), H|].
        destruct (ascii_dec c "+") as [->|N2]; [right; left; split; auto; apply (X false t'), H|].
        right; right. apply (X false (String c t')).
        destruct c as [[] [] [] [] [] [] [] []]; try exact H; exfalso; auto. }
      destruct Y as [(-> & bd & r & v & Hr & Hb & E & ->)|[(-> & bd & r & v & Hr & Hb & E & ->)|(bd & r & v & Hr & Hb & E & ->)]];
        exists l, bd, r, v; (split; [auto|split; [auto|split; [auto|]]]); rewrite El, E.
      * right; right. auto.
      * right; left. auto.
      * left. auto.
  - intros (l' & body & r & v & Hl' & Hr & Hb & C).
    pose proof (number_complete true body 0 v r Hb (blanks_stop _ Hr)) as D.
    destruct (number_head _ _ _ Hb) as (c & d & s' & Eb & Dg).
    destruct C as [[E ->]|[[E ->]|[E ->]]].
    + assert (T : t = (body ++ r)%string).
      { rewrite Et, E. apply skip_blanks; auto. rewrite Eb. simpl. eapply digit_not_blank; eauto. }
      rewrite T. destruct (digit_not_sign _ _ Dg) as [N1 N2].
      assert (G : (let '(neg, s0) := match (body ++ r)%string with
                   | String "-" r0 => (true, r0) | String "+" r0 => (false, r0) | _ => (false, (body ++ r)%string) end in (neg, s0)) = (false, (body ++ r)%string)).
      { rewrite Eb. simpl. destruct c as [[] [] [] [] [] [] [] []]; auto; exfalso; auto. }
      destruct (match (body ++ r)%string with
                   | String "-" r0 => (true, r0) | String "+" r0 => (false, r0) | _ => (false, (body ++ r)%string) end) as [neg s0].
      injection G as -> ->. rewrite D, (skip_blanks_nil r Hr). reflexivity.
    + assert (T : t = (String "+" (body ++ r))%string).
      { rewrite Et, E. apply skip_blanks; auto. simpl. intros B. unfold blank in B. vm_compute in B. intuition discriminate. }
      rewrite T, D, (skip_blanks_nil r Hr). reflexivity.
    + assert (T : t = (String "-" (body ++ r))%string).
      { rewrite Et, E. apply skip_blanks; auto. simpl. intros B. unfold blank in B. vm_compute in B. intuition discriminate. }
      rewrite T, D, (skip_blanks_nil r Hr). reflexivity.
Qed.

(** ** C19 *)
Lemma p_C19 w : reachable w -> forall b x i, blu w b = Some x -> In i (b_objs x) ->
  (exists e, ent w i = Some e /\ e_layer e = Some b) /\
  count_occ Nat.eq_dec (b_objs x) i = 1%nat /\
  (forall c y, blu w c = Some y -> In i (b_objs y) -> c = b).
Proof.
  intros R b x i Hx Hi. apply reach_inv in R as I.
  destruct (inv_owner _ I _ _ _ Hx Hi) as (e & He & Hl). split; [eauto|]. split.
  - apply NoDup_count_occ'; auto. eapply inv_nodup; eauto.
  - intros c y Hy Hi'. destruct (inv_owner _ I _ _ _ Hy Hi') as (e' & He' & Hl'). congruence.
Qed.

(** ** C20 *)
Lemma p_C20_foreign b c i e x w : ent w i = Some e -> e_layer e = Some c -> c <> b -> blu w b = Some x ->
  step (OAdd b (OEnt i)) w = (w, Err EDuplicateEntity).
Proof.
  intros He Hl N Hx. simpl. unfold mbind, get_ent, get_bp, gets. rewrite He, Hx, Hl. simpl.
  destruct (Nat.eqb_spec c b); [congruence|]. reflexivity.
Qed.
Lemma p_C20_twice b i x w : reachable w -> blu w b = Some x -> In i (b_objs x) ->
  step (OAdd b (OEnt i)) w = (w, Ok tt).
Proof.
  intros R Hx Hi. apply reach_inv in R as I. destruct (inv_owner _ I _ _ _ Hx Hi) as (e & He & Hl).
  simpl. unfold mbind, get_ent, get_bp, gets. rewrite He, Hx, Hl. simpl. rewrite Nat.eqb_refl. simpl.
  apply mem_nat_In in Hi. rewrite Hi. reflexivity.
Qed.
Lemma p_C20_type b w : step (OAdd b OForeign) w = (w, Err EType) /\ step (ORemove b OForeign) w = (w, Err EType).
Proof. split; reflexivity. Qed.

(** ** sorting *)
Lemma SS_nth {X} (R : X -> X -> Prop) l : StronglySorted R l -> forall k m a b, (k < m)%nat ->
  nth_error l k = Some a -> nth_error l m = Some b -> R a b.
Proof.
  induction 1 as [|x r Hr IH Hx]; intros k m a b L Ha Hb; [destruct k; discriminate|].
  destruct m; [lia|]. simpl in Hb. destruct k; simpl in Ha.
  - injection Ha as <-. rewrite Forall_forall in Hx. apply Hx. eapply nth_error_In; eauto.
  - eapply IH; [|eauto|eauto]. lia.
Qed.
Lemma filter_map_comm {X Y} (g : X -> Y) f l : filter f (map g l) = map g (filter (fun x => f (g x)) l).
Proof. induction l as [|x l IH]; simpl; auto. destruct (f (g x)); simpl; congruence. Qed.
Lemma nth_map {X Y} (g : X -> Y) l k b : nth_error (map g l) k = Some b -> exists a, nth_error l k = Some a /\ g a = b.
Proof. rewrite nth_error_map. destruct (nth_error l k); [|discriminate]. intros [= <-]. eauto. Qed.

Lemma sort_keys w l ks : mapM (fun i => match ent w i with
                            | None => Err EUnmodelled
                            | Some e => let! k := pos_key e in Ok (k, i)
                            end) l = Ok ks ->
  l = map snd ks /\ forall k i, In (k, i) ks -> has_pos w i k /\ finite_key k.
Proof.
  intros E. apply mapM_ok in E. induction E as [|i [k j] l ks H E IH]; simpl; [split; [auto|intros ? ? []]|].
  destruct IH as [-> IH]. destruct (ent w i) as [e|] eqn:He; [|discriminate].
  unfold pos_key in H. destruct (e_pos e) as [v|] eqn:Hp; [|discriminate].
  destruct (nanb (vx v) || nanb (vy v)) eqn:Hn; [discriminate|]. simpl in H. injection H as <- <-.
  split; auto. intros k' i' [[= <- <-]|H]; [|apply IH, H].
  apply orb_false_iff in Hn. split; [exists e; auto|exact Hn].
Qed.
Lemma sorted_objs_spec w l l' : sorted_objs w l = Ok l' -> reordered w l l'.
Proof.
  intros H. split; [eapply sorted_objs_perm; eauto|]. unfold sorted_objs in H.
  destruct (mapM _ l) as [ks|] eqn:E; [|discriminate]. injection H as <-.
  destruct (sort_keys _ _ _ E) as [-> K].
  assert (A : allP finite_key ks).
  { apply Forall_forall. intros [k i] Hi. apply (K _ _ Hi). }
  destruct (isort_spec key_ltb finite_key key_asym key_letrans ks A) as (S & AP & ST).
  assert (K' : forall k i, In (k, i) (isort key_ltb ks) -> has_pos w i k /\ finite_key k).
  { intros k i Hi. apply K. eapply Permutation_in; [symmetry; apply isort_perm|exact Hi]. }
  split.
  - intros k m i j L Hi Hj. apply nth_map in Hi as ([a i'] & Hi & Ei). simpl in Ei; subst i'.
    apply nth_map in Hj as ([b j'] & Hj & Ej). simpl in Ej; subst j'.
    pose proof (SS_nth _ _ S _ _ _ _ L Hi Hj) as C. unfold kle in C. simpl in C.
    apply nth_error_In in Hi, Hj. apply K' in Hi as [Pi Fi]. apply K' in Hj as [Pj Fj].
    exists a, b. split; [auto|]. split; [auto|]. apply key_le_cases in C; auto.
  - intros v. rewrite !filter_map_comm. f_equal. apply ST.
    intros [k i] [k' i'] Hi Hi'. unfold at_pos. simpl.
    apply K in Hi as [(e & -> & Pe) _]. apply K in Hi' as [(e' & -> & Pe') _]. rewrite Pe, Pe'.
    intros H1 H2. apply andb_true_iff in H1 as [H1 H1'], H2 as [H2 H2'].
    apply veqb_not_lt. unfold veqb. apply andb_true_iff.
    split; (eapply neqb_trans; [eassumption|rewrite neqb_sym; assumption]).
Qed.

(** positions are all that matters *)
Definition same_pos (w w' : world) : Prop :=
  forall i, option_map e_pos (ent w' i) = option_map e_pos (ent w i).
Lemma same_pos_has w w' i v : same_pos w w' -> has_pos w i v -> has_pos w' i v.
Proof.
  intros S (e & He & Hp). specialize (S i). rewrite He in S. destruct (ent w' i) as [e'|] eqn:E; [|discriminate].
  exists e'. split; auto. injection S as S. congruence.
Qed.
Lemma reordered_pos w w' l l' : same_pos w w' -> reordered w l l' -> reordered w' l l'.
Proof.
  intros S (P & O & F). split; [exact P|]. split.
  - intros k m i j L Hi Hj. destruct (O k m i j L Hi Hj) as (v & u & Hv & Hu & C).
    exists v, u. split; [eapply same_pos_has; eauto|]. split; [eapply same_pos_has; eauto|auto].
  - assert (E : forall v i, at_pos w' v i = at_pos w v i).
    { intros v i. unfold at_pos. specialize (S i). destruct (ent w' i), (ent w i); try discriminate; auto.
      injection S as ->. reflexivity. }
    intros v. rewrite (filter_ext _ _ (E v)), (filter_ext _ _ (E v) l). apply F.
Qed.
Lemma reindex_pos i l w : same_pos w (reindex i l w).
Proof.
  intros j. pose proof (reindex_ent i l w j) as H. destruct (ent (reindex i l w) j), (ent w j); try discriminate; auto.
  injection H as H1. intros. simpl. congruence.
Qed.
Lemma sort_layer_ok b w w' u : sort_layer b w = (w', Ok u) ->
  exists x l, blu w b = Some x /\ sorted_objs w (b_objs x) = Ok l /\ w' = reindex 1 l (upd_bp b (b_set_objs l) w).
Proof.
  unfold sort_layer, mbind, get_bp, gets, modify. destruct (blu w b) as [x|]; [|discriminate].
  destruct (sorted_objs w (b_objs x)) as [l|] eqn:E; [|discriminate]. intros [= <-]. eauto.
Qed.
Lemma blu_reindex i l w c : blu (reindex i l w) c = blu w c.
Proof. unfold blu. rewrite reindex_bps. reflexivity. Qed.

Lemma sort_layer_sorted b w w' u x : inv w -> blu w b = Some x -> sort_layer b w = (w', Ok u) ->
  sorted_layer w' b (b_objs x).
Proof.
  intros I Hx H. apply sort_layer_ok in H as (x' & l & Hx' & Hs & ->).
  assert (x' = x) as -> by congruence. pose proof (sorted_objs_spec _ _ _ Hs) as R.
  exists (b_set_objs l x). split.
  - rewrite blu_reindex, blu_upd, Nat.eqb_refl, Hx. reflexivity.
  - simpl. split.
    + eapply reordered_pos; [|exact R]. intros j. rewrite reindex_pos. reflexivity.
    + assert (N : NoDup l).
      { eapply Permutation_NoDup; [apply R|]. eapply inv_nodup; eauto. }
      intros k i Hk.
      assert (exists e, ent w i = Some e) as (e & He).
      { assert (In i (b_objs x)) as Hi by (eapply Permutation_in; [symmetry; apply R|eapply nth_error_In; eauto]).
        destruct (inv_owner _ I _ _ _ Hx Hi) as (e & He & _). eauto. }
      exists (with_auto (VInt (1 + Z.of_nat k)) e). split; [|cbn [with_auto e_auto]; f_equal; lia].
      apply reindex_nth; auto.
Qed.

Lemma add_ok b i w w' e x : ent w i = Some e -> blu w b = Some x -> ~ In i (b_objs x) ->
  layer_add b (OEnt i) w = (w', Ok tt) ->
  sort_layer b (upd_ent i (with_layer (Some b)) (upd_bp b (b_set_objs (b_objs x ++ [i])) w)) = (w', Ok tt).
Proof.
  intros He Hx Hn. unfold layer_add, mbind at 1 2, get_ent, get_bp, gets. rewrite He, Hx.
  destruct (negb _ && negb _); [discriminate|].
  assert (mem_nat i (b_objs x) = false) as ->.
  { destruct (mem_nat i (b_objs x)) eqn:E; auto. apply mem_nat_In in E. tauto. }
  intros H. exact H.
Qed.
Lemma add_pre_inv b i w e x : inv w -> ent w i = Some e -> blu w b = Some x -> ~ In i (b_objs x) ->
  e_layer e = None \/ e_layer e = Some b ->
  inv (upd_ent i (with_layer (Some b)) (upd_bp b (b_set_objs (b_objs x ++ [i])) w)).
Proof.
  intros I He Hx Hn HL.
  set (w1 := upd_ent i (with_layer (Some b)) w).
  change (inv (upd_bp b (b_set_objs (b_objs x ++ [i])) w1)).
  assert (D : forall j, ent w1 j = if Nat.eqb i j then option_map (with_layer (Some b)) (ent w j) else ent w j).
  { intros j. apply ent_upd. }
  assert (G1 : inv w1).
  { destruct I as [H1 H2 H3 H4 H5 H6].
    assert (F : forall j e, ent w j = Some e -> exists e', ent w1 j = Some e').
    { intros j e0 He0. rewrite D, He0. destruct (Nat.eqb i j); simpl; eauto. }
    assert (Bw : forall c, blu w1 c = blu w c) by reflexivity.
    split; intros; rewrite ?Bw in *.
    + destruct (H1 _ _ _ H H0) as (e0 & He0 & Hl0). rewrite D.
      destruct (Nat.eqb_spec i i0) as [<-|]; [|eauto].
      rewrite He0. simpl. eexists; split; [reflexivity|].
      simpl. assert (e0 = e) as -> by congruence. destruct HL as [HL|HL]; congruence.
    + eauto.
    + eauto.
    + destruct (H4 _ _ _ _ H H0 H7) as (e0 & He0). eauto.
    + destruct (H5 _ _ _ _ H H0 H7) as (e0 & He0). eauto.
    + rewrite D in H. destruct (Nat.eqb i i0); [|eauto].
      destruct (ent w i0); [|discriminate]. injection H as <-. simpl in H0. injection H0 as <-. eauto. }
  apply inv_upd_bp; auto. intros x' Hx'. assert (x' = x) as -> by (change (blu w b = Some x') in Hx'; congruence).
  destruct (inv_bp _ _ _ G1 Hx') as (B1 & B2 & B3 & B4 & B5). unfold bp_fine; simpl.
  split; [|split; [|auto]].
  - intros j Hj. apply in_app_or in Hj as [Hj|[<-|[]]]; auto.
    exists (with_layer (Some b) e). rewrite D, Nat.eqb_refl, He. auto.
  - eapply Permutation_NoDup; [apply Permutation_cons_append|]. constructor; auto.
Qed.
Lemma add_layer_cases b i w w' e : ent w i = Some e -> layer_add b (OEnt i) w = (w', Ok tt) ->
  e_layer e = None \/ e_layer e = Some b.
Proof.
  intros He. unfold layer_add, mbind at 1 2, get_ent, get_bp, gets. rewrite He.
  destruct (blu w b); [|discriminate]. destruct (negb _ && negb _) eqn:Hd; [discriminate|]. intros _.
  destruct (e_layer e) as [c|]; auto. right. simpl in Hd. destruct (Nat.eqb_spec c b); [congruence|discriminate].
Qed.
Lemma add_sorted b i w w' x : inv w -> blu w b = Some x -> ~ In i (b_objs x) ->
  layer_add b (OEnt i) w = (w', Ok tt) -> sorted_layer w' b (b_objs x ++ [i]).
Proof.
  intros I Hx Hn H.
  assert (exists e, ent w i = Some e) as (e & He).
  { unfold layer_add, mbind at 1, get_ent, gets in H. destruct (ent w i); [eauto|discriminate]. }
  pose proof (add_layer_cases _ _ _ _ _ He H) as HL.
  pose proof (add_ok _ _ _ _ _ _ He Hx Hn H) as HS.
  assert (I2 : inv (upd_ent i (with_layer (Some b)) (upd_bp b (b_set_objs (b_objs x ++ [i])) w))) by (eapply add_pre_inv; eauto).
  apply (sort_layer_sorted _ _ _ _ (b_set_objs (b_objs x ++ [i]) x)) in HS; [exact HS|exact I2|].
  rewrite blu_upd_ent, blu_upd, Nat.eqb_refl, Hx. reflexivity.
Qed.
Lemma p_C21_add w w' b i x : reachable w -> blu w b = Some x -> ~ In i (b_objs x) ->
  step (OAdd b (OEnt i)) w = (w', Ok tt) -> sorted_layer w' b (b_objs x ++ [i]).
Proof. intros R. apply add_sorted, reach_inv, R. Qed.

Lemma new_entity_ok l kw w w' i : new_entity l kw w = (w', Ok i) ->
  i = length (w_ents w) /\ exists e, w' = new_ent e w /\ e_layer e = l /\
  exists cust, snd (construct (w_protos w) cust l kw) = Ok e /\
    match l with None => cust = [] | Some b => exists x, blu w b = Some x /\ cust = b_custom x end.
Proof.
  unfold new_entity. intros H. apply mbind_ok in H as (cust & w1 & H1 & H2).
  assert (w1 = w /\ match l with None => cust = [] | Some b => exists x, blu w b = Some x /\ cust = b_custom x end) as [-> HC].
  { destruct l as [b|].
    - unfold mbind, get_bp, gets, ret in H1. destruct (blu w b); [|discriminate]. injection H1 as <- <-. eauto.
    - injection H1 as <- <-. auto. }
  destruct (snd (construct (w_protos w) cust l kw)) as [e|] eqn:E; [|discriminate]. injection H2 as <- <-.
  split; auto. exists e. split; auto. split; [eapply construct_layer; eauto|]. eauto.
Qed.
Lemma fresh_not_listed w b x : inv w -> blu w b = Some x -> ~ In (length (w_ents w)) (b_objs x).
Proof.
  intros I Hx Hi. destruct (inv_owner _ I _ _ _ Hx Hi) as (e & He & _).
  assert (length (w_ents w) < length (w_ents w))%nat; [|lia]. apply nth_error_Some. unfold ent in He. congruence.
Qed.
Lemma p_C21_make w w' b kw x i : reachable w -> blu w b = Some x -> layer_make b kw w = (w', Ok i) ->
  sorted_layer w' b (b_objs x ++ [i]) /\ ent w i = None.
Proof.
  intros R Hx H. apply reach_inv in R as I. unfold layer_make in H.
  apply mbind_ok in H as (j & w1 & H1 & H2). apply mbind_ok in H2 as ([] & w2 & H2 & H3).
  injection H3 as <- <-. pose proof (keeps_new_entity False (Some b) kw w) as K. rewrite H1 in K. simpl in K.
  destruct K as [I1 _]; [split; [auto|tauto]|].
  apply new_entity_ok in H1 as (-> & e & -> & _). split.
  - eapply add_sorted; eauto. apply fresh_not_listed with (b := b); auto.
  - apply nth_error_None. lia.
Qed.

(** rotation keeps the lists *)
Lemma keeps_rotate_bps (P : list bp -> Prop) n a r l : keeps (fun w => P (w_bps w)) (forM (rotate_ent n a r) l).
Proof.
  apply keeps_forM. intros i _ w H. unfold rotate_ent. destruct (ent w i) as [e|]; auto.
  destruct (entity_rotate n a (ent_cw r) e). exact H.
Qed.
Lemma tiles_rotate_ok b n a r w : inv w -> 
  w_ents (fst (tiles_rotate b n a r w)) = w_ents w /\
  forall c, objs_of (fst (tiles_rotate b n a r w)) c = objs_of w c.
Proof.
  intros I. unfold tiles_rotate, mbind, get_bp, gets, modify; simpl.
  destruct (blu w b) as [x|] eqn:Hx; simpl; auto.
  rewrite (inv_tiles _ I _ _ Hx). simpl. split; auto. intros c. unfold objs_of. rewrite !blu_upd.
  destruct (Nat.eqb b c); auto. destruct (blu w c); reflexivity.
Qed.
Lemma sorted_layer_frame w w' b l : w_ents w' = w_ents w -> objs_of w' b = objs_of w b ->
  sorted_layer w b l -> sorted_layer w' b l.
Proof.
  intros E O (x & Hx & R & N). unfold objs_of in O. rewrite Hx in O. destruct (blu w' b) as [x'|] eqn:Hx'; [|discriminate].
  injection O as O. exists x'. rewrite O. split; auto.
  assert (F : forall i, ent w' i = ent w i) by (intros; unfold ent; rewrite E; auto). split.
  - eapply reordered_pos; [|exact R]. intros i. rewrite F. auto.
  - intros k i Hk. rewrite F. auto.
Qed.
Lemma p_C21_rotate w w' b n a r x : reachable w -> blu w b = Some x ->
  step (ORotate b n a r) w = (w', Ok tt) -> sorted_layer w' b (b_objs x).
Proof.
  intros R Hx H. apply reach_inv in R as I. simpl in H. unfold bp_rotate in H.
  apply mbind_ok in H as ([] & w1 & H1 & H2). unfold layer_rotate in H1.
  apply mbind_ok in H1 as (x0 & w0 & H0 & H1). unfold get_bp, gets in H0. rewrite Hx in H0. injection H0 as <- <-.
  apply mbind_ok in H1 as ([] & wr & Hr & Hs).
  pose proof (keeps_rotate_bps (fun l => l = w_bps w) n a r (b_objs x) w eq_refl) as B. rewrite Hr in B. simpl in B.
  assert (Ir : inv wr).
  { pose proof (keeps_forM (good False) (rotate_ent n a r) (b_objs x)) as K.
    specialize (K (fun i _ => keeps_rotate_ent False n a r i) w). rewrite Hr in K. apply K. split; [auto|tauto]. }
  assert (I1 : inv w1).
  { pose proof (keeps_sort False b wr) as K. rewrite Hs in K. apply K. split; [auto|tauto]. }
  eapply sort_layer_sorted in Hs; [|auto|unfold blu; rewrite B; exact Hx].
  destruct (tiles_rotate_ok b n a r w1 I1) as [E O]. rewrite H2 in E, O. simpl in *.
  eapply sorted_layer_frame; eauto.
Qed.
Lemma p_C21_sort w w' b x : reachable w -> blu w b = Some x ->
  step (OSort b) w = (w', Ok tt) -> sorted_layer w' b (b_objs x).
Proof. intros R Hx H. eapply sort_layer_sorted; eauto. apply reach_inv, R. Qed.

(** ** load *)
Definition frame (E : list entity) (O : nat -> option (list nat)) (w : world) : Prop :=
  w_ents w = E /\ forall c, objs_of w c = O c.
Lemma frame_refl w : frame (w_ents w) (objs_of w) w.
Proof. split; auto. Qed.
Lemma frame_upd E O b f w : (forall x, b_objs (f x) = b_objs x) -> frame E O w -> frame E O (upd_bp b f w).
Proof.
  intros Hf [H1 H2]. split; [exact H1|]. intros c. rewrite <- H2. unfold objs_of. rewrite blu_upd.
  destruct (Nat.eqb b c); auto. destruct (blu w c); simpl; auto. rewrite Hf. auto.
Qed.
Lemma frame_get_connections E O e : keeps (frame E O) (get_connections e).
Proof.
  intros w F. unfold get_connections, mbind, get_ent, gets, get_bp, modify, raise; simpl.
  destruct (ent w e) as [en|]; simpl; auto. destruct (e_layer en) as [b|]; simpl; auto.
  destruct (blu w b) as [x|]; simpl; auto. apply frame_upd; auto.
Qed.
Lemma frame_parse E O b : keeps (frame E O) (parse_connections b).
Proof.
  intros w F. unfold parse_connections. rewrite mbind_fst. unfold get_bp, gets; simpl.
  destruct (blu w b) as [x|] eqn:Hx; simpl; auto. rewrite mbind_fst. simpl.
  destruct (foldE (parse_entity w b) (b_objs x) []) as [cs r]. simpl.
  assert (F1 : frame E O (upd_bp b (b_set_conns cs) w)) by (apply frame_upd; auto).
  destruct r; simpl; auto. apply keeps_forM; auto. intros i _.
  apply keeps_bind; [apply frame_get_connections|]. intros; apply keeps_ret.
Qed.
Lemma frame_load_head E O b data : keeps (frame E O) (load_head b data).
Proof.
  unfold load_head. apply keeps_bind; [apply keeps_modify; intros; apply frame_upd; auto|]. intros _.
  apply keeps_bind.
  - destruct (dataget data "label_color" VNone); try apply keeps_ret;
      (apply keeps_bind; [apply keeps_gets|]; intros; apply keeps_modify; intros; apply frame_upd; auto).
  - intros _. apply keeps_bind; [apply keeps_modify; intros; apply frame_upd; auto|]. intros _.
    apply keeps_bind; [apply keeps_gets|].
    intros icons w G. destruct (foldE _ icons _) as [ic r]. simpl. apply frame_upd; auto.
Qed.
Definition load_tail2 (b : nat) (data : dict) : M unit :=
  do _ <- parse_connections b;
  do tiles <- gets (fun _ => iter_val (dataget data "tiles" (VList [])));
  do x <- get_bp b;
  do _ <- (fun w => let '(ts, r) := foldE (fun acc v => load_tile acc (w_protos w) v) tiles (b_tiles x) in
                    (upd_bp b (b_set_tiles ts) w, r));
  modify (upd_bp b (fun x => b_set_tiles (sort_tiles (b_tiles x)) x)).
Lemma frame_load_tail2 E O b data : keeps (frame E O) (load_tail2 b data).
Proof.
  apply keeps_bind; [apply frame_parse|]. intros _. apply keeps_bind; [apply keeps_gets|]. intros tiles.
  apply keeps_bind; [apply keeps_gets|]. intros x. apply keeps_bind.
  - intros w F. destruct (foldE _ tiles _) as [ts r]. simpl. apply frame_upd; auto.
  - intros _. apply keeps_modify. intros; apply frame_upd; auto.
Qed.
Lemma frame_load_scheds E O b data : keeps (frame E O) (load_scheds b data).
Proof.
  apply keeps_bind; [apply keeps_gets|]. intros ss. apply keeps_modify. intros; apply frame_upd; auto.
Qed.

Lemma load_entities_ok b cust l : forall w w' l' x, load_entities b cust l w = (w', l', Ok tt) -> blu w b = Some x ->
  objs_of w' b = Some (b_objs x ++ seq (length (w_ents w)) (length l)) /\
  length (w_ents w') = (length (w_ents w) + length l)%nat /\ length l' = length l /\
  (forall i e, ent w i = Some e -> ent w' i = Some e) /\
  (forall c, c <> b -> blu w' c = blu w c) /\ w_protos w' = w_protos w.
Proof.
  induction l as [|v r IH]; simpl; intros w w' l' x H Hx.
  - injection H as <- <-. rewrite app_nil_r. unfold objs_of. rewrite Hx. simpl. auto 10.
  - destruct v; try discriminate. destruct (construct (w_protos w) cust (Some b) d) as [kw' [e|]]; [|discriminate].
    destruct (load_entities b cust r _) as [[w2 r'] o] eqn:E. injection H as <- <- ->.
    apply (IH _ _ _ (b_set_objs (b_objs x ++ [length (w_ents w)]) x)) in E.
    2: { rewrite blu_upd, Nat.eqb_refl. change (blu (new_ent e w) b) with (blu w b). rewrite Hx. reflexivity. }
    destruct E as (A & B & C & D & F & G). simpl in A, B, G. rewrite app_length in A, B. simpl in A, B.
    split; [|split; [|split; [|split; [|split]]]].
    + rewrite A. f_equal. rewrite <- app_assoc. simpl. do 2 f_equal. f_equal. lia.
    + lia.
    + simpl. auto.
    + intros i e0 He0. apply D. rewrite ent_upd_bp, ent_new.
      destruct (Nat.eqb_spec i (length (w_ents w))) as [->|]; auto. exfalso.
      assert (length (w_ents w) < length (w_ents w))%nat; [|lia]. apply nth_error_Some. unfold ent in He0. congruence.
    + intros c N. rewrite F by auto. rewrite blu_upd. destruct (Nat.eqb_spec b c); [congruence|]. reflexivity.
    + exact G.
Qed.
Lemma load_entities_list b cust data ents w w' l' u :
  iter_val (dataget data "entities" (VList [])) = Ok ents -> load_entities b cust ents w = (w', l', Ok u) ->
  ents = doc_list data "entities".
Proof.
  unfold dataget, doc_list. destruct (dget "entities" data) as [v|]; simpl.
  - destruct v; simpl; try discriminate.
    + intros [= <-]. auto.
    + intros [= <-]. destruct d as [|[k v] d]; simpl; auto. destruct k; discriminate.
  - intros [= <-]. auto.
Qed.

Lemma load_inner_ok b cust data w w' d' x : load_inner b cust data w = (w', d', Ok tt) -> blu w b = Some x ->
  exists w1 w2 l' w3 w4, load_head b data w = (w1, Ok tt) /\
    load_entities b cust (doc_list data "entities") w1 = (w2, l', Ok tt) /\
    sort_layer b w2 = (w3, Ok tt) /\ load_tail2 b data w3 = (w4, Ok tt) /\ load_scheds b data w4 = (w', Ok tt).
Proof.
  intros H Hx. unfold load_inner in H.
  destruct (load_head b data w) as [w1 [[]|e]] eqn:E1; [|discriminate].
  destruct (iter_val _) as [ents|] eqn:Ei; [|discriminate].
  destruct (load_entities b cust ents w1) as [[w2 l'] [[]|e]] eqn:E2; [|discriminate].
  destruct (load_tail b data w2) as [w4 [[]|e]] eqn:E3; [|discriminate].
  destruct (load_scheds b data w4) as [w5 r] eqn:E4. injection H as <- _ ->.
  pose proof (load_entities_list _ _ _ _ _ _ _ _ Ei E2) as ->.
  change (load_tail b data) with (mbind (sort_layer b) (fun _ => load_tail2 b data)) in E3.
  apply mbind_ok in E3 as ([] & w3 & E3 & E3'). exists w1, w2, l', w3, w4. auto 10.
Qed.
Lemma load_cases b doc w w' d' x : load b doc w = (w', d', Ok tt) -> blu w b = Some x ->
  exists i', load_inner b (b_custom x) (inner_doc doc) w = (w', i', Ok tt).
Proof.
  unfold load. intros H Hx. rewrite Hx in H. destruct doc; try discriminate. unfold inner_doc.
  destruct (dget "blueprint" d) as [v|].
  - destruct v; try discriminate. destruct (load_inner b (b_custom x) d0 w) as [[w1 i'] r]. injection H as <- <- ->. eauto.
  - destruct (load_inner b (b_custom x) d w) as [[w1 i'] r]. injection H as <- <- ->. eauto.
Qed.
Lemma good_False w : inv w -> good False w.
Proof. intros I. split; [auto|tauto]. Qed.
Lemma load_sorted b doc w w' d' x : inv w -> blu w b = Some x -> load b doc w = (w', d', Ok tt) ->
  sorted_layer w' b (b_objs x ++ seq (length (w_ents w)) (length (doc_list (inner_doc doc) "entities"))).
Proof.
  intros I Hx H. destruct (load_cases _ _ _ _ _ _ H Hx) as (i' & L). clear H.
  apply load_inner_ok with (x := x) in L as (w1 & w2 & l' & w3 & w4 & E1 & E2 & E3 & E4 & E5); auto.
  pose proof (frame_load_head _ _ b (inner_doc doc) w (frame_refl w)) as [F1 F1']. rewrite E1 in F1, F1'. simpl in F1, F1'.
  pose proof (keeps_load_head False b (inner_doc doc) w (good_False _ I)) as [I1 _]. rewrite E1 in I1. simpl in I1.
  assert (exists x1, blu w1 b = Some x1 /\ b_objs x1 = b_objs x) as (x1 & Hx1 & Ox1).
  { specialize (F1' b). unfold objs_of in F1'. rewrite Hx in F1'. destruct (blu w1 b); [|discriminate].
    injection F1' as F1'. eauto. }
  destruct (keeps_load_entities False b (b_custom x) (doc_list (inner_doc doc) "entities") w1 (good_False _ I1)) as [[I2 _] _]; [eauto|].
  rewrite E2 in I2. simpl in I2.
  apply load_entities_ok with (x := x1) in E2 as (A & _); auto.
  unfold objs_of in A. destruct (blu w2 b) as [x2|] eqn:Hx2; [|discriminate]. injection A as A.
  apply (sort_layer_sorted _ _ _ _ x2) in E3; auto.
  rewrite A, F1, Ox1 in E3.
  pose proof (frame_load_tail2 _ _ b (inner_doc doc) w3 (frame_refl w3)) as [F4 F4']. rewrite E4 in F4, F4'. simpl in F4, F4'.
  pose proof (frame_load_scheds _ _ b (inner_doc doc) w4 (frame_refl w4)) as [F5 F5']. rewrite E5 in F5, F5'. simpl in F5, F5'.
  eapply sorted_layer_frame; [| |exact E3]; congruence.
Qed.
Lemma p_C21_load w w' d' b doc x : reachable w -> blu w b = Some x -> load b doc w = (w', d', Ok tt) ->
  sorted_layer w' b (b_objs x ++ seq (length (w_ents w)) (length (doc_list (inner_doc doc) "entities"))).
Proof. intros R. apply load_sorted, reach_inv, R. Qed.

(** ** C22 *)
Lemma remove1_filter i l : NoDup l -> remove1 i l = filter (fun j => negb (Nat.eqb j i)) l.
Proof.
  induction 1 as [|x r Hx Hr IH]; simpl; auto. rewrite (Nat.eqb_sym x i).
  destruct (Nat.eqb_spec i x) as [->|N]; simpl; [|congruence].
  clear IH. induction r as [|y r IH]; simpl; auto.
  destruct (Nat.eqb_spec y x) as [->|]; simpl; [exfalso; apply Hx; left; auto|].
  f_equal. apply IH; [intros H; apply Hx; right; auto|inversion Hr; auto].
Qed.
Lemma drop_ok b i w x : blu w b = Some x -> In i (b_objs x) ->
  drop_obj b i w = (upd_ent i (with_layer None) (upd_bp b (b_set_objs (remove1 i (b_objs x))) w), Ok tt).
Proof.
  intros Hx Hi. unfold drop_obj, mbind, get_bp, gets. rewrite Hx. apply mem_nat_In in Hi. rewrite Hi. reflexivity.
Qed.
Lemma p_C22_remove w b i x : reachable w -> blu w b = Some x -> In i (b_objs x) ->
  snd (step (ORemove b (OEnt i)) w) = Ok tt /\
  dropped w (fst (step (ORemove b (OEnt i)) w)) b (Nat.eqb i).
Proof.
  intros R Hx Hi. apply reach_inv in R as I. simpl. rewrite (drop_ok _ _ _ _ Hx Hi). simpl. split; auto.
  split; [|split; [|split]]; simpl.
  - intros x' Hx'. assert (x' = x) as -> by congruence. rewrite blu_upd_ent, blu_upd, Nat.eqb_refl, Hx. simpl.
    rewrite remove1_filter by (eapply inv_nodup; eauto). do 2 f_equal. apply filter_ext. intros j. rewrite Nat.eqb_sym; auto.
  - intros c N. rewrite blu_upd_ent, blu_upd. destruct (Nat.eqb_spec b c); [congruence|auto].
  - intros j. rewrite ent_upd. reflexivity.
  - reflexivity.
Qed.
Lemma p_C22_absent w b i x : blu w b = Some x -> ~ In i (b_objs x) ->
  step (ORemove b (OEnt i)) w = (w, Err EValue).
Proof.
  intros Hx Hi. simpl. unfold drop_obj, mbind, get_bp, gets. rewrite Hx.
  destruct (mem_nat i (b_objs x)) eqn:E; auto. apply mem_nat_In in E. tauto.
Qed.

(** ** C23 *)
Lemma layer_at_eq b pt w x : blu w b = Some x -> layer_at b pt w = (w, at_list w pt (b_objs x)).
Proof. intros Hx. unfold layer_at, mbind, get_bp, gets. rewrite Hx. reflexivity. Qed.
Definition hitb (w : world) (pt : vec) (i : nat) : bool :=
  match ent w i with Some e => match collides (w_protos w) e pt with Ok c => c | Err _ => false end | None => false end.
Lemma at_list_filter w pt l r : at_list w pt l = Ok r -> r = filter (hitb w pt) l /\
  forall i, In i l -> exists e c, ent w i = Some e /\ collides (w_protos w) e pt = Ok c.
Proof.
  revert r. induction l as [|i l IH]; simpl; intros r H.
  - injection H as <-. split; auto. intros ? [].
  - unfold hitb at 1. destruct (ent w i) as [e|] eqn:He; [|discriminate].
    destruct (collides (w_protos w) e pt) as [c|] eqn:C; [|discriminate]. simpl in H.
    destruct (at_list w pt l) as [t|]; [|discriminate]. simpl in H. injection H as <-.
    destruct (IH t eq_refl) as [-> K]. split; [destruct c; auto|].
    intros j [<-|Hj]; eauto.
Qed.
Lemma grid_diff x y : game_num x -> game_num y -> exists z qx qy, nsub x y = Ok z /\
  nfin x qx /\ nfin y qy /\ nfin z (qx - qy).
Proof.
  intros (a & Ga & Ba) (c & Gc & Bc). destruct (grid_sub a c x y Ga Gc) as (z & Hz & Gz); try lia.
  exists z, (a # 256)%Q, (c # 256)%Q. split; auto. destruct Ga as [_ Fa], Gc as [_ Fc], Gz as [_ Fz].
  split; auto. split; auto. unfold nfin, xfin in *. destruct (nval z); try tauto.
  rewrite Fz. unfold Qminus, Qplus, Qopp, Qeq. simpl. lia.
Qed.
Lemma xlt_fin_r a z q : nfin z q -> (xlt a (nval z) <-> xlt a (XFin q)).
Proof.
  unfold nfin, xfin, xlt. destruct (nval z) as [| |p|]; try tauto. intros E. destruct a; simpl; try tauto.
  rewrite E. tauto.
Qed.
Lemma xlt_fin_l a z q : nfin z q -> (xlt (nval z) a <-> xlt (XFin q) a).
Proof.
  unfold nfin, xfin, xlt. destruct (nval z) as [| |p|]; try tauto. intros E. destruct a; simpl; try tauto.
  rewrite E. tauto.
Qed.
Lemma nfin_eq n q q' : nfin n q -> nfin n q' -> (q == q')%Q.
Proof. unfold nfin, xfin. destruct (nval n); try tauto. intros <- <-. reflexivity. Qed.
Lemma xlt_Q_r a q q' : (q == q')%Q -> xlt a (XFin q) -> xlt a (XFin q').
Proof. intros E. unfold xlt. destruct a; simpl; auto. rewrite E. auto. Qed.
Lemma xlt_Q_l a q q' : (q == q')%Q -> xlt (XFin q) a -> xlt (XFin q') a.
Proof. intros E. unfold xlt. destruct a; simpl; auto. rewrite E. auto. Qed.
Lemma collides_exact p e pt tl br pos : game_pos pt -> game_pos pos -> e_pos e = Some pos ->
  selection_box p e = Ok (tl, br) ->
  exists c, collides p e pt = Ok c /\ (c = true <-> strictly_inside tl br pos pt).
Proof.
  intros [Gx Gy] [Hx Hy] Ep Eb. unfold collides, pos_operand. rewrite Eb, Ep. simpl.
  unfold vsub, vop, vlift. simpl.
  destruct (grid_diff _ _ Gx Hx) as (zx & qx & qpx & Zx & Fx & Fpx & Fzx).
  destruct (grid_diff _ _ Gy Hy) as (zy & qy & qpy & Zy & Fy & Fpy & Fzy).
  rewrite Zx, Zy. simpl. eexists; split; [reflexivity|].
  unfold vltb. simpl. rewrite !andb_true_iff, !nltb_spec.
  rewrite (xlt_fin_r _ _ _ Fzx), (xlt_fin_r _ _ _ Fzy), (xlt_fin_l _ _ _ Fzx), (xlt_fin_l _ _ _ Fzy).
  split.
  - intros [[A B] [C D]]. exists qpx, qpy, qx, qy. auto 10.
  - intros (px & py & x & y & Gpx & Gpy & Gx' & Gy' & A & B & C & D).
    pose proof (nfin_eq _ _ _ Fpx Gpx) as E1. pose proof (nfin_eq _ _ _ Fpy Gpy) as E2.
    pose proof (nfin_eq _ _ _ Fx Gx') as E3. pose proof (nfin_eq _ _ _ Fy Gy') as E4.
    assert (EX : (x - px == qx - qpx)%Q) by (rewrite E1, E3; reflexivity).
    assert (EY : (y - py == qy - qpy)%Q) by (rewrite E2, E4; reflexivity).
    split; split; [eapply xlt_Q_r|eapply xlt_Q_r|eapply xlt_Q_l|eapply xlt_Q_l]; eauto.
Qed.
Lemma p_C23_lookup w b pt x : blu w b = Some x -> game_pos pt ->
  (forall i, In i (b_objs x) -> exists pos, has_pos w i pos /\ game_pos pos) ->
  fst (layer_at b pt w) = w /\
  (forall l, snd (layer_at b pt w) = Ok l ->
    exists f, l = filter f (b_objs x) /\ forall i, In i (b_objs x) -> (f i = true <-> covers w pt i)).
Proof.
  intros Hx Gp Hp. rewrite (layer_at_eq _ _ _ _ Hx). simpl. split; auto. intros l Hl.
  apply at_list_filter in Hl as [-> K]. exists (hitb w pt). split; auto. intros i Hi.
  destruct (K i Hi) as (e & c & He & Hc). unfold hitb. rewrite He, Hc.
  destruct (Hp i Hi) as (pos & (e' & He' & Ep) & Gpos). assert (e' = e) as -> by congruence.
  assert (exists tl br, selection_box (w_protos w) e = Ok (tl, br)) as (tl & br & Eb).
  { unfold collides in Hc. destruct (selection_box (w_protos w) e) as [[tl br]|]; [eauto|discriminate]. }
  destruct (collides_exact _ _ _ _ _ _ Gp Gpos Ep Eb) as (c' & Hc' & S). assert (c' = c) as -> by congruence.
  rewrite S. split.
  - intros H. exists e, tl, br, pos. auto.
  - intros (e1 & tl1 & br1 & pos1 & He1 & Eb1 & Ep1 & S1). congruence.
Qed.

Lemma dropped_refl w b : dropped w w b (fun _ => false).
Proof.
  split; [|split; [|split]]; auto. intros x Hx. rewrite Hx. f_equal. destruct x; unfold b_set_objs; simpl. f_equal.
  clear. induction b_objs as [|i l IH]; simpl; [auto|f_equal; auto].
Qed.
Lemma filter_filter {X} (f g : X -> bool) l : filter f (filter g l) = filter (fun x => g x && f x) l.
Proof.
  induction l as [|x l IH]; simpl; auto. destruct (g x); simpl; rewrite ?IH; auto. 
Qed.
Lemma dropped_trans w w1 w2 b x f g : blu w b = Some x -> dropped w w1 b f -> dropped w1 w2 b g ->
  dropped w w2 b (fun i => f i || g i).
Proof.
  intros Hx (A1 & A2 & A3 & A4) (B1 & B2 & B3 & B4). split; [|split; [|split]].
  - intros x' Hx'. assert (x' = x) as -> by congruence. rewrite (B1 _ (A1 _ Hx)). f_equal.
    unfold b_set_objs; simpl. rewrite filter_filter. f_equal. apply filter_ext. intros i. rewrite negb_orb. auto.
  - intros c N. rewrite B2, A2; auto.
  - intros i. rewrite B3, A3. destruct (f i), (g i); simpl; auto. destruct (ent w i); reflexivity.
  - congruence.
Qed.
Lemma dropped_ext w w' b f g : (forall i, f i = g i) -> dropped w w' b f -> dropped w w' b g.
Proof.
  intros E (A1 & A2 & A3 & A4). split; [|split; [|split]]; auto.
  - intros x Hx. rewrite (A1 _ Hx). do 2 f_equal. apply filter_ext. intros; rewrite E; auto.
  - intros i. rewrite A3, E. auto.
Qed.
Lemma drop_dropped b i w x : NoDup (b_objs x) -> blu w b = Some x -> In i (b_objs x) ->
  exists w', drop_obj b i w = (w', Ok tt) /\ dropped w w' b (Nat.eqb i).
Proof.
  intros N Hx Hi. rewrite (drop_ok _ _ _ _ Hx Hi). eexists; split; [reflexivity|].
  split; [|split; [|split]]; simpl.
  - intros x' Hx'. assert (x' = x) as -> by congruence. rewrite blu_upd_ent, blu_upd, Nat.eqb_refl, Hx. simpl.
    rewrite remove1_filter by auto. do 2 f_equal. apply filter_ext. intros j. rewrite Nat.eqb_sym; auto.
  - intros c Nc. rewrite blu_upd_ent, blu_upd. destruct (Nat.eqb_spec b c); [congruence|auto].
  - intros j. rewrite ent_upd. reflexivity.
  - reflexivity.
Qed.
Lemma forM_drop b l : forall w x, blu w b = Some x -> NoDup (b_objs x) -> NoDup l -> (forall i, In i l -> In i (b_objs x)) ->
  exists w', forM (drop_obj b) l w = (w', Ok tt) /\ dropped w w' b (fun i => existsb (Nat.eqb i) l).
Proof.
  induction l as [|i l IH]; intros w x Hx N Nl Hl.
  - exists w. split; [reflexivity|apply dropped_refl].
  - inversion Nl as [|? ? Hi Nl']; subst.
    destruct (drop_dropped b i w x N Hx (Hl i (or_introl eq_refl))) as (w1 & E1 & D1).
    destruct (IH w1 (b_set_objs (filter (fun j => negb (Nat.eqb i j)) (b_objs x)) x)) as (w2 & E2 & D2); auto.
    + apply D1, Hx.
    + simpl. apply NoDup_filter, N.
    + intros j Hj. simpl. apply filter_In. split; [apply Hl; right; auto|].
      destruct (Nat.eqb_spec i j); [congruence|auto].
    + exists w2. split.
      * unfold forM in *. simpl. rewrite E1. exact E2.
      * eapply dropped_ext; [|eapply dropped_trans; eauto]. intros j. simpl. rewrite (Nat.eqb_sym i j). auto.
Qed.
Lemma p_C23_delete w b pt x l : reachable w -> blu w b = Some x -> snd (layer_at b pt w) = Ok l ->
  snd (step (ODelAt b pt) w) = Ok tt /\
  dropped w (fst (step (ODelAt b pt) w)) b (fun i => existsb (Nat.eqb i) l).
Proof.
  intros R Hx Hl. apply reach_inv in R as I. simpl. unfold layer_del_at, mbind.
  rewrite (layer_at_eq _ _ _ _ Hx) in *. simpl in Hl. rewrite Hl. simpl.
  pose proof (inv_nodup _ I _ _ Hx) as N. apply at_list_filter in Hl as [-> K].
  destruct (forM_drop b (filter (hitb w pt) (b_objs x)) w x Hx N) as (w' & E & D).
  - apply NoDup_filter, N.
  - intros i Hi. apply filter_In in Hi. tauto.
  - rewrite E. auto.
Qed.
Lemma p_C23_delete_fails w b pt x err : blu w b = Some x -> snd (layer_at b pt w) = Err err ->
  step (ODelAt b pt) w = (w, Err err).
Proof.
  intros Hx Hl. simpl. unfold layer_del_at, mbind. rewrite (layer_at_eq _ _ _ _ Hx) in *. simpl in Hl. rewrite Hl. auto.
Qed.

(** ** C24 *)
Lemma p_C24_construct w b kw x err : blu w b = Some x ->
  snd (construct (w_protos w) (b_custom x) (Some b) kw) = Err err -> step (OMake b kw) w = (w, Err err).
Proof.
  intros Hx H. simpl. unfold layer_make, new_entity, mbind, get_bp, gets, ret. rewrite Hx, H. reflexivity.
Qed.
Lemma sort_layer_eq b w x : blu w b = Some x -> sort_layer b w =
  match sorted_objs w (b_objs x) with
  | Ok l => (reindex 1 l (upd_bp b (b_set_objs l) w), Ok tt)
  | Err e => (w, Err e)
  end.
Proof.
  intros Hx. unfold sort_layer, mbind, get_bp, gets, modify. rewrite Hx. destruct (sorted_objs _ _); reflexivity.
Qed.
Lemma layer_add_eq b i w e x : ent w i = Some e -> blu w b = Some x -> ~ In i (b_objs x) ->
  e_layer e = None \/ e_layer e = Some b ->
  layer_add b (OEnt i) w =
  sort_layer b (upd_ent i (with_layer (Some b)) (upd_bp b (b_set_objs (b_objs x ++ [i])) w)).
Proof.
  intros He Hx Hn HL. unfold layer_add, mbind, get_ent, get_bp, gets, modify. rewrite He, Hx.
  assert (negb (opt_nat_eqb (e_layer e) None) && negb (opt_nat_eqb (e_layer e) (Some b)) = false) as ->.
  { destruct HL as [-> | ->]; simpl; auto. rewrite Nat.eqb_refl. auto. }
  destruct (mem_nat i (b_objs x)) eqn:E; auto. apply mem_nat_In in E. tauto.
Qed.
(** listing a freshly made entity *)
Definition listed_new (b : nat) (x : bp) (e : entity) (w : world) : world :=
  upd_ent (length (w_ents w)) (with_layer (Some b))
    (upd_bp b (b_set_objs (b_objs x ++ [length (w_ents w)])) (new_ent e w)).
Lemma layer_make_eq b kw w x e : inv w -> blu w b = Some x ->
  snd (construct (w_protos w) (b_custom x) (Some b) kw) = Ok e ->
  layer_make b kw w = let '(w', r) := sort_layer b (listed_new b x e w) in
                      (w', let! _ := r in Ok (length (w_ents w))).
Proof.
  intros I Hx H. unfold layer_make.
  assert (N : new_entity (Some b) kw w = (new_ent e w, Ok (length (w_ents w)))).
  { unfold new_entity, mbind, get_bp, gets, ret. rewrite Hx, H. reflexivity. }
  unfold mbind at 1. rewrite N. unfold mbind, ret.
  rewrite (layer_add_eq b (length (w_ents w)) (new_ent e w) e x).
  - unfold listed_new. destruct (sort_layer b _) as [w' [[]|y]]; reflexivity.
  - rewrite ent_new, Nat.eqb_refl. auto.
  - exact Hx.
  - apply fresh_not_listed with (b := b); auto.
  - right. eapply construct_layer; eauto.
Qed.
Lemma listed_new_blu b x e w : blu w b = Some x ->
  blu (listed_new b x e w) b = Some (b_set_objs (b_objs x ++ [length (w_ents w)]) x).
Proof.
  intros Hx. unfold listed_new. rewrite blu_upd_ent, blu_upd, Nat.eqb_refl.
  change (blu (new_ent e w) b) with (blu w b). rewrite Hx. reflexivity.
Qed.
(** if make raises although construction succeeded, the new entity stays listed, unnumbered *)
Lemma p_C24_late w b kw x e err : reachable w -> blu w b = Some x ->
  snd (construct (w_protos w) (b_custom x) (Some b) kw) = Ok e -> snd (step (OMake b kw) w) = Err err ->
  let w' := fst (step (OMake b kw) w) in
  (err = EAttribute \/ err = EUnmodelled) /\
  objs_of w' b = Some (b_objs x ++ [length (w_ents w)]) /\
  ent w' (length (w_ents w)) = Some e /\ (forall i, i <> length (w_ents w) -> ent w' i = ent w i).
Proof.
  intros R Hx H. apply reach_inv in R as I. cbv zeta. cbn [step].
  rewrite (layer_make_eq b kw w x e I Hx H), (sort_layer_eq _ _ _ (listed_new_blu _ _ _ _ Hx)).
  pose proof (construct_layer _ _ _ _ _ H) as HL. cbn [b_set_objs b_objs].
  destruct (sorted_objs _ _) as [l|y] eqn:Es; simpl; [discriminate|]. intros [= ->].
  split; [|split; [|split]].
  - unfold sorted_objs in Es. destruct (mapM _ _) eqn:Em; [discriminate|]. injection Es as ->.
    apply mapM_err in Em as (i & _ & Em). destruct (ent _ i) as [ei|]; [|injection Em as <-; auto].
    unfold pos_key in Em. destruct (e_pos ei); [|injection Em as <-; auto].
    destruct (_ || _); [injection Em as <-; auto|discriminate].
  - unfold objs_of. rewrite (listed_new_blu _ _ _ _ Hx). reflexivity.
  - unfold listed_new. rewrite ent_upd, Nat.eqb_refl, ent_upd_bp, ent_new, Nat.eqb_refl. simpl. f_equal.
    rewrite <- HL. destruct e; reflexivity.
  - intros i Ni. unfold listed_new. rewrite ent_upd, ent_upd_bp, ent_new.
    destruct (Nat.eqb_spec (length (w_ents w)) i); [congruence|].
    destruct (Nat.eqb_spec i (length (w_ents w))); [congruence|auto].
Qed.
Lemma construct_pos p cust l kw e v : snd (construct p cust l kw) = Ok e -> dget "position" kw = Some v ->
  vec_of_val v = Ok (e_pos e).
Proof.
  unfold construct. destruct (_ || _); [discriminate|].
  destruct (dget "name" kw) as [n|]; [|discriminate].
  destruct (dget "position" kw) as [q|]; [|discriminate].
  destruct (set_name _ _ _ _) as [e1 [u|y]]; [|discriminate].
  intros H [= <-]. destruct (vec_of_val q) as [pos|]; [|discriminate]. simpl in H.
  destruct (dir_of_val _) as [dir|]; [|discriminate]. simpl in H.
  destruct (dget "control_behavior" kw) as [cb|].
  - destruct (as_kwargs cb) as [cbkw|]; [|discriminate].
    destruct (dmem "self" cbkw || dmem "_entity" cbkw); [discriminate|].
    destruct (cb_init_chain _ _ _ _ _ _) as [st [a|y]]; [|discriminate].
    simpl in H. destruct (init_chain _ _ _ _ _ _); simpl in H; [|discriminate]. injection H as <-. reflexivity.
  - simpl in H. destruct (init_chain _ _ _ _ _ _); simpl in H; [|discriminate]. injection H as <-. reflexivity.
Qed.

(** ** C38 *)
Lemma p_C38_empty w b x : reachable w -> blu w b = Some x -> b_tiles x = [].
Proof. intros R. apply reach_inv in R. apply (inv_tiles _ R). Qed.
Lemma p_C38_add w b t x : blu w b = Some x ->
  step (OTilesAdd b (Some t)) w = (w, Err EAttribute) /\ step (OTilesAdd b None) w = (w, Err EType).
Proof. intros Hx. simpl. unfold tiles_add, mbind, get_bp, gets. rewrite Hx. auto. Qed.
Lemma p_C38_make w b kw : fst (step (OTilesMake b kw) w) = w /\ exists err, snd (step (OTilesMake b kw) w) = Err err.
Proof.
  simpl. unfold tiles_make, tiles_add, mbind, get_bp, gets. destruct (blu w b); simpl; [|eauto].
  destruct (all_KS kw); simpl; [|eauto]. destruct (_ || _); simpl; [eauto|].
  destruct (tile_init _ _) as [t|] eqn:E; simpl; [|eauto]. apply tile_init_layer in E. tauto.
Qed.
(** for a description whose name is known and whose position is a point *)
Lemma p_C38_make_type w b x (name : string) (pos : val) v (kw : dict) : blu w b = Some x ->
  dmem name (p_tile (w_protos w)) = true -> vec_of_val pos = Ok v ->
  dget "name" kw = Some (VStr name) -> dget "position" kw = Some pos ->
  step (OTilesMake b kw) w = (w, Err EType).
Proof.
  intros Hx Hn Hv E1 E2. simpl. unfold tiles_make, mbind, get_bp, gets. rewrite Hx. simpl.
  destruct (all_KS kw); simpl; auto. destruct (_ || _); simpl; auto.
  unfold tile_init. simpl. rewrite E1. simpl. rewrite Hn. simpl. rewrite E2, Hv. reflexivity.
Qed.
Lemma load_tail2_tiles b data w w' : load_tail2 b data w = (w', Ok tt) -> iter_val (dataget data "tiles" (VList [])) = Ok [].
Proof.
  unfold load_tail2. intros H. apply mbind_ok in H as ([] & w1 & _ & H). apply mbind_ok in H as (tiles & w2 & E & H).
  unfold gets in E. injection E as <- E. apply mbind_ok in H as (x & w3 & _ & H). apply mbind_ok in H as ([] & w4 & H & _).
  destruct tiles as [|v r]; auto. exfalso. simpl in H. destruct (load_tile_never (w_protos w3) (b_tiles x) v) as [_ [e E']].
  destruct (load_tile (b_tiles x) (w_protos w3) v) as [a o]. simpl in E'. subst. discriminate.
Qed.
Lemma p_C38_load w b doc w' d' r : doc_list (inner_doc doc) "tiles" <> [] -> load b doc w = (w', d', r) ->
  exists err, r = Err err.
Proof.
  intros N H. destruct r as [[]|err]; [|eauto]. exfalso. apply N.
  assert (exists x, blu w b = Some x) as (x & Hx). { unfold load in H. destruct (blu w b); [eauto|discriminate]. }
  destruct (load_cases _ _ _ _ _ _ H Hx) as (i' & L).
  apply load_inner_ok with (x := x) in L as (w1 & w2 & l' & w3 & w4 & E1 & E2 & E3 & E4 & E5); auto.
  apply load_tail2_tiles in E4. unfold doc_list, dataget in *. destruct (dget "tiles" (inner_doc doc)) as [v|]; auto.
  destruct v; auto. simpl in E4. congruence.
Qed.

(** ** C45 *)
Lemma key_eqb_eq a b : key_eqb a b = true <-> a = b.
Proof.
  destruct a, b; simpl; split; intros H; try discriminate; try (apply String.eqb_eq in H; congruence);
    try (injection H as <-; apply String.eqb_refl); try (apply Z.eqb_eq in H; congruence);
    injection H as <-; apply Z.eqb_refl.
Qed.
Lemma dget_dset {V} k (v : V) d k' : dget k' (dset k v d) = if key_eqb k' k then Some v else dget k' d.
Proof.
  induction d as [|[k0 v0] d IH]; simpl; auto.
  destruct (key_eqb k k0) eqn:E; simpl.
  - apply key_eqb_eq in E as ->. destruct (key_eqb k' k0); auto.
  - rewrite IH. destruct (key_eqb k' k0) eqn:E'; auto. apply key_eqb_eq in E' as ->.
    destruct (key_eqb k0 k) eqn:E2; auto. apply key_eqb_eq in E2 as ->. rewrite (proj2 (key_eqb_eq k k) eq_refl) in E. discriminate.
Qed.

Lemma key_eqb_refl k : key_eqb k k = true.
Proof. apply key_eqb_eq. reflexivity. Qed.
Lemma dget_in {V} k (d : list (key * V)) : dget k d <> None <-> In k (map fst d).
Proof.
  induction d as [|[k' v] d IH]; simpl; [split; [congruence|tauto]|].
  destruct (key_eqb k k') eqn:E.
  - apply key_eqb_eq in E as ->. split; [auto|discriminate].
  - rewrite IH. split; [auto|]. intros [->|H]; auto. rewrite key_eqb_refl in E. discriminate.
Qed.
Lemma dget_dmerge {V} (b : list (key * V)) : NoDup (map fst b) -> forall a k,
  dget k (dmerge a b) = match dget k b with Some v => Some v | None => dget k a end.
Proof.
  unfold dmerge. induction b as [|[k0 v0] b IH]; simpl; intros N a k; auto.
  inversion N as [|? ? Hk N']; subst. rewrite (IH N').
  destruct (key_eqb k k0) eqn:E.
  - apply key_eqb_eq in E as ->. destruct (dget k0 b) eqn:D.
    + exfalso. apply Hk, dget_in. congruence.
    + rewrite dget_dset, key_eqb_refl. auto.
  - destruct (dget k b); auto. rewrite dget_dset, E. auto.
Qed.
Lemma p_C45_set w t append data : NoDup (map fst data) ->
  let w' := fst (step (OSetTable t append data) w) in
  snd (step (OSetTable t append data) w) = Ok tt /\ w_ents w' = w_ents w /\ w_bps w' = w_bps w /\
  (forall t', t' <> t -> table_of t' (w_protos w') = table_of t' (w_protos w)) /\
  (append = false -> table_of t (w_protos w') = data) /\
  (append = true -> forall k, dget k (table_of t (w_protos w')) =
     match dget k data with Some v => Some v | None => dget k (table_of t (w_protos w)) end).
Proof.
  intros N. cbv zeta. simpl. split; [auto|]. split; [auto|]. split; [auto|]. split; [|split].
  - destruct t, t'; simpl; congruence.
  - intros ->. destruct t; reflexivity.
  - intros -> k. destruct t; simpl; apply dget_dmerge, N.
Qed.
Lemma p_C45_import w data append d : let file := VDict data in
  (forall t, dget (table_name t) data = Some (VDict (d t))) ->
  snd (step (OImport file append) w) = Ok tt /\
  forall t, table_of t (w_protos (fst (step (OImport file append) w))) =
            table_of t (w_protos (fst (step (OSetTable t append (d t)) w))).
Proof.
  intros file H. unfold file. simpl.
  unfold import_prototype_data, import_order, import_table. simpl.
  pose proof (H TEntity) as H1. pose proof (H TRecipe) as H2. pose proof (H TItem) as H3.
  pose proof (H TSignal) as H4. pose proof (H TTile) as H5. simpl in H1, H2, H3, H4, H5.
  rewrite H1, H2, H3, H4, H5. simpl. split; auto. intros []; reflexivity.
Qed.
(** an import that raises KeyError has updated exactly the tables before the first missing one *)
Lemma p_C45_import_fails w data append d (n : nat) : let file := VDict data in
  (n < 5)%nat ->
  (forall t, (table_rank t < n)%nat -> dget (table_name t) data = Some (VDict (d t))) ->
  (forall t, table_rank t = n -> dget (table_name t) data = None) ->
  snd (step (OImport file append) w) = Err EKey /\
  forall t, table_of t (w_protos (fst (step (OImport file append) w))) =
            if Nat.ltb (table_rank t) n then table_of t (w_protos (fst (step (OSetTable t append (d t)) w)))
            else table_of t (w_protos w).
Proof.
  intros file Ln H N. unfold file. simpl.
  unfold import_prototype_data, import_order, import_table. simpl.
  pose proof (H TEntity) as H1. pose proof (H TRecipe) as H2. pose proof (H TItem) as H3.
  pose proof (H TSignal) as H4. pose proof (H TTile) as H5. 
  pose proof (N TEntity) as N1. pose proof (N TRecipe) as N2. pose proof (N TItem) as N3.
  pose proof (N TSignal) as N4. pose proof (N TTile) as N5. simpl in H1, H2, H3, H4, H5, N1, N2, N3, N4, N5.
  clear H N.
  destruct n as [|[|[|[|[|]]]]]; [| | | | |lia].
  - rewrite N1 by auto. simpl. split; [auto|intros []; reflexivity].
  - rewrite H1, N2 by lia. simpl. split; [auto|intros []; reflexivity].
  - rewrite H1, H2, N3 by lia. simpl. split; [auto|intros []; reflexivity].
  - rewrite H1, H2, H3, N4 by lia. simpl. split; [auto|intros []; reflexivity].
  - rewrite H1, H2, H3, H4, N5 by lia. simpl. split; [auto|intros []; reflexivity].
Qed.

(** ** C49 *)
Lemma find_number_spec w n l : match find_number w n l with
  | Some i => exists pre post, l = pre ++ i :: post /\ (exists e, ent w i = Some e /\ py_eqb (e_number e) n = true) /\
                (forall j e, In j pre -> ent w j = Some e -> py_eqb (e_number e) n = false)
  | None => forall j e, In j l -> ent w j = Some e -> py_eqb (e_number e) n = false
  end.
Proof.
  induction l as [|i r IH]; simpl; [intros j e []|].
  destruct (ent w i) as [e|] eqn:He.
  - destruct (py_eqb (e_number e) n) eqn:En.
    + exists [], r. split; [auto|]. split; [eauto|]. intros j e' [].
    + destruct (find_number w n r) as [k|].
      * destruct IH as (pre & post & -> & A & B). exists (i :: pre), post. split; [auto|]. split; [auto|].
        intros j e' [<-|Hj]; [congruence|eauto].
      * intros j e' [<-|Hj]; [congruence|eauto].
  - destruct (find_number w n r) as [k|].
    + destruct IH as (pre & post & -> & A & B). exists (i :: pre), post. split; [auto|]. split; [auto|].
      intros j e' [<-|Hj]; [congruence|eauto].
    + intros j e' [<-|Hj]; [congruence|eauto].
Qed.
Lemma py_eqb_int v z : py_eqb v (VInt z) = true <-> denotes v z.
Proof.
  destruct v; simpl; try (split; [discriminate|tauto]).
  - rewrite neqb_int. destruct b; rewrite Z.eqb_eq; split; auto.
  - rewrite neqb_int, Z.eqb_eq. tauto.
  - rewrite neqb_spec. unfold ffin, xfin, xeq. cbn [nval]. destruct (fval f) as [| |q|]; simpl; try (split; [discriminate|tauto]).
    rewrite Qeq_alt. change (inject_Z z) with (z # 1). split; [intros H; injection H; auto|congruence].
Qed.
Lemma p_C49_lookup w b x z : blu w b = Some x ->
  (forall i, get_entity_by_id w b (VInt z) = Some i ->
     exists pre post e, b_objs x = pre ++ i :: post /\ ent w i = Some e /\ denotes (e_number e) z /\
       forall j f, In j pre -> ent w j = Some f -> ~ denotes (e_number f) z) /\
  (get_entity_by_id w b (VInt z) = None ->
     forall j f, In j (b_objs x) -> ent w j = Some f -> ~ denotes (e_number f) z).
Proof.
  intros Hx. unfold get_entity_by_id. rewrite Hx. pose proof (find_number_spec w (VInt z) (b_objs x)) as S.
  assert (D : forall v, py_eqb v (VInt z) = false -> ~ denotes v z).
  { intros v H C. apply py_eqb_int in C. congruence. }
  split.
  - intros i E. rewrite E in S. destruct S as (pre & post & Ho & (e & He & En) & B).
    exists pre, post, e. split; [auto|]. split; [auto|]. split; [apply py_eqb_int, En|]. eauto.
  - intros E. rewrite E in S. eauto.
Qed.

