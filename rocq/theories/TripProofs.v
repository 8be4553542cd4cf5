(** * Round trips of entity descriptions. *)
From Coq Require Import Lia QArith.
From Verif Require Import Py Num NumFacts Util Classes Mixins Entity World DictFacts DocProofs SpecDoc SpecEntity SpecTrip ChainFacts EntProofs CbProofs DefaultEntities.
Open Scope Z_scope.

Definition wrote (kw : dict) (ks : list string) (obj obj' : dict) : Prop :=
  (forall k, (forall s, k = KS s -> ~ In s ks) -> dget k obj' = dget k obj) /\
  (forall s, In s ks -> match dget (KS s) kw with
                        | Some v => exists u, dget (KS s) obj' = Some u /\ jeq v u
                        | None => dget (KS s) obj' = dget (KS s) obj end).
Definition trip (p : protos) (cls : list scls) (c : scls) (kw : dict) : Prop :=
  exists a, mats p true cls c kw = Ok a /\
  forall at_ dir obj, (forall s, In s (mattrs c) -> dget (KS s) at_ = dget (KS s) a) ->
    exists obj', json_mixin p dir c at_ obj = Ok obj' /\ wrote kw (mkeys c) obj obj'.

Lemma wrote_nil kw obj : wrote kw [] obj obj.
Proof. split; [auto|contradiction]. Qed.
Lemma wrote_one kw obj (s : string) u : (forall v, dget (KS s) kw = Some v -> u <> VNone /\ jeq v u) -> (dget (KS s) kw = None -> u = VNone) ->
  wrote kw [s] obj (obj_set obj s u).
Proof.
  intros H N. split.
  - intros k NI. unfold obj_set. assert (X : k <> KS s) by (intros ->; apply (NI s); cbn; auto).
    destruct u; auto; rewrite dget_dset'; destruct (key_eqb k s) eqn:E; auto; apply key_eqb_eq in E; contradiction.
  - intros s' [<-|[]]. destruct (dget (KS s) kw) as [v|].
    + destruct (H v eq_refl) as (NV & J). exists u. split; auto. unfold obj_set. destruct u; try congruence; now rewrite dget_dset', key_eqb_refl.
    + rewrite (N eq_refl). reflexivity.
Qed.
Lemma wrote_put kw obj (s : string) u v : dget (KS s) kw = Some v -> jeq v u -> wrote kw [s] obj (dset (KS s) u obj).
Proof.
  intros H J. split.
  - intros k NI. assert (X : k <> KS s) by (intros ->; apply (NI s); cbn; auto).
    rewrite dget_dset'; destruct (key_eqb k s) eqn:E; auto; apply key_eqb_eq in E; contradiction.
  - intros s' [<-|[]]. rewrite H. exists u. split; auto. now rewrite dget_dset', key_eqb_refl.
Qed.
Lemma wrote_skip kw obj (s : string) : dget (KS s) kw = None -> wrote kw [s] obj obj.
Proof. intros H. split; auto. intros s' [<-|[]]. now rewrite H. Qed.
Lemma wrote_app kw a b o o1 o2 : wrote kw a o o1 -> wrote kw b o1 o2 -> (forall s, In s a -> ~ In s b) -> wrote kw (a ++ b) o o2.
Proof.
  intros (A1 & A2) (B1 & B2) D. split.
  - intros k N. rewrite B1, A1; auto; intros s E I; apply (N s E), in_or_app; auto.
  - intros s I. apply in_app_or in I as [I|I].
    + specialize (A2 s I). rewrite (B1 (KS s)) by (intros s' [= <-]; auto). exact A2.
    + specialize (B2 s I). destruct (dget (KS s) kw); auto. rewrite B2. apply A1. intros s' [= <-] J. now apply (D s).
Qed.
Lemma wrote_perm kw a b o o' : (forall s, In s a <-> In s b) -> wrote kw a o o' -> wrote kw b o o'.
Proof.
  intros P (A1 & A2). split.
  - intros k N. apply A1. intros s E I. apply (N s E). now apply P.
  - intros s I. apply A2. now apply P.
Qed.

(** ** jeq *)
Lemma jeq_same d e ks : keys_within d ks -> keys_within e ks -> (forall s, In s ks -> same_at (KS s) d e) -> jeq (VDict d) (VDict e).
Proof.
  intros KD KE H. assert (A : forall k, same_at k d e).
  { intros k. destruct (dget k d) as [v|] eqn:D.
    - destruct (KD k) as (s & -> & I); [congruence|]. now apply H.
    - destruct (dget k e) as [u|] eqn:E; [|unfold same_at; now rewrite D, E]. destruct (KE k) as (s & -> & I); [congruence|]. now apply H. }
  apply jeq_dict.
  - intros k v D. specialize (A k). unfold same_at in A. rewrite D in A. destruct (dget k e) as [u|]; [eauto|contradiction].
  - intros k D. specialize (A k). unfold same_at in A. rewrite D in A. destruct (dget k e); [contradiction|auto].
Qed.
Lemma within_listed (e : dict) ks : map fst e = map KS ks -> keys_within e ks.
Proof.
  intros E k N. destruct (dget k e) as [v|] eqn:D; [|congruence]. apply dget_in in D. apply (in_map fst) in D. cbn in D. rewrite E in D.
  apply in_map_iff in D as (s & <- & I). eauto.
Qed.
Lemma same_some (k : key) d e v u : dget k d = Some v -> dget k e = Some u -> jeq v u -> same_at k d e.
Proof. intros D E J. unfold same_at. now rewrite D, E. Qed.
Lemma same_none (k : key) d e : dget k d = None -> dget k e = None -> same_at k d e.
Proof. intros D E. unfold same_at. now rewrite D, E. Qed.

(** ** values *)
Lemma point_trip v : point_doc v -> exists w, vec_of_val v = Ok (Some w) /\ jeq v (vec_to_json w).
Proof.
  intros (d & x & y & -> & K & X & Y & NX & NY). cbn [vec_of_val]. rewrite X, Y.
  assert (N : forall u, is_number u -> exists n, num_of_val u = Ok n /\ val_of_num n = u).
  { intros u [(z & ->)|(f & ->)]; cbn; eexists; split; reflexivity. }
  destruct (N _ NX) as (a & -> & EA). destruct (N _ NY) as (b & -> & EB). cbn [bind]. eexists. split; [reflexivity|].
  unfold vec_to_json. cbn [vx vy]. rewrite EA, EB. apply (jeq_same _ _ ["x"; "y"]); auto.
  - now apply within_listed.
  - intros s [<-|[<-|[]]]; eapply same_some; eauto; try reflexivity; constructor.
Qed.
Lemma unit_mod f : unit_float f -> fmodulo f fone = f.
Proof.
  intros [->|(m & e & -> & V & L)]; [reflexivity|]. unfold fmodulo.
  assert (E : ffmod (S754_finite false m e) fone = S754_finite false m e); [|rewrite E; reflexivity].
  unfold ffmod, fone. cbn [cond_Zopp]. set (ez := Z.min e (-52)).
  assert (P : 0 < 2 ^ (e - ez)) by (apply Z.pow_pos_nonneg; lia).
  assert (Q : 0 < 2 ^ (-52 - ez)) by (apply Z.pow_pos_nonneg; lia).
  assert (LT : Zpos m * 2 ^ (e - ez) < 4503599627370496 * 2 ^ (-52 - ez)).
  { assert (F1 : nfin (NF (S754_finite false m e)) (dyadic (Zpos m) e)) by (unfold nfin; cbn; reflexivity).
    assert (F2 : nfin (NI 1) (dyadic 4503599627370496 (-52))) by (unfold nfin; cbn; reflexivity).
    apply (nfin_nltb _ _ _ _ F1 F2) in L.
    pose proof (dyadic_shift (Zpos m) e (e - ez) ltac:(lia)) as D1. replace (e - (e - ez)) with ez in D1 by lia.
    pose proof (dyadic_shift 4503599627370496 (-52) (-52 - ez) ltac:(lia)) as D2. replace (-52 - (-52 - ez)) with ez in D2 by lia.
    rewrite <- D1, <- D2 in L. clear - L. unfold Qlt in L. unfold dyadic in L. destruct ez; cbn [Qnum Qden] in L; nia. }
  rewrite Z.rem_small by lia.
  assert (A : 0 < Zpos m * 2 ^ (e - ez)) by lia. destruct (Zpos m * 2 ^ (e - ez)) as [|a|a] eqn:EA; try lia.
  apply normalize_pos_exact; [exact V|]. apply (veq_base ez); [lia|lia|]. rewrite Z.sub_diag, Z.pow_0_r, Z.mul_1_r. now rewrite <- EA.
Qed.
Lemma channel_trip v : channel_doc v -> exists n, chan_arg (Some v) = Ok n /\ val_of_num (clamp n) = v.
Proof.
  intros [->|[->|(f & -> & U)]]; [eexists; split; reflexivity|eexists; split; reflexivity|].
  exists (NF f). split; [reflexivity|]. unfold clamp, nmin, nmax.
  assert (L : nltb (NF f) (NI 1) = true) by (destruct U as [->|(m & e & -> & _ & L)]; [reflexivity|exact L]). rewrite L.
  assert (G : ngtb (NI 0) (NF f) = false).
  { destruct U as [->|(m & e & -> & _ & _)]; [reflexivity|]. destruct (ngtb _ _) eqn:X; auto. rewrite ngtb_nltb in X.
    assert (F1 : nfin (NF (S754_finite false m e)) (dyadic (Zpos m) e)) by (unfold nfin; cbn; reflexivity).
    assert (F2 : nfin (NI 0) (dyadic 0 e)) by (unfold nfin; cbn; now rewrite dyadic_0).
    apply (nfin_nltb _ _ _ _ F1 F2) in X. unfold Qlt, dyadic in X. destruct e; cbn [Qnum Qden] in X; nia. }
  rewrite G. reflexivity.
Qed.
Lemma within_ddel d k ks : keys_within d (k :: ks) -> keys_within (ddel (KS k) d) ks.
Proof.
  intros H x N. rewrite dget_ddel in N. destruct (key_eqb x k) eqn:E; [congruence|]. apply key_eqb_neq in E. destruct (H x N) as (s & -> & [<-|I]); [congruence|]. eauto.
Qed.
Lemma within_nil d : keys_within d [] -> d = [].
Proof. intros H. apply dget_none_nil. intros k. destruct (dget k d) eqn:E; auto. destruct (H k) as (s & _ & []). congruence. Qed.
Lemma within_perm d ks ks' : (forall s, In s ks -> In s ks') -> keys_within d ks -> keys_within d ks'.
Proof. intros P H k N. destruct (H k N) as (s & -> & I). eauto. Qed.
Lemma within_KS (d : dict) ks : keys_within d ks -> all_KS d = true.
Proof.
  intros H. destruct (all_KS d) eqn:A; auto. exfalso.
  assert (X : exists z, dget (KI z) d <> None).
  { clear H. induction d as [|[[s|z] v] d IH]; cbn in A; [discriminate| |]; [|exists z; cbn; rewrite Z.eqb_refl; discriminate].
    destruct (IH A) as (z & Z0). exists z. cbn. exact Z0. }
  destruct X as (z & N). destruct (H _ N) as (s & E & _). discriminate.
Qed.
Lemma colour_trip v : colour_doc v -> exists c, color_of_val v = Ok c /\ jeq v (color_to_json c).
Proof.
  intros (d & -> & K & H). unfold color_of_val. cbn [as_kwargs]. rewrite (within_KS _ _ K). cbn [bind].
  assert (D : ddel "r" (ddel "g" (ddel "b" (ddel "a" d))) = []).
  { apply within_nil. apply within_ddel, within_ddel, within_ddel, within_ddel. eapply within_perm; [|exact K]. cbn. intuition. }
  rewrite D.
  destruct (H "r") as (r & Er & Cr); [cbn; auto|]. destruct (H "g") as (g & Eg & Cg); [cbn; auto|].
  destruct (H "b") as (b & Eb & Cb); [cbn; auto|]. destruct (H "a") as (a & Ea & Ca); [cbn; auto|].
  rewrite Er, Eg, Eb, Ea.
  destruct (channel_trip _ Cr) as (nr & -> & Vr). destruct (channel_trip _ Cg) as (ng & -> & Vg).
  destruct (channel_trip _ Cb) as (nb & -> & Vb). destruct (channel_trip _ Ca) as (na & -> & Va). cbn [bind].
  eexists. split; [reflexivity|]. unfold color_to_json, color_new. cbn [col_r col_g col_b col_a]. rewrite Vr, Vg, Vb, Va.
  apply (jeq_same _ _ ["r"; "g"; "b"; "a"]); auto; [now apply within_listed|].
  intros s I. repeat (destruct I as [<-|I]; [eapply same_some; eauto; try reflexivity; constructor|]). contradiction.
Qed.
Lemma builtin_name v : builtin v -> name_val v = Ok v.
Proof. intros (s & -> & N). unfold name_val, name_str. destruct (dmem s defaultentities) eqn:E; [reflexivity|]. apply dmem_false in E. contradiction. Qed.
Lemma signal_known p v : a_signal p v -> signal_set p v = Ok v.
Proof.
  intros (s & -> & NE & N). unfold signal_set, signal_check. destruct s as [|a s]; [congruence|]. cbn [truthy negb String.eqb in_table].
  destruct (dmem _ (p_signal p)) eqn:E; [reflexivity|]. apply dmem_false in E. contradiction.
Qed.
Lemma signal_doc_trip p v : signal_doc p v -> exists s j, signal_set p v = Ok (VStr s) /\ s <> "" /\ signal_json p (VStr s) = Ok j /\ jeq v j.
Proof.
  intros (d & s & data & t & -> & K & N & T & NE & D & TY). exists s. eexists. split; [|split; [exact NE|split]].
  - cbn [signal_set]. rewrite N. cbn [odflt]. pose proof (signal_known p (VStr s)) as X. cbn [signal_set] in X. apply X. exists s. repeat split; auto. congruence.
  - cbn [signal_json]. rewrite D. cbn [getitem]. rewrite TY. cbn [bind]. reflexivity.
  - apply (jeq_same _ _ ["name"; "type"]); auto; [now apply within_listed|].
    intros x I. repeat (destruct I as [<-|I]; [eapply same_some; eauto; try reflexivity; constructor|]). contradiction.
Qed.

(** ** lists of slots *)
Lemma dset_fresh (k : key) (v : val) (d : dict) : dget k d = None -> dset k v d = d ++ [(k, v)].
Proof. induction d as [|[k' v'] d IH]; cbn; [reflexivity|]. destruct (key_eqb k k'); [discriminate|]. intros H. now rewrite IH. Qed.
Lemma slots_fill (F : list val -> dict -> res dict) (P : dict -> Prop) (R : dict -> val -> Prop) :
  (forall acc, F [] acc = Ok acc) ->
  (forall d z, dget "index" d = Some (VInt z) -> P d -> exists u, R d u /\ forall r acc, F (VDict d :: r) acc = F r (dset (KI z) u acc)) ->
  forall ds zs acc, NoDup zs -> Forall2 (fun d z => dget "index" d = Some (VInt z) /\ P d) ds zs -> (forall z, In z zs -> dget (KI z) acc = None) ->
  exists us, F (map VDict ds) acc = Ok (acc ++ us) /\
    Forall2 (fun d (kv : key * val) => exists z, fst kv = KI z /\ dget "index" d = Some (VInt z) /\ P d /\ R d (snd kv)) ds us.
Proof.
  intros N C. induction ds as [|d ds IH]; intros zs acc ND FA FR; inversion FA as [|? z ? zs' (I & PD) FA']; subst; cbn [map].
  - exists []. rewrite N, app_nil_r. auto.
  - inversion ND as [|? ? NI ND']; subst. destruct (C d z I PD) as (u & RU & E). rewrite E, dset_fresh by (apply FR; cbn; auto).
    destruct (IH zs' (acc ++ [(KI z, u)]) ND' FA') as (us & EU & FU).
    + intros z' Z. specialize (FR z' (or_intror Z)). clear - FR NI Z. induction acc as [|[k v] acc IH]; cbn in *.
      * destruct (Z.eqb_spec z' z) as [->|]; [contradiction|reflexivity].
      * destruct (key_eqb (KI z') k) eqn:Q; cbn in Q; rewrite Q in *; [discriminate|auto].
    + exists ((KI z, u) :: us). rewrite EU, <- app_assoc. split; [reflexivity|]. constructor; eauto. exists z. auto.
Qed.
Lemma slots_back (G : key * val -> val) (Q : dict -> key * val -> Prop) ds us : Forall2 Q ds us -> (forall d kv, Q d kv -> jeq (VDict d) (G kv)) ->
  jeq (VList (map VDict ds)) (VList (map G us)).
Proof. intros F H. apply jeq_list. induction F; cbn; constructor; auto. Qed.
Lemma slots_len {A B} (Q : A -> B -> Prop) l m : Forall2 Q l m -> (l = [] <-> m = []).
Proof. intros F. destruct F; split; auto; discriminate. Qed.

Definition takes (p : protos) (ty : string) (kw : dict) (ks : list string) : Prop :=
  forall s v, In s ks -> dget (KS s) kw = Some v -> field_doc p ty s v.

Ltac mat := unfold mats; cbn [init_mixin]; unfold kwv, consume; cbn [i_kw i_args i_at].

Lemma trip_items p ty cls kw : takes p ty kw (mkeys CItems) -> trip p cls CItems kw.
Proof.
  intros H. unfold trip. mat. destruct (dget "items" kw) as [v|] eqn:E.
  - pose proof (H "items" v ltac:(cbn; auto) E) as (d & -> & NE & K). cbn [odflt].
    assert (C : items_check p d = Ok tt).
    { clear - K. induction d as [|[k u] d IH]; cbn; [reflexivity|]. destruct (K k u ltac:(cbn; auto)) as (s & -> & SG).
      cbn [val_of_key]. rewrite (signal_known _ _ SG). cbn [bind]. apply IH. intros k' u' I. apply (K k' u'). cbn. auto. }
    rewrite C. cbn [bind]. eexists. split; [reflexivity|]. intros at_ dir obj A. cbn [json_mixin].
    unfold aget. rewrite (A "items") by (cbn; auto). cbn [fold_left dset dget fst snd key_eqb String.eqb Ascii.eqb Bool.eqb]. cbn.
    destruct d as [|kv d]; [congruence|]. eexists. split; [reflexivity|]. eapply wrote_put; eauto. constructor.
  - cbn [odflt items_check bind]. eexists. split; [reflexivity|]. intros at_ dir obj A. cbn [json_mixin].
    unfold aget. rewrite (A "items") by (cbn; auto). cbn. eexists. split; [reflexivity|]. now apply wrote_skip.
Qed.
Lemma trip_train p ty cls kw : takes p ty kw (mkeys CTrain) -> trip p cls CTrain kw.
Proof.
  intros H. unfold trip. mat. destruct (dget "orientation" kw) as [v|] eqn:E.
  - pose proof (H "orientation" v ltac:(cbn; auto) E) as (f & -> & U). cbn [odflt orientation_set num_of_val bind nmod to_float].
    change (fzerob fone) with false. cbn [bind]. rewrite (unit_mod _ U). cbn [val_of_num].
    eexists. split; [reflexivity|]. intros at_ dir obj A. cbn [json_mixin].
    unfold aget. rewrite (A "orientation") by (cbn; auto). cbn. eexists. split; [reflexivity|]. eapply wrote_put; eauto. constructor.
  - cbn [odflt orientation_set bind]. eexists. split; [reflexivity|]. intros at_ dir obj A. cbn [json_mixin].
    unfold aget. rewrite (A "orientation") by (cbn; auto). cbn. eexists. split; [reflexivity|]. now apply wrote_skip.
Qed.
Lemma cargo_fill d z : dget "index" d = Some (VInt z) -> with_keys ["index"; "name"] cargo_slot d ->
  exists u, dget "name" d = Some u /\ forall r acc, cargo_filters (VDict d :: r) acc = cargo_filters r (dset (KI z) u acc).
Proof.
  intros I (_ & K). destruct (K "name") as (u & EU & B); [cbn; auto|]. cbn in B. exists u. split; auto. intros r acc.
  cbn [cargo_filters getitem]. rewrite EU, I. cbn [bind]. rewrite (builtin_name _ B). reflexivity.
Qed.
Lemma trip_cargo p ty cls kw : takes p ty kw (mkeys CCargo) -> trip p cls CCargo kw.
Proof.
  intros H. unfold trip. mat. destruct (dget "inventory" kw) as [v|] eqn:E.
  - pose proof (H "inventory" v ltac:(cbn; auto) E) as (d & -> & NE & K & NB & FS). cbn [odflt inventory_set getdef bind].
    destruct (dget "filters" d) as [fs|] eqn:EF.
    + destruct (FS _ eq_refl) as (NN & ds & zs & -> & ND & FA). cbn [odflt iter_val bind].
      destruct (slots_fill _ _ (fun d u => dget "name" d = Some u) (fun acc => eq_refl) cargo_fill ds zs [] ND FA ltac:(reflexivity)) as (us & EU & FU).
      rewrite EU. cbn [app bind]. eexists. split; [reflexivity|]. intros at_ dir obj A. cbn [json_mixin].
      unfold aget. rewrite (A "inventory_bar"), (A "inventory_filters") by (cbn; auto). cbn. eexists. split; [reflexivity|].
      assert (NU : us <> []). { intros ->. apply NN. f_equal. inversion FU. reflexivity. }
      unfold inventory_get. destruct us as [|u0 us]; [congruence|]. apply wrote_one; [|congruence]. intros v V. rewrite E in V. injection V as <-.
      assert (J : jeq (VList (map VDict ds)) (VList (map (fun kv => VDict [(KS "index", val_of_key (fst kv)); (KS "name", snd kv)]) (u0 :: us)))).
      { eapply slots_back; [exact FU|]. intros x [k u] (z & EK & IX & (KX & _) & R). cbn in EK, R |- *. subst k. cbn.
        apply (jeq_same _ _ ["index"; "name"]); auto; [now apply within_listed|].
        intros s [<-|[<-|[]]]; eapply same_some; eauto; try reflexivity; constructor. }
      assert (JJ : jeq (VDict d) (VDict (dset "filters" (VList (map (fun kv => VDict [(KS "index", val_of_key (fst kv)); (KS "name", snd kv)]) (u0 :: us))) (obj_set [] "bar" (odflt VNone (dget "bar" d)))))).
      { apply (jeq_same _ _ ["bar"; "filters"]); auto.
        - intros k N. rewrite dget_dset' in N. destruct (key_eqb k "filters") eqn:Q; [apply key_eqb_eq in Q; subst; eexists; split; [reflexivity|cbn; auto]|].
          unfold obj_set in N. destruct (odflt VNone (dget "bar" d)); cbn in N; try congruence;
            (destruct (key_eqb k "bar") eqn:Q'; [apply key_eqb_eq in Q'; subst; eexists; split; [reflexivity|cbn; auto]|congruence]).
        - intros s [<-|[<-|[]]].
          + unfold same_at. rewrite dget_dset'. cbn [key_eqb String.eqb Ascii.eqb Bool.eqb]. destruct (dget "bar" d) as [b|] eqn:EB; cbn [odflt]; [|cbn; auto].
            unfold obj_set. destruct b; try congruence; cbn; constructor.
          + eapply same_some; [exact EF|rewrite dget_dset', key_eqb_refl; reflexivity|exact J]. }
      split.
      * destruct (odflt VNone (dget "bar" d)); discriminate.
      * destruct (odflt VNone (dget "bar" d)); exact JJ.
    + cbn [odflt iter_val bind cargo_filters]. eexists. split; [reflexivity|]. intros at_ dir obj A. cbn [json_mixin].
      unfold aget. rewrite (A "inventory_bar"), (A "inventory_filters") by (cbn; auto). cbn. eexists. split; [reflexivity|].
      destruct (dget "bar" d) as [b|] eqn:EB.
      * apply wrote_one; [|congruence]. intros v V. rewrite E in V. injection V as <-. cbn [odflt].
        assert (JJ : jeq (VDict d) (VDict (obj_set [] "bar" b))).
        { apply (jeq_same _ _ ["bar"; "filters"]); auto.
          - unfold obj_set. intros k N. destruct b; cbn in N; try congruence;
            (destruct (key_eqb k "bar") eqn:Q'; [apply key_eqb_eq in Q'; subst; eexists; split; [reflexivity|cbn; auto]|congruence]).
          - intros s [<-|[<-|[]]]; [|apply same_none; auto; unfold obj_set; destruct b; reflexivity].
            eapply same_some; [exact EB| |constructor]. unfold obj_set. destruct b; try congruence; reflexivity. }
        unfold inventory_get. destruct b; try congruence; (split; [discriminate|exact JJ]).
      * exfalso. apply NE. apply within_nil. intros k N. destruct (K k N) as (s & -> & [<-|[<-|[]]]); congruence.
  - cbn [odflt inventory_set bind]. eexists. split; [reflexivity|]. intros at_ dir obj A. cbn [json_mixin].
    unfold aget. rewrite (A "inventory_bar"), (A "inventory_filters") by (cbn; auto). cbn. eexists. split; [reflexivity|]. now apply wrote_skip.
Qed.
Lemma trip_color p ty cls kw : takes p ty kw (mkeys CColor) -> trip p cls CColor kw.
Proof.
  intros H. unfold trip. mat. destruct (dget "color" kw) as [v|] eqn:E.
  - pose proof (H "color" v ltac:(cbn; auto) E) as U. cbn in U. cbn [odflt]. destruct (colour_trip _ U) as (c & EC & J). rewrite EC. cbn [bind].
    exists [(KS "color", color_to_json c)]. split; [destruct U as (d & -> & _); reflexivity|]. intros at_ dir obj A. cbn [json_mixin].
    unfold dsc. rewrite (A "color") by (cbn; auto). cbn. eexists. split; [reflexivity|]. eapply wrote_put; eauto.
  - cbn [odflt bind]. eexists. split; [reflexivity|]. intros at_ dir obj A. cbn [json_mixin].
    unfold dsc. rewrite (A "color") by (cbn; auto). cbn. eexists. split; [reflexivity|]. now apply wrote_skip.
Qed.
Definition good (kw : dict) (s : string) (u : val) : Prop :=
  match dget (KS s) kw with Some v => u <> VNone /\ jeq v u | None => u = VNone end.
Lemma wrote_good kw obj s u : good kw s u -> wrote kw [s] obj (obj_set obj s u).
Proof. unfold good. intros H. apply wrote_one; [intros v E|intros E]; rewrite E in H; auto. Qed.
Lemma good_plain kw s : (forall v, dget (KS s) kw = Some v -> v <> VNone) -> good kw s (odflt VNone (dget (KS s) kw)).
Proof. unfold good. intros H. destruct (dget (KS s) kw); cbn; auto. split; auto. constructor. Qed.

Lemma good_int kw s : (forall v, dget (KS s) kw = Some v -> exists z, v = VInt z) ->
  exists u, int_or_none (odflt VNone (dget (KS s) kw)) = Ok u /\ good kw s u.
Proof.
  unfold good. intros H. destruct (dget (KS s) kw) as [v|]; [|exists VNone; split; reflexivity].
  destruct (H v eq_refl) as (z & ->). exists (VInt z). repeat split; [discriminate|constructor].
Qed.
Lemma good_point kw s : (forall v, dget (KS s) kw = Some v -> point_doc v) ->
  exists u, vector_field (odflt VNone (dget (KS s) kw)) = Ok u /\ good kw s u.
Proof.
  unfold good. intros H. destruct (dget (KS s) kw) as [v|]; [|exists VNone; split; reflexivity].
  destruct (point_trip v (H v eq_refl)) as (w & EW & J). exists (vec_to_json w). split; [unfold vector_field; cbn [odflt]; now rewrite EW|]. split; [discriminate|auto].
Qed.
Lemma trip_inserter p ty cls kw : takes p ty kw (mkeys CInserter) -> trip p cls CInserter kw.
Proof.
  intros H. unfold trip. mat.
  destruct (good_int kw "override_stack_size") as (o & -> & GO); [intros v E; exact (H "override_stack_size" v ltac:(cbn; auto) E)|]. cbn [bind].
  destruct (good_point kw "pickup_position") as (pk & -> & GP); [intros v E; exact (H "pickup_position" v ltac:(cbn; auto) E)|]. cbn [bind].
  destruct (good_point kw "drop_position") as (dp & -> & GD); [intros v E; exact (H "drop_position" v ltac:(cbn; auto) E)|]. cbn [bind].
  eexists. split; [reflexivity|]. intros at_ dir obj A. cbn [json_mixin].
  unfold aget. rewrite (A "override_stack_size"), (A "pickup_position"), (A "drop_position") by (cbn; auto). cbn.
  eexists. split; [reflexivity|].
  apply (wrote_perm _ (["override_stack_size"; "pickup_position"] ++ ["drop_position"])); [cbn; intuition|].
  eapply wrote_app; [|apply wrote_good; exact GD|cbn; intuition congruence].
  apply (wrote_app kw ["override_stack_size"] ["pickup_position"] _ (obj_set obj "override_stack_size" o)); [apply wrote_good; exact GO|apply wrote_good; exact GP|cbn; intuition congruence].
Qed.
(** filters by name, in order *)
Lemma filter_name_trip p d : with_keys ["index"; "name"] (inserter_slot p) d ->
  exists f j, filter_new p (Some FName) (VDict d) = Ok f /\ filter_json p f = Ok j /\ jeq (VDict d) j.
Proof.
  intros (K & F). destruct (F "index") as (i & EI & _); [cbn; auto|]. destruct (F "name") as (n & EN & B); [cbn; auto|]. cbn in B.
  unfold filter_new. cbn [as_kwargs]. rewrite (within_KS _ _ K). cbn [bind].
  rewrite (dmem_none "self" d). 2:{ destruct (dget "self" d) eqn:S; auto. destruct (K "self") as (s & [= <-] & [X|[X|[]]]); congruence. }
  unfold dsc. rewrite EN, EI. cbn [odflt]. rewrite (signal_known _ _ B). cbn [bind].
  assert (D : ddel "index" (ddel "name" d) = []).
  { apply within_nil. apply within_ddel, within_ddel. eapply within_perm; [|exact K]. cbn. intuition. }
  rewrite D. eexists. eexists. split; [reflexivity|]. split; [reflexivity|]. cbn.
  apply (jeq_same _ _ ["index"; "name"]); auto; [now apply within_listed|].
  intros s [<-|[<-|[]]]; eapply same_some; eauto; try reflexivity; constructor.
Qed.
Lemma filters_trip {N J : val -> res val} (P : dict -> Prop) ds :
  (forall d, P d -> exists f j, N (VDict d) = Ok f /\ J f = Ok j /\ jeq (VDict d) j) -> Forall P ds ->
  exists fs js, mapM N (map VDict ds) = Ok fs /\ mapM J fs = Ok js /\ Forall2 jeq (map VDict ds) js /\ length fs = length ds.
Proof.
  intros H F. induction F as [|d ds PD F IH]; cbn [map]; [exists [], []; repeat split; constructor|].
  destruct (H d PD) as (f & j & NF & JF & E). destruct IH as (fs & js & NFS & JFS & ES & L).
  exists (f :: fs), (j :: js). rewrite !mapM_cons, NF, NFS, JF, JFS. cbn [bind]. split; [reflexivity|]. split; [reflexivity|]. split; [constructor; auto|cbn; congruence].
Qed.
Lemma str_in_map v l : In v (map VStr l) -> str_in v l = true.
Proof. intros I. apply in_map_iff in I as (s & <- & I). unfold str_in. apply existsb_exists. exists s. split; auto. apply String.eqb_refl. Qed.
Lemma in_str_some v l : In v (map VStr l) -> v <> VNone.
Proof. intros I. apply in_map_iff in I as (s & <- & I). discriminate. Qed.
Lemma trip_filter_inserter p ty cls kw : takes p ty kw (mkeys CFilterInserter) -> filter_cls cls = Some FName -> trip p cls CFilterInserter kw.
Proof.
  intros H FC. unfold trip. mat. rewrite FC.
  assert (M : match dget "filter_mode" kw with Some v => In v (map VStr ["whitelist"; "blacklist"]) | None => True end).
  { destruct (dget "filter_mode" kw) as [v|] eqn:E; auto. exact (H "filter_mode" v ltac:(cbn; auto) E). }
  assert (MO : negb (is_none (odflt VNone (dget "filter_mode" kw)) || str_in (odflt VNone (dget "filter_mode" kw)) ["whitelist"; "blacklist"]) = false).
  { destruct (dget "filter_mode" kw); [cbn [odflt]; now rewrite (str_in_map _ _ M), orb_true_r|reflexivity]. }
  assert (G : good kw "filter_mode" (odflt VNone (dget "filter_mode" kw))).
  { apply good_plain. intros v E. rewrite E in M. eapply in_str_some; eauto. }
  destruct (dget "filters" kw) as [v|] eqn:E.
  - pose proof (H "filters" v ltac:(cbn; auto) E) as (d & ds & -> & FA). cbn [odflt iter_val bind].
    destruct (filters_trip (N := filter_new p (Some FName)) (J := filter_json p) _ _ (filter_name_trip p) FA) as (fs & js & NFS & JFS & ES & L).
    rewrite NFS. cbn [bind]. rewrite MO.
    eexists. split; [reflexivity|]. intros at_ dir obj A. cbn [json_mixin].
    unfold aget. rewrite (A "filter_mode"), (A "filters") by (cbn; auto). cbn -[mapM filter_json].
    destruct fs as [|f fs]; [discriminate|]. rewrite JFS. cbn [bind]. eexists. split; [reflexivity|].
    apply (wrote_perm _ (["filter_mode"] ++ ["filters"])); [cbn; intuition|].
    eapply wrote_app; [apply wrote_good; exact G|eapply wrote_put; [exact E|apply jeq_list; exact ES]|cbn; intuition congruence].
  - cbn [odflt bind mapM]. rewrite MO. eexists. split; [reflexivity|]. intros at_ dir obj A. cbn [json_mixin].
    unfold aget. rewrite (A "filter_mode"), (A "filters") by (cbn; auto). cbn. eexists. split; [reflexivity|].
    apply (wrote_perm _ (["filter_mode"] ++ ["filters"])); [cbn; intuition|].
    eapply wrote_app; [apply wrote_good; exact G|now apply wrote_skip|cbn; intuition congruence].
Qed.
Lemma infinity_fill d z : dget "index" d = Some (VInt z) -> with_keys ["index"; "count"; "mode"; "name"] infinity_slot d ->
  exists u, (exists c m n, dget "count" d = Some c /\ dget "mode" d = Some m /\ dget "name" d = Some n /\ u = VDict [(KS "count", c); (KS "mode", m); (KS "name", n)]) /\
    forall r acc, infinity_filters (VDict d :: r) acc = infinity_filters r (dset (KI z) u acc).
Proof.
  intros I (_ & K). destruct (K "name") as (n & EN & B); [cbn; auto|]. cbn in B.
  destruct (K "mode") as (m & EM & MB); [cbn; auto|]. cbn in MB. destruct (K "count") as (c & EC & _); [cbn; auto|].
  eexists. split; [exists c, m, n; eauto|]. intros r acc.
  cbn [infinity_filters getitem]. rewrite EM. cbn [bind]. rewrite (str_in_map m ["at-least"; "at-most"; "exactly"] MB). cbn [negb].
  rewrite EC, EN, I. cbn [bind]. rewrite (builtin_name _ B). reflexivity.
Qed.
Lemma trip_infinity p ty cls kw : takes p ty kw (mkeys CInfinityContainer) -> dget "infinity_settings" kw <> None -> trip p cls CInfinityContainer kw.
Proof.
  intros H R. unfold trip. mat. destruct (dget "infinity_settings" kw) as [v|] eqn:E; [|congruence].
  pose proof (H "infinity_settings" v ltac:(cbn; auto) E) as (d & b & fs & -> & K & ER & EF & ds & zs & -> & ND & FA).
  cbn [odflt getitem]. rewrite ER, EF. cbn [bind iter_val].
  destruct (slots_fill _ _ _ (fun acc => eq_refl) infinity_fill ds zs [] ND FA ltac:(reflexivity)) as (us & EU & FU).
  rewrite EU. cbn [bind app]. eexists. split; [reflexivity|]. intros at_ dir obj A. cbn [json_mixin].
  unfold aget. rewrite (A "infinity_remove"), (A "infinity_filters") by (cbn; auto). cbn [odflt]. cbn.
  eexists. split; [reflexivity|]. eapply wrote_put; [exact E|].
  apply (jeq_same _ _ ["remove_unfiltered_items"; "filters"]); auto; [now apply within_listed|].
  intros s [<-|[<-|[]]]; (eapply same_some; [eauto|reflexivity|]).
  - destruct b; constructor.
  - eapply slots_back; [exact FU|]. intros x [k u] (z & EK & IX & (KX & _) & c & m & n & EC & EM & EN & RU). cbn in EK, RU |- *. subst k u. cbn.
    apply (jeq_same _ _ ["index"; "count"; "mode"; "name"]); auto; [now apply within_listed|].
    intros s I. repeat (destruct I as [<-|I]; [eapply same_some; eauto; try reflexivity; constructor|]). contradiction.
Qed.
Lemma trip_recipe p ty cls kw : takes p ty kw (mkeys CRecipe) -> trip p cls CRecipe kw.
Proof.
  intros H. unfold trip. mat.
  assert (R : recipe_set p true (odflt VNone (dget "recipe" kw)) = Ok (odflt VNone (dget "recipe" kw)) /\ good kw "recipe" (odflt VNone (dget "recipe" kw))).
  { destruct (dget "recipe" kw) as [v|] eqn:E; cbn [odflt].
    - pose proof (H "recipe" v ltac:(cbn; auto) E) as (s & -> & N). split.
      + cbn [recipe_set negb in_table bind]. destruct (dmem s (p_recipe p)) eqn:M; [reflexivity|]. apply dmem_false in M. contradiction.
      + unfold good. rewrite E. split; [discriminate|constructor].
    - split; [reflexivity|]. unfold good. now rewrite E. }
  destruct R as (-> & G). cbn [bind]. eexists. split; [reflexivity|]. intros at_ dir obj A. cbn [json_mixin].
  unfold dsc. rewrite (A "recipe") by (cbn; auto). cbn. eexists. split; [reflexivity|]. now apply wrote_good.
Qed.
Lemma request_fill d z : dget "index" d = Some (VInt z) -> with_keys ["index"; "name"; "count"] request_slot d ->
  exists u, (exists c n, dget "count" d = Some c /\ dget "name" d = Some n /\ u = VDict [(KS "name", n); (KS "count", c)]) /\
    forall r acc, request_set (VDict d :: r) acc = request_set r (dset (KI z) u acc).
Proof.
  intros I (_ & K). destruct (K "name") as (n & EN & B); [cbn; auto|]. cbn in B.
  destruct (K "count") as (c & EC & (q & ->)); [cbn; auto|].
  eexists. split; [exists (VInt q), n; eauto|]. intros r acc.
  cbn [request_set getitem]. rewrite EC, EN, I. cbn [bind]. rewrite (builtin_name _ B). reflexivity.
Qed.
Lemma trip_requester p ty cls kw : takes p ty kw (mkeys CRequester) -> trip p cls CRequester kw.
Proof.
  intros H. unfold trip. mat.
  assert (B : forall obj, wrote kw ["request_from_buffers"] obj (if truthy (odflt (VBool false) (dget "request_from_buffers" kw))
               then dset "request_from_buffers" (odflt (VBool false) (dget "request_from_buffers" kw)) obj else obj)).
  { intros obj. destruct (dget "request_from_buffers" kw) as [v|] eqn:E.
    - pose proof (H "request_from_buffers" v ltac:(cbn; auto) E) as U. cbn in U. subst v. cbn. eapply wrote_put; eauto. constructor.
    - cbn. now apply wrote_skip. }
  destruct (dget "request_filters" kw) as [v|] eqn:E.
  - pose proof (H "request_filters" v ltac:(cbn; auto) E) as (NE & ds & zs & -> & ND & FA). cbn [odflt iter_val bind].
    destruct (slots_fill _ _ _ (fun acc => eq_refl) request_fill ds zs [] ND FA ltac:(reflexivity)) as (us & EU & FU).
    rewrite EU. cbn [bind app]. eexists. split; [reflexivity|]. intros at_ dir obj A. cbn [json_mixin].
    unfold aget. rewrite (A "request_from_buffers"), (A "request_filters") by (cbn; auto). cbn -[odflt truthy].
    assert (NU : us <> []). { intros ->. apply NE. f_equal. inversion FU. reflexivity. }
    destruct us as [|u0 us]; [congruence|]. eexists. split; [reflexivity|].
    apply (wrote_app kw ["request_from_buffers"] ["request_filters"] _ _ _ (B obj)); [|cbn; intuition congruence].
    eapply wrote_put; [exact E|].
    apply (slots_back (fun kv => VDict [(KS "index", val_of_key (fst kv)); (KS "name", odflt VNone (match snd kv with VDict e => dget "name" e | _ => None end));
                                        (KS "count", odflt VNone (match snd kv with VDict e => dget "count" e | _ => None end))]) _ _ _ FU).
    intros x [k u] (z & EK & IX & (KX & _) & c & n & EC & EN & RU). cbn in EK, RU |- *. subst k u. cbn.
    apply (jeq_same _ _ ["index"; "name"; "count"]); auto; [now apply within_listed|].
    intros s I. repeat (destruct I as [<-|I]; [eapply same_some; eauto; try reflexivity; constructor|]). contradiction.
  - cbn [odflt bind request_set]. eexists. split; [reflexivity|]. intros at_ dir obj A. cbn [json_mixin].
    unfold aget. rewrite (A "request_from_buffers"), (A "request_filters") by (cbn; auto). cbn -[odflt truthy]. eexists. split; [reflexivity|].
    apply (wrote_app kw ["request_from_buffers"] ["request_filters"] _ _ _ (B obj)); [|cbn; intuition congruence]. now apply wrote_skip.
Qed.
Lemma trip_silo p ty cls kw : takes p ty kw (mkeys CSilo) -> trip p cls CSilo kw.
Proof.
  intros H. unfold trip. mat.
  assert (R : bool_like (odflt VNone (dget "auto_launch" kw)) = true /\ good kw "auto_launch" (odflt VNone (dget "auto_launch" kw))).
  { destruct (dget "auto_launch" kw) as [v|] eqn:E; cbn [odflt].
    - pose proof (H "auto_launch" v ltac:(cbn; auto) E) as (b & ->). split; [reflexivity|]. unfold good. rewrite E. split; [discriminate|constructor].
    - split; [reflexivity|]. unfold good. now rewrite E. }
  destruct R as (-> & G). cbn [bind negb]. eexists. split; [reflexivity|]. intros at_ dir obj A. cbn [json_mixin].
  unfold aget. rewrite (A "auto_launch") by (cbn; auto). cbn. eexists. split; [reflexivity|]. now apply wrote_good.
Qed.
Lemma vbool_truthy b : VBool (truthy (VBool b)) = VBool b. Proof. reflexivity. Qed.
Lemma trip_speaker p ty cls kw : takes p ty kw (mkeys CSpeaker) -> trip p cls CSpeaker kw.
Proof.
  intros H. unfold trip. mat.
  assert (R : exists u, speaker_parameters (odflt VNone (dget "parameters" kw)) = Ok u /\ good kw "parameters" u).
  { unfold good. destruct (dget "parameters" kw) as [v|] eqn:E; cbn [odflt]; [|exists VNone; split; reflexivity].
    pose proof (H "parameters" v ltac:(cbn; auto) E) as (d & f & b & c & -> & K & EF & EB & EC).
    unfold speaker_parameters. cbn [getitem]. rewrite EF, EB, EC. cbn [bind py_float]. eexists. split; [reflexivity|]. split; [discriminate|].
    apply (jeq_same _ _ ["playback_volume"; "playback_globally"; "allow_polyphony"]); auto; [now apply within_listed|].
    intros s I. repeat (destruct I as [<-|I]; [eapply same_some; eauto; try reflexivity; constructor|]). contradiction. }
  destruct R as (pa & -> & GP). cbn [bind].
  destruct (dget "alert_parameters" kw) as [v|] eqn:E.
  - pose proof (H "alert_parameters" v ltac:(cbn; auto) E) as (d & b & c & m & -> & K & EB & EC & EM & EI). cbn [odflt].
    assert (exists o, speaker_alert (VDict d) = Ok (VDict [(KS "show_alert", VBool b); (KS "show_on_map", VBool c); (KS "icon_signal_id", o); (KS "alert_message", m)]) /\
      match dget "icon_signal_id" d with
      | None => o = VNone
      | Some i => exists s, o = VStr s /\ jeq i (VDict [(KS "name", VStr s); (KS "type", default_type defaultentities s)]) end) as (o & -> & HO).
    { unfold speaker_alert. cbn [getitem getdef]. rewrite EB, EC, EM. cbn [bind].
      destruct (dget "icon_signal_id" d) as [i|].
      - destruct (EI i eq_refl) as (di & s & t & -> & KI & EN & ET & DE). cbn [odflt bind getdef]. rewrite EN. cbn [bind odflt].
        unfold name_val. cbn [name_str]. unfold dmem. rewrite DE. cbn. exists (VStr s). split; [reflexivity|]. exists s. split; auto.
        unfold default_type. rewrite DE. apply (jeq_same _ _ ["name"; "type"]); auto; [now apply within_listed|].
        intros x I. repeat (destruct I as [<-|I]; [eapply same_some; eauto; try reflexivity; constructor|]). contradiction.
      - cbn. exists VNone. auto. }
    cbn [bind]. eexists. split; [reflexivity|]. intros at_ dir obj A. cbn [json_mixin].
    unfold aget. rewrite (A "parameters"), (A "alert_parameters") by (cbn; auto). cbn -[default_type]. eexists. split; [reflexivity|].
    apply (wrote_app kw ["parameters"] ["alert_parameters"] _ (obj_set obj "parameters" pa)); [now apply wrote_good| |cbn; intuition congruence].
    eapply wrote_put; [exact E|].
    destruct (dget "icon_signal_id" d) as [i|] eqn:EX.
    + destruct HO as (s & -> & J). cbn -[default_type].
      apply (jeq_same _ _ ["show_alert"; "show_on_map"; "alert_message"; "icon_signal_id"]); auto; [now apply within_listed|].
      intros x I. repeat (destruct I as [<-|I]; [eapply same_some; eauto; try reflexivity; constructor|]). contradiction.
    + subst o. cbn.
      apply (jeq_same _ _ ["show_alert"; "show_on_map"; "alert_message"; "icon_signal_id"]); auto.
      * eapply within_perm; [|apply (within_listed _ ["show_alert"; "show_on_map"; "alert_message"]); reflexivity]. cbn. intuition.
      * intros x I. repeat (destruct I as [<-|I]; [first [apply same_none; auto; fail|eapply same_some; eauto; try reflexivity; constructor]|]). contradiction.
  - cbn [odflt speaker_alert bind]. eexists. split; [reflexivity|]. intros at_ dir obj A. cbn [json_mixin].
    unfold aget. rewrite (A "parameters"), (A "alert_parameters") by (cbn; auto). cbn. eexists. split; [reflexivity|].
    apply (wrote_app kw ["parameters"] ["alert_parameters"] _ (obj_set obj "parameters" pa)); [now apply wrote_good|now apply wrote_skip|cbn; intuition congruence].
Qed.
Lemma trip_splitter p ty cls kw : takes p ty kw (mkeys CSplitter) -> trip p cls CSplitter kw.
Proof.
  intros H. unfold trip. mat.
  assert (SD : forall s, In s ["input_priority"; "output_priority"] -> side_ok (odflt VNone (dget (KS s) kw)) = true /\ good kw s (odflt VNone (dget (KS s) kw))).
  { intros s I. assert (F : forall v, dget (KS s) kw = Some v -> In v (map VStr ["left"; "right"])).
    { intros v E. destruct I as [<-|[<-|[]]]; [exact (H "input_priority" v ltac:(cbn; auto) E)|exact (H "output_priority" v ltac:(cbn; auto) E)]. }
    split; [|apply good_plain; intros v E; eapply in_str_some; eauto].
    unfold side_ok. destruct (dget (KS s) kw) as [v|]; [|reflexivity]. cbn [odflt]. specialize (F v eq_refl). destruct F as [<-|[<-|[]]]; reflexivity. }
  destruct (SD "input_priority") as (-> & G1); [cbn; auto|]. destruct (SD "output_priority") as (-> & G2); [cbn; auto|]. cbn [negb].
  assert (R : exists u, name_val (odflt VNone (dget "filter" kw)) = Ok u /\ good kw "filter" u).
  { unfold good. destruct (dget "filter" kw) as [v|] eqn:E; cbn [odflt]; [|exists VNone; split; reflexivity].
    pose proof (H "filter" v ltac:(cbn; auto) E) as B. cbn in B. exists v. split; [now apply builtin_name|]. split; [|constructor]. destruct B as (s & -> & _). discriminate. }
  destruct R as (f & -> & G3). cbn [bind]. eexists. split; [reflexivity|]. intros at_ dir obj A. cbn [json_mixin].
  unfold aget. rewrite (A "input_priority"), (A "output_priority"), (A "filter") by (cbn; auto). cbn -[odflt]. eexists. split; [reflexivity|].
  apply (wrote_app kw ["input_priority"; "output_priority"] ["filter"] _ (obj_set (obj_set obj "input_priority" (odflt VNone (dget "input_priority" kw))) "output_priority" (odflt VNone (dget "output_priority" kw))));
    [|now apply wrote_good|cbn; intuition congruence].
  apply (wrote_app kw ["input_priority"] ["output_priority"] _ (obj_set obj "input_priority" (odflt VNone (dget "input_priority" kw))));
    [now apply wrote_good|now apply wrote_good|cbn; intuition congruence].
Qed.
Lemma trip_station p ty cls kw : takes p ty kw (mkeys CStation) -> trip p cls CStation kw.
Proof.
  intros H. unfold trip. mat. eexists. split; [reflexivity|]. intros at_ dir obj A. cbn [json_mixin].
  unfold aget. rewrite (A "station") by (cbn; auto). cbn. eexists. split; [reflexivity|]. apply wrote_good, good_plain.
  intros v E. exact (H "station" v ltac:(cbn; auto) E).
Qed.
Lemma trip_underground p ty cls kw : takes p ty kw (mkeys CUnderground) -> dget "type" kw <> None -> trip p cls CUnderground kw.
Proof.
  intros H R. unfold trip. mat. destruct (dget "type" kw) as [v|] eqn:E; [|congruence].
  pose proof (H "type" v ltac:(cbn; auto) E : In v (map VStr ["input"; "output"])) as I. rewrite (str_in_map _ _ I). cbn [negb].
  eexists. split; [reflexivity|]. intros at_ dir obj A. cbn [json_mixin].
  unfold aget. rewrite (A "type") by (cbn; auto). cbn. eexists. split; [reflexivity|]. apply wrote_good. unfold good. rewrite E. split; [eapply in_str_some; eauto|constructor].
Qed.
(** all mixins but Rotatable (and the two unused ones) *)
Lemma trip_mixin p ty cls c kw : takes p ty kw (mkeys c) -> c <> CRotatable -> c <> CContainer -> c <> CVariation ->
  (c = CFilterInserter -> filter_cls cls = Some FName) -> (c = CUnderground -> dget "type" kw <> None) ->
  (c = CInfinityContainer -> dget "infinity_settings" kw <> None) -> trip p cls c kw.
Proof.
  intros H N1 N2 N3 FC U I.
  destruct c; try congruence; try (exists []; split; [reflexivity|]; intros at_ dir obj _; exists obj; split; [reflexivity|apply wrote_nil]).
  - eapply trip_items; eauto.
  - eapply trip_train; eauto.
  - eapply trip_cargo; eauto.
  - eapply trip_color; eauto.
  - eapply trip_inserter; eauto.
  - eapply trip_filter_inserter; eauto.
  - eapply trip_infinity; eauto.
  - eapply trip_recipe; eauto.
  - eapply trip_requester; eauto.
  - eapply trip_silo; eauto.
  - eapply trip_speaker; eauto.
  - eapply trip_splitter; eauto.
  - eapply trip_station; eauto.
  - eapply trip_underground; eauto.
Qed.

(** ** control behaviours *)
Definition ctrip (p : protos) (cls : list scls) (c : scls) (kw : dict) : Prop :=
  exists a, cats p cls c kw = Ok a /\
  forall at_ obj, (forall s, In s (cattrs c) -> dget (KS s) at_ = dget (KS s) a) ->
    exists obj', cb_json_link p cls c at_ obj = Ok obj' /\ wrote kw (ckeys c) obj obj'.
Definition ctakes (p : protos) (kw : dict) (ks : list string) : Prop :=
  forall s v, In s ks -> dget (KS s) kw = Some v -> cb_field p s v.
Lemma within_check (e : dict) ks : forallb (fun kv => match fst kv with KS s => existsb (String.eqb s) ks | KI _ => false end) e = true -> keys_within e ks.
Proof.
  intros B k N. destruct (dget k e) as [v|] eqn:D; [|congruence]. apply dget_in in D. rewrite forallb_forall in B. specialize (B _ D). cbn in B.
  destruct k as [s|]; [|discriminate]. exists s. split; auto. apply existsb_exists in B as (x & I & E). apply String.eqb_eq in E. now subst.
Qed.
Definition csig (p : protos) (kw : dict) (s : string) (u : val) : Prop :=
  match dget (KS s) kw with
  | Some v => exists x j, u = VStr x /\ x <> "" /\ signal_json p u = Ok j /\ jeq v j
  | None => u = VNone end.
Lemma csig_take p kw s : (forall v, dget (KS s) kw = Some v -> signal_doc p v) ->
  exists u, signal_set p (odflt VNone (dget (KS s) kw)) = Ok u /\ csig p kw s u.
Proof.
  unfold csig. intros H. destruct (dget (KS s) kw) as [v|]; [|exists VNone; split; reflexivity]. cbn [odflt].
  destruct (signal_doc_trip _ _ (H v eq_refl)) as (x & j & E & NE & SJ & J). exists (VStr x). split; auto. exists x, j. auto.
Qed.
Lemma csig_write p kw s u obj : csig p kw s u -> exists obj', signal_obj_set p obj s u = Ok obj' /\ wrote kw [s] obj obj'.
Proof.
  unfold csig. intros H. destruct (dget (KS s) kw) as [v|] eqn:E.
  - destruct H as (x & j & -> & NE & SJ & J). cbn [signal_obj_set]. rewrite SJ. cbn [bind]. eexists. split; [reflexivity|]. eapply wrote_put; eauto.
  - subst u. exists obj. split; [reflexivity|]. now apply wrote_skip.
Qed.
Lemma csig_write_opt p kw s u obj : csig p kw s u -> exists obj', opt_signal_json p obj s u = Ok obj' /\ wrote kw [s] obj obj'.
Proof.
  unfold csig, opt_signal_json. intros H. destruct (dget (KS s) kw) as [v|] eqn:E.
  - destruct H as (x & j & -> & NE & SJ & J). destruct x as [|a x]; [congruence|]. cbn [truthy String.eqb negb]. rewrite SJ. cbn [bind]. eexists. split; [reflexivity|]. eapply wrote_put; eauto.
  - subst u. exists obj. split; [reflexivity|]. now apply wrote_skip.
Qed.
Lemma wrote_seq kw a s o o1 o2 : wrote kw a o o1 -> wrote kw [s] o1 o2 -> ~ In s a -> wrote kw (a ++ [s]) o o2.
Proof. intros A B N. eapply wrote_app; eauto. intros x I [<-|[]]. contradiction. Qed.
Lemma wrote_must kw s obj : dget (KS s) kw <> None -> wrote kw [s] obj (dset (KS s) (odflt VNone (dget (KS s) kw)) obj).
Proof. intros N. destruct (dget (KS s) kw) as [v|] eqn:E; [|congruence]. cbn. eapply wrote_put; eauto. constructor. Qed.
Lemma wrote_plain kw s obj : (forall v, dget (KS s) kw = Some v -> v <> VNone) -> wrote kw [s] obj (obj_set obj s (odflt VNone (dget (KS s) kw))).
Proof. intros N. apply wrote_good, good_plain. auto. Qed.

Ltac cat := unfold cats; cbn [cb_simple]; unfold ckw, cconsume; cbn [k_kw k_args k_at k_mut].
Ltac take_sig H s u G := destruct (csig_take _ _ s (fun v E => H s v ltac:(cbn; tauto) E)) as (u & -> & G); cbn [bind].
Ltac od := repeat match goal with |- context [odflt ?d (Some ?x)] => change (odflt d (Some x)) with x end.
Ltac attr A := unfold aget, dsc; repeat match goal with |- context [dget (KS ?s) ?at_] =>
   lazymatch type of A with forall s, _ -> dget (KS s) at_ = _ => rewrite (A s) by (cbn; tauto) end end.

Lemma ctrip_accumulator p cls kw : ctakes p kw (ckeys CAccumulator) -> ctrip p cls CAccumulator kw.
Proof.
  intros H. unfold ctrip. cat. take_sig H "output_signal" u G. eexists. split; [reflexivity|]. intros at_ obj A. cbn [cb_json_link]. attr A.
  cbn. now apply csig_write.
Qed.
Lemma filter_signal_trip p d : with_keys ["signal"; "count"; "index"] (constant_slot p) d ->
  exists f j, filter_new p (Some FSignal) (VDict d) = Ok f /\ filter_json p f = Ok j /\ jeq (VDict d) j.
Proof.
  intros (K & F). destruct (F "index") as (i & EI & _); [cbn; auto|]. destruct (F "signal") as (n & EN & B); [cbn; auto|]. cbn in B.
  destruct (F "count") as (c & EC & _); [cbn; auto|].
  unfold filter_new. cbn [as_kwargs]. rewrite (within_KS _ _ K). cbn [bind].
  rewrite (dmem_none "self" d). 2:{ destruct (dget "self" d) eqn:S; auto. destruct (K "self") as (s & [= <-] & X); [congruence|]. cbn in X. intuition congruence. }
  unfold dsc. rewrite EN, EI, EC. cbn [odflt]. destruct (signal_doc_trip _ _ B) as (x & j & ES & NE & SJ & J). rewrite ES. cbn [bind].
  assert (D : ddel "index" (ddel "count" (ddel "signal" d)) = []).
  { apply within_nil. apply within_ddel, within_ddel, within_ddel. eapply within_perm; [|exact K]. cbn. intuition. }
  rewrite D. eexists. eexists. split; [reflexivity|]. split.
  - cbn -[signal_json]. rewrite SJ. reflexivity.
  - cbn. apply (jeq_same _ _ ["signal"; "count"; "index"]); auto; [now apply within_check|].
    intros s I. repeat (destruct I as [<-|I]; [eapply same_some; eauto; try reflexivity; constructor|]). contradiction.
Qed.
Lemma ctrip_filters p cls kw : ctakes p kw (ckeys CFilters) -> filter_cls cls = Some FSignal -> ctrip p cls CFilters kw.
Proof.
  intros H FC. unfold ctrip. cat. rewrite FC. destruct (dget "filters" kw) as [v|] eqn:E.
  - pose proof (H "filters" v ltac:(cbn; auto) E) as (d & ds & -> & FA). cbn [odflt iter_val bind].
    destruct (filters_trip (N := filter_new p (Some FSignal)) (J := filter_json p) _ _ (filter_signal_trip p) FA) as (fs & js & NFS & JFS & ES & L).
    rewrite NFS. cbn [bind]. eexists. split; [reflexivity|]. intros at_ obj A. cbn [cb_json_link]. attr A. cbn -[mapM filter_json].
    destruct fs as [|f fs]; [discriminate|]. rewrite JFS. cbn [bind]. eexists. split; [reflexivity|]. eapply wrote_put; [exact E|apply jeq_list; exact ES].
  - cbn [odflt iter_val bind mapM]. eexists. split; [reflexivity|]. intros at_ obj A. cbn [cb_json_link]. attr A. cbn.
    eexists. split; [reflexivity|]. now apply wrote_skip.
Qed.
Lemma ctrip_constant p cls kw : ctakes p kw (ckeys CConstantCombinator) -> ctrip p cls CConstantCombinator kw.
Proof.
  intros H. unfold ctrip. cat. eexists. split; [reflexivity|]. intros at_ obj A. cbn [cb_json_link]. attr A. cbn -[odflt truthy].
  eexists. split; [reflexivity|]. destruct (dget "is_on" kw) as [v|] eqn:E.
  - pose proof (H "is_on" v ltac:(cbn; auto) E) as X. cbn in X. subst v. cbn. eapply wrote_put; eauto. constructor.
  - cbn. now apply wrote_skip.
Qed.
Lemma ctrip_belt p cls kw : (forall s, In s (ckeys CTransportBelt) -> dget (KS s) kw <> None) -> ctrip p cls CTransportBelt kw.
Proof.
  intros R. unfold ctrip. cat. eexists. split; [reflexivity|]. intros at_ obj A. cbn [cb_json_link]. attr A. cbn -[odflt].
  eexists. split; [reflexivity|]. apply (wrote_perm _ ((["circuit_read_hand_contents"] ++ ["circuit_enable_disable"]) ++ ["circuit_contents_read_mode"])); [cbn; tauto|].
  eapply wrote_seq; [eapply wrote_seq; [apply wrote_must|apply wrote_must|]|apply wrote_must|]; try (apply R; cbn; tauto); cbn; intuition discriminate.
Qed.
Lemma ctrip_drill p cls kw : (forall s, In s (ckeys CMiningDrill) -> dget (KS s) kw <> None) -> ctrip p cls CMiningDrill kw.
Proof.
  intros R. unfold ctrip. cat. eexists. split; [reflexivity|]. intros at_ obj A. cbn [cb_json_link]. attr A. cbn -[odflt].
  eexists. split; [reflexivity|]. apply (wrote_perm _ ((["circuit_enable_disable"] ++ ["circuit_read_resources"]) ++ ["circuit_resource_read_mode"])); [cbn; tauto|].
  assert (X : forall s d obj, In s (ckeys CMiningDrill) -> wrote kw [s] obj (dset (KS s) (odflt d (dget (KS s) kw)) obj)).
  { intros s d o I. specialize (R s I). destruct (dget (KS s) kw) as [v|] eqn:E; [|congruence]. cbn. eapply wrote_put; eauto. constructor. }
  eapply wrote_seq; [eapply wrote_seq; [apply X|apply X|]|apply X|]; cbn; intuition discriminate.
Qed.
Ltac plain_field H := intros ? ?; refine (H _ _ _ _); [|eassumption]; cbn; tauto.
Lemma plain_key p kw ks s : ctakes p kw ks -> In s ks -> (forall v, cb_field p s v = (v <> VNone)) -> forall v, dget (KS s) kw = Some v -> v <> VNone.
Proof. intros H I F v E. specialize (H s v I E). now rewrite F in H. Qed.
Lemma ctrip_train_signal p cls kw : ctakes p kw (ckeys CTrainSignal) -> ctrip p cls CTrainSignal kw.
Proof.
  intros H. unfold ctrip. cat. take_sig H "red_output_signal" r GR. take_sig H "orange_output_signal" o GO. take_sig H "green_output_signal" g GG.
  eexists. split; [reflexivity|]. intros at_ obj A. cbn [cb_json_link]. attr A. cbn -[odflt signal_obj_set]; od.
  set (o1 := obj_set obj _ _).
  assert (W1 : wrote kw ["circuit_read_signal"] obj o1) by (apply wrote_plain; eapply plain_key; [exact H|cbn; tauto|reflexivity]).
  destruct (csig_write p kw _ r o1 GR) as (o2 & -> & W2). cbn [bind].
  destruct (csig_write p kw _ o o2 GO) as (o3 & -> & W3). cbn [bind].
  destruct (csig_write p kw _ g o3 GG) as (o4 & -> & W4). eexists. split; [reflexivity|].
  apply (wrote_perm _ ((((["circuit_read_signal"] ++ ["red_output_signal"]) ++ ["orange_output_signal"]) ++ ["green_output_signal"]))); [cbn; tauto|].
  eapply wrote_seq; [eapply wrote_seq; [eapply wrote_seq; [exact W1|exact W2|]|exact W3|]|exact W4|]; cbn; intuition discriminate.
Qed.
Lemma ctrip_chain_signal p cls kw : ctakes p kw (ckeys CChainSignal) -> ctrip p cls CChainSignal kw.
Proof.
  intros H. unfold ctrip. cat. take_sig H "blue_output_signal" u G. eexists. split; [reflexivity|]. intros at_ obj A. cbn [cb_json_link]. attr A.
  cbn. now apply csig_write.
Qed.
Lemma ctrip_rail_signal p cls kw : ctakes p kw (ckeys CRailSignal) -> ctrip p cls CRailSignal kw.
Proof.
  intros H. unfold ctrip. cat. eexists. split; [reflexivity|]. intros at_ obj A. cbn [cb_json_link]. attr A. cbn -[odflt].
  eexists. split; [reflexivity|]. apply wrote_plain. eapply plain_key; [exact H|cbn; tauto|reflexivity].
Qed.
Lemma ctrip_lamp p cls kw : ctakes p kw (ckeys CLamp) -> ctrip p cls CLamp kw.
Proof.
  intros H. unfold ctrip. cat. eexists. split; [reflexivity|]. intros at_ obj A. cbn [cb_json_link]. attr A. cbn -[odflt].
  eexists. split; [reflexivity|]. apply wrote_plain. eapply plain_key; [exact H|cbn; tauto|reflexivity].
Qed.
Lemma ctrip_requester p cls kw : ctakes p kw (ckeys CRequester) -> ctrip p cls CRequester kw.
Proof.
  intros H. unfold ctrip. cat. eexists. split; [reflexivity|]. intros at_ obj A. cbn [cb_json_link]. attr A. cbn -[odflt].
  eexists. split; [reflexivity|]. apply wrote_plain. eapply plain_key; [exact H|cbn; tauto|reflexivity].
Qed.
Lemma ctrip_speaker p cls kw : ctakes p kw (ckeys CSpeaker) -> dget "circuit_parameters" kw <> None -> ctrip p cls CSpeaker kw.
Proof.
  intros H R. unfold ctrip. cat. destruct (dget "circuit_parameters" kw) as [v|] eqn:E; [|congruence]. cbn [odflt].
  pose proof (H "circuit_parameters" v ltac:(cbn; auto) E) as (d & -> & K & F). unfold circuit_parameters. cbn [as_kwargs].
  rewrite (within_KS _ _ K). cbn [bind].
  assert (D : ddel "note_id" (ddel "instrument_id" (ddel "signal_value_is_pitch" d)) = []).
  { apply within_nil. apply within_ddel, within_ddel, within_ddel. eapply within_perm; [|exact K]. cbn. tauto. }
  rewrite D. cbn [bind]. eexists. split; [reflexivity|]. intros at_ obj A. cbn [cb_json_link]. attr A. cbn -[odflt].
  eexists. split; [reflexivity|]. eapply wrote_put; [exact E|].
  apply (jeq_same _ _ ["signal_value_is_pitch"; "instrument_id"; "note_id"]); auto; [now apply within_check|].
  intros s I. destruct (F s I) as (u & EU & _). cbn in I. destruct I as [<-|[<-|[<-|[]]]]; unfold same_at; cbn -[odflt]; unfold dsc; rewrite EU; constructor.
Qed.
Lemma ctrip_station p cls kw : ctakes p kw (ckeys CStation) -> ctrip p cls CStation kw.
Proof.
  intros H. unfold ctrip. cat. take_sig H "train_stopped_signal" u G.
  eexists. split; [reflexivity|]. intros at_ obj A. cbn [cb_json_link]. attr A. cbn -[odflt opt_signal_json]; od.
  match goal with |- context [opt_signal_json p ?o _ _] => set (o1 := o) end.
  destruct (csig_write_opt p kw _ u o1 G) as (o2 & -> & W2). eexists. split; [reflexivity|].
  apply (wrote_perm _ (((["circuit_enable_disable"] ++ ["read_from_train"]) ++ ["read_stopped_train"]) ++ ["train_stopped_signal"])); [cbn; tauto|].
  eapply wrote_seq; [|exact W2|cbn; intuition discriminate]. subst o1.
  eapply wrote_seq; [eapply wrote_seq| |]; try (apply wrote_plain; eapply plain_key; [exact H|cbn; tauto|reflexivity]); cbn; intuition discriminate.
Qed.
Lemma ctrip_inserter p cls kw : ctakes p kw (ckeys CInserter) -> ctrip p cls CInserter kw.
Proof.
  intros H. unfold ctrip. cat. take_sig H "stack_control_input_signal" u G.
  eexists. split; [reflexivity|]. intros at_ obj A. cbn [cb_json_link]. attr A. cbn -[odflt signal_obj_set]; od.
  match goal with |- context [signal_obj_set p ?o _ _] => set (o1 := o) end.
  destruct (csig_write p kw _ u o1 G) as (o2 & -> & W2). cbn [bind]. eexists. split; [reflexivity|].
  apply (wrote_perm _ ((((["circuit_mode_of_operation"] ++ ["circuit_set_stack_size"]) ++ ["stack_control_input_signal"]) ++ ["circuit_hand_read_mode"]) ++ ["circuit_read_hand_contents"])); [cbn; tauto|].
  eapply wrote_seq; [eapply wrote_seq; [eapply wrote_seq; [|exact W2|]| |]| |]; try (cbn; intuition discriminate);
    try (apply wrote_plain; eapply plain_key; [exact H|cbn; tauto|reflexivity]).
  subst o1. eapply wrote_seq; [| |cbn; intuition discriminate]; (apply wrote_plain; eapply plain_key; [exact H|cbn; tauto|reflexivity]).
Qed.
Lemma ctrip_roboport p cls kw : ctakes p kw (ckeys CRoboport) -> ctrip p cls CRoboport kw.
Proof.
  intros H. unfold ctrip. cat. take_sig H "available_construction_output_signal" a1 G1. take_sig H "total_construction_output_signal" a2 G2.
  take_sig H "available_logistic_output_signal" a3 G3. take_sig H "total_logistic_output_signal" a4 G4.
  eexists. split; [reflexivity|]. intros at_ obj A. cbn [cb_json_link]. attr A. cbn -[odflt opt_signal_json]; od.
  match goal with |- context [opt_signal_json p (obj_set ?o _ _) _ _] => set (o1 := o) end. set (o2 := obj_set o1 _ _).
  destruct (csig_write_opt p kw _ a1 o2 G1) as (o3 & -> & W3). cbn [bind].
  destruct (csig_write_opt p kw _ a2 o3 G2) as (o4 & -> & W4). cbn [bind].
  destruct (csig_write_opt p kw _ a3 o4 G3) as (o5 & -> & W5). cbn [bind].
  destruct (csig_write_opt p kw _ a4 o5 G4) as (o6 & -> & W6). eexists. split; [reflexivity|].
  apply (wrote_perm _ (((((["read_logistics"] ++ ["read_robot_stats"]) ++ ["available_construction_output_signal"]) ++ ["total_construction_output_signal"]) ++ ["available_logistic_output_signal"]) ++ ["total_logistic_output_signal"])); [cbn; tauto|].
  eapply wrote_seq; [eapply wrote_seq; [eapply wrote_seq; [eapply wrote_seq; [|exact W3|]|exact W4|]|exact W5|]|exact W6|]; try (cbn; intuition discriminate).
  eapply wrote_seq; [| |cbn; intuition discriminate]; (apply wrote_plain; eapply plain_key; [exact H|cbn; tauto|reflexivity]).
Qed.
Lemma in_comparators v : In v comparators -> operator_set decider_ops v = Ok v /\ v <> VNone.
Proof. intros I. split; [|eapply in_str_some; exact I]. unfold operator_set, decider_ops. now rewrite (str_in_map _ _ I). Qed.
Lemma ctrip_condition p cls kw : ctakes p kw (ckeys CCircuitCondition) -> ctrip p cls CCircuitCondition kw.
Proof.
  intros H. unfold ctrip. cat. destruct (dget "circuit_condition" kw) as [v|] eqn:E.
  2:{ cbn [odflt]. eexists. split; [reflexivity|]. intros at_ obj A. cbn [cb_json_link]. attr A. cbn. eexists. split; [reflexivity|]. now apply wrote_skip. }
  pose proof (H "circuit_condition" v ltac:(cbn; auto) E) as (d & -> & NE & K & F & S & C & NB & CM). cbn [odflt getdef bind].
  destruct (csig_take p d "first_signal" F) as (f & -> & GF). cbn [bind].
  assert (X : exists s, signal_set p (odflt (odflt VNone (dget "constant" d)) (dget "second_signal" d)) = Ok s /\
            ((exists z, s = VInt z /\ dget "constant" d = Some (VInt z) /\ dget "second_signal" d = None) \/
             (csig p d "second_signal" s /\ dget "constant" d = None))).
  { destruct (dget "constant" d) as [k|] eqn:EK.
    - destruct (C k EK) as (z & ->). destruct NB as [NB|NB]; [|congruence]. rewrite NB. cbn. eexists. split; [reflexivity|]. left. eauto.
    - cbn [odflt]. destruct (csig_take p d "second_signal" S) as (s & ES & GS). exists s. split; auto. }
  destruct X as (s & -> & GS). cbn [bind].
  assert (Y : operator_set decider_ops (odflt VNone (dget "comparator" d)) = Ok (odflt VNone (dget "comparator" d)) /\ good d "comparator" (odflt VNone (dget "comparator" d))).
  { split; [|apply good_plain; intros c EC; apply in_comparators; auto]. destruct (dget "comparator" d) as [c|] eqn:EC; [apply in_comparators; auto|reflexivity]. }
  destruct Y as (-> & GC). cbn [bind]. eexists. split; [reflexivity|]. intros at_ obj A.
  assert (A1 : dget "first" at_ = Some f) by (rewrite (A "first") by (cbn; tauto); reflexivity).
  assert (A2 : dget "second" at_ = Some s) by (rewrite (A "second") by (cbn; tauto); reflexivity).
  assert (A3 : dget "comparator" at_ = Some (odflt VNone (dget "comparator" d))) by (rewrite (A "comparator") by (cbn; tauto); reflexivity).
  cbn [cb_json_link]. cbv zeta. unfold dsc. rewrite A1, A2, A3. od.
  (* the dictionary written *)
  assert (W : exists cc, (let! cc := match f with VNone => Ok (obj_set [] "comparator" (odflt VNone (dget "comparator" d)))
                 | VInt z => Ok (dset "first_constant" (VInt z) (obj_set [] "comparator" (odflt VNone (dget "comparator" d))))
                 | v => let! j := signal_json p v in Ok (dset "first_signal" j (obj_set [] "comparator" (odflt VNone (dget "comparator" d)))) end in
                 match s with VNone => Ok cc | VInt z => Ok (dset "constant" (VInt z) cc)
                 | v => let! j := signal_json p v in Ok (dset "second_signal" j cc) end) = Ok cc /\
            wrote d (((["comparator"] ++ ["first_signal"]) ++ ["second_signal"]) ++ ["constant"]) [] cc).
  { set (o1 := obj_set [] "comparator" _). assert (W1 : wrote d ["comparator"] [] o1) by (now apply wrote_good).
    assert (W2 : exists o2, match f with VNone => Ok o1 | VInt z => Ok (dset "first_constant" (VInt z) o1)
                 | v => let! j := signal_json p v in Ok (dset "first_signal" j o1) end = Ok o2 /\ wrote d ["first_signal"] o1 o2).
    { destruct (csig_write p d "first_signal" f o1 GF) as (o2 & E2 & W2). exists o2. split; auto. unfold csig in GF.
      destruct (dget "first_signal" d); [destruct GF as (x & j & -> & _)|subst f]; exact E2. }
    destruct W2 as (o2 & -> & W2). cbn [bind].
    destruct GS as [(z & -> & EK & EN)|(GS & EN)].
    - eexists. split; [reflexivity|]. eapply wrote_seq; [eapply wrote_seq; [eapply wrote_seq; [exact W1|exact W2|]|apply wrote_skip; exact EN|]|eapply wrote_put; [exact EK|constructor]|]; cbn; intuition discriminate.
    - destruct (csig_write p d "second_signal" s o2 GS) as (o3 & E3 & W3). exists o3. split.
      + unfold csig in GS. destruct (dget "second_signal" d); [destruct GS as (x & j & -> & _)|subst s]; exact E3.
      + eapply wrote_seq; [eapply wrote_seq; [eapply wrote_seq; [exact W1|exact W2|]|exact W3|]|apply wrote_skip; exact EN|]; cbn; intuition discriminate. }
  destruct W as (cc & EW & W1 & W2).
  assert (J : jeq (VDict d) (VDict cc)).
  { apply (jeq_same _ _ ["first_signal"; "second_signal"; "constant"; "comparator"]); auto.
    - intros k N. destruct (in_dec key_dec k (map KS ["comparator"; "first_signal"; "second_signal"; "constant"])) as [I|NI].
      + apply in_map_iff in I as (x & <- & I). exists x. split; auto. cbn in I |- *. tauto.
      + rewrite W1 in N; [now cbn in N|]. intros x -> I. apply NI. now apply in_map.
    - intros x I. specialize (W2 x ltac:(cbn in I |- *; tauto)). unfold same_at. destruct (dget (KS x) d); [destruct W2 as (u & -> & J); exact J|now rewrite W2]. }
  assert (FV : f = VNone \/ exists x, f = VStr x).
  { unfold csig in GF. destruct (dget "first_signal" d); [destruct GF as (x & j & -> & _); eauto|auto]. }
  assert (SV : s = VNone \/ (exists z, s = VInt z) \/ exists x, s = VStr x).
  { destruct GS as [(z & -> & _)|(GS & _)]; [eauto|]. unfold csig in GS. destruct (dget "second_signal" d); [destruct GS as (x & j & -> & _); eauto|auto]. }
  match goal with |- exists o, ?L = Ok o /\ _ => assert (EL : L = Ok (match cc with [] => obj | _ => dset "circuit_condition" (VDict cc) obj end)) end.
  { apply bind_ok in EW as (c1 & E1 & E2). destruct FV as [->|(x & ->)]; destruct SV as [->|[(z & ->)|(y & ->)]]; cbn [bind] in E1, E2 |- *; first [injection E1 as <-|rewrite E1; cbn [bind]]; first [injection E2 as <-|rewrite E2; cbn [bind]]; reflexivity. }
  rewrite EL. eexists. split; [reflexivity|].
  destruct cc as [|kv cc]; [|eapply wrote_put; eauto].
  exfalso. apply NE. apply dget_none_nil. intros k. inversion J as [| |? ? J1 J2]; subst; [reflexivity|]. destruct (dget k d) as [u|] eqn:EK; auto.
  destruct (J1 k u EK) as (u' & X & _). discriminate.
Qed.
Lemma ctrip_mixin p cls c kw : ctakes p kw (ckeys c) -> plain c = true \/ c = CInserter ->
  (c = CFilters -> filter_cls cls = Some FSignal) -> (In c [CTransportBelt; CMiningDrill; CSpeaker] -> forall s, In s (ckeys c) -> dget (KS s) kw <> None) ->
  ctrip p cls c kw.
Proof.
  intros H PL FC R.
  destruct c; try (destruct PL; discriminate);
    try (exists []; split; [reflexivity|]; intros at_ obj _; exists obj; split; [reflexivity|apply wrote_nil]).
  - now apply ctrip_accumulator.
  - apply ctrip_filters; auto.
  - now apply ctrip_constant.
  - apply ctrip_belt. apply R. cbn. auto.
  - now apply ctrip_train_signal.
  - now apply ctrip_chain_signal.
  - now apply ctrip_rail_signal.
  - now apply ctrip_condition.
  - now apply ctrip_lamp.
  - apply ctrip_drill. apply R. cbn. auto.
  - now apply ctrip_inserter.
  - now apply ctrip_requester.
  - now apply ctrip_roboport.
  - apply ctrip_speaker; auto. apply R; cbn; auto.
  - now apply ctrip_station.
Qed.
Lemma cjson_chain p cls kw at_ : forall l rest obj, ~ In CBaseMixin l -> NoDup (flat_map ckeys l) ->
  (forall c, In c l -> forall obj, exists obj', cb_json_link p cls c at_ obj = Ok obj' /\ wrote kw (ckeys c) obj obj') ->
  exists obj', cb_json_chain p cls (l ++ rest) at_ obj = cb_json_chain p cls rest at_ obj' /\ wrote kw (flat_map ckeys l) obj obj'.
Proof.
  induction l as [|c l IH]; intros rest obj NB ND H; cbn [app flat_map]; [exists obj; split; [reflexivity|apply wrote_nil]|].
  destruct (H c ltac:(cbn; auto) obj) as (o1 & E1 & W1). cbn [flat_map] in ND. apply NoDup_app_l in ND as (_ & ND & DJ).
  destruct (IH rest o1) as (o2 & E2 & W2); [cbn in NB; tauto|auto|intros; apply H; cbn; auto|].
  exists o2. split; [|eapply wrote_app; eauto].
  rewrite <- E2. cbn [cb_json_chain]. destruct c; try (now rewrite E1). exfalso. apply NB. cbn. auto.
Qed.
Lemma mapM_all {A B} (f : A -> res B) l : (forall c, In c l -> exists a, f c = Ok a) -> exists ats, mapM f l = Ok ats.
Proof.
  induction l as [|c l IH]; intros H; [exists []; reflexivity|]. destruct (H c ltac:(cbn; auto)) as (a & E). destruct IH as (r & ER); [intros; apply H; cbn; auto|].
  exists (a :: r). now rewrite mapM_cons, E, ER.
Qed.
Lemma drop_all ks (d : dict) : (forall k, dget k d <> None -> named ks k = true) -> drop_keys ks d = [].
Proof.
  intros H. apply dget_none_nil. intros k. rewrite dget_drop_keys. destruct (named ks k) eqn:N; auto. destruct (dget k d) eqn:E; auto.
  rewrite H in N; congruence.
Qed.
Lemma wrote_jeq d ks o : keys_within d ks -> wrote d ks [] o -> jeq (VDict d) (VDict o).
Proof.
  intros K (W1 & W2). apply (jeq_same _ _ ks); auto.
  - intros k N. destruct k as [s|z].
    + destruct (in_dec string_dec s ks) as [I|NI]; [eauto|]. rewrite W1 in N; [now cbn in N|]. intros x [= <-]. auto.
    + rewrite W1 in N; [now cbn in N|]. discriminate.
  - intros s I. specialize (W2 s I). unfold same_at. destruct (dget (KS s) d); [destruct W2 as (u & -> & J); exact J|now rewrite W2].
Qed.
Lemma jeq_nonnil d o : d <> [] -> jeq (VDict d) (VDict o) -> o <> [].
Proof.
  intros NE J ->. apply NE. apply dget_none_nil. intros k. inversion J as [| |? ? J1 J2]; subst; [reflexivity|]. destruct (dget k d) as [u|] eqn:EK; auto.
  destruct (J1 k u EK) as (u' & X & _). discriminate.
Qed.
(** what the tables say about control behaviours *)
Definition ctab (f : string * (list string * list string)) : bool :=
  let ty := fst f in
  negb (has_cls CBaseMixin (cmids ty)) &&
  (negb (has_cls CFilters (cmids ty)) || match filter_cls (statics (cls_of ty)) with Some FSignal => true | _ => false end) &&
  forallb (fun c => negb (has_cls c (cmids ty)) || subsetb (ckeys c) (cb_required ty)) [CTransportBelt; CMiningDrill; CSpeaker] &&
  negb (existsb (String.eqb "self") (snd (snd f))) && negb (existsb (String.eqb "_entity") (snd (snd f))).
Lemma ctab_ok : forallb ctab formats = true.
Proof. vm_compute. reflexivity. Qed.
Lemma existsb_string s l : existsb (String.eqb s) l = true <-> In s l.
Proof.
  rewrite existsb_exists. split; [intros (x & I & E); apply String.eqb_eq in E; now subst|]. intros I. exists s. split; auto. apply String.eqb_refl.
Qed.
Record cfacts (ty : string) (cbk : list string) : Prop := mkCfacts {
  cf_base : ~ In CBaseMixin (cmids ty);
  cf_filters : In CFilters (cmids ty) -> filter_cls (statics (cls_of ty)) = Some FSignal;
  cf_required : forall c, In c [CTransportBelt; CMiningDrill; CSpeaker] -> In c (cmids ty) -> forall s, In s (ckeys c) -> In s (cb_required ty);
  cf_self : ~ In "self" cbk; cf_entity : ~ In "_entity" cbk }.
Lemma format_cfacts ty own cbk : In (ty, (own, cbk)) formats -> cfacts ty cbk.
Proof.
  intros I. pose proof ctab_ok as T. rewrite forallb_forall in T. specialize (T _ I). unfold ctab in T. cbn [fst snd] in T.
  apply andb_prop in T as (T & T5). apply andb_prop in T as (T & T4). apply andb_prop in T as (T & T3). apply andb_prop in T as (T1 & T2).
  constructor.
  - intros J. apply has_cls_in in J. rewrite J in T1. discriminate.
  - intros J. apply has_cls_in in J. rewrite J in T2. cbn in T2. destruct (filter_cls _) as [[]|]; congruence.
  - intros c IC J s IS. rewrite forallb_forall in T3. specialize (T3 c IC). apply has_cls_in in J. rewrite J in T3. cbn in T3. eapply subsetb_ok; eauto.
  - intros J. apply existsb_string in J. now rewrite J in T4.
  - intros J. apply existsb_string in J. now rewrite J in T5.
Qed.
Definition cbtrip (p : protos) (s ty : string) (v : val) : Prop :=
  exists a u, cb_make p (VStr s) (cls_of ty) v = Ok a /\ cb_json p (statics (cls_of ty)) (mkCb (cb_chain (cls_of ty)) a) = Ok u /\ u <> VNone /\ jeq v u.
Lemma cb_doc_facts p ty own cbk d : In (ty, (own, cbk)) formats -> cb_doc p ty (VDict d) ->
  keys_within d cbk /\ all_KS d = true /\ dget "self" d = None /\ dget "_entity" d = None.
Proof.
  intros I (d' & [= <-] & NE & F & R). destruct (format_cfacts _ _ _ I) as [_ _ _ NS NN].
  assert (K : keys_within d cbk).
  { intros k N. destruct (dget k d) as [v|] eqn:E; [|congruence]. destruct (F k v E) as (s & -> & (s' & own' & cbk' & I' & [= <-] & J) & _).
    exists s. split; auto. destruct (formats_fun _ _ _ _ _ I I') as (_ & <-). exact J. }
  split; auto. split; [eapply within_KS; eauto|]. split.
  - destruct (dget "self" d) eqn:E; auto. destruct (K "self") as (s & [= <-] & J); [congruence|]. contradiction.
  - destruct (dget "_entity" d) eqn:E; auto. destruct (K "_entity") as (s & [= <-] & J); [congruence|]. contradiction.
Qed.
Lemma cb_trip_plain p s ty own cbk d : In (ty, (own, cbk)) formats -> special ty = false -> cb_doc p ty (VDict d) -> cbtrip p s ty (VDict d).
Proof.
  intros I SP D. destruct (cb_doc_facts _ _ _ _ _ I D) as (K & A & S & E).
  destruct D as (d' & [= <-] & NE & F & R). destruct (format_cfacts _ _ _ I) as [NB FC RQ _ _]. destruct (format_cshape _ _ _ I SP) as [CH PL NK NA OWN].
  assert (CT : forall c, In c (cmids ty) -> ctrip p (statics (cls_of ty)) c d).
  { intros c IC. apply ctrip_mixin.
    - intros x v IX EX. destruct (F _ _ EX) as (x' & [= <-] & _ & CF). exact CF.
    - left. rewrite forallb_forall in PL. auto.
    - intros ->. auto.
    - intros IR x IX. apply R. eapply RQ; eauto. }
  unfold cbtrip. rewrite (cb_make_plain _ _ _ _ _ _ I SP A S E).
  destruct (mapM_all (fun c => cats p (statics (cls_of ty)) c d) (cmids ty)) as (ats & EA); [intros c IC; destruct (CT c IC) as (a & Ea & _); eauto|].
  rewrite EA. cbn [bind].
  rewrite drop_all. 2:{ intros k N. destruct (K k N) as (x & -> & IX). apply named_In. now apply OWN. }
  eexists. unfold cb_json. cbn [cb_cls cb_at]. rewrite CH.
  destruct (cjson_chain p (statics (cls_of ty)) d (dset "entity" VNone (putall (concat ats) [])) (cmids ty) [CBaseMixin] [] NB NK) as (o & EO & W).
  { intros c IC obj. destruct (CT c IC) as (a & Ea & X). apply X. intros x IX. rewrite dget_dset'.
    assert (NX : key_eqb (KS x) "entity" = false).
    { destruct (key_eqb (KS x) "entity") eqn:Q; auto. apply key_eqb_eq in Q. injection Q as ->. clear - IX. destruct c; cbn in IX; intuition discriminate. }
    rewrite NX. pose proof (concat_attr (f := fun c => cats p (statics (cls_of ty)) c d) (g := cattrs) (cmids ty) (fun c a => cats_attrs p _ c d a) ats [] c a x EA NA IC Ea IX) as G.
    rewrite G. cbn [dget]. now destruct (dget (KS x) a). }
  rewrite EO. cbn [cb_json_chain].
  assert (J : jeq (VDict d) (VDict o)).
  { eapply wrote_jeq; [|exact W]. intros k N. destruct (K k N) as (x & -> & IX). exists x. split; auto. now apply OWN. }
  pose proof (jeq_nonnil _ _ NE J) as NO. destruct o as [|kv o]; [congruence|]. eexists. split; [reflexivity|]. split; [reflexivity|]. split; [discriminate|exact J].
Qed.
Lemma cb_trip_inserter p s d : cb_doc p "inserter" (VDict d) -> cbtrip p s "inserter" (VDict d).
Proof.
  intros D. destruct inserter_in as (own & cbk & I & EK). destruct (cb_doc_facts _ _ _ _ _ I D) as (K & A & S & E).
  destruct D as (d' & [= <-] & NE & F & R).
  assert (CT : forall c, In c [CCircuitCondition; CInserter] -> ctrip p (statics (cls_of "inserter")) c d).
  { intros c IC. apply ctrip_mixin.
    - intros x v IX EX. destruct (F _ _ EX) as (x' & [= <-] & _ & CF). exact CF.
    - destruct IC as [<-|[<-|[]]]; auto.
    - destruct IC as [<-|[<-|[]]]; discriminate.
    - destruct IC as [<-|[<-|[]]]; cbn; intuition discriminate. }
  unfold cbtrip. rewrite (cb_make_inserter _ _ _ A S E).
  destruct (mapM_all (fun c => cats p (statics (cls_of "inserter")) c d) [CCircuitCondition; CInserter]) as (ats & EA); [intros c IC; destruct (CT c IC) as (a & Ea & _); eauto|].
  rewrite EA. cbn [bind]. eexists. unfold cb_json. cbn [cb_cls cb_at].
  assert (CH : cb_chain (cls_of "inserter") = [CCircuitCondition; CInserter] ++ [CBaseMixin]) by (vm_compute; reflexivity). rewrite CH.
  assert (NA : NoDup (flat_map cattrs [CCircuitCondition; CInserter])) by (apply snodup_ok; vm_compute; reflexivity).
  destruct (cjson_chain p (statics (cls_of "inserter")) d (putall (concat ats) []) [CCircuitCondition; CInserter] [CBaseMixin] []) as (o & EO & W).
  { cbn. intuition discriminate. }
  { apply snodup_ok. vm_compute. reflexivity. }
  { intros c IC obj. destruct (CT c IC) as (a & Ea & X). apply X. intros x IX.
    pose proof (concat_attr (f := fun c => cats p (statics (cls_of "inserter")) c d) (g := cattrs) _ (fun c a => cats_attrs p _ c d a) ats [] c a x EA NA IC Ea IX) as G.
    rewrite G. cbn [dget]. now destruct (dget (KS x) a). }
  rewrite EO. cbn [cb_json_chain].
  assert (J : jeq (VDict d) (VDict o)).
  { eapply wrote_jeq; [|exact W]. now rewrite <- EK. }
  pose proof (jeq_nonnil _ _ NE J) as NO. destruct o as [|kv o]; [congruence|]. eexists. split; [reflexivity|]. split; [reflexivity|]. split; [discriminate|exact J].
Qed.

(** ** combinators *)
Lemma wrote_ext kw kw' ks o o' : (forall s, In s ks -> dget (KS s) kw = dget (KS s) kw') -> wrote kw ks o o' -> wrote kw' ks o o'.
Proof. intros H (A & B). split; auto. intros s I. rewrite <- H by auto. now apply B. Qed.
Definition const_key (typ key : string) : string := if String.eqb typ "decider" && String.eqb key "first" then "constant" else (key ++ "_constant")%string.
Lemma take_trip p typ field key d : signal_or_not p d (key ++ "_signal") -> integer_or_not d (const_key typ key) ->
  not_both d (key ++ "_signal") (const_key typ key) -> const_key typ key <> (key ++ "_signal")%string ->
  (dget (KS (const_key typ key)) d = None \/ (if String.eqb field "decider_conditions" then KS "constant" else KS (key ++ "_constant")%string) = KS (const_key typ key)) ->
  exists d' u, take_signal p typ key d = (d', Ok u) /\
    (forall k, k <> KS (key ++ "_signal")%string -> k <> KS (const_key typ key) -> dget k d' = dget k d) /\
    dget (KS (key ++ "_signal")%string) d' = None /\ dget (KS (const_key typ key)) d' = None /\
    forall s, exists s', comb_put p field key u s = Ok s' /\ wrote d ([const_key typ key] ++ [(key ++ "_signal")%string]) s s'.
Proof.
  intros SG IN NB NE CK. unfold take_signal, get_from, dpop. fold (const_key typ key).
  set (ck := const_key typ key) in *. set (sk := (key ++ "_signal")%string) in *.
  replace (if String.eqb typ "decider" && String.eqb key "first" then KS "constant" else KS (key ++ "_constant")%string) with (KS ck) by (unfold ck, const_key; destruct (_ && _); reflexivity).
  destruct (dget (KS ck) d) as [v|] eqn:EC.
  - destruct (IN v EC) as (z & ->). destruct NB as [NB|NB]; [|congruence]. destruct CK as [CK|CK]; [discriminate|]. cbn [odflt fst snd bind signal_set].
    eexists. eexists. split; [reflexivity|]. split; [intros k N1 N2; now rewrite dget_ddel_other|]. rewrite dget_ddel_other by congruence. split; [exact NB|].
    rewrite dget_ddel_same. split; [reflexivity|]. intros s. cbn [comb_put]. eexists. split; [reflexivity|].
    eapply wrote_app; [|apply wrote_skip; exact NB|intros x [<-|[]] [X|[]]; congruence]. rewrite CK. eapply wrote_put; [exact EC|constructor].
  - cbn [odflt]. rewrite (dget_ddel_other (KS ck) (KS sk)) by congruence. destruct (dget (KS sk) d) as [v|] eqn:ES.
    + destruct (signal_doc_trip _ _ (SG v ES)) as (x & j & SS & NX & SJ & J). pose proof (SG v ES) as (dd & y & data & t & -> & K & N & T & NY & D & TY).
      cbn [signal_set] in SS. rewrite N in SS. cbn [odflt] in SS. cbn [odflt getitem]. rewrite N. cbn [bind].
      assert (SS' : signal_set p (VStr y) = Ok (VStr x)) by exact SS. rewrite SS'.
      eexists. eexists. split; [reflexivity|]. split; [intros k N1 N2; now rewrite !dget_ddel_other|]. rewrite dget_ddel_same. split; [reflexivity|].
      rewrite dget_ddel_other by congruence. rewrite dget_ddel_same. split; [reflexivity|]. intros s. cbn [comb_put signal_obj_set]. rewrite SJ. cbn [bind].
      eexists. split; [reflexivity|]. eapply wrote_app; [apply wrote_skip; exact EC| |intros q [<-|[]] [X|[]]; congruence]. eapply wrote_put; [exact ES|exact J].
    + cbn [odflt bind signal_set signal_check truthy]. eexists. eexists. split; [reflexivity|]. split; [intros k N1 N2; now rewrite !dget_ddel_other|].
      rewrite dget_ddel_same. split; [reflexivity|].
      rewrite dget_ddel_other by congruence. rewrite dget_ddel_same. split; [reflexivity|]. intros s. cbn [comb_put signal_obj_set].
      eexists. split; [reflexivity|]. eapply wrote_app; [apply wrote_skip; exact EC|apply wrote_skip; exact ES|intros q [<-|[]] [X|[]]; congruence].
Qed.
Definition comb_ks (typ : string) : list string :=
  ([const_key typ "first"] ++ ["first_signal"]) ++ ([const_key typ "second"] ++ ["second_signal"]) ++ ([const_key typ "output"] ++ ["output_signal"]).
(** taking the conditions apart and writing them back *)
Lemma comb_trip p cbl typ field op d o : typ = "arithmetic" \/ typ = "decider" -> dget (KS op) d = Some o -> comb_operator cbl o = Ok o ->
  (forall key, In key ["first"; "second"; "output"] -> signal_or_not p d (key ++ "_signal") /\ integer_or_not d (const_key typ key) /\
     not_both d (key ++ "_signal") (const_key typ key) /\
     (dget (KS (const_key typ key)) d = None \/ (if String.eqb field "decider_conditions" then KS "constant" else KS (key ++ "_constant")%string) = KS (const_key typ key))) ->
  keys_within d (op :: comb_ks typ) -> ~ In op (comb_ks typ) ->
  exists f s t, comb_take p cbl typ op d = ([], Ok [(KS "operator", o); (KS "first", f); (KS "second", s); (KS "output", t)]) /\
    forall s0, exists s1 s2 s3, comb_put p field "first" f s0 = Ok s1 /\ comb_put p field "second" s s1 = Ok s2 /\ comb_put p field "output" t s2 = Ok s3 /\
      wrote d (comb_ks typ) s0 s3.
Proof.
  intros TY EO OP H K NO. unfold comb_take. rewrite EO, OP.
  assert (G1 : forall s, In s (comb_ks typ) -> dget (KS s) (ddel op d) = dget (KS s) d).
  { intros s I. apply dget_ddel_other. congruence. }
  assert (STEP : forall key d1, In key ["first"; "second"; "output"] -> dget (KS (key ++ "_signal")%string) d1 = dget (KS (key ++ "_signal")%string) d ->
     dget (KS (const_key typ key)) d1 = dget (KS (const_key typ key)) d ->
     exists d' u, take_signal p typ key d1 = (d', Ok u) /\
    (forall k, k <> KS (key ++ "_signal")%string -> k <> KS (const_key typ key) -> dget k d' = dget k d1) /\
    dget (KS (key ++ "_signal")%string) d' = None /\ dget (KS (const_key typ key)) d' = None /\
    forall s, exists s', comb_put p field key u s = Ok s' /\ wrote d ([const_key typ key] ++ [(key ++ "_signal")%string]) s s').
  { intros key d1 I E1 E2. destruct (H key I) as (A1 & A2 & A3 & A4).
    destruct (take_trip p typ field key d1) as (d' & u & T & O1 & O2 & O3 & W); auto.
    - intros v V. apply A1. congruence.
    - intros v V. apply A2. congruence.
    - unfold not_both in *. rewrite E1, E2. exact A3.
    - destruct TY as [->| ->]; destruct I as [<-|[<-|[<-|[]]]]; discriminate.
    - destruct A4 as [A4|A4]; [left; congruence|right; auto].
    - exists d', u. repeat split; auto. intros s. destruct (W s) as (s' & P & X). exists s'. split; auto. eapply wrote_ext; [|exact X].
      intros q Q. cbn in Q. destruct Q as [<-|[<-|[]]]; auto. }
  clear H. destruct TY as [->| ->].
  - change (comb_ks "arithmetic") with ["first_constant"; "first_signal"; "second_constant"; "second_signal"; "output_constant"; "output_signal"] in *.
    destruct (STEP "first" (ddel op d)) as (d1 & f & -> & O1 & S1 & K1 & W1); [cbn; auto|apply G1; cbn; auto 10|apply G1; cbn; auto 10|]. cbn [const_key append String.eqb Ascii.eqb Bool.eqb andb] in O1, S1, K1, W1.
    destruct (STEP "second" d1) as (d2 & s & -> & O2 & S2 & K2 & W2); [cbn; auto|cbn; rewrite O1 by discriminate; apply G1; cbn; auto 10|cbn; rewrite O1 by discriminate; apply G1; cbn; auto 10|]. cbn [const_key append String.eqb Ascii.eqb Bool.eqb andb] in O2, S2, K2, W2.
    destruct (STEP "output" d2) as (d3 & t & -> & O3 & S3 & K3 & W3); [cbn; auto|cbn; rewrite O2, O1 by discriminate; apply G1; cbn; auto 10|cbn; rewrite O2, O1 by discriminate; apply G1; cbn; auto 10|]. cbn [const_key append String.eqb Ascii.eqb Bool.eqb andb] in O3, S3, K3, W3.
    assert (D3 : d3 = []).
    { apply within_nil. intros k N. exfalso. apply N.
      destruct (key_dec k "output_signal") as [->|]; auto. destruct (key_dec k "output_constant") as [->|]; auto. rewrite O3 by auto.
      destruct (key_dec k "second_signal") as [->|]; auto. destruct (key_dec k "second_constant") as [->|]; auto. rewrite O2 by auto.
      destruct (key_dec k "first_signal") as [->|]; auto. destruct (key_dec k "first_constant") as [->|]; auto. rewrite O1 by auto.
      rewrite dget_ddel. destruct (key_eqb k op) eqn:Q; auto. destruct (dget k d) eqn:E; auto.
      destruct (K k) as (x & -> & IX); [congruence|]. exfalso. destruct IX as [<-|IX]; [cbn in Q; now rewrite String.eqb_refl in Q|].
      cbn in IX. intuition congruence. }
    subst d3. exists f, s, t. split; [reflexivity|]. intros s0.
    destruct (W1 s0) as (s1 & P1 & X1). destruct (W2 s1) as (s2 & P2 & X2). destruct (W3 s2) as (s3 & P3 & X3).
    exists s1, s2, s3. split; [auto|]. split; [auto|]. split; [auto|].
    eapply (wrote_app _ ["first_constant"; "first_signal"] ["second_constant"; "second_signal"; "output_constant"; "output_signal"]); [exact X1| |cbn; intuition congruence].
    eapply (wrote_app _ ["second_constant"; "second_signal"] ["output_constant"; "output_signal"]); [exact X2|exact X3|cbn; intuition congruence].
  - change (comb_ks "decider") with ["constant"; "first_signal"; "second_constant"; "second_signal"; "output_constant"; "output_signal"] in *.
    destruct (STEP "first" (ddel op d)) as (d1 & f & -> & O1 & S1 & K1 & W1); [cbn; auto|apply G1; cbn; auto 10|apply G1; cbn; auto 10|]. cbn [const_key append String.eqb Ascii.eqb Bool.eqb andb] in O1, S1, K1, W1.
    destruct (STEP "second" d1) as (d2 & s & -> & O2 & S2 & K2 & W2); [cbn; auto|cbn; rewrite O1 by discriminate; apply G1; cbn; auto 10|cbn; rewrite O1 by discriminate; apply G1; cbn; auto 10|]. cbn [const_key append String.eqb Ascii.eqb Bool.eqb andb] in O2, S2, K2, W2.
    destruct (STEP "output" d2) as (d3 & t & -> & O3 & S3 & K3 & W3); [cbn; auto|cbn; rewrite O2, O1 by discriminate; apply G1; cbn; auto 10|cbn; rewrite O2, O1 by discriminate; apply G1; cbn; auto 10|]. cbn [const_key append String.eqb Ascii.eqb Bool.eqb andb] in O3, S3, K3, W3.
    assert (D3 : d3 = []).
    { apply within_nil. intros k N. exfalso. apply N.
      destruct (key_dec k "output_signal") as [->|]; auto. destruct (key_dec k "output_constant") as [->|]; auto. rewrite O3 by auto.
      destruct (key_dec k "second_signal") as [->|]; auto. destruct (key_dec k "second_constant") as [->|]; auto. rewrite O2 by auto.
      destruct (key_dec k "first_signal") as [->|]; auto. destruct (key_dec k "constant") as [->|]; auto. rewrite O1 by auto.
      rewrite dget_ddel. destruct (key_eqb k op) eqn:Q; auto. destruct (dget k d) eqn:E; auto.
      destruct (K k) as (x & -> & IX); [congruence|]. exfalso. destruct IX as [<-|IX]; [cbn in Q; now rewrite String.eqb_refl in Q|].
      cbn in IX. intuition congruence. }
    subst d3. exists f, s, t. split; [reflexivity|]. intros s0.
    destruct (W1 s0) as (s1 & P1 & X1). destruct (W2 s1) as (s2 & P2 & X2). destruct (W3 s2) as (s3 & P3 & X3).
    exists s1, s2, s3. split; [auto|]. split; [auto|]. split; [auto|].
    eapply (wrote_app _ ["constant"; "first_signal"] ["second_constant"; "second_signal"; "output_constant"; "output_signal"]); [exact X1| |cbn; intuition congruence].
    eapply (wrote_app _ ["second_constant"; "second_signal"] ["output_constant"; "output_signal"]); [exact X2|exact X3|cbn; intuition congruence].
Qed.
Lemma in_operations v : In v operations -> operator_set arithmetic_ops v = Ok v /\ v <> VNone.
Proof. intros I. split; [|eapply in_str_some; exact I]. unfold operator_set. replace arithmetic_ops with ["*"; "/"; "+"; "-"; "%"; "^"; "<<"; ">>"; "AND"; "OR"; "XOR"] by reflexivity. now rewrite (str_in_map _ _ I). Qed.

(** a control behaviour with the single key [f] *)
Lemma single_key (f : string) (d : dict) v : keys_within d [f] -> dget (KS f) d = Some v -> ddel (KS f) d = [] /\ forall u, jeq v u -> jeq (VDict d) (VDict [(KS f, u)]).
Proof.
  intros K E. split; [now apply within_nil, within_ddel|]. intros u J. apply (jeq_same _ _ [f]); auto.
  - now apply within_listed.
  - intros s [<-|[]]. eapply same_some; [exact E| |exact J]. cbn. now rewrite String.eqb_refl.
Qed.
Lemma cb_trip_arith p s d : cb_doc p "arithmetic-combinator" (VDict d) -> cbtrip p s "arithmetic-combinator" (VDict d).
Proof.
  intros D. destruct (cb_doc_facts _ _ _ _ _ arith_in D) as (K & A & S & E).
  destruct D as (d' & [= <-] & NE & F & R). specialize (R "arithmetic_conditions" (or_introl eq_refl)).
  destruct (dget "arithmetic_conditions" d) as [v|] eqn:EV; [|congruence]. destruct (F _ _ EV) as (x & [= <-] & _ & AD).
  change (arithmetic_doc p v) in AD. destruct AD as (e & o & -> & KE & EO & IO & F1 & F2 & F3 & G1 & G2 & G3 & H1). clear F R.
  assert (NOC : dget "output_constant" e = None).
  { destruct (dget "output_constant" e) eqn:X; auto. destruct (KE "output_constant") as (y & [= <-] & Y); [congruence|]. cbn in Y. intuition discriminate. }
  destruct (comb_trip p arith_cbl "arithmetic" "arithmetic_conditions" "operation" e o) as (f & g & t & TK & PUT); auto.
  { cbn [comb_operator arith_cbl]. now apply in_operations. }
  { intros key [<-|[<-|[<-|[]]]]; cbn.
    - repeat split; auto.
    - repeat split; auto.
    - repeat split; auto; [intros v V; congruence|right; auto]. }
  { eapply within_perm; [|exact KE]. cbn. intuition. }
  { cbn. intuition discriminate. }
  destruct (single_key "arithmetic_conditions" d _ K EV) as (DD & JJ).
  unfold cbtrip. rewrite cb_make_arith by auto. rewrite EV. cbn [odflt]. rewrite TK. cbn [bind]. rewrite DD. cbn [left_over].
  unfold cb_json. cbn [cb_cls cb_at].
  change (cb_chain (cls_of "arithmetic-combinator")) with arith_cbl. unfold arith_cbl.
  cbn [cb_json_chain]. unfold cb_json_link.
  change (comb_names (statics (cls_of "arithmetic-combinator"))) with (Some ("arithmetic", "operation")).
  set (at_ := dset "entity" VNone _). exists at_.
  change (aget at_ "entity") with (Ok VNone). change (aget at_ "field") with (Ok (VStr "arithmetic_conditions")).
  change (dget "operator" at_) with (Some o). change (dsc at_ "first") with f. change (dsc at_ "second") with g. change (dsc at_ "output") with t.
  cbn [bind]. destruct (PUT [(KS "operation", o)]) as (s1 & s2 & s3 & -> & P2 & P3 & W). cbn [bind]. rewrite P2. cbn [bind]. rewrite P3. cbn [bind].
  eexists. split; [reflexivity|]. split; [reflexivity|]. split; [discriminate|]. apply JJ. cbn [sub dget dmerge fold_left].
  eapply (wrote_jeq _ (["operation"] ++ comb_ks "arithmetic")); [eapply within_perm; [|exact KE]; cbn; intuition|].
  eapply wrote_app; [|exact W|cbn; intuition congruence].
  apply (wrote_put _ [] "operation" o o); [exact EO|constructor].
Qed.
Lemma cb_trip_decid p s d : cb_doc p "decider-combinator" (VDict d) -> cbtrip p s "decider-combinator" (VDict d).
Proof.
  intros D. destruct (cb_doc_facts _ _ _ _ _ decid_in D) as (K & A & S & E).
  destruct D as (d' & [= <-] & NE & F & R). specialize (R "decider_conditions" (or_introl eq_refl)).
  destruct (dget "decider_conditions" d) as [v|] eqn:EV; [|congruence]. destruct (F _ _ EV) as (x & [= <-] & _ & AD).
  change (decider_doc p v) in AD. destruct AD as (e & o & c & -> & KE & EO & IO & EC & F1 & F2 & F3 & F4 & F5). clear F R.
  assert (NOC : forall k, In k ["output_constant"; "second_constant"] -> dget (KS k) e = None).
  { intros k I. destruct (dget (KS k) e) eqn:X; auto. destruct (KE (KS k)) as (y & [= <-] & Y); [congruence|]. cbn in Y, I. intuition congruence. }
  set (e' := ddel "copy_count_from_input" e).
  assert (EE : forall k, k <> KS "copy_count_from_input" -> dget k e' = dget k e) by (intros; now apply dget_ddel_other).
  destruct (comb_trip p decid_cbl "decider" "decider_conditions" "comparator" e' o) as (f & g & t & TK & PUT); auto.
  { rewrite EE by discriminate. exact EO. }
  { cbn [comb_operator decid_cbl]. now apply in_comparators. }
  { intros key [<-|[<-|[<-|[]]]]; cbn; unfold signal_or_not, integer_or_not, not_both; rewrite !EE by discriminate.
    - repeat split; auto.
    - rewrite (NOC "second_constant") by (cbn; auto). repeat split; auto; congruence.
    - rewrite (NOC "output_constant") by (cbn; auto). repeat split; auto; congruence. }
  { unfold e'. apply within_ddel. eapply within_perm; [|exact KE]. cbn. intuition. }
  { cbn. intuition discriminate. }
  destruct (single_key "decider_conditions" d _ K EV) as (DD & JJ).
  unfold cbtrip. rewrite cb_make_decid by auto. rewrite EV. fold e'. rewrite TK. cbn [bind]. rewrite DD. cbn [left_over].
  unfold cb_json. cbn [cb_cls cb_at].
  change (cb_chain (cls_of "decider-combinator")) with decid_cbl. unfold decid_cbl.
  cbn [cb_json_chain]. unfold cb_json_link.
  change (comb_names (statics (cls_of "decider-combinator"))) with (Some ("decider", "comparator")).
  rewrite EC. cbn [odflt]. set (at_ := dset "entity" VNone _). exists at_.
  change (aget at_ "entity") with (Ok VNone). change (aget at_ "field") with (Ok (VStr "decider_conditions")).
  change (aget at_ "copy_count_from_input") with (Ok c).
  change (dget "operator" at_) with (Some o). change (dsc at_ "first") with f. change (dsc at_ "second") with g. change (dsc at_ "output") with t.
  cbn [bind]. destruct (PUT [(KS "comparator", o)]) as (s1 & s2 & s3 & -> & P2 & P3 & W). cbn [bind]. rewrite P2. cbn [bind]. rewrite P3. cbn [bind].
  eexists. split; [reflexivity|]. split; [reflexivity|]. split; [discriminate|]. apply JJ. cbn [sub dget dset key_eqb dmerge fold_left fst snd String.eqb Ascii.eqb Bool.eqb].
  eapply (wrote_jeq _ ((["comparator"] ++ comb_ks "decider") ++ ["copy_count_from_input"])); [eapply within_perm; [|exact KE]; cbn; intuition|].
  eapply wrote_app; [|apply (wrote_put _ _ "copy_count_from_input" c c); [exact EC|constructor]|cbn; intuition congruence].
  apply (wrote_ext e'); [intros q Q; apply EE; cbn in Q; intuition congruence|].
  eapply wrote_app; [|exact W|cbn; intuition congruence].
  apply (wrote_put _ [] "comparator" o o); [rewrite EE by discriminate; exact EO|constructor].
Qed.
Lemma cb_trip p s ty own cbk v : In (ty, (own, cbk)) formats -> cb_doc p ty v -> cbtrip p s ty v.
Proof.
  intros I D. assert (exists d, v = VDict d) as (d & ->) by (destruct D as (d & -> & _); eauto).
  destruct (special ty) eqn:SP; [|eapply cb_trip_plain; eauto].
  destruct (special_cases _ SP) as [->|[->| ->]]; [now apply cb_trip_inserter|now apply cb_trip_arith|now apply cb_trip_decid].
Qed.
