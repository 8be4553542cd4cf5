(** * Theorems about equality of blueprints: C56. *)
From Coq Require Import Lia.
From Verif Require Import Py Num SpecCodec Codec CodecProofs BpString Util Classes Mixins Entity World EntityData Demo SpecWorld SpecDoc SpecEntity SpecTrip SpecBlueprint
  SpecReload SpecEqual TurnProofs EqualProofs KeyedLoad Props_Codec Props_Doc Props_Trip Props_Blue Props_Reload.
Open Scope Z_scope.

(** ** C56 *)
(** a == b says that the two exported documents are the same JSON, the order of the keys included *)
Theorem C56_equal_documents :
  forall z w, reachable w -> forall a b va vb, lossless z -> unlooped w b -> document w a va -> document w b vb -> json_like va -> json_like vb ->
  exists t, snd (bp_eq z a b w) = Ok t /\ (t = true <-> as_json va = as_json vb).
Proof. exact p_C56_iff. Qed.
Print Assumptions C56_equal_documents.
Theorem C56_symmetric :
  forall z w, reachable w -> forall a b t, unlooped w a -> unlooped w b -> snd (bp_eq z a b w) = Ok t -> snd (bp_eq z b a w) = Ok t.
Proof. exact p_C56_sym. Qed.
Print Assumptions C56_symmetric.
Theorem C56_transitive :
  forall z w, reachable w -> forall a b c, unlooped w b -> unlooped w c ->
  snd (bp_eq z a b w) = Ok true -> snd (bp_eq z b c w) = Ok true -> snd (bp_eq z a c w) = Ok true.
Proof. exact p_C56_trans. Qed.
Print Assumptions C56_transitive.
Theorem C56_reflexive :
  forall z w, reachable w -> forall a s, unlooped w a -> snd (bp_to_string z a w) = Ok s -> snd (bp_eq z a a w) = Ok true.
Proof. exact p_C56_refl. Qed.
Print Assumptions C56_reflexive.
(** == raises exactly when one of the two has no string *)
Theorem C56_raises :
  forall z w, reachable w -> forall a b, unlooped w a -> unlooped w b ->
  (exists e, snd (bp_eq z a b w) = Err e) <-> (exists e, snd (bp_to_string z a w) = Err e) \/ (exists e, snd (bp_to_string z b w) = Err e).
Proof. exact p_C56_raises. Qed.
Print Assumptions C56_raises.
(** asking does not change what is exported *)
Theorem C56_looks_only :
  forall z w, reachable w -> forall a b c, unlooped w c -> snd (bp_json c (fst (bp_eq z a b w))) = snd (bp_json c w).
Proof. exact p_C56_looks. Qed.
Print Assumptions C56_looks_only.

(** an empty blueprint, two with a chest and one with the chest elsewhere *)
Definition four : world := Eval vm_compute in
  run (boot ++ [ONewBlueprint false []; ONewBlueprint true []; ONewBlueprint true [];
                OMake 1 (thing "iron-chest" 1 2); OMake 2 (thing "iron-chest" 1 2); OMake 3 (thing "iron-chest" 2 1)]) start.
Lemma four_reachable : reachable four.
Proof. change four with (run (boot ++ [ONewBlueprint false []; ONewBlueprint true []; ONewBlueprint true [];
                OMake 1 (thing "iron-chest" 1 2); OMake 2 (thing "iron-chest" 1 2); OMake 3 (thing "iron-chest" 2 1)]) start).
  apply run_reach; [reflexivity|constructor]. Qed.
Example C56_ex : snd (bp_eq stored 1 2 four) = Ok true /\ snd (bp_eq stored 1 3 four) = Ok false /\ snd (bp_eq stored 0 1 four) = Ok false /\
  reachable four /\ (forall b, (b < 4)%nat -> unlooped four b /\ exists v, document four b v /\ json_like v) /\ lossless stored.
Proof.
  split; [vm_compute; reflexivity|]. split; [vm_compute; reflexivity|]. split; [vm_compute; reflexivity|]. split; [exact four_reachable|].
  split; [|intros ?; reflexivity]. intros b L.
  destruct b as [|[|[|[|b]]]]; [..|lia]; (split; [eexists; split; [reflexivity|intros c []]|]);
    (eexists; split; [vm_compute; reflexivity|apply likeb_like; vm_compute; reflexivity]).
Qed.

(** a combinator wired to itself, input to output: its blueprint is not equal to itself *)
Definition own_wire : world := Eval vm_compute in
  run (boot ++ [OMake 0 (thing "arithmetic-combinator" 0 0); OConnect 0 (Some 0%nat) (VInt 1) (VInt 2) "red"]) start.
Theorem C56_itself_refuted : exists z w a s, lossless z /\ reachable w /\ snd (bp_to_string z a w) = Ok s /\ snd (bp_eq z a a w) = Ok false.
Proof.
  exists stored, own_wire, 0%nat. eexists. split; [intros ?; reflexivity|]. split; [|split; vm_compute; reflexivity].
  change own_wire with (fst (step (OConnect 0 (Some 0%nat) (VInt 1) (VInt 2) "red") (run (boot ++ [OMake 0 (thing "arithmetic-combinator" 0 0)]) start))).
  apply reach_step; [apply run_reach; [reflexivity|constructor]|]. eexists. vm_compute. reflexivity.
Qed.
Print Assumptions C56_itself_refuted.

(** ** C56, copies *)
(** three lamps in a row, the last two wired to each other in two colours *)
Definition lamps_ents : list dict :=
  [(KS "connections", VDict [(KS "1", VDict [(KS "red", VList [wire_to 3 1]); (KS "green", VList [wire_to 3 1])])]) :: numbered_thing 1 "small-lamp" 0 9;
   (KS "connections", VDict [(KS "1", VDict [(KS "green", VList [wire_to 3 1])])]) :: numbered_thing 2 "small-lamp" 0 0; numbered_thing 3 "small-lamp" 0 4].
Definition lamps : dict := [(KS "entities", VList (map VDict lamps_ents))].
Lemma lamps_says i s j u col : says_wire lamps_ents i s j u col -> s = 1 /\ u = 1.
Proof.
  intros (kw & kw' & n & raw & sk & cols & l & v & Hi & Hj & N & C & I1 & SK & I2 & Iv & (e & -> & EI & EC)).
  destruct i as [|[|[|i]]]; cbn in Hi; try (destruct i; discriminate); injection Hi as <-; try discriminate C.
  - injection C as <-. destruct I1 as [[= <- <-]|[]]. destruct SK as [(_ & ->)|([=] & _)].
    destruct I2 as [[= <- <-]|[[= <- <-]|[]]]; destruct Iv as [[= <-]|[]]; cbn in EC; injection EC as <-; auto.
  - injection C as <-. destruct I1 as [[= <- <-]|[]]. destruct SK as [(_ & ->)|([=] & _)].
    destruct I2 as [[= <- <-]|[]]; destruct Iv as [[= <-]|[]]; cbn in EC; injection EC as <-; auto.
Qed.
Lemma lamps_whole : whole (w_protos booted) lamps lamps_ents.
Proof.
  constructor.
  - left. reflexivity.
  - assert (NW : forall n name x y, wires_doc lamps_ents (numbered_thing n name x y)) by (intros; left; reflexivity).
    intros kw [<-|[<-|[<-|[]]]].
    + eapply (fine_thing _ _ 1 "small-lamp" 0 9 [_] "lamp"); [cbn; repeat first [left; reflexivity|right]|reflexivity|eexists; split; vm_compute; reflexivity|eauto|].
      right. eexists. split; [reflexivity|]. intros sk cv [[= <- <-]|[]]. exists 1. eexists. split; [left; auto|]. split; [reflexivity|].
      intros ck lv [[= <- <-]|[[= <- <-]|[]]]; eexists; eexists; (split; [reflexivity|]); (split; [reflexivity|]); intros v [<-|[]];
        exists 3, 1; (split; [eexists; repeat split|]); (split; [discriminate|]); eexists; (split; [right; right; left; reflexivity|reflexivity]).
    + eapply (fine_thing _ _ 2 "small-lamp" 0 0 [_] "lamp"); [cbn; repeat first [left; reflexivity|right]|reflexivity|eexists; split; vm_compute; reflexivity|eauto|].
      right. eexists. split; [reflexivity|]. intros sk cv [[= <- <-]|[]]. exists 1. eexists. split; [left; auto|]. split; [reflexivity|].
      intros ck lv [[= <- <-]|[]]; eexists; eexists; (split; [reflexivity|]); (split; [reflexivity|]); intros v [<-|[]];
        exists 3, 1; (split; [eexists; repeat split|]); (split; [discriminate|]); eexists; (split; [right; right; left; reflexivity|reflexivity]).
    + eapply (fine_thing _ _ 3 "small-lamp" 0 4 [] "lamp"); [cbn; repeat first [left; reflexivity|right]|reflexivity|eexists; split; vm_compute; reflexivity|auto|apply NW].
  - intros i j kw kw' n Hi Hj. destruct i as [|[|[|i]]], j as [|[|[|j]]]; cbn in Hi, Hj; try (destruct i; discriminate); try (destruct j; discriminate);
      injection Hi as <-; injection Hj as <-; intros [= E1] [= E2]; (reflexivity || (exfalso; congruence)).
  - right. split; reflexivity.
  - discriminate.
  - discriminate.
  - exists [], []. split; [right; split; reflexivity|]. split; constructor.
  - exists []. split; [right; split; reflexivity|constructor].
Qed.
Lemma lamps_fine : ready_for booted 0 lamps /\ holds (doc_of lamps) lamps /\ fine_document (w_protos booted) lamps lamps_ents /\ faithful (w_protos booted) lamps_ents.
Proof.
  split; [eexists; split; [reflexivity|]; repeat split; left; reflexivity|]. split; [right; eexists; split; reflexivity|]. split.
  - split; [apply lamps_whole|]. split; [cbn; repeat split; eauto|]. split; [apply booted_types|]. split.
    + intros i s j u col [W|W]; apply lamps_says in W as (H1 & H2); auto.
    + apply likeb_like. vm_compute; reflexivity.
  - intros i s j t col kw W Hj. right.
    assert (T : t = 1) by (destruct W as [W|W]; apply lamps_says in W; tauto). split; auto.
    assert (L : dget "name" kw = Some (VStr "small-lamp")).
    { destruct j as [|[|[|j]]]; cbn in Hj; try (destruct j; discriminate); injection Hj as <-; reflexivity. }
    intros (s' & data & ty & N & E & Ty & I'). assert (s' = "small-lamp") as -> by congruence.
    vm_compute in E. injection E as <-. vm_compute in Ty. injection Ty as <-. cbn in I'. intuition discriminate.
Qed.
(** the same blueprint in the sense of C55 need not be equal: the wires between two lamps are read
    in the order in which the first of them lists its colours, which depends on its other wires *)
Theorem C56_copy_refuted : exists z w b doc d kws, lossless z /\ reachable w /\ ready_for w b d /\ holds doc d /\
  fine_document (w_protos w) d kws /\ faithful (w_protos w) kws /\
  exists w1 doc1 s w2 w3 c, load b doc w = (w1, doc1, Ok tt) /\ bp_to_string z b w1 = (w2, Ok s) /\
    bp_construct z true [] (Some s) None w2 = (w3, Ok c) /\ snd (bp_eq z b c w3) = Ok false.
Proof.
  exists stored, booted, 0%nat, (doc_of lamps), lamps, lamps_ents. destruct lamps_fine as (A & B & C & D).
  split; [intros ?; reflexivity|]. split; [apply booted_reachable|]. split; auto. split; auto. split; auto. split; auto.
  set (L := load 0 (doc_of lamps) booted). set (T := bp_to_string stored 0 (fst (fst L))).
  set (s := match snd T with Ok s => s | Err _ => EmptyString end).
  exists (fst (fst L)), (snd (fst L)), s, (fst T), (fst (bp_construct stored true [] (Some s) None (fst T))), 1%nat.
  split; [vm_compute; reflexivity|]. split; [vm_compute; reflexivity|]. split; vm_compute; reflexivity.
Qed.
Print Assumptions C56_copy_refuted.
