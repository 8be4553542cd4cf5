(** * Blueprints made from exchange strings (C55). *)
From Verif Require Import Py Num SpecCodec Codec CodecProofs DecodeProofs BpString Util Classes Mixins Entity World
  SpecWorld SpecDoc SpecEntity SpecTrip SpecBlueprint SpecReload JsonFacts DictFacts LayerProofs BlueTrip JeqProofs ReloadProofs KeyedLoad ReloadTrip.
Open Scope Z_scope.

Lemma held_fine doc d : json_like doc /\ str_keys doc -> holds doc d -> str_keys (VDict d) /\ json_like (VDict d).
Proof.
  intros [J K] [[-> _]|(o & -> & E)]; auto. apply ShapeProofs.dget_in in E. destruct (str_in _ _ _ K E) as [_ S]. split; auto.
  exact (like_in _ _ _ J E).
Qed.
Lemma p_C55_from_string z w s doc d kws : lossless z -> reachable w -> decode z s = Ok doc -> holds doc d ->
  whole (w_protos w) d kws -> string_types (w_protos w) -> proper_sides kws ->
  forall strict, exists w1 w2 o, bp_construct z strict [] (Some s) None w = (w1, Ok (length (w_bps w))) /\
    bp_json (length (w_bps w)) w1 = (w2, Ok (wrap o)) /\ same_blueprint (w_protos w) d kws o /\
    exists s2, bp_to_string z (length (w_bps w)) w1 = (w2, Ok s2) /\ forall strict2, exists w3 w4 o2,
      bp_construct z strict2 [] (Some s2) None w2 = (w3, Ok (length (w_bps w2))) /\ bp_json (length (w_bps w2)) w3 = (w4, Ok (wrap o2)) /\
      (faithful (w_protos w) kws -> same_blueprint (w_protos w) d kws o2).
Proof.
  intros LZ R D HD WH ST PS strict. set (b := length (w_bps w)). set (wn := new_bp (empty_bp strict []) w).
  assert (Rn : reachable wn) by exact (reach_step w (ONewBlueprint strict []) R I).
  assert (Hb : blu wn b = Some (empty_bp strict [])) by (unfold blu, wn, new_bp, b; cbn; rewrite nth_error_app2, Nat.sub_diag by auto; reflexivity).
  assert (RD : ready_for wn b d) by (exists (empty_bp strict []); repeat split; auto).
  destruct (held_fine doc d (p_C57_document z s doc D) HD) as [SK JL].
  assert (F : fine_document (w_protos wn) d kws) by (split; [exact WH|]; split; [exact SK|]; split; [exact ST|]; split; auto).
  destruct (p_C55_reload z wn b doc d kws LZ Rn RD HD F) as (o & _ & G). destruct (G true) as (o2' & w1 & doc1 & w2 & s2 & w3' & w4' & L & J & TS & _).
  destruct (first_stage wn b doc d kws Rn RD HD WH) as (w1' & doc1' & w2' & o' & L' & J' & SB & _). rewrite L in L'. injection L' as <- <-. rewrite J in J'. injection J' as <- <-.
  exists w1, w2, o. split.
  { unfold bp_construct, new_blueprint, mbind, gets. fold b. fold wn. rewrite D. cbn [bind].
    assert (NN : doc <> VNone) by (destruct HD as [[-> _]|(? & -> & _)]; discriminate). destruct doc; try congruence; rewrite L; reflexivity. }
  split; auto. split; [exact SB|]. exists s2. split; auto. intros strict2. destruct (G strict2) as (o2 & w1' & doc1' & w2' & s2' & w3 & w4 & L' & J' & TS' & C & J2).
  rewrite L in L'. injection L' as <- <-. rewrite J in J'. injection J' as <-. rewrite TS in TS'. injection TS' as <-.
  exists w3, w4, o2. split; auto. split; auto. intros FA. apply (p_C55_same z wn b doc d kws strict2 o o2 LZ Rn RD HD F); auto.
  exists w1, doc1, w2, s2, w3, w4. auto 6.
Qed.
