(** * When an entity that was made can be exported (C72). *)
From Verif Require Import Py Num NumFacts Util SpecUtil Classes Mixins Entity Setters World SpecWorld SpecDoc SpecEntity SpecAttr SpecValues SpecSetting SpecBehaviour SpecMake SpecWrite SpecExport.
Open Scope string_scope. Open Scope Z_scope. Open Scope list_scope.

(** the entity that [mk kw] makes, of the name [s] and the type [ty] *)
Record made_entity (mk : dict -> op) (w : world) (kw : dict) (s ty : string) (own cbk : list string) : Prop := mkMade {
  me_world : reachable w;
  me_making : creating mk;
  me_class : uncustomised mk w ty;
  me_typed : typed (w_protos w) kw s ty;
  me_format : In (ty, (own, cbk)) formats;
  me_doubles : doubles (VDict kw);
  me_made : snd (step (mk kw) w) = Ok tt }.
(** its export *)
Definition export_of (mk : dict -> op) (w : world) (kw : dict) : res val := snd (ent_json (length (w_ents w)) (fst (step (mk kw) w))).

(** the signal of a filter of a constant combinator has no document: it is no name, or a bad one *)
Definition no_document (t : dict) (x : val) (e : exn) : Prop :=
  ((x = VNone \/ exists z, x = VInt z) /\ e = EAttribute) \/ exists n, x = VStr n /\ signal_doc t n (Err e).
(** what is wrong with a description that was accepted *)
Inductive unshown (mk : dict -> op) (t kw : dict) (ty : string) : exn -> Prop :=
| us_nowhere : mk kw = ONewEntity None kw -> unshown mk t kw ty EAttribute
| us_position : given "position" VNone kw = VNone -> unshown mk t kw ty EAttribute
| us_behaviour cb c k g x e : dget "control_behavior" kw = Some (VDict cb) -> ~ In ty combinators -> In c (controls ty) -> In (k, g) (behaviour c) ->
    taken t g (described c k cb) (Ok x) -> shown_as t g k x (Err e) -> unshown mk t kw ty e
| us_filter cb l f fd x e : dget "control_behavior" kw = Some (VDict cb) -> In CFilters (controls ty) -> elements (given "filters" (VList []) cb) (Ok l) -> In f l ->
    keywords ["signal"; "count"; "index"] f (Ok fd) -> signal_taken t (given "signal" VNone fd) (Ok x) -> no_document t x e -> unshown mk t kw ty e
| us_side cb c d0 side n e : dget "control_behavior" kw = Some (VDict cb) -> In c [CArithmetic; CDecider] -> ty = combinator_type c ->
    dget (KS (fst (fst (conditions c)))) cb = Some (VDict d0) -> In side ["first"; "second"; "output"] -> side_stored t c side d0 (VStr n) ->
    signal_doc t n (Err e) -> unshown mk t kw ty e.

(** a table of signals in which every signal has a type *)
Definition sound_table (t : dict) : Prop := forall (n : string) v, dget n t = Some v -> exists d x, v = VDict d /\ dget "type" d = Some x.
(** a value somewhere inside of another *)
Inductive inside (x : val) : val -> Prop :=
| in_self : inside x x
| in_list l v : In v l -> inside x v -> inside x (VList l)
| in_dict d k v : In (k, v) d -> inside x v -> inside x (VDict d).
