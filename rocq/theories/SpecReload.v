(** * Independent specification of reading an exported blueprint again. *)
From Coq Require Import Permutation.
From Verif Require Import Py Num SpecCodec Codec BpString Util Classes Mixins Entity World SpecWorld SpecDoc SpecEntity SpecTrip SpecBlueprint.
Open Scope Z_scope.

(** the types in the table of signals are strings *)
Definition string_types (p : protos) : Prop :=
  forall s data t, dget s (p_signal p) = Some (VDict data) -> dget "type" data = Some t -> exists x, t = VStr x.
(** wires end at side 1 or side 2 *)
Definition proper_sides (kws : list dict) : Prop := forall i s j t col, wired kws i s j t col -> t = 1 \/ t = 2.
(** the document with every key a string *)
Definition as_document (d : dict) : dict := map (fun kv => (KS (json_key (fst kv)), as_json (snd kv))) d.
(** the exporter writes the near side of a wire where the far side belongs; it is read as side 1 for
    entities with one side only *)
Definition read_side (p : protos) (kw : dict) (s t : Z) : Prop := (two_port p kw /\ t = s) \/ (~ two_port p kw /\ t = 1).
(** every wire survives that: the side read is the side it had *)
Definition faithful (p : protos) (kws : list dict) : Prop :=
  forall i s j t col kw, wired kws i s j t col -> nth_error kws j = Some kw -> read_side p kw s t.

(** ** Two generations *)
Definition wrap (o : dict) : val := VDict [(KS "blueprint", VDict o)].
(** a document that keeps its meaning: well-formed, from JSON, with sides 1 and 2 *)
Definition fine_document (p : protos) (d : dict) (kws : list dict) : Prop :=
  whole p d kws /\ str_keys (VDict d) /\ string_types p /\ proper_sides kws /\ json_like (VDict d).
(** an empty blueprint that has no colour [d] would not replace *)
Definition ready_for (w : world) (b : nat) (d : dict) : Prop :=
  exists x, blu w b = Some x /\ b_objs x = [] /\ b_custom x = [] /\ (b_label_color x = None \/ dget "label_color" d <> None).
(** [doc] is loaded into blueprint [b] and exported as [o]; a new blueprint made from the exchange
    string of [b] is exported as [o2] *)
Definition generations (z : zlib) (w : world) (b : nat) (doc : val) (strict : bool) (o o2 : dict) : Prop :=
  exists w1 doc1 w2 s w3 w4,
    load b doc w = (w1, doc1, Ok tt) /\ bp_json b w1 = (w2, Ok (wrap o)) /\ bp_to_string z b w1 = (w2, Ok s) /\
    bp_construct z strict [] (Some s) None w2 = (w3, Ok (length (w_bps w2))) /\
    bp_json (length (w_bps w2)) w3 = (w4, Ok (wrap o2)).
