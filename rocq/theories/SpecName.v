(** * Independent specification: values that name things, and the table each name is looked
      up in. *)
From Verif Require Import Py Num Util Classes Mixins Entity World SpecWorld SpecDoc SpecEntity SpecTrip DefaultEntities.
Open Scope Z_scope.

(** [naming ty k ns v]: the value [v] of the key [k] of a [ty] names the items [ns] *)
Inductive naming : string -> string -> list string -> val -> Prop :=
| names_filter n : naming "splitter" "filter" [n] (VStr n)
| names_cargo (l : list (Z * string)) :
    naming "cargo-wagon" "inventory" (map snd l)
      (VDict [(KS "filters", VList (map (fun f => VDict [(KS "index", VInt (fst f)); (KS "name", VStr (snd f))]) l))])
| names_request (l : list (Z * Z * string)) :
    naming "logistic-container" "request_filters" (map snd l)
      (VList (map (fun f => VDict [(KS "index", VInt (fst (fst f))); (KS "count", VInt (snd (fst f))); (KS "name", VStr (snd f))]) l))
| names_infinity (b : bool) (l : list (Z * val * string)) :
    naming "infinity-container" "infinity_settings" (map snd l)
      (VDict [(KS "remove_unfiltered_items", VBool b);
              (KS "filters", VList (map (fun f => VDict [(KS "index", VInt (fst (fst f))); (KS "mode", VStr "exactly");
                                                         (KS "count", snd (fst f)); (KS "name", VStr (snd f))]) l))])
| names_icon n t a b m :
    naming "programmable-speaker" "alert_parameters" [n]
      (VDict [(KS "show_alert", a); (KS "show_on_map", b); (KS "alert_message", m);
              (KS "icon_signal_id", VDict [(KS "name", VStr n); (KS "type", t)])]).
(** the same for the imported tables of recipes and signals *)
Inductive importing (p : protos) : string -> string -> dict -> list string -> val -> Prop :=
| names_recipe n : importing p "assembling-machine" "recipe" (p_recipe p) [n] (VStr n)
| names_inserter (l : list (Z * string)) :
    importing p "inserter" "filters" (p_signal p) (map snd l)
      (VList (map (fun f => VDict [(KS "index", VInt (fst f)); (KS "name", VStr (snd f))]) l))
| names_items ty (l : list (string * val)) : In ty ["beacon"; "locomotive"] ->
    importing p ty "items" (p_signal p) (map fst l) (VDict (map (fun f => (KS (fst f), snd f)) l)).
(** [signalling k ns v]: the value [v] of the key [k] of a control behaviour names the
    signals [ns] *)
Definition a_name (n t : string) : val := VDict [(KS "name", VStr n); (KS "type", VStr t)].
Inductive signalling : string -> list string -> val -> Prop :=
| signals_output k n t : In k signal_keys -> signalling k [n] (a_name n t)
| signals_condition n t m u o : In o comparators ->
    signalling "circuit_condition" [n; m] (VDict [(KS "first_signal", a_name n t); (KS "second_signal", a_name m u); (KS "comparator", o)])
| signals_filters (l : list (Z * Z * string * string)) :
    signalling "filters" (map snd l)
      (VList (map (fun f => VDict [(KS "signal", a_name (snd f) (snd (fst f))); (KS "count", VInt (snd (fst (fst f)))); (KS "index", VInt (fst (fst (fst f))))]) l)).
