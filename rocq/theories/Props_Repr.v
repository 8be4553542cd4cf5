(** * Theorems about the texts of objects (repr and str): C71. *)
From Verif Require Import Py Num Util Values Classes Mixins Entity World SpecCodec SpecWrite SpecRepr Repr DefaultEntities EntityData Demo Props_Doc.
From Verif Require Import ReprProofs.
Open Scope string_scope.
Open Scope Z_scope.

(** repr(v) of a Vector, and that it tells coordinates apart *)
Theorem C71_vector : forall v t, a_vector v -> (vec_repr v = t <-> vector_text v t).
Proof. exact p_C71_vector. Qed.
Print Assumptions C71_vector.
Theorem C71_vector_identifies : forall v v', a_vector v -> a_vector v' -> vec_repr v = vec_repr v' -> v = v'.
Proof. exact p_C71_vector_identifies. Qed.
Print Assumptions C71_vector_identifies.
Theorem C71_color : forall c t, a_color c -> (color_repr c = t <-> color_text c t).
Proof. exact p_C71_color. Qed.
Print Assumptions C71_color.
Theorem C71_color_identifies : forall c c', a_color c -> a_color c' -> color_repr c = color_repr c' -> c = c'.
Proof. exact p_C71_color_identifies. Qed.
Print Assumptions C71_color_identifies.
(** of an Entity, whatever its name contains *)
Theorem C71_entity : forall e n, placed e -> e_name e = VStr n -> exists t, ent_repr e = Ok t /\ entity_text n e t.
Proof. exact p_C71_entity. Qed.
Print Assumptions C71_entity.
Theorem C71_entity_identifies : forall e e' n n' t, placed e -> placed e' -> e_name e = VStr n -> e_name e' = VStr n' ->
  ent_repr e = Ok t -> ent_repr e' = Ok t -> n = n' /\ e_pos e = e_pos e' /\ e_dir e = e_dir e'.
Proof. exact p_C71_entity_identifies. Qed.
Print Assumptions C71_entity_identifies.
Theorem C71_entity_str : forall e e' n n', e_name e = VStr n -> e_name e' = VStr n' ->
  ent_str e = Ok (short_text n) /\ (ent_str e = ent_str e' <-> n = n').
Proof. exact p_C71_entity_str. Qed.
Print Assumptions C71_entity_str.
(** of a Connection *)
Theorem C71_connection : forall w c i j a b, c_from c = Some i -> c_to c = Some j -> called w i a -> called w j b ->
  exists s t, int_written (c_fs c) s /\ int_written (c_ts c) t /\
  conn_repr w c = Ok ("<Connection (" ++ c_color c ++ " from:(" ++ short_text a ++ ", " ++ s ++ ") to:(" ++ short_text b ++ ", " ++ t ++ "))>").
Proof. exact p_C71_connection. Qed.
Print Assumptions C71_connection.
Theorem C71_connection_identifies : forall w c i j a b w' c' i' j' a' b' t, c_from c = Some i -> c_to c = Some j -> called w i a -> called w j b ->
  c_from c' = Some i' -> c_to c' = Some j' -> called w' i' a' -> called w' j' b' ->
  In (c_color c) ["red"; "green"] -> In (c_color c') ["red"; "green"] -> no_quote a -> no_quote b -> no_quote a' -> no_quote b' ->
  conn_repr w c = Ok t -> conn_repr w' c' = Ok t ->
  c_color c = c_color c' /\ a = a' /\ b = b' /\ c_fs c = c_fs c' /\ c_ts c = c_ts c'.
Proof. exact p_C71_connection_identifies. Qed.
Print Assumptions C71_connection_identifies.
(** names are not escaped: with quotes in the names, connections of other entities look the same *)
Theorem C71_connection_any_name_refuted : exists w c c' i j i' j' a b a' b', c_from c = Some i /\ c_to c = Some j /\ c_from c' = Some i' /\ c_to c' = Some j' /\
  called w i a /\ called w j b /\ called w i' a' /\ called w j' b' /\ a <> a' /\ b <> b' /\ conn_repr w c = conn_repr w c'.
Proof. exact p_C71_connection_refuted. Qed.
Print Assumptions C71_connection_any_name_refuted.
(** of a SignalID: a KeyError for the name None *)
Theorem C71_signal : forall t n, (forall ty, dget (KS n) t = Some ty -> signal_repr t (Some n) = Ok ("<SignalID (" ++ n ++ ", type: " ++ ty ++ ")>")) /\
  (dget (KS n) t = None -> signal_repr t (Some n) = Err EKey) /\ signal_repr t None = Err EKey.
Proof. exact p_C71_signal. Qed.
Print Assumptions C71_signal.
Theorem C71_signal_identifies : forall t n n' r, no_comma n -> no_comma n' -> signal_repr t (Some n) = Ok r -> signal_repr t (Some n') = Ok r -> n = n'.
Proof. exact p_C71_signal_identifies. Qed.
Print Assumptions C71_signal_identifies.

Example C71_ex :
  vec_repr (mkVec (NI (-12)) (NF (S754_zero true))) = "<Vector (-12, -0.0)>" /\
  vec_repr (mkVec (NF fone) (NI 1)) = "<Vector (1.0, 1)>" /\
  vec_repr (mkVec (NF S754_nan) (NF (S754_infinity true))) = "<Vector (nan, -inf)>" /\
  color_repr (color_new (NI 7) (NF Num.half) (NI (-1)) (NI 1)) = "<Color (r:1, g:0.5, b:0, a:1)>".
Proof. vm_compute. repeat split. Qed.
(** two inserters and a wire between them *)
Definition two_inserters : world :=
  fst (step (OMake 0 (thing "inserter" 3 4 ++ [(KS "direction", VInt 6)])%list) (fst (step (OMake 0 (thing "inserter" 1 2)) booted))).
Example C71_entity_ex :
  (let! e := match nth_error (w_ents two_inserters) 1 with Some e => Ok e | None => Err EKey end in ent_repr e)
    = Ok "<Entity (name: ""inserter"", position: <Vector (3, 4)>, direction: 6)>" /\
  conn_repr two_inserters (mkConn (Some 0%nat) (Some 1%nat) 1 2 "red")
    = Ok "<Connection (red from:(<Entity (name: ""inserter"")>, 1) to:(<Entity (name: ""inserter"")>, 2))>" /\
  called two_inserters 1 "inserter" /\
  signal_repr defaultentities (Some "coal") = Ok "<SignalID (coal, type: item)>".
Proof. split; [vm_compute; reflexivity|]. split; [vm_compute; reflexivity|]. split; [eexists; split; vm_compute; reflexivity|vm_compute; reflexivity]. Qed.
