(** * What every setting of an entity accepts and how it is exported (C67). *)
From Coq Require Import QArith.
From Verif Require Import Py Num NumFacts Util SpecUtil SpecRound SpecArith SpecWorld DefaultEntities Setters SpecAttr SpecValues.
Open Scope Z_scope.

(** ** Steps: the first error is the error *)
Definition and_then {A B} (P : res A -> Prop) (Q : A -> res B -> Prop) (r : res B) : Prop :=
  (exists e, P (Err e) /\ r = Err e) \/ exists a, P (Ok a) /\ Q a r.
Notation "'let?' x := P 'in' Q" := (and_then P (fun x => Q)) (at level 200, x name, P at level 100, Q at level 200).
Definition gives {A} (a : A) (r : res A) : Prop := r = Ok a.

(** ** Conversions *)
(** int(v); texts must be ASCII *)
Inductive whole_number : val -> res Z -> Prop :=
| wn_int z : whole_number (VInt z) (Ok z)
| wn_bool (b : bool) : whole_number (VBool b) (Ok (if b then 1 else 0))
| wn_float f : fvalid f = true -> finite f -> whole_number (VFlt f) (Ok (Z.quot (units f) one_unit))
| wn_infinite s : whole_number (VFlt (S754_infinity s)) (Err EOverflow)
| wn_nan : whole_number (VFlt S754_nan) (Err EValue)
| wn_text s z : all_ascii s = true -> int_text s z -> whole_number (VStr s) (Ok z)
| wn_no_text s : all_ascii s = true -> (forall z, ~ int_text s z) -> whole_number (VStr s) (Err EValue)
| wn_none : whole_number VNone (Err EType)
| wn_list l : whole_number (VList l) (Err EType)
| wn_dict d : whole_number (VDict d) (Err EType).
(** float(v); texts are left out *)
Inductive floated : val -> res float64 -> Prop :=
| fv_int z r : as_float (NI z) r -> floated (VInt z) r
| fv_bool (b : bool) r : as_float (NI (if b then 1 else 0)) r -> floated (VBool b) r
| fv_float f : floated (VFlt f) (Ok f)
| fv_none : floated VNone (Err EType)
| fv_list l : floated (VList l) (Err EType)
| fv_dict d : floated (VDict d) (Err EType).
(** a number to compute with; bools are left out, and texts where they could be meant as formats *)
Inductive number_or_type_error (texts : bool) : val -> res num -> Prop :=
| no_int z : number_or_type_error texts (VInt z) (Ok (NI z))
| no_float f : number_or_type_error texts (VFlt f) (Ok (NF f))
| no_text s : texts = true -> number_or_type_error texts (VStr s) (Err EType)
| no_none : texts = true -> number_or_type_error texts VNone (Err EType)
| no_list l : number_or_type_error texts (VList l) (Err EType)
| no_dict d : number_or_type_error texts (VDict d) (Err EType).
Definition numeral (n : num) : val := match n with NI z => VInt z | NF f => VFlt f end.
Definition truth (v : val) (b : bool) : Prop := (b = false /\ falsy v) \/ (b = true /\ ~ falsy v).
Definition name_of (o : option string) : val := match o with Some s => VStr s | None => VNone end.
(** v["k"] and v.get("k", otherwise) *)
Inductive field (v : val) (k : string) : res val -> Prop :=
| fd_found d x : v = VDict d -> dget k d = Some x -> field v k (Ok x)
| fd_missing d : v = VDict d -> dget k d = None -> field v k (Err EKey)
| fd_other : (forall d, v <> VDict d) -> field v k (Err EType).
Inductive field_or (v : val) (k : string) (otherwise : val) : res val -> Prop :=
| fo_found d x : v = VDict d -> dget k d = Some x -> field_or v k otherwise (Ok x)
| fo_missing d : v = VDict d -> dget k d = None -> field_or v k otherwise (Ok otherwise)
| fo_other : (forall d, v <> VDict d) -> field_or v k otherwise (Err EAttribute).
(** what a loop over v goes through; texts are left out *)
Definition key_value (k : key) : val := match k with KS s => VStr s | KI z => VInt z end.
Inductive elements : val -> res (list val) -> Prop :=
| el_list l : elements (VList l) (Ok l)
| el_dict d : elements (VDict d) (Ok (map (fun kv => key_value (fst kv)) d))
| el_none : elements VNone (Err EType)
| el_bool b : elements (VBool b) (Err EType)
| el_int z : elements (VInt z) (Err EType)
| el_float f : elements (VFlt f) (Err EType).
Inductive elements_or_none : val -> res (list val) -> Prop :=
| en_none : elements_or_none VNone (Ok [])
| en_some v r : v <> VNone -> elements v r -> elements_or_none v r.
(** the index of an entry; None, bools and floats are left out *)
Inductive index : val -> res key -> Prop :=
| ix_text s : index (VStr s) (Ok (KS s))
| ix_int z : index (VInt z) (Ok (KI z))
| ix_list l : index (VList l) (Err EType)
| ix_dict d : index (VDict d) (Err EType).

(** ** Lists of entries with an index *)
Definition entry : Type := key * dict.
Definition cargo_item (x : val) : res entry -> Prop :=
  let? n := field x "name" in let? o := named defaultentities n in
  let? i := field x "index" in let? k := index i in gives (k, [(KS "name", name_of o)]).
Definition request_item (x : val) : res entry -> Prop :=
  let? n := field x "name" in let? o := named defaultentities n in
  let? c := field x "count" in let? z := whole_number c in
  let? i := field x "index" in let? k := index i in gives (k, [(KS "name", name_of o); (KS "count", VInt z)]).
Definition one_of (l : list string) (v : val) : Prop := exists s, v = VStr s /\ In s l.
Definition must {A} (C : Prop) (x : A) (r : res A) : Prop := (C /\ r = Ok x) \/ (~ C /\ r = Err EValue).
Definition infinity_item (x : val) : res entry -> Prop :=
  let? m := field x "mode" in let? m := must (one_of ["at-least"; "at-most"; "exactly"]%string m) m in
  let? c := field x "count" in
  let? n := field x "name" in let? o := named defaultentities n in
  let? i := field x "index" in let? k := index i in gives (k, [(KS "count", c); (KS "mode", m); (KS "name", name_of o)]).
Inductive all_read (E : val -> res entry -> Prop) : list val -> res (list entry) -> Prop :=
| ar_none : all_read E [] (Ok [])
| ar_error x l e : E x (Err e) -> all_read E (x :: l) (Err e)
| ar_later x l kv e : E x (Ok kv) -> all_read E l (Err e) -> all_read E (x :: l) (Err e)
| ar_more x l kv ps : E x (Ok kv) -> all_read E l (Ok ps) -> all_read E (x :: l) (Ok (kv :: ps)).
(** one entry for each index, in the order in which the indices first appear; the last entry counts *)
Fixpoint distinct (l : list key) : list key :=
  match l with [] => [] | k :: r => k :: filter (fun j => negb (key_eqb j k)) (distinct r) end.
Definition collected (ps d : list entry) : Prop :=
  map fst d = distinct (map fst ps) /\
  forall k x, In (k, x) d -> exists l r, ps = (l ++ (k, x) :: r)%list /\ ~ In k (map fst r).
Definition listed (ps : list entry) (l : list val) : Prop :=
  exists d, collected ps d /\ l = map (fun kx => VDict ((KS "index", key_value (fst kx)) :: snd kx)) d.

(** ** The settings.  The result is what the export holds afterwards. *)
Definition optional (v : val) (P : res (option val) -> Prop) (r : res (option val)) : Prop :=
  (v = VNone /\ r = Ok None) \/ (v <> VNone /\ P r).
Definition one : float64 := S754_finite false 4503599627370496 (-52).
Definition inventory_shown (bar : val) (ps : list entry) (r : res (option val)) : Prop :=
  exists l, listed ps l /\
  ((bar = VNone /\ l = [] /\ r = Ok None) \/
   (~ (bar = VNone /\ l = []) /\
    r = Ok (Some (VDict (app (match bar with VNone => [] | _ => [(KS "bar", bar)] end)
                         (match l with [] => [] | _ => [(KS "filters", VList l)] end)))))).

Inductive keywords (allowed : list string) : val -> res dict -> Prop :=
| kw_ok d : (forall k x, In (k, x) d -> exists s, k = KS s /\ In s allowed) -> keywords allowed (VDict d) (Ok d)
| kw_bad d k x : In (k, x) d -> (forall s, k = KS s -> ~ In s allowed) -> keywords allowed (VDict d) (Err EType)
| kw_other v : (forall d, v <> VDict d) -> keywords allowed v (Err EType).
Inductive channel (d : dict) (k : string) : res num -> Prop :=
| ch_default : dget k d = None -> channel d k (Ok (NI 1))
| ch_given v r : dget k d = Some v -> number_or_type_error true v r -> channel d k r.
Definition colour_shown (r g b a : num) (o : res (option val)) : Prop :=
  exists r' g' b' a', clamped r r' /\ clamped g g' /\ clamped b b' /\ clamped a a' /\
  o = Ok (Some (VDict [(KS "r", numeral r'); (KS "g", numeral g'); (KS "b", numeral b'); (KS "a", numeral a')])).
(** a place: both coordinates, numbers *)
Inductive place : val -> res (option val) -> Prop :=
| pl_ok d x y : dget "x" d = Some (numeral x) -> dget "y" d = Some (numeral y) ->
    place (VDict d) (Ok (Some (VDict [(KS "x", numeral x); (KS "y", numeral y)])))
| pl_missing d : dget "x" d = None \/ dget "y" d = None -> place (VDict d) (Err EKey)
| pl_other v : (forall d, v <> VDict d) -> place v (Err EValue).
Inductive recipe_known (recipes : dict) (strict : bool) : val -> res (option val) -> Prop :=
| rk_known (s : string) : strict = false \/ dget s recipes <> None -> recipe_known recipes strict (VStr s) (Ok (Some (VStr s)))
| rk_unknown v : strict = true -> v <> VNone -> hashable v -> (forall s : string, v = VStr s -> dget s recipes = None) ->
    recipe_known recipes strict v (Err EUnknownRecipe)
| rk_unhashable v : strict = true -> ~ hashable v -> recipe_known recipes strict v (Err EType).
(** numbers equal to 0 or 1 count as False and True *)
Definition bool_or_none (v : val) : Prop :=
  v = VNone \/ (exists b, v = VBool b) \/ (exists n q, v = numeral n /\ nfin n q /\ (q == 0 \/ q == 1)%Q).
(** 0 to 255; None is refused and NaN is not *)
Inductive variation_checked : val -> res (option val) -> Prop :=
| vr_number n q : nfin n q -> (0 <= q)%Q -> (q <= 255)%Q -> variation_checked (numeral n) (Ok (Some (numeral n)))
| vr_outside n q : nfin n q -> (q < 0)%Q \/ (255 < q)%Q -> variation_checked (numeral n) (Err EValue)
| vr_infinite s : variation_checked (VFlt (S754_infinity s)) (Err EValue)
| vr_nan : variation_checked (VFlt S754_nan) (Ok (Some (VFlt S754_nan)))
| vr_bool b : variation_checked (VBool b) (Ok (Some (VBool b)))
| vr_none : variation_checked VNone (Err EType)
| vr_text s : variation_checked (VStr s) (Err EType)
| vr_list l : variation_checked (VList l) (Err EType)
| vr_dict d : variation_checked (VDict d) (Err EType).
Definition parameters_shown (volume : float64) (b c : val) (r : res (option val)) : Prop :=
  exists x y, truth b x /\ truth c y /\
  r = Ok (Some (VDict [(KS "playback_volume", VFlt volume); (KS "playback_globally", VBool x); (KS "allow_polyphony", VBool y)])).
Definition alert_shown (a b m : val) (icon : option string) (r : res (option val)) : Prop :=
  exists x y i, truth a x /\ truth b y /\
  (icon = None /\ i = [] \/ exists s v, icon = Some s /\ signal_document defaultentities s v /\ i = [(KS "icon_signal_id", v)]) /\
  r = Ok (Some (VDict ([(KS "show_alert", VBool x); (KS "show_on_map", VBool y); (KS "alert_message", m)] ++ i)%list)).


Definition setting (recipes : dict) (strict : bool) (k : mattr) (v : val) : res (option val) -> Prop :=
  match k with
  | AOrientation => optional v
      (let? n := number_or_type_error false v in let? m := a_remainder n (NF one) in gives (Some (numeral m)))
  | AInventory => optional v
      (let? bar := field_or v "bar" VNone in let? fs := field_or v "filters" (VList []) in
       let? l := elements fs in let? ps := all_read cargo_item l in inventory_shown bar ps)
  | AColor => optional v
      (let? d := keywords ["r"; "g"; "b"; "a"]%string v in
       let? r := channel d "r" in let? g := channel d "g" in let? b := channel d "b" in let? a := channel d "a" in
       colour_shown r g b a)
  | ABar | AOverride => optional v (let? z := whole_number v in gives (Some (VInt z)))
  | APickup | ADrop => optional v (place v)
  | AFilterMode => optional v (must (one_of ["whitelist"; "blacklist"]%string v) (Some v))
  | AInfinity =>
      let? u := field v "remove_unfiltered_items" in let? fs := field v "filters" in
      let? l := elements_or_none fs in let? ps := all_read infinity_item l in
      fun r => exists b l', truth u b /\ listed ps l' /\
               r = Ok (Some (VDict [(KS "remove_unfiltered_items", VBool b); (KS "filters", VList l')]))
  | ARecipe => optional v (recipe_known recipes strict v)
  | AFromBuffers => fun r => (falsy v /\ r = Ok None) \/ (~ falsy v /\ r = Ok (Some v))
  | ARequests =>
      let? l := elements_or_none v in let? ps := all_read request_item l in
      fun r => exists l', listed ps l' /\ ((l' = [] /\ r = Ok None) \/ (l' <> [] /\ r = Ok (Some (VList l'))))
  | AAutoLaunch => optional v (must (bool_or_none v) (Some v))
  | AParameters => optional v
      (let? a := field v "playback_volume" in let? f := floated a in
       let? b := field v "playback_globally" in let? c := field v "allow_polyphony" in parameters_shown f b c)
  | AAlert => optional v
      (let? a := field v "show_alert" in let? b := field v "show_on_map" in
       let? i := field_or v "icon_signal_id" (VDict []) in let? n := field_or i "name" VNone in
       let? o := named defaultentities n in let? m := field v "alert_message" in alert_shown a b m o)
  | AInputPriority | AOutputPriority => optional v (must (one_of ["right"; "left"]%string v) (Some v))
  | AFilter => let? o := named defaultentities v in gives (option_map VStr o)
  | AStation => gives (shows v)
  | AType => must (one_of ["input"; "output"]%string v) (Some v)
  | AVariation => variation_checked v
  | AInventoryBar | AInfinityRemove | AInfinityFilters => fun _ => False
  end.
(** the attributes that hold a part of what is exported: whether a value is taken *)
Definition part_setting (k : mattr) (v : val) : res unit -> Prop :=
  match k with
  | AInventoryBar => fun r => (v = VNone /\ r = Ok tt) \/ (v <> VNone /\ (let? _ := whole_number v in gives tt) r)
  | AInfinityRemove => gives tt
  | AInfinityFilters => let? l := elements_or_none v in let? _ := all_read infinity_item l in gives tt
  | _ => fun _ => False
  end.
Definition is_part (k : mattr) : Prop := In k [AInventoryBar; AInfinityRemove; AInfinityFilters].
