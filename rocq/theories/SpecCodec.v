(** * Specifications for the exchange string codec. *)
From Coq Require Import DecimalString.
From Verif Require Import Py Num Text.
Open Scope Z_scope.

(** Python strings: code points 0..0x10FFFF, in the model's representation. *)
Definition code_point (c : Z) : Prop := 0 <= c <= 1114111.
(** no high surrogate directly followed by a low one (JSON cannot express that) *)
Fixpoint no_surrogate_pair (l : list Z) : Prop :=
  match l with
  | a :: ((b :: _) as r) => ~ (55296 <= a <= 56319 /\ 56320 <= b <= 57343) /\ no_surrogate_pair r
  | _ => True
  end.
Definition text (s : string) : Prop :=
  exists l, Forall code_point l /\ no_surrogate_pair l /\ s = utf8s l.

(** standard decimal notation *)
Definition decimal (z : Z) : string := NilZero.string_of_int (Z.to_int z).
(** name under which a dictionary key appears in JSON *)
Definition json_key (k : key) : string := match k with KS s => s | KI z => decimal z end.

(** JSON-representable objects: proper texts and binary64 floats everywhere, and
    keys that stay distinct when written as strings. *)
Fixpoint json_like (v : val) : Prop :=
  match v with
  | VFlt f => fvalid f = true
  | VStr s => text s
  | VList l => (fix all l := match l with [] => True | x :: r => json_like x /\ all r end) l
  | VDict d => NoDup (map (fun kv => json_key (fst kv)) d) /\
               (fix all (d : dict) := match d with
                             | [] => True
                             | (k, x) :: r => text (json_key k) /\ json_like x /\ all r end) d
  | _ => True
  end.

(** the JSON document of an object: integer keys become their decimal strings *)
Fixpoint as_json (v : val) : val :=
  match v with
  | VList l => VList (map as_json l)
  | VDict d => VDict (map (fun kv => (KS (json_key (fst kv)), as_json (snd kv))) d)
  | v => v
  end.

(** every dictionary key is a string *)
Fixpoint str_keys (v : val) : Prop :=
  match v with
  | VList l => (fix all l := match l with [] => True | x :: r => str_keys x /\ all r end) l
  | VDict d => (fix all (d : dict) := match d with
                 | [] => True | (k, x) :: r => (exists s, k = KS s) /\ str_keys x /\ all r end) d
  | _ => True
  end.

(** ** base64 text *)
Definition base64_letters : string :=
  "ABCDEFGHIJKLMNOPQRSTUVWXYZabcdefghijklmnopqrstuvwxyz0123456789+/".
Definition letter (c : ascii) : Prop := In c (list_ascii_of_string base64_letters).
Definition all_chars (P : ascii -> Prop) (s : string) : Prop := Forall P (list_ascii_of_string s).
Definition ascii_char (c : ascii) : Prop := (N_of_ascii c < 128)%N.
(** a character base64 decoding skips *)
Definition junk (c : ascii) : Prop := ascii_char c /\ ~ letter c /\ c <> "="%char.

(** Bodies the decoder accepts, once junk is removed: groups of four letters, with
    stray '=' tolerated before the second letter of a group and at most one before the
    third; a group may be cut short by '==' after two letters or '=' after three, and
    then whatever follows is ignored. *)
Fixpoint equals (n : nat) : string := match n with O => "" | S k => String "=" (equals k) end.
Inductive b64_body : string -> Prop :=
| bb_end n : b64_body (equals n)
| bb_group n m k a b c d r : (k <= 1)%nat -> letter a -> letter b -> letter c -> letter d -> b64_body r ->
    b64_body (equals n ++ String a (equals m ++ String b (equals k ++ String c (String d r))))
| bb_pad2 n m a b r : letter a -> letter b ->
    b64_body (equals n ++ String a (equals m ++ String b ("==" ++ r)))
| bb_pad1 n m k a b c r : (k <= 1)%nat -> letter a -> letter b -> letter c ->
    b64_body (equals n ++ String a (equals m ++ String b (equals k ++ String c ("=" ++ r)))).
Definition letterb (c : ascii) : bool := existsb (Ascii.eqb c) (list_ascii_of_string base64_letters).
Fixpoint without_junk (s : string) : string :=
  match s with
  | EmptyString => ""
  | String c r => if letterb c || Ascii.eqb c "=" then String c (without_junk r) else without_junk r
  end.
