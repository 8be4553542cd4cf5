(** * JSON as a grammar: which texts are documents, and what they denote.

    RFC 8259, with the constants NaN, Infinity and -Infinity that [json.loads] accepts as well, and
    with its reading of escaped surrogates.  Independent of the scanner in Json.v: a decimal
    fraction is the nearest float by SpecRound.v. *)
From Verif Require Import Py Num Text SpecCodec SpecRound.
Open Scope string_scope.
Open Scope Z_scope.

(** ** blanks and digits *)
Definition blank_char (c : ascii) : Prop := In c [" "%char; "009"%char; "010"%char; "013"%char].
Definition blank (s : string) : Prop := all_chars blank_char s.
Definition digit (c : ascii) : Prop := 48 <= bz c <= 57.
Definition digits (s : string) : Prop := s <> "" /\ all_chars digit s.
(** the number a string of digits denotes *)
Definition number_of (s : string) : Z :=
  fold_left (fun n c => 10 * n + (bz c - 48)) (list_ascii_of_string s) 0.

(** ** numbers *)
Inductive sign : string -> bool -> Prop := plus : sign "" false | minus : sign "-" true.
Definition signed (neg : bool) (n : Z) : Z := if neg then - n else n.
(** no leading zeros *)
Inductive int_part : string -> Prop :=
| ip_zero : int_part "0"
| ip_more c s : digit c -> c <> "0"%char -> all_chars digit s -> int_part (String c s).
(** the text and its digits *)
Inductive frac_part : string -> string -> Prop :=
| fp_none : frac_part "" ""
| fp_some ds : digits ds -> frac_part ("." ++ ds) ds.
(** the text and its value *)
Inductive exp_part : string -> Z -> Prop :=
| ep_none : exp_part "" 0
| ep_some e sg ds : In e ["e"%char; "E"%char] -> In sg [""; "+"; "-"] -> digits ds ->
    exp_part (String e (sg ++ ds)) (signed (String.eqb sg "-") (number_of ds)).
Inductive json_number : string -> val -> Prop :=
| jn_int sg neg i : sign sg neg -> int_part i ->
    json_number (sg ++ i) (VInt (signed neg (number_of i)))
| jn_float sg neg i f ds e x v : sign sg neg -> int_part i -> frac_part f ds -> exp_part e x -> f ++ e <> "" ->
    rounds_decimal neg (number_of (i ++ ds)) (x - Z.of_nat (String.length ds)) v ->
    json_number (sg ++ i ++ f ++ e) (VFlt v).

(** ** strings: bytes that stand for themselves, and UTF-16 code units *)
Inductive piece := Byte (c : ascii) | Code (n : Z).
Inductive hex_digit : ascii -> Z -> Prop :=
| hd_num c : 48 <= bz c <= 57 -> hex_digit c (bz c - 48)
| hd_upper c : 65 <= bz c <= 70 -> hex_digit c (bz c - 65 + 10)
| hd_lower c : 97 <= bz c <= 102 -> hex_digit c (bz c - 97 + 10).
Definition escapes : list (ascii * ascii) :=
  [(""""%char, """"%char); ("\"%char, "\"%char); ("/"%char, "/"%char); ("b"%char, "008"%char);
   ("f"%char, "012"%char); ("n"%char, "010"%char); ("r"%char, "013"%char); ("t"%char, "009"%char)].
Inductive json_chars : string -> list piece -> Prop :=
| jc_nil : json_chars "" []
| jc_byte c s l : 32 <= bz c -> c <> """"%char -> c <> "\"%char -> json_chars s l ->
    json_chars (String c s) (Byte c :: l)
| jc_esc c x s l : In (c, x) escapes -> json_chars s l -> json_chars (String "\" (String c s)) (Byte x :: l)
| jc_code a b c d m n o p s l : hex_digit a m -> hex_digit b n -> hex_digit c o -> hex_digit d p ->
    json_chars s l ->
    json_chars ("\u" ++ String a (String b (String c (String d s))))
      (Code (((m * 16 + n) * 16 + o) * 16 + p) :: l).
Definition high_surrogate (n : Z) : bool := (55296 <=? n) && (n <=? 56319).
Definition low_surrogate (n : Z) : bool := (56320 <=? n) && (n <=? 57343).
(** the text: two surrogates that follow each other are one character *)
Fixpoint chars_text (l : list piece) : string :=
  match l with
  | [] => ""
  | Byte c :: r => String c (chars_text r)
  | Code a :: r =>
      match r with
      | Code b :: r' =>
          if high_surrogate a && low_surrogate b
          then utf8 (65536 + (a - 55296) * 1024 + (b - 56320)) ++ chars_text r'
          else utf8 a ++ chars_text r
      | _ => utf8 a ++ chars_text r
      end
  end.

(** ** objects: the position of the first and the value of the last occurrence of a name *)
Fixpoint last_wins (l : list (string * val)) : dict :=
  match l with
  | [] => []
  | (k, v) :: r => let d := last_wins r in (KS k, odflt v (dget (KS k) d)) :: ddel (KS k) d
  end.

(** ** values *)
Definition constants : list (string * val) :=
  [("null", VNone); ("true", VBool true); ("false", VBool false); ("NaN", VFlt S754_nan);
   ("Infinity", VFlt (S754_infinity false)); ("-Infinity", VFlt (S754_infinity true))].
Definition quoted (s : string) : string := """" ++ s ++ """".

Inductive json_value : string -> val -> Prop :=
| jv_constant t v : In (t, v) constants -> json_value t v
| jv_number t v : json_number t v -> json_value t v
| jv_string s l : json_chars s l -> json_value (quoted s) (VStr (chars_text l))
| jv_list_empty b : blank b -> json_value ("[" ++ b ++ "]") (VList [])
| jv_list s l : json_items s l -> json_value ("[" ++ s ++ "]") (VList l)
| jv_dict_empty b : blank b -> json_value ("{" ++ b ++ "}") (VDict [])
| jv_dict s l : json_members s l -> json_value ("{" ++ s ++ "}") (VDict (last_wins l))
with json_items : string -> list val -> Prop :=
| ji_last b s v b' : blank b -> json_value s v -> blank b' -> json_items (b ++ s ++ b') [v]
| ji_cons b s v b' r l : blank b -> json_value s v -> blank b' -> json_items r l ->
    json_items (b ++ s ++ b' ++ "," ++ r) (v :: l)
with json_members : string -> list (string * val) -> Prop :=
| jm_last m k v : json_member m k v -> json_members m [(k, v)]
| jm_cons m k v r l : json_member m k v -> json_members r l -> json_members (m ++ "," ++ r) ((k, v) :: l)
with json_member : string -> string -> val -> Prop :=
| jm_member b k l b' b'' s v b''' : blank b -> json_chars k l -> blank b' -> blank b'' -> json_value s v ->
    blank b''' -> json_member (b ++ quoted k ++ b' ++ ":" ++ b'' ++ s ++ b''') (chars_text l) v.

Definition json_document (t : string) (v : val) : Prop :=
  exists b s b', blank b /\ json_value s v /\ blank b' /\ t = b ++ s ++ b'.

(** ** base64 with values: the bytes of the groups of four letters *)
Fixpoint position (c : ascii) (s : string) (i : Z) : option Z :=
  match s with EmptyString => None | String d r => if Ascii.eqb c d then Some i else position c r (i + 1) end.
Definition stands_for (c : ascii) (v : Z) : Prop := position c base64_letters 0 = Some v.
Inductive b64_bytes : string -> string -> Prop :=
| by_end n : b64_bytes (equals n) ""
| by_group n m k a b c d r va vb vc vd out : (k <= 1)%nat ->
    stands_for a va -> stands_for b vb -> stands_for c vc -> stands_for d vd -> b64_bytes r out ->
    let bits := ((va * 64 + vb) * 64 + vc) * 64 + vd in
    b64_bytes (equals n ++ String a (equals m ++ String b (equals k ++ String c (String d r))))
      (String (zb (bits / 65536)) (String (zb (bits / 256 mod 256)) (String (zb (bits mod 256)) out)))
| by_pad2 n m a b r va vb : stands_for a va -> stands_for b vb ->
    b64_bytes (equals n ++ String a (equals m ++ String b ("==" ++ r))) (String (zb ((va * 64 + vb) / 16)) "")
| by_pad1 n m k a b c r va vb vc : (k <= 1)%nat -> stands_for a va -> stands_for b vb -> stands_for c vc ->
    let bits := (va * 64 + vb) * 64 + vc in
    b64_bytes (equals n ++ String a (equals m ++ String b (equals k ++ String c ("=" ++ r))))
      (String (zb (bits / 1024)) (String (zb (bits / 4 mod 256)) "")).

(** ** UTF-8 *)
Definition scalar_value (c : Z) : Prop := code_point c /\ ~ 55296 <= c <= 57343.
Definition utf8_text (t : string) : Prop := exists l, Forall scalar_value l /\ t = utf8s l.

(** ** exchange strings: version 0, base64 of a compressed JSON document *)
Definition exchange_string (inflate : string -> option string) (s : string) (v : val) : Prop :=
  exists body bytes t, s = "0" ++ body /\ all_chars ascii_char body /\ b64_bytes (without_junk body) bytes /\
    inflate bytes = Some t /\ utf8_text t /\ json_document t v.
(** what the other strings raise, by the first step that fails *)
Inductive refusal (inflate : string -> option string) : string -> exn -> Prop :=
| rf_empty : refusal inflate "" EIndex
| rf_version c body : c <> "0"%char -> refusal inflate (String c body) EInvalidExchangeString
| rf_ascii body : ~ all_chars ascii_char body -> refusal inflate ("0" ++ body) EValue
| rf_base64 body : all_chars ascii_char body -> ~ (exists bytes, b64_bytes (without_junk body) bytes) ->
    refusal inflate ("0" ++ body) EInvalidExchangeString
| rf_zlib body bytes : all_chars ascii_char body -> b64_bytes (without_junk body) bytes -> inflate bytes = None ->
    refusal inflate ("0" ++ body) EInvalidExchangeString
| rf_utf8 body bytes t : all_chars ascii_char body -> b64_bytes (without_junk body) bytes -> inflate bytes = Some t ->
    ~ utf8_text t -> refusal inflate ("0" ++ body) EUnicodeDecode
| rf_json body bytes t : all_chars ascii_char body -> b64_bytes (without_junk body) bytes -> inflate bytes = Some t ->
    utf8_text t -> ~ (exists v, json_document t v) -> refusal inflate ("0" ++ body) EJSONDecode.
