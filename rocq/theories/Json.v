(** * Model of [json.dumps] and [json.loads] (called by util.py 10 and 19-20).

    [json.dumps] with default arguments (ensure_ascii, separators ", " and ": ",
    allow_nan); [json.loads] with the C scanner's grammar.  Not modelled: recursion
    limits, CPython's 4300 digit limit for int conversions, circular objects. *)
From Coq Require Import Decimal DecimalString DecimalN.
From Verif Require Import Py Num Text.
Open Scope Z_scope.

(** ** Numbers as text *)
Definition ustr (u : uint) : string := NilEmpty.string_of_uint u.
(** decimal digits of a natural number, no sign *)
Definition zdigits (z : Z) : string := ustr (N.to_uint (Z.to_N z)).
(** [str(int)] *)
Definition int_str (z : Z) : string :=
  if z <? 0 then String "-" (zdigits (- z)) else zdigits z.

Definition dig (c : ascii) (u : uint) : option uint :=
  match c with
  | "0"%char => Some (D0 u) | "1"%char => Some (D1 u) | "2"%char => Some (D2 u)
  | "3"%char => Some (D3 u) | "4"%char => Some (D4 u) | "5"%char => Some (D5 u)
  | "6"%char => Some (D6 u) | "7"%char => Some (D7 u) | "8"%char => Some (D8 u)
  | "9"%char => Some (D9 u) | _ => None
  end.
(** longest prefix of ASCII digits *)
Fixpoint scan_digits (s : string) : uint * string :=
  match s with
  | EmptyString => (Nil, s)
  | String c r => match dig c Nil with
                  | Some _ => let '(u, t) := scan_digits r in
                              match dig c u with Some u' => (u', t) | None => (Nil, s) end
                  | None => (Nil, s)
                  end
  end.

Fixpoint ulen (u : uint) : Z :=
  match u with
  | Nil => 0
  | D0 u | D1 u | D2 u | D3 u | D4 u | D5 u | D6 u | D7 u | D8 u | D9 u => 1 + ulen u
  end.

(** A JSON number token: sign, digits before the point, digits after it (None if no
    point), exponent (None if no exponent part). *)
Record numtok := mkTok { nt_neg : bool; nt_int : uint; nt_frac : option uint; nt_exp : option Z }.

(** (-?(0|[1-9][0-9]* ))(\.[0-9]+)?([eE][-+]?[0-9]+)? as matched by the C scanner
    (Modules/_json.c _match_number_unicode), part by part *)
Definition scan_sign (s : string) : bool * string :=
  match s with String "-" r => (true, r) | _ => (false, s) end.
Definition scan_int (s : string) : option (uint * string) :=
  match s with
  | String "0" r => Some (D0 Nil, r)
  | _ => match scan_digits s with (Nil, _) => None | p => Some p end
  end.
Definition scan_frac (s : string) : option uint * string :=
  match s with
  | String "." r => match scan_digits r with (Nil, _) => (None, s) | (u, t) => (Some u, t) end
  | _ => (None, s)
  end.
Definition scan_esign (s : string) : bool * string :=
  match s with String "-" r => (true, r) | String "+" r => (false, r) | _ => (false, s) end.
Definition scan_exp (s : string) : option Z * string :=
  match s with
  | String c r =>
      if Ascii.eqb c "e" || Ascii.eqb c "E" then
        let '(neg, r) := scan_esign r in
        match scan_digits r with
        | (Nil, _) => (None, s)
        | (u, t) => (Some (if neg : bool then - Z.of_uint u else Z.of_uint u), t)
        end
      else (None, s)
  | _ => (None, s)
  end.
Definition scan_number (s : string) : option (numtok * string) :=
  let '(neg, s0) := scan_sign s in
  match scan_int s0 with
  | None => None
  | Some (ip, s1) =>
      let '(fp, s2) := scan_frac s1 in
      let '(ep, s3) := scan_exp s2 in
      Some (mkTok neg ip fp ep, s3)
  end.

(** Correctly rounded value of +-d * 10^e (CPython's strtod). *)
Definition float_of_dec (neg : bool) (d e : Z) : float64 :=
  if d =? 0 then S754_zero neg else
  let m := if neg then - d else d in
  if 0 <=? e then fnormalize (m * 10 ^ e) 0 neg
  else
    let p := 5 ^ (- e) in
    if m mod p =? 0 then fnormalize (m / p) e neg
    else fdiv (exact_float m) (exact_float (10 ^ (- e))).

Definition tok_digits (t : numtok) : uint :=
  match nt_frac t with None => nt_int t | Some f => Decimal.app (nt_int t) f end.
Definition tok_exp10 (t : numtok) : Z :=
  (match nt_exp t with None => 0 | Some e => e end) -
  (match nt_frac t with None => 0 | Some f => ulen f end).
Definition tok_value (t : numtok) : val :=
  match nt_frac t, nt_exp t with
  | None, None => VInt (if nt_neg t then - Z.of_uint (nt_int t) else Z.of_uint (nt_int t))
  | _, _ => VFlt (float_of_dec (nt_neg t) (Z.of_uint (tok_digits t)) (tok_exp10 t))
  end.

(** ** [repr(float)]: the shortest decimal that reads back as the same float,
    nearest to the true value, in CPython's 'r' format (decimal point position
    [decpt]; exponent form outside -4 < decpt <= 16). *)
Definition sf_eqb (x y : float64) : bool :=
  match x, y with
  | S754_zero a, S754_zero b | S754_infinity a, S754_infinity b => Bool.eqb a b
  | S754_nan, S754_nan => true
  | S754_finite a m e, S754_finite b n f => Bool.eqb a b && Pos.eqb m n && (e =? f)
  | _, _ => false
  end.

Definition div_half_even (a b : Z) : Z :=
  let q := a / b in let r := a mod b in
  match 2 * r ?= b with
  | Lt => q
  | Gt => q + 1
  | Eq => if Z.even q then q else q + 1
  end.

Fixpoint strip_zeros (fuel : nat) (d e : Z) : Z * Z :=
  match fuel with
  | O => (d, e)
  | S k => if (d mod 10 =? 0) && negb (d =? 0) then strip_zeros k (d / 10) (e + 1) else (d, e)
  end.

Fixpoint zeros (n : nat) : string := match n with O => "" | S k => String "0" (zeros k) end.

(** text of d * 10^e, d > 0 without trailing zeros *)
Definition format_r (d e : Z) : string :=
  let ds := zdigits d in
  let n := Z.of_nat (String.length ds) in
  let decpt := n + e in
  if (decpt <=? -4) || (16 <? decpt) then
    let x := decpt - 1 in
    let xs := zdigits (Z.abs x) in
    let xs := if Nat.ltb (String.length xs) 2 then String "0" xs else xs in
    let mant := match ds with
                | String c EmptyString => ds
                | String c r => String c (String "." r)
                | EmptyString => ds
                end in
    (mant ++ "e" ++ (if (x <? 0)%Z then "-" else "+") ++ xs)%string
  else if decpt <=? 0 then
    ("0." ++ zeros (Z.to_nat (- decpt)) ++ ds)%string
  else if decpt <? n then
    (String.substring 0 (Z.to_nat decpt) ds ++ "." ++
     String.substring (Z.to_nat decpt) (Z.to_nat (n - decpt)) ds)%string
  else (ds ++ zeros (Z.to_nat (decpt - n)) ++ ".0")%string.

(** numerator and denominator of m * 2^e *)
Definition ratio (m e : Z) : Z * Z := if 0 <=? e then (m * 2 ^ e, 1) else (m, 2 ^ (- e)).

(** [decpt]: 10^(decpt-1) <= N/D < 10^decpt *)
Definition decpt_of (n d : Z) : Z :=
  if d <=? n then Z.of_nat (String.length (zdigits (n / d)))
  else
    let l := Z.of_nat (String.length (zdigits (d / n))) in
    if d <=? n * 10 ^ (l - 1) then - (l - 2)
    else if d <=? n * 10 ^ l then - (l - 1)
    else - l.

(** the [k]-digit decimals next to the positive rational n/d: the nearer one, and the one on the
    other side.  At a power of two the floats below are closer than those above, and the nearer
    decimal may read back as one of them when the other one does not. *)
Definition candidates (n d decpt k : Z) : (Z * Z) * (Z * Z) :=
  let s := k - decpt in
  let a := if 0 <=? s then n * 10 ^ s else n in
  let b := if 0 <=? s then d else d * 10 ^ (- s) in
  let q := div_half_even a b in
  (strip_zeros 20 q (- s), strip_zeros 20 (2 * (a / b) + 1 - q) (- s)).

Definition reads_back (txt : string) (f : float64) : bool :=
  match scan_number txt with
  | Some (t, EmptyString) => match tok_value t with VFlt g => sf_eqb g f | _ => false end
  | _ => false
  end.

(** exact decimal d * 10^x of m * 2^e, used only if no 17-digit decimal reads back
    (which does not happen for binary64, ShortProofs.v) *)
Definition exact_text (m : positive) (e : Z) : string :=
  if 0 <=? e then (zdigits (Zpos m * 2 ^ e) ++ "e" ++ int_str 0)%string
  else (zdigits (Zpos m * 5 ^ (- e)) ++ "e" ++ int_str e)%string.

Definition sign_text (s : bool) (t : string) : string := if s then String "-" t else t.

Fixpoint shortest (fuel : nat) (k n d decpt : Z) (s : bool) (m : positive) (e : Z) : string :=
  match fuel with
  | O => sign_text s (exact_text m e)
  | S fuel =>
      let '((c, x), (c', x')) := candidates n d decpt k in
      let txt := sign_text s (format_r c x) in
      let txt' := sign_text s (format_r c' x') in
      if reads_back txt (S754_finite s m e) then txt
      else if reads_back txt' (S754_finite s m e) then txt'
      else shortest fuel (k + 1) n d decpt s m e
  end.

(** text [json.dumps] writes for a float (float.__repr__ and the NaN/Infinity names) *)
Definition float_text (f : float64) : string :=
  match f with
  | S754_nan => "NaN"
  | S754_infinity false => "Infinity"
  | S754_infinity true => "-Infinity"
  | S754_zero false => "0.0"
  | S754_zero true => "-0.0"
  | S754_finite s m e =>
      let '(n, d) := ratio (Zpos m) e in shortest 17 1 n d (decpt_of n d) s m e
  end.

(** ** Strings *)
Definition hex_char (n : Z) : ascii :=
  match String.get (Z.to_nat n) "0123456789abcdef" with Some c => c | None => "0"%char end.
Definition u4 (n : Z) : string :=
  String "\" (String "u" (String (hex_char (n / 4096)) (String (hex_char ((n / 256) mod 16))
    (String (hex_char ((n / 16) mod 16)) (String (hex_char (n mod 16)) ""))))).

(** json.encoder py_encode_basestring_ascii *)
Definition esc_cp (c : Z) : string :=
  if c =? 34 then "\""" else if c =? 92 then "\\"
  else if c =? 10 then "\n" else if c =? 13 then "\r" else if c =? 9 then "\t"
  else if c =? 12 then "\f" else if c =? 8 then "\b"
  else if between 32 c 126 then String (zb c) ""
  else if c <? 65536 then u4 c
  else let n := c - 65536 in (u4 (55296 + n / 1024) ++ u4 (56320 + n mod 1024))%string.
Fixpoint esc_cps (l : list Z) : string :=
  match l with [] => "" | c :: r => (esc_cp c ++ esc_cps r)%string end.
Definition str_text (s : string) : string :=
  String """" (esc_cps (match cps true s with Some l => l | None => [] end) ++ """")%string.

(** ** [json.dumps] *)
Definition key_text (k : key) : string :=
  match k with KS s => str_text s | KI z => String """" (int_str z ++ """")%string end.

Fixpoint join (l : list string) : string :=
  match l with [] => "" | [x] => x | x :: r => (x ++ ", " ++ join r)%string end.

Fixpoint json_text (v : val) : string :=
  match v with
  | VNone => "null"
  | VBool true => "true"
  | VBool false => "false"
  | VInt z => int_str z
  | VFlt f => float_text f
  | VStr s => str_text s
  | VList l => String "[" (join (map json_text l) ++ "]")%string
  | VDict d => String "{" (join (map (fun kv => key_text (fst kv) ++ ": " ++ json_text (snd kv))%string d)
                           ++ "}")%string
  end.

(** A Coq [string] that is no Python [str] is outside the model. *)
Definition str_ok (s : string) : bool := match cps true s with Some _ => true | None => false end.
Fixpoint strs_ok (v : val) : bool :=
  match v with
  | VStr s => str_ok s
  | VList l => forallb strs_ok l
  | VDict d => forallb (fun kv => (match fst kv with KS s => str_ok s | KI _ => true end) && strs_ok (snd kv)) d
  | _ => true
  end.
Definition json_dumps (v : val) : res string :=
  if strs_ok v then Ok (json_text v) else Err EUnmodelled.

(** ** [json.loads] *)
Definition is_jws (c : ascii) : bool :=
  Ascii.eqb c " " || Ascii.eqb c "009" || Ascii.eqb c "010" || Ascii.eqb c "013".
Fixpoint ws (s : string) : string :=
  match s with String c r => if is_jws c then ws r else s | EmptyString => s end.

Definition hex_val (c : ascii) : option Z :=
  let n := bz c in
  if between 48 n 57 then Some (n - 48)
  else if between 97 n 102 then Some (n - 87)
  else if between 65 n 70 then Some (n - 55)
  else None.
Definition hex4 (s : string) : option (Z * string) :=
  match s with
  | String a (String b (String c (String d r))) =>
      match hex_val a, hex_val b, hex_val c, hex_val d with
      | Some a, Some b, Some c, Some d => Some (a * 4096 + b * 256 + c * 16 + d, r)
      | _, _, _, _ => None
      end
  | _ => None
  end.

Definition simple_escape (c : ascii) : option ascii :=
  match c with
  | """"%char => Some """"%char | "\"%char => Some "\"%char | "/"%char => Some "/"%char
  | "b"%char => Some "008"%char | "f"%char => Some "012"%char | "n"%char => Some "010"%char
  | "r"%char => Some "013"%char | "t"%char => Some "009"%char
  | _ => None
  end.

Definition pre (p : string) (o : option (string * string)) : option (string * string) :=
  match o with Some (s, r) => Some ((p ++ s)%string, r) | None => None end.

(** scanstring_unicode (strict): text after the opening quote.  Fuel bounds the
    number of characters. *)
Fixpoint scan_str (fuel : nat) (s : string) : option (string * string) :=
  match fuel with
  | O => None
  | S fuel =>
      match s with
      | EmptyString => None
      | String c r =>
          if Ascii.eqb c """" then Some ("", r)
          else if Ascii.eqb c "\" then
            match r with
            | EmptyString => None
            | String e r =>
                if Ascii.eqb e "u" then
                  match hex4 r with
                  | None => None
                  | Some (n, r) =>
                      if is_high n then
                        match r with
                        | String b (String u q) =>
                            if Ascii.eqb b "\" && Ascii.eqb u "u" then
                              match hex4 q with
                              | None => None
                              | Some (n2, q) =>
                                  if is_low n2
                                  then pre (utf8 (65536 + (n - 55296) * 1024 + (n2 - 56320))) (scan_str fuel q)
                                  else pre (utf8 n) (scan_str fuel r)
                              end
                            else pre (utf8 n) (scan_str fuel r)
                        | _ => pre (utf8 n) (scan_str fuel r)
                        end
                      else pre (utf8 n) (scan_str fuel r)
                  end
                else match simple_escape e with
                     | Some x => pre (String x "") (scan_str fuel r)
                     | None => None
                     end
            end
          else if bz c <? 32 then None
          else pre (String c "") (scan_str fuel r)
      end
  end.
Definition scan_string (s : string) : option (string * string) := scan_str (String.length s) s.

Fixpoint strip (p s : string) : option string :=
  match p, s with
  | EmptyString, _ => Some s
  | String a p', String b s' => if Ascii.eqb a b then strip p' s' else None
  | _, _ => None
  end.

(** literal constants of the C scanner (_json.c scan_once_unicode) *)
Definition literals : list (string * val) :=
  [("null", VNone); ("true", VBool true); ("false", VBool false); ("NaN", VFlt S754_nan);
   ("Infinity", VFlt (S754_infinity false)); ("-Infinity", VFlt (S754_infinity true))].
Fixpoint scan_literal (l : list (string * val)) (s : string) : option (val * string) :=
  match l with
  | [] => None
  | (t, v) :: r => match strip t s with Some q => Some (v, q) | None => scan_literal r s end
  end.

(** scan_once / JSONArray / JSONObject.  [EUnmodelled] here means out of fuel. *)
Fixpoint pval (n : nat) (s : string) : res (val * string) :=
  match n with
  | O => Err EUnmodelled
  | S n =>
      match s with
      | EmptyString => Err EJSONDecode
      | String c r =>
          if Ascii.eqb c """" then
            match scan_string r with Some (t, q) => Ok (VStr t, q) | None => Err EJSONDecode end
          else if Ascii.eqb c "[" then
            match ws r with
            | String "]" q => Ok (VList [], q)
            | q => let! (l, q) := parr n q in Ok (VList l, q)
            end
          else if Ascii.eqb c "{" then
            match ws r with
            | String "}" q => Ok (VDict [], q)
            | q => let! (d, q) := pobj n [] q in Ok (VDict d, q)
            end
          else
            match scan_literal literals s with
            | Some p => Ok p
            | None => match scan_number s with
                      | Some (t, q) => Ok (tok_value t, q)
                      | None => Err EJSONDecode
                      end
            end
      end
  end
with parr (n : nat) (s : string) : res (list val * string) :=
  match n with
  | O => Err EUnmodelled
  | S n =>
      let! (v, q) := pval n s in
      match ws q with
      | String "]" q => Ok ([v], q)
      | String "," q => let! (l, q) := parr n (ws q) in Ok (v :: l, q)
      | _ => Err EJSONDecode
      end
  end
with pobj (n : nat) (acc : dict) (s : string) : res (dict * string) :=
  match n with
  | O => Err EUnmodelled
  | S n =>
      match s with
      | String """" r =>
          match scan_string r with
          | None => Err EJSONDecode
          | Some (k, q) =>
              match ws q with
              | String ":" q =>
                  let! (v, q) := pval n (ws q) in
                  match ws q with
                  | String "}" q => Ok (dset k v acc, q)
                  | String "," q => pobj n (dset k v acc) (ws q)
                  | _ => Err EJSONDecode
                  end
              | _ => Err EJSONDecode
              end
          end
      | _ => Err EJSONDecode
      end
  end.

(** json.loads: BOM check, surrounding white space, nothing after the value
    (json/__init__.py, json/decoder.py decode). *)
Definition json_loads (s : string) : res val :=
  match strip (utf8 65279) s with
  | Some _ => Err EJSONDecode
  | None =>
      let s := ws s in
      let! (v, q) := pval (S (2 * String.length s)) s in
      match ws q with EmptyString => Ok v | _ => Err EJSONDecode end
  end.
