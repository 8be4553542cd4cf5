(** * Text: Python [str] as code points, UTF-8, base64.

    A Python [str] is a sequence of code points 0..0x10FFFF (surrogates
    included).  The model stores it as the "generalised UTF-8" bytes of those code
    points in a Coq [string]; [cps true] recovers the code points.  Python [bytes]
    are Coq [string]s too; [bytes.decode('UTF-8')] is [cps false] (surrogates are
    rejected, as CPython does).  Python's own library code is modelled here, it is
    what util.py 8-24 calls. *)
From Verif Require Import Py.
Open Scope Z_scope.

Definition bz (c : ascii) : Z := Z.of_N (N_of_ascii c).
Definition zb (z : Z) : ascii := ascii_of_N (Z.to_N z).

Definition between (a x b : Z) : bool := (a <=? x) && (x <=? b).
Definition is_cont (x : Z) : bool := between 128 x 191.

Definition ocons {A} (x : A) (o : option (list A)) : option (list A) :=
  match o with Some l => Some (x :: l) | None => None end.

(** Code points of (generalised, if [sur]) UTF-8; None if malformed. *)
Fixpoint cps (sur : bool) (s : string) : option (list Z) :=
  match s with
  | EmptyString => Some []
  | String b0 s1 =>
      let a := bz b0 in
      if a <? 128 then ocons a (cps sur s1)
      else if between 194 a 223 then
        match s1 with
        | String b1 s2 =>
            if is_cont (bz b1) then ocons ((a - 192) * 64 + (bz b1 - 128)) (cps sur s2) else None
        | _ => None
        end
      else if between 224 a 239 then
        match s1 with
        | String b1 (String b2 s3) =>
            if is_cont (bz b1) && is_cont (bz b2) &&
               (negb (a =? 224) || (160 <=? bz b1)) &&
               (sur || negb (a =? 237) || (bz b1 <=? 159))
            then ocons ((a - 224) * 4096 + (bz b1 - 128) * 64 + (bz b2 - 128)) (cps sur s3)
            else None
        | _ => None
        end
      else if between 240 a 244 then
        match s1 with
        | String b1 (String b2 (String b3 s4)) =>
            if is_cont (bz b1) && is_cont (bz b2) && is_cont (bz b3) &&
               (negb (a =? 240) || (144 <=? bz b1)) && (negb (a =? 244) || (bz b1 <=? 143))
            then ocons ((a - 240) * 262144 + (bz b1 - 128) * 4096 + (bz b2 - 128) * 64 + (bz b3 - 128))
                       (cps sur s4)
            else None
        | _ => None
        end
      else None
  end.

(** one code point, encoded *)
Definition utf8 (c : Z) : string :=
  if c <? 128 then String (zb c) ""
  else if c <? 2048 then String (zb (192 + c / 64)) (String (zb (128 + c mod 64)) "")
  else if c <? 65536 then
    String (zb (224 + c / 4096)) (String (zb (128 + (c / 64) mod 64)) (String (zb (128 + c mod 64)) ""))
  else
    String (zb (240 + c / 262144)) (String (zb (128 + (c / 4096) mod 64))
      (String (zb (128 + (c / 64) mod 64)) (String (zb (128 + c mod 64)) ""))).
Fixpoint utf8s (l : list Z) : string :=
  match l with [] => "" | c :: r => (utf8 c ++ utf8s r)%string end.

Definition is_high (c : Z) : bool := between 55296 c 56319.
Definition is_low (c : Z) : bool := between 56320 c 57343.

(** ** base64 *)
Definition b64_alphabet : string :=
  "ABCDEFGHIJKLMNOPQRSTUVWXYZabcdefghijklmnopqrstuvwxyz0123456789+/".

Definition b64_char (n : Z) : ascii :=
  match String.get (Z.to_nat n) b64_alphabet with Some c => c | None => "="%char end.

(** base64.b64encode *)
Fixpoint b64encode (s : string) : string :=
  match s with
  | EmptyString => ""
  | String b0 EmptyString =>
      let a := bz b0 in
      String (b64_char (a / 4)) (String (b64_char (a mod 4 * 16)) "==")
  | String b0 (String b1 EmptyString) =>
      let a := bz b0 in let b := bz b1 in
      String (b64_char (a / 4)) (String (b64_char (a mod 4 * 16 + b / 16))
        (String (b64_char (b mod 16 * 4)) "="))
  | String b0 (String b1 (String b2 r)) =>
      let a := bz b0 in let b := bz b1 in let c := bz b2 in
      String (b64_char (a / 4)) (String (b64_char (a mod 4 * 16 + b / 16))
        (String (b64_char (b mod 16 * 4 + c / 64)) (String (b64_char (c mod 64)) (b64encode r))))
  end.

(** table_a2b_base64: value of an alphabet character *)
Definition b64_value (c : ascii) : option Z :=
  let n := bz c in
  if between 65 n 90 then Some (n - 65)
  else if between 97 n 122 then Some (n - 71)
  else if between 48 n 57 then Some (n + 4)
  else if n =? 43 then Some 62
  else if n =? 47 then Some 63
  else None.

(** CPython binascii.a2b_base64, non-strict (Modules/binascii.c): the loop with its
    variables quad_pos, leftchar and pads.  None is binascii.Error. *)
Fixpoint a2b (s : string) (quad : nat) (left pads : Z) : option string :=
  match s with
  | EmptyString => match quad with O => Some "" | _ => None end
  | String c r =>
      if Ascii.eqb c "=" then
        if Nat.leb 2 quad then
          if 4 <=? Z.of_nat quad + (pads + 1) then Some "" else a2b r quad left (pads + 1)
        else a2b r quad left pads
      else
        match b64_value c with
        | None => a2b r quad left pads
        | Some v =>
            match quad with
            | 0%nat => a2b r 1 v 0
            | 1%nat => option_map (String (zb (left * 4 + v / 16))) (a2b r 2 (v mod 16) 0)
            | 2%nat => option_map (String (zb (left * 16 + v / 4))) (a2b r 3 (v mod 4) 0)
            | _ => option_map (String (zb (left * 64 + v))) (a2b r 0 0 0)
            end
        end
  end.

Fixpoint ascii_only (s : string) : bool :=
  match s with EmptyString => true | String c r => (bz c <? 128) && ascii_only r end.

(** base64.b64decode on a [str]: non-ASCII is ValueError (base64.py
    _bytes_from_decode_data), bad padding is binascii.Error. *)
Definition b64decode (s : string) : res string :=
  if ascii_only s then
    match a2b s 0 0 0 with Some b => Ok b | None => Err EBinascii end
  else Err EValue.
