(** * C64: the text and the exchange string of an object, character by character. *)
From Verif Require Import Py Num Text Json Codec World BpString SpecCodec SpecRound SpecJson SpecShort SpecWrite WriteProofs.
Open Scope string_scope.
Open Scope Z_scope.

(** [json.dumps] writes the one text described by [written] *)
Theorem C64_text : forall v t, doubles v -> (json_dumps v = Ok t <-> written v t).
Proof. exact p_C64. Qed.
Print Assumptions C64_text.

Theorem C64_one_text : forall v s t, written v s -> written v t -> s = t.
Proof. exact p_C64_one. Qed.
Print Assumptions C64_one_text.

(** which is printable ASCII, whatever the strings in the object contain *)
Theorem C64_text_is_ascii : forall v t, written v t -> all_chars (fun c => 32 <= bz c <= 126) t.
Proof. exact p_C64_ascii. Qed.
Print Assumptions C64_text_is_ascii.

(** [encode] writes "0" and the padded base64 of the compressed text *)
Theorem C64_exchange_string : forall z v s, doubles v -> (encode z v = Ok s <-> exchange_written (compress z) v s).
Proof. exact p_C64_exchange. Qed.
Print Assumptions C64_exchange_string.

(** and so do the two methods of [Blueprint] *)
Theorem C64_to_string : forall z b w w' v s, bp_json b w = (w', Ok v) -> doubles v ->
  (bp_to_string z b w = (w', Ok s) <-> exchange_written (compress z) v s).
Proof. exact p_C64_blueprint. Qed.
Print Assumptions C64_to_string.
Theorem C64_to_json_string : forall b w w' v t, bp_json b w = (w', Ok v) -> doubles v ->
  (bp_to_json_string b w = (w', Ok t) <-> written v t).
Proof. exact p_C64_blueprint_json. Qed.
Print Assumptions C64_to_json_string.

(** a dictionary with an integer key, a negative zero, and a name with a slash (not escaped), a
    backslash, a line feed, an accented letter, a musical clef (two code units) and a lone surrogate *)
Definition odd_object : val := VDict [(KI (-3), VList [VFlt (S754_zero true); VNone; VInt 0]);
  (KS (utf8s [97; 47; 92; 10; 233; 119070; 55296]), VFlt (S754_finite false 4503599627370496 (-53)))].
Definition odd_text : string := "{""-3"": [-0.0, null, 0], ""a/\\\n\u00e9\ud834\udd1e\ud800"": 0.5}".
Example C64_ex : doubles odd_object /\ written odd_object odd_text /\
  encode (mkZlib (fun t => String.substring 0 4 t) (fun _ => None)) odd_object = Ok "0eyItMw==".
Proof.
  assert (D : doubles odd_object) by (repeat constructor).
  split; [exact D|]. split; [apply C64_text; [exact D|vm_compute; reflexivity]|vm_compute; reflexivity].
Qed.
