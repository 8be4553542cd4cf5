(** * C01-C05, C57: exchange strings.
    [lossless z] is the only assumption on zlib: decompress (compress b) = b. *)
From Coq Require Import Lia.
From Verif Require Import Py Num Text Json SpecCodec Codec CodecProofs DecodeProofs.
Open Scope Z_scope.

(** A stand-in for zlib used in the examples only. *)
Definition stored : zlib := mkZlib (fun s => s) Some.

(** ** C01 *)
Theorem C01_exchange_string_roundtrip : forall z v, lossless z -> json_like v ->
  exists s, encode z v = Ok s /\ decode z s = Ok (as_json v).
Proof. exact p_C01_roundtrip. Qed.
Print Assumptions C01_exchange_string_roundtrip.

Theorem C01_string_keyed_objects_unchanged : forall v, str_keys v -> as_json v = v.
Proof. exact as_json_id. Qed.
Print Assumptions C01_string_keyed_objects_unchanged.

Example C01_ex :
  let v := VDict [(KS "a", VList [VInt (-12); VFlt (fdiv (exact_float 1) (exact_float 10)); VNone]);
                  (KI 2, VStr (utf8s [233; 128512; 10]))] in
  (let! s := encode stored v in decode stored s) =
  Ok (VDict [(KS "a", VList [VInt (-12); VFlt (fdiv (exact_float 1) (exact_float 10)); VNone]);
             (KS "2", VStr (utf8s [233; 128512; 10]))]).
Proof. vm_compute. reflexivity. Qed.

(** the hypothesis covers mixed keys, unicode and nested data *)
Example C01_ex_like : json_like
  (VDict [(KS "a", VList [VInt (-12); VNone]); (KI 2, VStr (utf8s [233; 128512; 55296]))]).
Proof.
  apply JsonFacts.dict_like. split.
  - repeat constructor; cbn; intuition discriminate.
  - repeat split; cbn [json_key].
    + exists [97]. split; [|split; [exact I|reflexivity]]. repeat constructor; unfold code_point; lia.
    + exists [50]. split; [|split; [exact I|reflexivity]]. repeat constructor; unfold code_point; lia.
    + exists [233; 128512; 55296]. split; [|split; [cbn; lia|reflexivity]].
      repeat constructor; unfold code_point; lia.
Qed.

(** ** C02 *)
Theorem C02_exchange_string_shape : forall z v s, encode z v = Ok s ->
  exists body pad, s = String "0" (body ++ pad) /\ all_chars letter body /\
                   (pad = "" \/ pad = "=" \/ pad = "==") /\ (String.length s mod 4 = 1)%nat /\
                   all_chars ascii_char s.
Proof. exact p_C02_shape. Qed.
Print Assumptions C02_exchange_string_shape.

Example C02_ex : encode stored (VList [VInt 1; VBool true]) = Ok "0WzEsIHRydWVd".
Proof. vm_compute. reflexivity. Qed.

(** ** C03 *)
Theorem C03_encoding_injective : forall z a b, lossless z -> json_like a -> json_like b ->
  (encode z a = encode z b <-> as_json a = as_json b).
Proof. exact p_C03_injective. Qed.
Print Assumptions C03_encoding_injective.

Example C03_ex : encode stored (VDict [(KS "a", VInt 1); (KS "b", VInt 2)]) <>
                 encode stored (VDict [(KS "b", VInt 2); (KS "a", VInt 1)]).
Proof. vm_compute. discriminate. Qed.

(** ** C04 *)
Theorem C04_empty_string : forall z, decode z "" = Err EIndex.
Proof. exact p_C04_empty. Qed.
Print Assumptions C04_empty_string.

Theorem C04_wrong_version : forall z c body, c <> "0"%char ->
  decode z (String c body) = Err EInvalidExchangeString.
Proof. exact p_C04_version. Qed.
Print Assumptions C04_wrong_version.

Theorem C04_non_ascii_body : forall z body, ~ all_chars ascii_char body ->
  decode z (String "0" body) = Err EValue.
Proof. exact p_C04_non_ascii. Qed.
Print Assumptions C04_non_ascii_body.

Theorem C04_malformed_base64 : forall z body, all_chars ascii_char body -> ~ b64_body (without_junk body) ->
  decode z (String "0" body) = Err EInvalidExchangeString.
Proof. exact p_C04_base64. Qed.
Print Assumptions C04_malformed_base64.

Theorem C04_inner_layers : forall z body, all_chars ascii_char body -> b64_body (without_junk body) ->
  exists bytes, b64decode body = Ok bytes /\
    (decompress z bytes = None -> decode z (String "0" body) = Err EInvalidExchangeString) /\
    (forall t, decompress z bytes = Some t -> cps false t = None -> decode z (String "0" body) = Err EUnicodeDecode) /\
    (forall t l, decompress z bytes = Some t -> cps false t = Some l ->
       decode z (String "0" body) = json_loads t /\
       ((exists v, json_loads t = Ok v) \/ json_loads t = Err EJSONDecode)).
Proof. exact p_C04_rest. Qed.
Print Assumptions C04_inner_layers.

Theorem C04_no_other_exception : forall z s e, decode z s = Err e ->
  e = EInvalidExchangeString \/ e = EIndex \/ e = EValue \/ e = EUnicodeDecode \/ e = EJSONDecode.
Proof. exact p_C04_only. Qed.
Print Assumptions C04_no_other_exception.

Example C04_ex :
  decode stored "1abc" = Err EInvalidExchangeString /\ decode stored "0abc" = Err EInvalidExchangeString /\
  decode stored "0e30=" = Ok (VDict []) /\ decode stored "0/w==" = Err EUnicodeDecode /\
  decode stored "0ew==" = Err EJSONDecode /\ ~ b64_body (without_junk "abc").
Proof.
  repeat split; try (vm_compute; reflexivity).
  rewrite <- a2b_accepts. vm_compute. congruence.
Qed.

(** ** C05 *)
Theorem C05_junk_is_ignored : forall z a j b, all_chars junk j ->
  decode z (String "0" (a ++ j ++ b)) = decode z (String "0" (a ++ b)).
Proof. exact p_C05_junk. Qed.
Print Assumptions C05_junk_is_ignored.

Theorem C05_only_letters_matter : forall z a b, all_chars ascii_char a -> all_chars ascii_char b ->
  without_junk a = without_junk b -> decode z (String "0" a) = decode z (String "0" b).
Proof. exact p_C05_letters. Qed.
Print Assumptions C05_only_letters_matter.

Example C05_ex : decode stored "0Wz
  EsIH!!RydWVd" = Ok (VList [VInt 1; VBool true]).
Proof. vm_compute. reflexivity. Qed.

(** ** C57 *)
(** whatever decodes is a JSON document with string keys ... *)
Theorem C57_decoded_documents : forall z s v, decode z s = Ok v -> json_like v /\ str_keys v.
Proof. exact p_C57_document. Qed.
Print Assumptions C57_decoded_documents.

(** ... and can be encoded again, which changes nothing *)
Theorem C57_encoded_again : forall z s v, lossless z -> decode z s = Ok v ->
  exists s', encode z v = Ok s' /\ decode z s' = Ok v.
Proof. exact p_C57_again. Qed.
Print Assumptions C57_encoded_again.

(** encoded strings are in normal form *)
Theorem C57_normal_form : forall z v s, lossless z -> json_like v -> encode z v = Ok s ->
  exists v', decode z s = Ok v' /\ encode z v' = Ok s.
Proof. exact p_C57_normal. Qed.
Print Assumptions C57_normal_form.

(** a string that is not: blanks, a repeated key, a raw accent, half of a surrogate pair *)
Definition untidy : string := String "0" (b64encode " { ""a"" : 1.50, ""a"":""é\ud800"", ""b"" : [ ] }").
Example C57_ex :
  decode stored untidy = Ok (VDict [(KS "a", VStr (utf8s [233; 55296])); (KS "b", VList [])]) /\
  exists s, encode stored (VDict [(KS "a", VStr (utf8s [233; 55296])); (KS "b", VList [])]) = Ok s /\
    s = String "0" (b64encode "{""a"": ""\u00e9\ud800"", ""b"": []}") /\ s <> untidy.
Proof.
  split; [vm_compute; reflexivity|]. eexists. split; [vm_compute; reflexivity|]. split; [vm_compute; reflexivity|]. vm_compute. discriminate.
Qed.
