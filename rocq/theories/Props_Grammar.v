(** * C59: which strings are exchange strings, and what each of them means. *)
From Verif Require Import Py Num Text Json Codec SpecCodec SpecRound SpecJson CodecGrammar RoundProofs.
Open Scope string_scope.
Open Scope Z_scope.

(** A stand-in for zlib used in the examples only. *)
Definition stored : zlib := mkZlib (fun s => s) Some.

Theorem C59_meaning : forall z s v, decode z s = Ok v <-> exchange_string (decompress z) s v.
Proof. exact decode_grammar. Qed.
Print Assumptions C59_meaning.

Theorem C59_refusals : forall z s e, decode z s = Err e <-> refusal (decompress z) s e.
Proof. exact decode_errors. Qed.
Print Assumptions C59_refusals.

Theorem C59_one_meaning : forall inflate s v w,
  exchange_string inflate s v -> exchange_string inflate s w -> v = w.
Proof. exact exchange_function. Qed.
Print Assumptions C59_one_meaning.

(** blanks, a repeated name, escapes of two surrogates, an exponent *)
Definition ex_text : string :=
  " { ""a"" : [1, -2.5e-1 ,0] ,""b"":null, ""a"":""x\ud83d\ude00\n"" } ".
Example C59_ex : decode stored (String "0" (b64encode ex_text)) =
  Ok (VDict [(KS "a", VStr (utf8s [120; 128512; 10])); (KS "b", VNone)]).
Proof. vm_compute. reflexivity. Qed.
Example C59_ex_grammar : exchange_string Some (String "0" (b64encode ex_text))
  (VDict [(KS "a", VStr (utf8s [120; 128512; 10])); (KS "b", VNone)]).
Proof. apply (C59_meaning stored), C59_ex. Qed.
(** base64 by hand: "e30=" is "{}"; line breaks are skipped *)
Example C59_ex_bytes : b64_bytes "e30=" "{}".
Proof. apply (by_pad1 0 0 0 "e" "3" "0" "" 30 55 52); vm_compute; auto. Qed.
Example C59_ex_hand : exchange_string Some ("0e3" ++ String "010" "0=") (VDict []).
Proof.
  exists ("e3" ++ String "010" "0="), "{}", "{}". split; [reflexivity|]. split; [repeat constructor|]. split; [exact C59_ex_bytes|].
  split; [reflexivity|]. split.
  - exists [123; 125]. split; [|reflexivity]. repeat constructor; try discriminate; intros [H _]; vm_compute in H; now apply H.
  - exists "", "{}", "". split; [constructor|]. split; [|split; [constructor|reflexivity]]. apply (jv_dict_empty ""). constructor.
Qed.
Example C59_ex_trailing_comma : refusal Some (String "0" (b64encode "[1,]")) EJSONDecode.
Proof. apply (C59_refusals stored). vm_compute. reflexivity. Qed.
Example C59_ex_leading_zero : refusal Some (String "0" (b64encode "[01]")) EJSONDecode.
Proof. apply (C59_refusals stored). vm_compute. reflexivity. Qed.
Example C59_ex_overlong : refusal Some (String "0" (b64encode (String "192" (String "128" "")))) EUnicodeDecode.
Proof. apply (C59_refusals stored). vm_compute. reflexivity. Qed.
Example C59_ex_base64 : refusal Some "0e30" EInvalidExchangeString.
Proof. apply (C59_refusals stored). vm_compute. reflexivity. Qed.

(** decimal fractions are read as the nearest float: 0.1, and the tie 2^53 + 1 *)
Example C59_ex_tenth : rounds_decimal false 1 (-1) (S754_finite false 7205759403792794 (-56)).
Proof. apply float_of_dec_spec; [discriminate|vm_compute; reflexivity]. Qed.
Example C59_ex_tie : rounds_decimal false 9007199254740993 0 (S754_finite false 4503599627370496 1).
Proof. apply float_of_dec_spec; [discriminate|vm_compute; reflexivity]. Qed.
Example C59_ex_not_nearest : ~ rounds_decimal false 9007199254740993 0 (S754_finite false 4503599627370497 1).
Proof. rewrite float_of_dec_spec by discriminate. vm_compute. discriminate. Qed.
Example C59_ex_overflow : rounds_decimal true 18 307 (S754_infinity true).
Proof. apply float_of_dec_spec; [discriminate|vm_compute; reflexivity]. Qed.
