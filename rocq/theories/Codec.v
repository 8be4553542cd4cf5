(** * Model of the exchange string codec, util.py 8-47. *)
From Verif Require Import Py Num Text Json.
Open Scope Z_scope.

(** zlib is an external oracle: [compress] is zlib.compress, [decompress] is
    zlib.decompress with None for zlib.error. *)
Record zlib := mkZlib { compress : string -> string; decompress : string -> option string }.

(** util.py 8-16: TypeError, binascii.Error and zlib.error become
    InvalidExchangeString; everything else escapes. *)
Definition decode_0 (z : zlib) (body : string) : res val :=
  match b64decode body with
  | Err EBinascii => Err EInvalidExchangeString
  | Err e => Err e
  | Ok b =>
      match decompress z b with
      | None => Err EInvalidExchangeString
      | Some t =>
          match cps false t with
          | None => Err EUnicodeDecode
          | Some _ => json_loads t
          end
      end
  end.

(** util.py 27-32, 38-46: [_decode[string[0]]] *)
Definition decode (z : zlib) (s : string) : res val :=
  match s with
  | EmptyString => Err EIndex
  | String c body => if Ascii.eqb c "0" then decode_0 z body else Err EInvalidExchangeString
  end.

(** util.py 19-24, 35-36 *)
Definition encode (z : zlib) (v : val) : res string :=
  let! t := json_dumps v in Ok (String "0" (b64encode (compress z t))).
