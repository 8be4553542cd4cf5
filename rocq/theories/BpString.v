(** * Model of the string interface of blueprints, blueprint.py 184-214, 295-300. *)
From Verif Require Import Py Num Text Json Codec Util Classes Mixins Entity World.
Open Scope Z_scope.

(** blueprint.py 295-296 *)
Definition bp_to_json_string (b : nat) : M string := do v <- bp_json b; gets (fun _ => json_dumps v).
(** blueprint.py 298-300 *)
Definition bp_to_string (z : zlib) (b : nat) : M string := do v <- bp_json b; gets (fun _ => encode z v).
(** blueprint.py 211-214, for another Blueprint: the strings are compared.  Any other object gives
    NotImplemented, which makes == False. *)
Definition bp_eq (z : zlib) (a b : nat) : M bool :=
  do s <- bp_to_string z a; do t <- bp_to_string z b; ret (String.eqb s t).
(** blueprint.py 184-209, Blueprint(string, data, ...): a string takes precedence over data.  The
    caller gets nothing when decoding or loading raises; what was created is still in the heap. *)
Definition bp_construct (z : zlib) (strict : bool) (cust : customs) (string : option string) (data : option val) : M nat :=
  do b <- new_blueprint strict cust;
  do data <- match string with
             | Some s => gets (fun _ => let! v := decode z s in Ok (Some v))
             | None => ret data
             end;
  match data with
  | None | Some VNone => ret b
  | Some v => do _ <- (fun w => let '(w, _, r) := load b v w in (w, r)); ret b
  end.
