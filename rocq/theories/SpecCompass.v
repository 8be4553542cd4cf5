(** * What the text of a Direction says (C65). *)
From Verif Require Import Py Num Util.
Open Scope string_scope. Open Scope Z_scope.

(** the words for a step of [x] to the right and [y] down *)
Definition word_y (y : Z) : string := match y with Z0 => "" | Zpos _ => "Down" | Zneg _ => "Up" end.
Definition word_x (x : Z) : string := match x with Z0 => "" | Zpos _ => "Right" | Zneg _ => "Left" end.
(** what the text has to say when going there moves by [x] and [y] *)
Definition names_step (s : string) (x y : Z) : Prop :=
  s = "<Direction (" ++ word_y y ++ (if (x =? 0) || (y =? 0) then "" else "-") ++ word_x x ++ ")>".
