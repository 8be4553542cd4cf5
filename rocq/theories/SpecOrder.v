(** * The order in which entities are made (C76). *)
From Verif Require Import Py Num NumFacts Util SpecUtil Classes Mixins Entity Setters World SpecWorld SpecDoc SpecEntity SpecAttr SpecValues SpecSetting SpecBehaviour SpecMake SpecWrite SpecExport SpecShow SpecParts SpecBuild.
Open Scope string_scope. Open Scope Z_scope. Open Scope list_scope.

(** no two of the entities that were made are at one position *)
Definition apart (l : list (vec * res val)) : Prop :=
  forall k m a c, k <> m -> nth_error l k = Some a -> nth_error l m = Some c ->
  ~ (xeq (nval (vx (fst a))) (nval (vx (fst c))) /\ xeq (nval (vy (fst a))) (nval (vy (fst c)))).
