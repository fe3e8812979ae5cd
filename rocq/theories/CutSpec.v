(** Documents that are cut off before the end of their root. *)
From Verif Require Import Prelude StrSpec AttrModel TreeModel XmlSpec.
Open Scope list_scope.

(** Whole documents: they end where their root ends *)
Inductive whole : bytes -> option bytes -> bool -> list pi -> xnode -> Prop :=
| whole_decl b td e sa m1 tt m2 l te x : b = [] \/ b = bom -> decl_text td e sa -> misc_text false m1 [] ->
    doctype_text tt -> misc_text true m2 l -> elem_text te x ->
    whole (b ++ td ++ m1 ++ tt ++ m2 ++ te) e sa l x
| whole_plain b tt m2 l te x : b = [] \/ b = bom -> doctype_text tt -> misc_text true m2 l -> elem_text te x ->
    (tt = [] -> forall z, m2 <> str "<?" ++ z) ->
    whole (b ++ tt ++ m2 ++ te) None false l x.

(** No attribute has a [>] in its value *)
Inductive tame : xnode -> Prop :=
| Tame name ats l : Forall (fun p => forall v, snd p = Some v -> has ">" v = false) ats -> tame_items l -> tame (XNode name ats l)
with tame_items : list xitem -> Prop :=
| tame_nil : tame_items []
| tame_elem x l : tame x -> tame_items l -> tame_items (XElem x :: l)
| tame_other i l : (forall x, i <> XElem x) -> tame_items l -> tame_items (i :: l).
