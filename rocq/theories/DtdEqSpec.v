(** What two document type definitions have in common.  Independent of the comparison. *)
From Verif Require Import Prelude DtdModel DtdDocModel.
From Verif Require LoadSpec.
Open Scope list_scope.

(** the rules: entities, elements with their content, attributes with their types and defaults *)
Record same_rules (d : dtd) (ents : list entity) (d' : dtd) (ents' : list entity) : Prop := {
  sr_entities : ents = ents';
  sr_elements : d_elements d = d_elements d';
  sr_attrs : d_attrs d = d_attrs d';
  sr_id : d_id d = d_id d';
  sr_idref : d_idref d = d_idref d'
}.
(** contents whose names and inner groups are left out: of a member only whether it is a
    name, and how often that is repeated *)
Definition member (p : part) : option times := match p with Leaf _ t => Some t | Group _ _ _ => None end.
Record outline := Outline { o_name : bytes; o_kind : el_type; o_least : nat; o_content : option (nested * times * list (option times)) }.
Definition outline_of (e : el_decl) : outline :=
  Outline (el_name e) (el_ty e) (el_min e)
    match el_list e with Some (Group ty t ps) => Some (ty, t, map member ps) | _ => None end.
(** attributes without the default value *)
Definition bare (a : at_decl) : bytes * at_type * at_default := (ad_name a, ad_type a, ad_default a).
Record same_outline (d : dtd) (ents : list entity) (d' : dtd) (ents' : list entity) : Prop := {
  so_entities : ents = ents';
  so_elements : map outline_of (d_elements d) = map outline_of (d_elements d');
  so_attrs : map (fun p => (fst p, map bare (snd p))) (d_attrs d) = map (fun p => (fst p, map bare (snd p))) (d_attrs d');
  so_id : d_id d = d_id d';
  so_idref : d_idref d = d_idref d'
}.
(** the content of an element is a group, as every loaded one *)
Definition grouped_content (d : dtd) : Prop := forall e, In e (d_elements d) -> match el_list e with Some (Leaf _ _) => False | _ => True end.
Definition members (e : el_decl) : nat := match el_list e with Some (Group _ _ ps) => length ps | _ => 0 end.
(** the contents of the elements in the same place have as many members *)
Definition as_many (d d' : dtd) : Prop := Forall2 (fun e e' => members e = members e') (d_elements d) (d_elements d').
Definition values_given (ents : list entity) : Prop := forall e, In e ents -> en_content e <> None.
(** what two lists of declarations that compare equal have in common *)
Definition kind_of (c : LoadSpec.content) : nat := match c with LoadSpec.CEmpty => 0 | LoadSpec.CAny => 1 | LoadSpec.CText => 2 | _ => 3 end.
Record alike (ds ds' : list LoadSpec.decl) : Prop := {
  al_elements : map (fun d => (fst d, kind_of (snd d))) (LoadSpec.elements_of ds) = map (fun d => (fst d, kind_of (snd d))) (LoadSpec.elements_of ds');
  al_entities : LoadSpec.entities_of ds = LoadSpec.entities_of ds';
  al_listed : forall x, LoadSpec.listed ds x <-> LoadSpec.listed ds' x;
  al_atts : forall x, map bare (LoadSpec.atts_of ds x) = map bare (LoadSpec.atts_of ds' x)
}.
