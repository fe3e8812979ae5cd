(** Valid documents: the tree of a text and the declarations of a DTD, both as written.
    Independent of parser, loader and validator. *)
From Verif Require Import Prelude XmlSpec DtdModel DtdSpec DtdDocModel LoadSpec.
Open Scope nat_scope.
Open Scope list_scope.

Definition x_name (x : xnode) : bytes := let '(XNode n _ _) := x in n.
Definition x_atts (x : xnode) : list (bytes * option bytes) := let '(XNode _ a _) := x in a.
Definition x_subs (x : xnode) : list xnode := flat_map (fun i => match i with XElem y => [y] | _ => [] end) (xitems x).
Definition x_no_text (x : xnode) : bool := forallb (fun i => match i with XText _ | XCdata _ => false | _ => true end) (xitems x).
(** all the elements *)
Fixpoint x_elems (x : xnode) : list xnode := let '(XNode _ _ l) := x in x :: flat_map (fun i => match i with XElem y => x_elems y | _ => [] end) l.

(** the content of an element is one that is declared, XML 1.0 section 3 *)
Definition content_fits (c : content) (x : xnode) : Prop :=
  match c with
  | CEmpty => xitems x = []
  | CAny => True
  | CText => x_subs x = []
  | CMixed xs => forall k, In k (x_subs x) -> In (x_name k) xs
  | CKids p => x_no_text x = true /\ lang p (map x_name (x_subs x))
  end.
(** the same, but comments and processing instructions may be in an EMPTY element, and text
    between child elements *)
Definition shape_fits (c : content) (x : xnode) : Prop :=
  match c with
  | CEmpty => x_no_text x = true /\ x_subs x = []
  | CKids p => lang p (map x_name (x_subs x))
  | _ => content_fits c x
  end.
(** the attributes are those declared, section 3.3 *)
Definition x_atts_fit (l : list at_decl) (x : xnode) : Prop :=
  (forall n v, In (n, v) (x_atts x) -> exists a, In a l /\ ad_name a = n /\ forall vs, ad_type a = AEnum vs -> exists w, v = Some w /\ In w vs) /\
  (forall a, In a l -> ad_default a = ARequired -> In (ad_name a) (map fst (x_atts x))) /\
  (forall a, In a l -> ad_default a = AFixed -> In (ad_name a, ad_value a) (x_atts x)).
(** the values of the attributes whose type is as given *)
Definition x_typed (ds : list decl) (ty : at_type -> bool) (x : xnode) : list (option bytes) :=
  flat_map (fun a => if ty (ad_type a) then map snd (filter (fun p => bytes_eqb (fst p) (ad_name a)) (x_atts x)) else []) (atts_of ds (x_name x)).
Definition is_idref_type (t : at_type) : bool := match t with AIdref => true | _ => false end.
(** the identifiers are distinct and the references are to identifiers *)
Definition ids_fit (ds : list decl) (x : xnode) : Prop :=
  NoDup (flat_map (x_typed ds is_id_type) (x_elems x)) /\
  incl (flat_map (x_typed ds is_idref_type) (x_elems x)) (flat_map (x_typed ds is_id_type) (x_elems x)).
(** valid documents (IDREFS, and the values of the other types, left aside) *)
Definition valid_doc (ds : list decl) (x : xnode) : Prop :=
  (forall e, In e (x_elems x) -> exists c, In (x_name e, c) (elements_of ds) /\ content_fits c e /\ x_atts_fit (atts_of ds (x_name e)) e) /\ ids_fit ds x.
(** nearly valid ones: an element for which no attributes are declared may have any *)
Definition checked_doc (ds : list decl) (x : xnode) : Prop :=
  (forall e, In e (x_elems x) -> exists c, In (x_name e, c) (elements_of ds) /\ shape_fits c e /\ (listed ds (x_name e) -> x_atts_fit (atts_of ds (x_name e)) e)) /\ ids_fit ds x.
(** no identifier is left out *)
Definition ids_present (ds : list decl) (x : xnode) : Prop :=
  forall e a, In e (x_elems x) -> In a (atts_of ds (x_name e)) -> ad_type a = AId -> In (ad_name a) (map fst (x_atts e)).

(** the declarations for which validation keeps to the specifications (C33, C50) *)
Record sound_for (ds : list decl) : Prop := {
  sf_some : elements_of ds <> [];
  sf_atts : forall x, NoDup (map ad_name (atts_of ds x));
  sf_kids : forall x p, In (x, CKids p) (elements_of ds) -> exact p = true /\ safe_top p = true;
  sf_any : forall x, ~ In (x, CAny) (elements_of ds)
}.
(** and those for which it accepts all they allow (C34) *)
Record complete_for (ds : list decl) : Prop := {
  cf_kids : forall x p, In (x, CKids p) (elements_of ds) -> det_top p true = true;
  cf_mixed : forall x xs, In (x, CMixed xs) (elements_of ds) -> NoDup xs
}.
