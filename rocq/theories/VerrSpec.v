(** What an error of the validation says, and the declarations for which exactly one is
    reported. *)
From Verif Require Import Prelude DtdModel DtdSpec DtdDocModel DtdDocSpec VerrModel.
Open Scope nat_scope.
Open Scope list_scope.

(** an error about the content of the element [x] declared as [c]: the kind of content it can
    come from, and that the names and numbers in it are those of the document and of the DTD *)
Definition about_content (c : el_decl) (x : elem) (e : verr) : Prop :=
  match e with
  | EMoreNodes p => el_ty c = TChildren /\ e_name x = p
  | EDifferent y v pos _ =>
    el_ty c = TChildren /\ nth_error (map e_name (e_subs x)) pos = Some y /\ y <> v /\ exists p, el_list c = Some p /\ In v (names_in p)
  | EMoreChilds | EChoiceEnd | EChoiceNone | EPartOpt | EPartMany | EPartPlus | ETimes | EChoiceRest => el_ty c = TChildren
  | EFewer p n m => el_ty c = TChildren /\ e_name x = p /\ length (e_subs x) = n /\ el_min c = m /\ n < m
  | ENotCovered pos m n p => el_ty c = TChildren /\ e_name x = p /\ length (e_subs x) = n /\ el_min c = m /\ pos < n
  | EHasChilds => el_ty c = TPcdata /\ e_subs x <> []
  | ENotEmpty p => el_ty c = TEmpty /\ e_name x = p /\ e_empty x = false
  | EEmptyChilds p => el_ty c = TEmpty /\ e_name x = p /\ e_subs x <> []
  | _ => False
  end.
(** the element [x] of the document has the name [p] and [l] is declared for it *)
Definition attlist (d : dtd) (root x : elem) (p : bytes) (l : list at_decl) : Prop := In x (elems d root) /\ e_name x = p /\ In (p, l) (d_attrs d).
(** what the error says is so *)
Definition true_of (d : dtd) (root : elem) (e : verr) : Prop :=
  match e with
  | EUnknownAttr k p => exists x l v, attlist d root x p l /\ has x k v /\ ~ In k (map ad_name l)
  | ENotInEnum k v p => exists x l a vs, attlist d root x p l /\ has x k v /\ In a l /\ ad_name a = k /\ ad_type a = AEnum vs /\ ~ In v vs
  | EFixed k p => exists x l a, attlist d root x p l /\ In a l /\ ad_name a = k /\ ad_default a = AFixed /\ forall v, ad_value a = Some v -> ~ has x k v
  | ERequired k p => exists x l a, attlist d root x p l /\ In a l /\ ad_name a = k /\ ad_default a = ARequired /\ forall v, ~ has x k v
  | EIdTwice k p =>
    (exists x l a, attlist d root x p l /\ In a l /\ ad_name a = k /\ ad_type a = AId) /\
    (ids_given d root -> ~ NoDup (flat_map (ids d) (elems d root)))
  | ERef r => In r (flat_map (idrefs d) (elems d root)) /\ ~ In r (flat_map (ids d) (elems d root))
  | ERoot p _ | ENoElement p => e_name root = p /\ forall c, ~ declared d root c
  | EUndeclared p => exists x, In x (elems d root) /\ e_name x = p /\ forall c, ~ declared d x c
  | _ => exists x c, In x (elems d root) /\ declared d x c /\ about_content c x e
  end.
Definition content_error (e : verr) : bool :=
  match e with
  | EUnknownAttr _ _ | ENotInEnum _ _ _ | EFixed _ _ | ERequired _ _ | EIdTwice _ _ | ERef _ | ERoot _ _ | ENoElement _ | EUndeclared _ => false
  | _ => true
  end.
(** the content blamed is not what the declaration asks for, at least when the declaration is
    one of those for which nothing valid is refused (C34) *)
Definition blamed (d : dtd) (root : elem) (e : verr) : Prop :=
  content_error e = true ->
  exists x c, In x (elems d root) /\ declared d x c /\ about_content c x e /\ (content_det c true -> ~ content_valid c x).

(** ** Where exactly one error is reported
    Groups with [+] and sequences with [?] are left out, and groups inside of a choice or of
    something repeated. *)
Definition is_name (p : part) : bool := match p with Leaf _ _ => true | _ => false end.
Fixpoint speaks (p : part) : bool :=
  match p with
  | Leaf _ _ => true
  | Group Sequence TOne ps => forallb speaks ps
  | Group Sequence TMany ps => forallb is_name ps
  | Group Sequence _ _ => false
  | Group _ TOne ps | Group _ TOpt ps | Group _ TMany ps => forallb is_name ps
  | Group _ _ _ => false
  end.
Definition dtd_speaks (d : dtd) : Prop := forall c, In c (d_elements d) -> el_ty c = TChildren -> exists p, el_list c = Some p /\ speaks p = true.
(** a root declared EMPTY is empty *)
Definition root_speaks (d : dtd) (root : elem) : Prop := forall c, declared d root c -> el_ty c = TEmpty -> e_empty root = true /\ e_subs root = [].
(** the errors made by __axl_dtd_attr_validate_foreach itself, even for a caller that does not
    want any *)
Definition unasked (e : verr) : Prop := (exists k p, e = EUnknownAttr k p) \/ (exists k v p, e = ENotInEnum k v p).
