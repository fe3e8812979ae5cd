(** Validation of whole documents and the search for the root element of a DTD:
    src/axl_dtd.c.

    Simplifications (besides those of DtdModel): an element node is its name, its
    attributes in order (C21: whatever their number they behave as this list; values are
    not NULL), whether axl_node_is_empty holds, and its child elements; the stack of nodes is a
    list (C07) and so is the list of references (C01). *)
From Verif Require Import Prelude HashModel DtdModel.
Open Scope nat_scope.
Open Scope list_scope.

Inductive elem := Elem (name : bytes) (atts : list (bytes * bytes)) (empty : bool) (subs : list elem).
Definition e_name (e : elem) : bytes := let '(Elem x _ _ _) := e in x.
Definition e_atts (e : elem) : list (bytes * bytes) := let '(Elem _ a _ _) := e in a.
Definition e_empty (e : elem) : bool := let '(Elem _ _ b _) := e in b.
Definition e_subs (e : elem) : list elem := let '(Elem _ _ _ l) := e in l.
(** axl_node_have_childs, axl_node.c:3612-3632 *)
Definition have_childs (e : elem) : bool := match e_subs e with [] => false | _ => true end.
(** axl_node_get_attribute_value, axl_node.c:1468-1495 *)
Definition att (e : elem) (name : bytes) : option bytes := option_map snd (find (fun p => bytes_eqb (fst p) name) (e_atts e)).

(** AxlDtdElementType, axl_decl.h *)
Inductive el_type := TEmpty | TAny | TMixed | TChildren | TPcdata.
(** struct _axlDtdElement, axl_dtd.c:85-109; [el_list] is NULL for EMPTY and ANY *)
Record el_decl := ElDecl { el_name : bytes; el_ty : el_type; el_list : option part; el_min : nat }.
(** AxlDtdAttributeType and AxlDtdAttributeDefaults, axl_decl.h *)
Inductive at_token := KIdrefs | KEntity | KEntities | KNmtoken | KNmtokens | KUnset.
Inductive at_type := ACdata | AEnum (values : list bytes) | AId | AIdref | AOther (k : at_token).
Inductive at_default := ARequired | AImplied | AFixed.
(** struct _axlDtdAttributeDecl, axl_dtd.c:111-142 *)
Record at_decl := AtDecl { ad_name : bytes; ad_type : at_type; ad_default : at_default; ad_value : option bytes }.
(** struct _axlDtd, axl_dtd.c:204-240 *)
Record dtd := Dtd { d_elements : list el_decl; d_attrs : list (bytes * list at_decl); d_top : option el_decl; d_id : bool; d_idref : bool }.

(** axl_dtd_get_element, axl_dtd.c:3544-3552; axl_dtd_get_attr, 3587-3595 *)
Definition get_element (d : dtd) (name : bytes) : option el_decl := find (fun e => bytes_eqb (el_name e) name) (d_elements d).
Definition get_attr (d : dtd) (name : bytes) : option (list at_decl) := option_map snd (find (fun p => bytes_eqb (fst p) name) (d_attrs d)).

(** the table of identifiers: axl_hash_string and axl_hash_equal_string; keys may be NULL *)
Notation idtab := (hash (option bytes) (option bytes) unit).
Definition id_exists (h : option idtab) (k : option bytes) : res bool :=
  match h with
  | None => Ok false
  | Some h => hash_exists (option bytes) (option bytes) unit hash_string str_keq h k
  end.
Definition id_insert (h : option idtab) (k : option bytes) : res (option idtab) :=
  match h with
  | None => Ok None
  | Some h => h <- hash_insert_full (option bytes) (option bytes) unit hash_string str_keq h k None k None ;; Ok (Some h)
  end.

(** __axl_dtd_attr_validate_foreach, axl_dtd.c:2756-2803: no error *)
Definition attr_known (decls : list at_decl) (p : bytes * bytes) : bool :=
  match find (fun a => bytes_eqb (ad_name a) (fst p)) decls with
  | None => false
  | Some a =>
    match ad_type a with
    | AEnum values => existsb (fun v => bytes_eqb v (snd p)) values
    | _ => true
    end
  end.
(** __axl_dtd_attr_validate_required, axl_dtd.c:2805-2823: the constraint is broken;
    axl_node_has_attribute_value (axl_node.c:1614-1624) compares with axl_cmp, a NULL never being equal *)
Definition attr_missing (e : elem) (a : at_decl) : bool :=
  match ad_default a with
  | ARequired => match att e (ad_name a) with Some _ => false | None => true end
  | AFixed => match att e (ad_name a), ad_value a with Some v, Some w => negb (bytes_eqb v w) | _, _ => true end
  | AImplied => false
  end.
(** axl_dtd_attr_validate, axl_dtd.c:2838-2943; [None] is a failure *)
Definition idstate := (option idtab * option (list bytes))%type.
Definition is_id (a : at_decl) : bool := match ad_type a with AId => true | _ => false end.
Definition is_idref (a : at_decl) : bool := match ad_type a with AIdref => true | _ => false end.
Definition refs_of (e : elem) (decls : list at_decl) : list bytes :=
  flat_map (fun a => if is_idref a then match att e (ad_name a) with Some v => [v] | None => [] end else []) decls.
Definition attr_validate (d : dtd) (e : elem) (s : idstate) : res (option idstate) :=
  match get_attr d (e_name e) with
  | None => Ok (Some s)
  | Some decls =>
    if negb (forallb (attr_known decls) (e_atts e)) then Ok None
    else if existsb (attr_missing e) decls then Ok None
    else
      o <- (if d_id d then
              match find is_id decls with
              | None => Ok (Some (fst s))
              | Some a =>
                b <- id_exists (fst s) (att e (ad_name a)) ;;
                if b : bool then Ok None else h <- id_insert (fst s) (att e (ad_name a)) ;; Ok (Some h)
              end
            else Ok (Some (fst s))) ;;
      match o with
      | None => Ok None
      | Some h => Ok (Some (h, if d_idref d then option_map (fun l => l ++ refs_of e decls) (snd s) else snd s))
      end
  end.
(** axl_dtd_validate_references, axl_dtd.c:2949-2993 *)
Fixpoint refs_found (h : option idtab) (l : list bytes) : res bool :=
  match l with
  | [] => Ok true
  | x :: l => b <- id_exists h (Some x) ;; if b : bool then refs_found h l else Ok false
  end.
Definition references (s : idstate) : res bool := match snd s with None => Ok true | Some l => refs_found (fst s) l end.

(** the content of one element, axl_dtd.c:2650-2754 and 3129-3200 *)
Definition content_ok (fuel : nat) (c : el_decl) (e : elem) (top : bool) : res bool :=
  match el_ty c with
  | TPcdata => Ok (negb (have_childs e))
  | TChildren => p <- of_option (el_list c) ;; validate_children (map e_name (e_subs e)) fuel p (el_min c) top
  | TEmpty => Ok (e_empty e && negb (have_childs e))
  | TAny | TMixed => Ok true
  end.
Definition is_any (c : el_decl) : bool := match el_ty c with TAny => true | _ => false end.
(** the loop of axl_dtd_validate, axl_dtd.c:3104-3258: [parent] and [c] are the node at hand and
    its declaration; below ANY the node is kept when the stack is empty *)
Fixpoint validate_loop (fuel cfuel : nat) (d : dtd) (parent : elem) (c : el_decl) (stack : list elem) (s : idstate) (top : bool) : res bool :=
  match fuel with
  | O => NoFuel
  | S fuel =>
    o <- attr_validate d parent s ;;
    match o with
    | None => Ok false
    | Some s =>
      b <- content_ok cfuel c parent top ;;
      if negb b then Ok false
      else
        let stack := if is_any c then stack else rev (e_subs parent) ++ stack in
        match stack with
        | [] => if is_any c then validate_loop fuel cfuel d parent c [] s false else references s
        | e :: stack =>
          match get_element d (e_name e) with
          | None => Ok false
          | Some c => validate_loop fuel cfuel d e c stack s false
          end
        end
    end
  end.
Definition id_start (d : dtd) : idstate :=
  (if d_id d then Some (hash_new (option bytes) (option bytes) unit) else None, if d_idref d then Some [] else None).
(** axl_dtd_validate, axl_dtd.c:3020-3276 *)
Definition validate (fuel cfuel : nat) (d : dtd) (root : elem) : res bool :=
  match (match d_top d with
         | Some c => if bytes_eqb (e_name root) (el_name c) then Some c else get_element d (e_name root)
         | None => None
         end) with
  | None => Ok false
  | Some c =>
    match el_ty c with
    | TEmpty =>
      if e_empty root && negb (have_childs root) then
        o <- attr_validate d root (id_start d) ;;
        match o with None => Ok false | Some s => references s end
      else Ok false
    | _ => validate_loop fuel cfuel d root c [] (id_start d) true
    end
  end.

(** ** The root of a DTD *)
(** __axl_dtd_get_is_parent, axl_dtd.c:403-465: items are pushed in order, so that the last one is
    looked at first; an item list is never empty *)
Fixpoint parent_loop (fuel : nat) (stack : list part) (child : bytes) : res bool :=
  match fuel with
  | O => NoFuel
  | S fuel =>
    match stack with
    | [] => Ok false
    | Leaf x _ :: stack => if bytes_eqb x child then Ok true else parent_loop fuel stack child
    | Group _ _ ps :: stack => parent_loop fuel (rev ps ++ stack) child
    end
  end.
Definition is_parent (fuel : nat) (p c : el_decl) : res bool :=
  match el_list p with
  | Some (Group _ _ ps) => parent_loop fuel (rev ps) (el_name c)
  | _ => Ok false
  end.
(** one pass of __axl_dtd_get_new_root, axl_dtd.c:486-503 *)
Fixpoint root_pass (fuel : nat) (l : list el_decl) (r : el_decl) (changed : bool) : res (el_decl * bool) :=
  match l with
  | [] => Ok (r, changed)
  | e :: l =>
    b <- is_parent fuel e r ;;
    if b : bool then root_pass fuel l e true else root_pass fuel l r changed
  end.
Fixpoint root_loop (fuel pfuel : nat) (l : list el_decl) (r : el_decl) : res el_decl :=
  match fuel with
  | O => NoFuel
  | S fuel =>
    ' (r, changed) <- root_pass pfuel l r false ;;
    if changed : bool then root_loop fuel pfuel l r else Ok r
  end.
(** __axl_dtd_get_new_root, axl_dtd.c:474-510 *)
Definition new_root (fuel pfuel : nat) (l : list el_decl) : res el_decl :=
  match l with [] => UB | r :: _ => root_loop fuel pfuel l r end.

(** ** Entities *)
(** struct _axlDtdEntity, axl_dtd.c:180-202 *)
Inductive ent_type := EGeneral | EParameter.
Record entity := Entity { en_name : bytes; en_type : ent_type; en_content : option bytes }.
Definition ent_eqb (a b : ent_type) : bool := match a, b with EGeneral, EGeneral => true | EParameter, EParameter => true | _, _ => false end.
(** __axl_dtd_entity_lookup, axl_dtd.c:3885-3914 *)
Fixpoint entity_lookup (l : list entity) (name : bytes) (ty : ent_type) : option entity :=
  match l with
  | [] => None
  | e :: l => if ent_eqb (en_type e) ty && bytes_eqb (en_name e) name then Some e else entity_lookup l name ty
  end.
(** axl_dtd_entity_exists, axl_dtd.c:3930-3936; axl_dtd_entity_value, 3952-3966 *)
Definition entity_exists (l : list entity) (name : bytes) (ty : ent_type) : bool := match entity_lookup l name ty with Some _ => true | None => false end.
Definition entity_value (l : list entity) (name : bytes) (ty : ent_type) : option bytes := match entity_lookup l name ty with Some e => en_content e | None => None end.
