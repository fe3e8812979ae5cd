(** What a valid document is. *)
From Verif Require Import Prelude DtdModel DtdSpec DtdDocModel.
Open Scope nat_scope.
Open Scope list_scope.

(** what the loader of a DTD makes sure of, and that no attribute of an element is declared twice *)
Record dtd_ok (d : dtd) : Prop := {
  ok_els : NoDup (map el_name (d_elements d));
  ok_top : exists c, d_top d = Some c /\ In c (d_elements d);
  ok_lists : NoDup (map fst (d_attrs d));
  ok_atts : forall n l, In (n, l) (d_attrs d) -> NoDup (map ad_name l);
  ok_ids : forall n l a b, In (n, l) (d_attrs d) -> In a l -> In b l -> ad_type a = AId -> ad_type b = AId -> ad_name a = ad_name b;
  ok_id : forall n l a, In (n, l) (d_attrs d) -> In a l -> ad_type a = AId -> d_id d = true;
  ok_idref : forall n l a, In (n, l) (d_attrs d) -> In a l -> ad_type a = AIdref -> d_idref d = true
}.

(** the element has this declaration, this attribute *)
Definition declared (d : dtd) (e : elem) (c : el_decl) : Prop := In c (d_elements d) /\ el_name c = e_name e.
Definition has (e : elem) (n v : bytes) : Prop := In (n, v) (e_atts e).

(** the elements of the document in order; those below an element declared ANY are left out *)
Definition any_declared (d : dtd) (e : elem) : bool :=
  existsb (fun c => bytes_eqb (el_name c) (e_name e) && match el_ty c with TAny => true | _ => false end) (d_elements d).
Fixpoint elems (d : dtd) (e : elem) : list elem :=
  e :: (if any_declared d e then [] else flat_map (elems d) (let '(Elem _ _ _ l) := e in l)).

Fixpoint all_elems (e : elem) : list elem := e :: flat_map all_elems (let '(Elem _ _ _ l) := e in l).
Definition no_any (d : dtd) : Prop := forall c, In c (d_elements d) -> el_ty c <> TAny.

(** the content follows the declaration *)
Definition content_valid (c : el_decl) (e : elem) : Prop :=
  match el_ty c with
  | TEmpty => e_empty e = true /\ e_subs e = []
  | TPcdata => e_subs e = []
  | TChildren => exists p, el_list c = Some p /\ lang p (map e_name (e_subs e))
  | TAny | TMixed => True
  end.
(** only declared attributes, the enumerated ones with a listed value; the required ones are there,
    the fixed ones with their value *)
Definition atts_valid (d : dtd) (e : elem) : Prop :=
  forall l, In (e_name e, l) (d_attrs d) ->
    (forall n v, has e n v -> exists a, In a l /\ ad_name a = n /\ forall vs, ad_type a = AEnum vs -> In v vs) /\
    (forall a, In a l -> ad_default a = ARequired -> exists v, has e (ad_name a) v) /\
    (forall a, In a l -> ad_default a = AFixed -> exists v, ad_value a = Some v /\ has e (ad_name a) v).
(** the values of the attributes of an element whose declared type is as given *)
Definition typed (d : dtd) (ty : at_type -> bool) (e : elem) : list bytes :=
  flat_map (fun nl => if bytes_eqb (fst nl) (e_name e) then
                        flat_map (fun a => if ty (ad_type a) then map snd (filter (fun p => bytes_eqb (fst p) (ad_name a)) (e_atts e)) else []) (snd nl)
                      else []) (d_attrs d).
Definition ids (d : dtd) (e : elem) : list bytes := typed d (fun t => match t with AId => true | _ => false end) e.
Definition idrefs (d : dtd) (e : elem) : list bytes := typed d (fun t => match t with AIdref => true | _ => false end) e.

(** attribute names are distinct (C26) *)
Definition atts_distinct (d : dtd) (root : elem) : Prop := forall e, In e (elems d root) -> NoDup (map fst (e_atts e)).
(** every element that can have an ID has one *)
Definition ids_given (d : dtd) (root : elem) : Prop :=
  forall e l a, In e (elems d root) -> In (e_name e, l) (d_attrs d) -> In a l -> ad_type a = AId -> exists v, has e (ad_name a) v.
Record valid (d : dtd) (root : elem) : Prop := {
  v_elems : forall e, In e (elems d root) -> exists c, declared d e c /\ content_valid c e /\ atts_valid d e;
  v_ids : NoDup (flat_map (ids d) (elems d root));
  v_refs : incl (flat_map (idrefs d) (elems d root)) (flat_map (ids d) (elems d root))
}.

(** ** The declarations that are handled well *)
Definition loaded_min (c : el_decl) (p : part) : Prop := el_list c = Some p /\ el_min c = compulsory_num p.
Definition content_safe (c : el_decl) : Prop := el_ty c = TChildren -> exists p, loaded_min c p /\ safe_top p = true.
Definition not_undef (p : part) : bool := match p with Group Undef _ (_ :: _ :: _) => false | _ => true end.
Definition content_det (c : el_decl) (top : bool) : Prop := el_ty c = TChildren -> exists p, loaded_min c p /\ det_top p top = true /\ not_undef p = true.
Definition not_leaf (p : part) : bool := match p with Leaf _ _ => false | _ => true end.
Definition content_ends (c : el_decl) : Prop := el_ty c = TChildren -> exists p, el_list c = Some p /\ ends p = true /\ not_leaf p = true.
(** the last element looked at (from the root always on to the first child) is not declared ANY *)
Fixpoint ends_plain (d : dtd) (e : elem) : bool :=
  negb (any_declared d e) && (let '(Elem _ _ _ l) := e in match l with [] => true | k :: _ => ends_plain d k end).

(** ** The root of a DTD *)
(** the names in a content specification *)
Fixpoint names_in (p : part) : list bytes :=
  match p with Leaf x _ => [x] | Group _ _ ps => flat_map names_in ps end.
(** the content of [e] mentions [f] *)
Definition mentions (e f : el_decl) : Prop := exists p, el_list e = Some p /\ not_leaf p = true /\ In (el_name f) (names_in p).
(** no declaration leads back to itself *)
Definition acyclic (l : list el_decl) : Prop := exists rank : el_decl -> nat, forall e f, In e l -> In f l -> mentions e f -> rank f < rank e.
(** how many steps the reading of a content specification takes *)
Fixpoint psize (p : part) : nat := match p with Leaf _ _ => 1 | Group _ _ ps => S (list_sum (map psize ps)) end.

(** ** Entities *)
Definition entity_is (name : bytes) (ty : ent_type) (e : entity) : Prop := en_name e = name /\ en_type e = ty.
