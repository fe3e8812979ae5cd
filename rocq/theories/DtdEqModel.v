(** Comparison of two document type definitions: src/axl_dtd.c.

    Simplifications: the entities are those that the loader of LoadModel makes: they have no
    external data (axl_dtd.c:3343-3354 compares two NULL references); the list of the
    attributes of an element is never NULL, and enumvalues is not NULL exactly for
    enumerations (axl_dtd.c:1480-1494, 1543-1575); reading a field of the NULL that
    axl_list_get_nth gives after the end of a list is [UB]. *)
From Verif Require Import Prelude StrModel DtdModel DtdDocModel LoadModel.
Open Scope list_scope.

(** axl_cmp, axl_stream.c:3411-3439: a NULL string is equal to none *)
Definition cmp_opt (a b : option bytes) : bool := match a, b with Some x, Some y => bytes_eqb x y | _, _ => false end.
Definition el_type_eqb (a b : el_type) : bool :=
  match a, b with TEmpty, TEmpty | TAny, TAny | TMixed, TMixed | TChildren, TChildren | TPcdata, TPcdata => true | _, _ => false end.
Definition nested_eqb (a b : nested) : bool := match a, b with Undef, Undef | Choice, Choice | Sequence, Sequence => true | _, _ => false end.
Definition token_eqb (a b : at_token) : bool :=
  match a, b with KIdrefs, KIdrefs | KEntity, KEntity | KEntities, KEntities | KNmtoken, KNmtoken | KNmtokens, KNmtokens | KUnset, KUnset => true | _, _ => false end.
(** the values of AxlDtdAttributeType are compared, not what an enumeration holds *)
Definition at_type_eqb (a b : at_type) : bool :=
  match a, b with
  | ACdata, ACdata | AEnum _, AEnum _ | AId, AId | AIdref, AIdref => true
  | AOther k, AOther k' => token_eqb k k'
  | _, _ => false
  end.
Definition default_eqb (a b : at_default) : bool := match a, b with ARequired, ARequired | AImplied, AImplied | AFixed, AFixed => true | _, _ => false end.

(** a loop over the positions of [l], the same position of [l'] being read as well: false as
    soon as [f] is *)
Fixpoint walk {A} (f : A -> A -> res bool) (l l' : list A) : res bool :=
  match l with
  | [] => Ok true
  | x :: l =>
    match l' with
    | [] => UB
    | y :: l' => b <- f x y ;; if b then walk f l l' else Ok false
    end
  end.
(** axl_dtd.c:3327-3340 *)
Definition entity_equal (a b : entity) : res bool :=
  if negb (ent_eqb (en_type a) (en_type b)) then Ok false
  else if negb (bytes_eqb (en_name a) (en_name b)) then Ok false
  else Ok (cmp_opt (en_content a) (en_content b)).
(** axl_dtd.c:3399-3402: the node that holds a list has no times of its own *)
Definition item_equal (p q : part) : res bool :=
  match p, q with
  | Leaf _ t, Leaf _ t' => Ok (times_eqb t t')
  | Group _ _ _, Group _ _ _ => Ok true
  | _, _ => Ok false
  end.
(** axl_dtd.c:3364-3410 *)
Definition element_equal (a b : el_decl) : res bool :=
  if negb (el_type_eqb (el_ty a) (el_ty b)) then Ok false
  else if negb (Nat.eqb (el_min a) (el_min b)) then Ok false
  else if negb (bytes_eqb (el_name a) (el_name b)) then Ok false
  else
    match el_list a, el_list b with
    | None, None => Ok true
    | Some (Group ty t ps), Some (Group ty' t' ps') =>
      if negb (nested_eqb ty ty') then Ok false
      else if negb (times_eqb t t') then Ok false
      else walk item_equal ps ps'
    | _, _ => Ok false
    end.
(** axl_dtd.c:3441-3473 *)
Definition decl_equal (a b : at_decl) : res bool :=
  if negb (at_type_eqb (ad_type a) (ad_type b)) then Ok false
  else if negb (default_eqb (ad_default a) (ad_default b)) then Ok false
  else if negb (bytes_eqb (ad_name a) (ad_name b)) then Ok false
  else
    match ad_type a, ad_type b with
    | AEnum vs, AEnum vs' =>
      if negb (Nat.eqb (length vs) (length vs')) then Ok false
      else walk (fun v w => Ok (bytes_eqb v w)) vs vs'
    | _, _ => Ok true
    end.
(** axl_dtd.c:3419-3481 *)
Definition attlist_equal (a b : bytes * list at_decl) : res bool :=
  if negb (bytes_eqb (fst a) (fst b)) then Ok false
  else if negb (Nat.eqb (length (snd a)) (length (snd b))) then Ok false
  else walk decl_equal (snd a) (snd b).
(** axl_dtd_are_equal, axl_dtd.c:3293-3490, for two references that are not NULL *)
Definition dtd_equal (d : dtd) (ents : list entity) (d' : dtd) (ents' : list entity) : res bool :=
  if negb (Nat.eqb (length ents) (length ents')) then Ok false
  else if negb (Nat.eqb (length (d_elements d)) (length (d_elements d'))) then Ok false
  else if negb (Nat.eqb (length (d_attrs d)) (length (d_attrs d'))) then Ok false
  else if negb (Bool.eqb (d_idref d) (d_idref d')) then Ok false
  else if negb (Bool.eqb (d_id d) (d_id d')) then Ok false
  else
    b <- walk entity_equal ents ents' ;;
    if negb b then Ok false
    else
      b <- walk element_equal (d_elements d) (d_elements d') ;;
      if negb b then Ok false
      else walk attlist_equal (d_attrs d) (d_attrs d').
