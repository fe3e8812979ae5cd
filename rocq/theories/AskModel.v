(** The questions that can be asked to a loaded DTD: src/axl_dtd.c.

    Simplifications (besides those of DtdDocModel): a list of the DTD that was never made
    (NULL) is the empty list, which the functions below treat in the same way; a pointer
    that may be NULL is an option; the critical log of a NULL argument is dropped. *)
From Verif Require Import Prelude DtdModel DtdDocModel.
Open Scope nat_scope.
Open Scope list_scope.

(** struct _axlDtdElementList, axl_dtd.c:59-83, as it is given to the user *)
Record items := Items { i_type : nested; i_times : times; i_nodes : list part }.
Definition items_of (p : part) : option items := match p with Group ty t ps => Some (Items ty t ps) | Leaf _ _ => None end.

(** axl_dtd_get_root, axl_dtd.c:3502-3512 *)
Definition dtd_get_root (d : dtd) : option el_decl := d_top d.
(** axl_dtd_get_element, axl_dtd.c:3544-3552, where the name may be NULL *)
Definition dtd_get_element (d : dtd) (name : option bytes) : option el_decl := match name with None => None | Some name => get_element d name end.
(** axl_dtd_get_attr_contraints, axl_dtd.c:3609-3622: the answer of axl_dtd_get_attr is
    dereferenced *)
Definition attr_constraints (d : dtd) (name : option bytes) : res Z :=
  match name with
  | None => Ok (-1)%Z
  | Some name => match get_attr d name with None => UB | Some l => Ok (Z.of_nat (length l)) end
  end.
(** axl_dtd_get_element_name, axl_dtd.c:3633-3638 *)
Definition element_name (e : option el_decl) : option bytes := option_map el_name e.
(** axl_dtd_get_element_type, axl_dtd.c:3647-3652; [None] is ELEMENT_TYPE_UNKNOWN *)
Definition element_type (e : option el_decl) : option el_type := option_map el_ty e.
(** axl_dtd_get_item_list, axl_dtd.c:3663-3668 *)
Definition item_list (e : option el_decl) : option items := match e with Some e => match el_list e with Some p => items_of p | None => None end | None => None end.
(** the loop of axl_dtd_element_is_toplevel, axl_dtd.c:3691-3705 *)
Fixpoint toplevel_loop (pfuel : nat) (l : list el_decl) (e : el_decl) : res bool :=
  match l with
  | [] => Ok true
  | f :: l => b <- is_parent pfuel f e ;; if b : bool then Ok false else toplevel_loop pfuel l e
  end.
(** axl_dtd_element_is_toplevel, axl_dtd.c:3681-3709 *)
Definition is_toplevel (pfuel : nat) (d : dtd) (e : option el_decl) : res bool :=
  match e with None => Ok false | Some e => toplevel_loop pfuel (d_elements d) e end.
(** axl_dtd_item_list_count, axl_dtd.c:3722-3730 *)
Definition item_list_count (l : option items) : Z := match l with None => (-1)%Z | Some l => Z.of_nat (length (i_nodes l)) end.
(** axl_dtd_item_list_type, axl_dtd.c:3741-3746; [None] is -1 *)
Definition item_list_type (l : option items) : option nested := option_map i_type l.
(** axl_dtd_item_list_repeat, axl_dtd.c:3757-3763 *)
Definition item_list_repeat (l : option items) : times := match l with None => TUnknown | Some l => i_times l end.
(** axl_dtd_item_list_get_node, axl_dtd.c:3782-3790 *)
Definition item_list_get_node (l : option items) (pos : Z) : option part :=
  match l with
  | None => None
  | Some il => if negb (0 <=? pos)%Z then None else if negb (pos <? item_list_count l)%Z then None else nth_error (i_nodes il) (Z.to_nat pos)
  end.
(** NodeType, axl_decl.h *)
Inductive node_kind := KindUndefined | KindNode | KindList.
(** axl_dtd_item_node_get_type, axl_dtd.c:3804-3808 *)
Definition item_node_type (n : option part) : node_kind := match n with None => KindUndefined | Some (Leaf _ _) => KindNode | Some (Group _ _ _) => KindList end.
(** axl_dtd_item_node_get_list, axl_dtd.c:3820-3826 *)
Definition item_node_list (n : option part) : option items := match n with Some (Group ty t ps) => Some (Items ty t ps) | _ => None end.
(** axl_dtd_item_node_get_value, axl_dtd.c:3838-3845 *)
Definition item_node_value (n : option part) : option bytes :=
  match n with
  | None => None
  | Some (Leaf x _) => Some x
  | Some (Group _ _ _) => Some (s2b "requested-value-on-a-list")
  end.
(** axl_dtd_item_node_get_repeat, axl_dtd.c:3856-3876 *)
Definition item_node_repeat (n : option part) : times := match n with None => TUnknown | Some p => repeat_of p end.
