(** What the answers about a DTD should be.

    [p] is a content specification as it is written (DtdSpec, LoadSpec); a user looks at it
    only through the functions of the library. *)
From Verif Require Import Prelude DtdModel DtdDocModel LoadSpec AskModel.
Open Scope nat_scope.
Open Scope list_scope.

(** [looks l p]: item by item, and no further, the list [l] is the group [p];
    [node_looks n p]: the item [n] is [p], a name or again a group *)
Inductive looks : option items -> part -> Prop :=
| looks_group l ty t ps :
    item_list_count l = Z.of_nat (length ps) -> item_list_type l = Some ty -> item_list_repeat l = t ->
    (forall i p, nth_error ps i = Some p -> node_looks (item_list_get_node l (Z.of_nat i)) p) ->
    (forall z, (z < 0 \/ Z.of_nat (length ps) <= z)%Z -> item_list_get_node l z = None) ->
    looks l (Group ty t ps)
with node_looks : option part -> part -> Prop :=
| looks_name n x t : item_node_type n = KindNode -> item_node_value n = Some x -> item_node_repeat n = t -> item_node_list n = None -> node_looks n (Leaf x t)
| looks_list n ty t ps : item_node_type n = KindList -> item_node_repeat n = t -> looks (item_node_list n) (Group ty t ps) -> node_looks n (Group ty t ps).

(** what is told about the element [x], declared with the content [c] *)
Definition told (d : dtd) (x : bytes) (c : content) : Prop :=
  let e := dtd_get_element d (Some x) in
  element_name e = Some x /\
  match c with
  | CEmpty => element_type e = Some TEmpty /\ item_list e = None
  | CAny => element_type e = Some TAny /\ item_list e = None
  | CText => element_type e = Some TPcdata /\ exists t, looks (item_list e) (Group Sequence t [Leaf (s2b "#PCDATA") TOne])
  | CMixed xs => element_type e = Some TChildren /\ looks (item_list e) (Group Choice TMany (map (fun y => Leaf y TOne) (s2b "#PCDATA" :: xs)))
  | CKids p => element_type e = Some TChildren /\ (exact p = true -> looks (item_list e) p)
  end.
(** no declaration allows [x] inside of an element *)
Definition outermost (ds : list decl) (x : bytes) : Prop := forall y c, In (y, c) (elements_of ds) -> ~ In x (child_names c).
