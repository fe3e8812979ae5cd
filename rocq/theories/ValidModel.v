(** The validation of a parsed document: what axl_dtd_validate (src/axl_dtd.c) sees of the
    tree of src/axl_node.c.

    Simplification (besides those of DtdDocModel and TreeModel): an attribute without a value
    (a NULL, left by a missing quote, C26) is an error here. *)
From Verif Require Import Prelude AttrModel TreeModel ParseModel DtdModel DtdDocModel LoadModel.
Open Scope nat_scope.
Open Scope list_scope.

Fixpoint with_values (l : list (bytes * option bytes)) : res (list (bytes * bytes)) :=
  match l with
  | [] => Ok []
  | (k, v) :: l => v <- of_option v ;; l <- with_values l ;; Ok ((k, v) :: l)
  end.
(** axl_node_get_name, axl_node_attr_foreach (axl_node.c:5823-5854), axl_node_is_empty
    (2637-2662) and the child elements, found with axl_node_get_first_child and
    axl_node_get_next (__axl_dtd_queue_childs, axl_dtd.c:345-360) or axl_node_get_child_nth *)
Fixpoint elem_of (n : node) : res elem :=
  let '(Node name a items) := n in
  l <- attr_foreach (fun _ _ => false) a ;;
  l <- with_values l ;;
  subs <- (fix go (items : list item) : res (list elem) :=
             match items with
             | [] => Ok []
             | INode m :: r => e <- elem_of m ;; es <- go r ;; Ok (e :: es)
             | _ :: r => go r
             end) items ;;
  Ok (Elem name l (node_is_empty n) subs).
(** axl_dtd_validate, axl_dtd.c:3020-3276, with axl_doc_get_root *)
Definition doc_validate (fuel : nat) (d : dtd) (doc : doc) : res bool :=
  n <- of_option (d_root doc) ;; e <- elem_of n ;; validate fuel fuel d e.
(** a program that loads a DTD (axl_dtd_parse), parses a document (axl_doc_parse) and validates it *)
Definition check (fuel : nat) (dtd_text doc_text : bytes) : res bool :=
  o <- dtd_parse fuel dtd_text ;;
  match o with
  | None => Ok false
  | Some (d, _) =>
    o <- doc_parse doc_text ;;
    match o with
    | None => Ok false
    | Some doc => doc_validate fuel d doc
    end
  end.
