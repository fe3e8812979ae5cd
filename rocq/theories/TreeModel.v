(** The document tree of src/axl_node.c and src/axl_doc.c.

    Simplifications: a node is a value holding its items in order (the sibling and
    parent links are modelled separately, see ItemModel); the factory flags of the
    item types are dropped (axl_item_get_type masks them, axl_node.c:6220-6242); a
    content block is the list of its content_size bytes and is followed by a NUL
    (every block is allocated with content_size + 1 zeroed bytes). *)
From Verif Require Import Prelude AttrModel.

(** struct _axlPI, axl_doc.c:407-420; content may be NULL *)
Record pi := Pi { pi_name : bytes; pi_content : option bytes }.

(** struct _axlNode and struct _axlItem, axl_node.c:245-337 *)
Inductive node := Node (name : bytes) (at_ : attrs) (items : list item)
with item :=
| INode (n : node)
| IContent (b : bytes)
| ICdata (b : bytes)
| IPi (p : pi)
| IComment (b : bytes)
| IRef (b : bytes).

Definition n_name (n : node) : bytes := let '(Node s _ _) := n in s.
Definition n_attrs (n : node) : attrs := let '(Node _ a _) := n in a.
Definition n_items (n : node) : list item := let '(Node _ _ l) := n in l.

(** struct _axlDoc, axl_doc.c:306-405: what a parsed document offers *)
Record doc := Doc {
  d_root : option node;
  d_encoding : option bytes;
  d_standalone : bool;
  d_pis : list pi
}.

(** axl_node_is_empty, axl_node.c:2637-2662 *)
Fixpoint items_empty (l : list item) : bool :=
  match l with
  | [] => true
  | IContent _ :: _ | ICdata _ :: _ => false
  | _ :: r => items_empty r
  end.
Definition node_is_empty (n : node) : bool := items_empty (n_items n).

(** axl_node_have_childs_aux, axl_node.c:3642-3664 *)
Fixpoint items_childs_aux (l : list item) : bool :=
  match l with
  | [] => false
  | INode _ :: _ | IPi _ :: _ | IComment _ :: _ => true
  | _ :: r => items_childs_aux r
  end.
Definition node_have_childs_aux (n : node) : bool := items_childs_aux (n_items n).

(** axl_node_have_childs, axl_node.c:3612-3632 *)
Fixpoint items_childs (l : list item) : bool :=
  match l with
  | [] => false
  | INode _ :: _ => true
  | _ :: r => items_childs r
  end.
Definition node_have_childs (n : node) : bool := items_childs (n_items n).
