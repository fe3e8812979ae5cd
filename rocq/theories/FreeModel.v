(** Releasing nodes and items: src/axl_node.c, on the heap of ItemModel.

    Reading or releasing what has been released is [UB].  Simplifications: nodes, items and
    contents come from axl_new, as they do for nodes made by the caller outside a document
    (those of a parsed document belong to the factories of the document, FactoryModel, and
    are not returned one by one); the name, the attributes and the annotations of a node
    and the content of an item belong to it alone, and are released with it. *)
From Verif Require Import Prelude ItemModel.
Open Scope list_scope.

Definition del {A} (h : nat -> option A) (a : nat) : nat -> option A := fun x => if Nat.eqb x a then None else h x.
(** axl_free of an item, of a node *)
Definition free_i (h : heap) (a : nat) : res heap := _ <- rd_i h a ;; Ok (Heap (del (h_items h) a) (h_nodes h) (h_ifresh h) (h_nfresh h)).
Definition free_n (h : heap) (a : nat) : res heap := _ <- rd_n h a ;; Ok (Heap (h_items h) (del (h_nodes h) a) (h_ifresh h) (h_nfresh h)).

(** axl_node_free, axl_node.c:5455-5478, with __axl_node_free_internal, 5392-5445 *)
Fixpoint node_free (fuel : nat) (h : heap) (n : nat) {struct fuel} : res heap :=
  match fuel with
  | O => NoFuel
  | S fuel =>
    nd <- rd_n h n ;;
    h <- free_items fuel h (n_first nd) ;;
    nd <- rd_n h n ;;
    h <- match n_holder nd with
         | Some i => h <- free_i h i ;; wr_n h n (w_holder None)
         | None => Ok h
         end ;;
    free_n h n
  end
(** the loop over the items, axl_node.c:5412-5430, with axl_item_free, 6824-6870: the item
    that holds a node is released by axl_node_free *)
with free_items (fuel : nat) (h : heap) (i : option nat) {struct fuel} : res heap :=
  match i with
  | None => Ok h
  | Some i =>
    match fuel with
    | O => NoFuel
    | S fuel =>
      it <- rd_i h i ;;
      h <- (if is_node (i_kind it) then node_free fuel h (i_data it) else free_i h i) ;;
      free_items fuel h (i_next it)
    end
  end.
(** as many calls as there may be nodes and items *)
Definition reach (h : heap) : nat := h_nfresh h + h_ifresh h.
Definition node_dealloc (h : heap) (n : nat) : res heap := node_free (reach h) h n.
(** axl_item_free, axl_node.c:6824-6870 *)
Definition item_dealloc (h : heap) (i : nat) : res heap :=
  it <- rd_i h i ;; if is_node (i_kind it) then node_dealloc h (i_data it) else free_i h i.

(** the functions of ItemModel with dealloc: axl_node_remove (axl_node.c:3492-3552) *)
Definition node_remove_d (h : heap) (n : nat) : res heap := h <- node_remove h n ;; node_dealloc h n.
(** axl_node_replace, axl_node.c:3425-3471 *)
Definition node_replace_d (h : heap) (n x : nat) : res heap := h <- node_replace h n x ;; node_dealloc h n.
(** axl_item_remove, axl_node.c:6512-6545 *)
Definition item_remove_d (h : heap) (i : nat) : res heap := h <- item_remove h i ;; item_dealloc h i.
(** axl_item_replace, axl_node.c:6561-6604 *)
Definition item_replace_d (h : heap) (i x : nat) : res heap := h <- item_replace h i x ;; item_dealloc h i.
