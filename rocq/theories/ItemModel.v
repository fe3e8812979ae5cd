(** The links between nodes and items: src/axl_node.c.

    Simplifications: an item holds a kind and a handle (the node, or the content which
    is not looked at here); the factory flags of the item types are dropped
    (axl_item_get_type masks them, axl_node.c:6220-6224), so items come from the heap
    whether or not the document has a factory; the [doc] fields and the root of a
    document are dropped; memory is not returned to the allocator (every [dealloc]
    argument is false).  axl_new gives zeroed memory and never fails. *)
From Verif Require Import Prelude.
Open Scope list_scope.

(** AxlItemType, axl_decl.h *)
Inductive kind := KNode | KContent | KPi | KComment | KRef | KCdata.
Definition is_node (k : kind) : bool := match k with KNode => true | _ => false end.

(** struct _axlItem, axl_node.c:297-337 *)
Record item := Item { i_kind : kind; i_data : nat; i_parent : option nat; i_next : option nat; i_prev : option nat }.
(** struct _axlNode, axl_node.c:245-295: the fields [first], [last] and [holder] *)
Record nod := Nod { n_first : option nat; n_last : option nat; n_holder : option nat }.

Record heap := Heap { h_items : nat -> option item; h_nodes : nat -> option nod; h_ifresh : nat; h_nfresh : nat }.
(** items and nodes have their own address spaces *)
Definition heap_new : heap := Heap (fun _ => None) (fun _ => None) 0 0.

Definition upd {A} (h : nat -> option A) (a : nat) (v : A) : nat -> option A := fun x => if Nat.eqb x a then Some v else h x.
Definition rd_i (h : heap) (a : nat) : res item := of_option (h_items h a).
Definition rd_n (h : heap) (a : nat) : res nod := of_option (h_nodes h a).
Definition wr_i (h : heap) (a : nat) (f : item -> item) : res heap :=
  i <- rd_i h a ;; Ok (Heap (upd (h_items h) a (f i)) (h_nodes h) (h_ifresh h) (h_nfresh h)).
Definition wr_n (h : heap) (a : nat) (f : nod -> nod) : res heap :=
  n <- rd_n h a ;; Ok (Heap (h_items h) (upd (h_nodes h) a (f n)) (h_ifresh h) (h_nfresh h)).
Definition w_what k d (i : item) := Item k d (i_parent i) (i_next i) (i_prev i).
Definition w_data d (i : item) := Item (i_kind i) d (i_parent i) (i_next i) (i_prev i).
Definition w_parent p (i : item) := Item (i_kind i) (i_data i) p (i_next i) (i_prev i).
Definition w_next x (i : item) := Item (i_kind i) (i_data i) (i_parent i) x (i_prev i).
Definition w_prev x (i : item) := Item (i_kind i) (i_data i) (i_parent i) (i_next i) x.
Definition w_first x (n : nod) := Nod x (n_last n) (n_holder n).
Definition w_last x (n : nod) := Nod (n_first n) x (n_holder n).
Definition w_holder x (n : nod) := Nod (n_first n) (n_last n) x.

(** axl_new (axlItem, 1) and axl_new (axlNode, 1): zeroed *)
Definition new_item (h : heap) : heap * nat :=
  (Heap (upd (h_items h) (h_ifresh h) (Item KContent 0 None None None)) (h_nodes h) (S (h_ifresh h)) (h_nfresh h), h_ifresh h).
Definition new_node (h : heap) : heap * nat :=
  (Heap (h_items h) (upd (h_nodes h) (h_nfresh h) (Nod None None None)) (h_ifresh h) (S (h_nfresh h)), h_nfresh h).

(** pointers that may be NULL *)
Definition deref (p : option nat) : res nat := of_option p.

(** __axl_item_common_configure, axl_node.c:6295-6339 *)
Definition common_configure (h : heap) (k : kind) (d : nat) : res (heap * nat) :=
  holder <- (if is_node k then n <- rd_n h d ;; Ok (n_holder n) else Ok None) ;;
  let '(h, i) := match holder with Some i => (h, i) | None => new_item h end in
  h <- wr_i h i (w_what k d) ;;
  h <- (if is_node k then wr_n h d (w_holder (Some i)) else Ok h) ;;
  Ok (h, i).

(** axl_item_set_child_ref, axl_node.c:6410-6436 *)
Definition set_child_ref (h : heap) (p i : nat) : res heap :=
  h <- wr_i h i (w_parent (Some p)) ;;
  n <- rd_n h p ;;
  match n_first n with
  | None => h <- wr_n h p (w_first (Some i)) ;; wr_n h p (w_last (Some i))
  | Some _ =>
    l <- deref (n_last n) ;;
    h <- wr_i h l (w_next (Some i)) ;;
    h <- wr_i h i (w_prev (Some l)) ;;
    h <- wr_i h i (w_next None) ;;
    wr_n h p (w_last (Some i))
  end.

(** axl_item_set_child, axl_node.c:6359-6370 *)
Definition item_set_child (h : heap) (p : nat) (k : kind) (d : nat) : res heap :=
  ' (h, i) <- common_configure h k d ;;
  set_child_ref h p i.
(** axl_node_set_child, axl_node.c:3377-3388 *)
Definition node_set_child (h : heap) (p c : nat) : res heap := item_set_child h p KNode c.

(** axl_item_set_after, axl_node.c:6383-6407; common_configure returns NULL without a
    parent and the result is used *)
Definition item_set_after (h : heap) (i : nat) (k : kind) (d : nat) : res heap :=
  it <- rd_i h i ;;
  p <- deref (i_parent it) ;;
  ' (h, x) <- common_configure h k d ;;
  h <- wr_i h x (w_parent (Some p)) ;;
  h <- wr_i h x (w_prev (Some i)) ;;
  it <- rd_i h i ;;
  h <- wr_i h x (w_next (i_next it)) ;;
  it <- rd_i h i ;;
  h <- match i_next it with
       | Some n => wr_i h n (w_prev (Some x))
       | None => wr_n h p (w_last (Some x))
       end ;;
  wr_i h i (w_next (Some x)).
(** axl_node_set_child_after, axl_node.c:3401-3408 *)
Definition node_set_child_after (h : heap) (r c : nat) : res heap :=
  n <- rd_n h r ;;
  i <- deref (n_holder n) ;;
  item_set_after h i KNode c.

(** axl_item_get_parent, axl_node.c:6044-6052 *)
Definition holder_parent (h : heap) (i : option nat) : res (option nat) :=
  match i with None => Ok None | Some i => it <- rd_i h i ;; Ok (i_parent it) end.
(** axl_node_get_parent, axl_node.c:2300-2315 *)
Definition node_get_parent (h : heap) (n : nat) : res (option nat) := x <- rd_n h n ;; holder_parent h (n_holder x).

(** axl_node_replace, axl_node.c:3425-3471, without the document's root *)
Definition node_replace (h : heap) (n x : nat) : res heap :=
  nd <- rd_n h n ;;
  p <- holder_parent h (n_holder nd) ;;
  match p, n_holder nd with
  | Some _, Some i =>
    h <- wr_i h i (w_data x) ;;
    h <- wr_n h n (w_holder None) ;;
    wr_n h x (w_holder (Some i))
  | _, _ => Ok h
  end.

(** what axl_node_remove (axl_node.c:3509-3543) and axl_item_remove (6519-6537) do with
    the links; [ends]: the first and last pointers of the parent are updated *)
Definition unlink (h : heap) (i : nat) (ends : bool) : res heap :=
  it <- rd_i h i ;;
  h <- match i_prev it with Some p => wr_i h p (w_next (i_next it)) | None => Ok h end ;;
  it <- rd_i h i ;;
  h <- match i_next it with Some n => wr_i h n (w_prev (i_prev it)) | None => Ok h end ;;
  it <- rd_i h i ;;
  h <- (if ends then
          h <- match i_prev it with None => p <- deref (i_parent it) ;; wr_n h p (w_first (i_next it)) | Some _ => Ok h end ;;
          match i_next it with None => p <- deref (i_parent it) ;; wr_n h p (w_last (i_prev it)) | Some _ => Ok h end
        else Ok h) ;;
  h <- wr_i h i (w_next None) ;;
  wr_i h i (w_prev None).
(** axl_node_remove, axl_node.c:3492-3552, axl_node_deattach 3569-3574, without the
    document's root and without dealloc *)
Definition node_remove (h : heap) (n : nat) : res heap :=
  nd <- rd_n h n ;;
  p <- holder_parent h (n_holder nd) ;;
  match p, n_holder nd with
  | Some _, Some i => unlink h i true
  | _, _ => Ok h
  end.
(** axl_item_remove, axl_node.c:6512-6545, without dealloc *)
Definition item_remove (h : heap) (i : nat) : res heap :=
  it <- rd_i h i ;;
  unlink h i (is_node (i_kind it)).

(** axl_item_new_ref, axl_node.c:5951-5995 *)
Definition item_new_ref (h : heap) (k : kind) (d : nat) : res (heap * nat) :=
  let '(h, i) := new_item h in
  h <- wr_i h i (w_what k d) ;;
  h <- (if is_node k then wr_n h d (w_holder (Some i)) else Ok h) ;;
  Ok (h, i).
(** axl_item_replace, axl_node.c:6561-6604, without dealloc *)
Definition item_replace (h : heap) (i x : nat) : res heap :=
  it <- rd_i h i ;;
  h <- match i_prev it with Some p => h <- wr_i h p (w_next (Some x)) ;; wr_i h x (w_prev (Some p)) | None => Ok h end ;;
  it <- rd_i h i ;;
  h <- match i_next it with Some n => h <- wr_i h n (w_prev (Some x)) ;; wr_i h x (w_next (Some n)) | None => Ok h end ;;
  it <- rd_i h i ;;
  h <- (if is_node (i_kind it) then
          h <- match i_prev it with None => p <- deref (i_parent it) ;; wr_n h p (w_first (Some x)) | Some _ => Ok h end ;;
          match i_next it with None => p <- deref (i_parent it) ;; wr_n h p (w_last (Some x)) | Some _ => Ok h end
        else Ok h) ;;
  h <- wr_i h i (w_next None) ;;
  h <- wr_i h i (w_prev None) ;;
  it <- rd_i h i ;;
  wr_i h x (w_parent (i_parent it)).

(** axl_node_transfer_childs, axl_node.c:4222-4249 *)
Fixpoint transfer_loop (fuel : nat) (h : heap) (q : nat) (i : option nat) : res heap :=
  match i with
  | None => Ok h
  | Some i =>
    match fuel with
    | O => NoFuel
    | S fuel =>
      it <- rd_i h i ;;
      h <- set_child_ref h q i ;;
      transfer_loop fuel h q (i_next it)
    end
  end.
Definition transfer_childs (h : heap) (p q : nat) : res heap :=
  n <- rd_n h p ;;
  h <- transfer_loop (h_ifresh h) h q (n_first n) ;;
  h <- wr_n h p (w_first None) ;;
  wr_n h p (w_last None).

(** axl_item_transfer_childs_after, axl_node.c:6625-6685: the loop returns the last item *)
Fixpoint transfer_after_loop (fuel : nat) (h : heap) (q : option nat) (aux : option nat) (i : nat) : res (heap * nat) :=
  match fuel with
  | O => NoFuel
  | S fuel =>
    h <- wr_i h i (w_parent q) ;;
    it <- rd_i h i ;;
    match i_next it with
    | None =>
      h <- wr_i h i (w_next aux) ;;
      h <- match aux with Some a => wr_i h a (w_prev (Some i)) | None => Ok h end ;;
      Ok (h, i)
    | Some n => transfer_after_loop fuel h q aux n
    end
  end.
Definition transfer_childs_after (h : heap) (p r : nat) : res heap :=
  n <- rd_n h p ;;
  match n_first n with
  | None => Ok h
  | Some i =>
    ref <- rd_i h r ;;
    let aux := i_next ref in
    h <- wr_i h r (w_next (Some i)) ;;
    h <- wr_i h i (w_prev (Some r)) ;;
    ' (h, i) <- transfer_after_loop (h_ifresh h) h (i_parent ref) aux i ;;
    h <- match aux with
         | None => it <- rd_i h i ;; q <- deref (i_parent it) ;; wr_n h q (w_last (Some i))
         | Some _ => Ok h
         end ;;
    h <- wr_n h p (w_first None) ;;
    wr_n h p (w_last None)
  end.

(** ** looking at the tree *)
(** axl_item_get_first_child (axl_node.c:6169) and axl_item_get_next (6063), all of them *)
Fixpoint walk_next (fuel : nat) (h : heap) (i : option nat) : res (list nat) :=
  match i with
  | None => Ok []
  | Some i => match fuel with O => NoFuel | S fuel => it <- rd_i h i ;; l <- walk_next fuel h (i_next it) ;; Ok (i :: l) end
  end.
(** axl_item_get_last_child (6197) and axl_item_get_previous (6104) *)
Fixpoint walk_prev (fuel : nat) (h : heap) (i : option nat) : res (list nat) :=
  match i with
  | None => Ok []
  | Some i => match fuel with O => NoFuel | S fuel => it <- rd_i h i ;; l <- walk_prev fuel h (i_prev it) ;; Ok (i :: l) end
  end.
Definition childs (h : heap) (p : nat) : res (list nat) := n <- rd_n h p ;; walk_next (h_ifresh h) h (n_first n).
Definition childs_back (h : heap) (p : nat) : res (list nat) := n <- rd_n h p ;; walk_prev (h_ifresh h) h (n_last n).

(** the first item in one direction that holds a node: the loops of axl_node_get_next
    (axl_node.c:2361-2373), axl_node_get_first_child (2565-2575),
    axl_node_get_previous (2441-2449) and axl_node_get_last_child (2597-2607) *)
Fixpoint seek (fuel : nat) (h : heap) (dir : item -> option nat) (i : option nat) : res (option nat) :=
  match i with
  | None => Ok None
  | Some i =>
    match fuel with
    | O => NoFuel
    | S fuel => it <- rd_i h i ;; if is_node (i_kind it) then Ok (Some (i_data it)) else seek fuel h dir (dir it)
    end
  end.
Definition node_first_child (h : heap) (p : nat) : res (option nat) := n <- rd_n h p ;; seek (h_ifresh h) h i_next (n_first n).
Definition node_last_child (h : heap) (p : nat) : res (option nat) := n <- rd_n h p ;; seek (h_ifresh h) h i_prev (n_last n).
(** axl_node_get_next, axl_node.c:2340-2374 *)
Definition node_get_next (h : heap) (x : nat) : res (option nat) :=
  n <- rd_n h x ;;
  match n_holder n with None => Ok None | Some i => it <- rd_i h i ;; seek (h_ifresh h) h i_next (i_next it) end.
(** axl_node_get_previous, axl_node.c:2429-2450; axl_item_get_previous returns NULL
    without a holder *)
Definition node_get_previous (h : heap) (x : nat) : res (option nat) :=
  n <- rd_n h x ;;
  match n_holder n with None => Ok None | Some i => it <- rd_i h i ;; seek (h_ifresh h) h i_prev (i_prev it) end.
