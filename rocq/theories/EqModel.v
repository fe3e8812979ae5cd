(** Comparison and copy of nodes and documents: src/axl_node.c and src/axl_doc.c, on the
    trees of TreeModel.

    Simplifications: the errors reported are dropped; the items of a node are walked as the
    list TreeModel keeps (see ItemModel for the links); NULL nodes are [None] only where a
    document has no root. *)
From Verif Require Import Prelude HashModel HashStrProofs StrModel EscModel AttrModel TreeModel.
Open Scope Z_scope.

(** axl_cmp on two C strings that may be NULL *)
Definition cmp_opt (a b : option bytes) : res bool := axl_cmp (option_map cs a) (option_map cs b).

(** the inner loop of __axl_node_attr_list_is_equal, axl_node.c:202-215 *)
Fixpoint attr_in_list (a : attr) (l : list attr) : res bool :=
  match l with
  | [] => Ok false
  | x :: r =>
    e <- axl_cmp (Some (cs (a_name x))) (Some (cs (a_name a))) ;;
    e <- (if (e : bool) then cmp_opt (a_value x) (a_value a) else Ok false) ;;
    if (e : bool) then Ok true else attr_in_list a r
  end.
(** __axl_node_attr_list_is_equal, axl_node.c:191-229 *)
Fixpoint attr_list_equal (l l2 : list attr) : res bool :=
  match l with
  | [] => Ok true
  | a :: r => f <- attr_in_list a l2 ;; if (f : bool) then attr_list_equal r l2 else Ok false
  end.
(** __axl_node_are_equal_attr, axl_node.c:3924-3945 *)
Definition equal_attr (h2 : ahash) (x : hnode bytes (option bytes) unit) (acc : res bool) : res bool * bool :=
  match acc with
  | Ok result =>
    match (v <- ah_get h2 (h_key _ _ _ x) ;; cmp_opt (h_data _ _ _ x) v) with
    | Ok true => (Ok result, false)
    | Ok false => (Ok false, true)
    | UB => (UB, true)
    | NoFuel => (NoFuel, true)
    end
  | UB => (UB, true)
  | NoFuel => (NoFuel, true)
  end.
(** the attributes, axl_node.c:4011-4059 *)
Definition attrs_equal (a a2 : attrs) : res bool :=
  if negb (is_null (a_store a)) && negb (is_null (a_store a2)) then
    if negb (a_num a =? a_num a2) then Ok false
    else if a_num a <=? 10 then
      (l <- as_list (a_store a) ;; l2 <- as_list (a_store a2) ;; attr_list_equal l l2)
    else
      (h <- as_hash (a_store a) ;; h2 <- as_hash (a_store a2) ;;
       ah_foreach (res bool) (equal_attr h2) h (Ok true))
  else if is_null (a_store a) && negb (is_null (a_store a2)) then Ok false
  else if is_null (a_store a2) && negb (is_null (a_store a)) then Ok false
  else Ok true.
(** axl_node_get_child_num, axl_node.c:3836-3862 *)
Fixpoint child_num (l : list item) : nat :=
  match l with
  | [] => 0%nat
  | INode _ :: r => S (child_num r)
  | _ :: r => child_num r
  end.
(** axl_node_are_equal_full and axl_node_are_equal, axl_node.c:3960-4081 *)
Definition node_are_equal (n n2 : node) : res bool :=
  e <- axl_cmp (Some (cs (n_name n))) (Some (cs (n_name n2))) ;;
  if negb e then Ok false
  else if negb (Bool.eqb (node_is_empty n) (node_is_empty n2)) then Ok false
  else if negb (Bool.eqb (node_have_childs n) (node_have_childs n2)) then Ok false
  else if negb (Nat.eqb (child_num (n_items n)) (child_num (n_items n2))) then Ok false
  else attrs_equal (n_attrs n) (n_attrs n2).

(** axl_pi_are_equal, axl_doc.c:2875-2888 *)
Definition pi_are_equal (p p2 : pi) : res bool :=
  e <- axl_cmp (Some (cs (pi_name p))) (Some (cs (pi_name p2))) ;;
  if negb e then Ok false else cmp_opt (pi_content p) (pi_content p2).
(** contents, axl_node.c:6735-6778 *)
Definition content_are_equal (b b2 : bytes) (trimmed : bool) : res bool :=
  if negb trimmed then
    if negb (Nat.eqb (length b) (length b2)) then Ok false
    else axl_cmp (Some (cs b)) (Some (cs b2))
  else
    trim <- c_strdup (cs b) ;;
    trim2 <- c_strdup (cs b2) ;;
    ' (trim, _) <- stream_trim_with_size trim ;;
    ' (trim2, _) <- stream_trim_with_size trim2 ;;
    axl_cmp (Some trim) (Some trim2).
(** axl_item_are_equal_full and axl_item_are_equal, axl_node.c:6707-6814 *)
Definition item_are_equal (i i2 : item) (trimmed : bool) : res bool :=
  match i, i2 with
  | INode n, INode n2 => node_are_equal n n2
  | IContent b, IContent b2 => content_are_equal b b2 trimmed
  | ICdata b, ICdata b2 => content_are_equal b b2 trimmed
  | IComment b, IComment b2 => content_are_equal b b2 trimmed
  | IRef b, IRef b2 => content_are_equal b b2 trimmed
  | IPi p, IPi p2 => pi_are_equal p p2
  | _, _ => Ok false
  end.

(** __axl_doc_are_equal, axl_doc.c:2014-2081 *)
Fixpoint tree_are_equal (n n2 : node) (trimmed : bool) {struct n} : res bool :=
  e <- node_are_equal n n2 ;;
  if negb e then Ok false
  else if negb (Nat.eqb (child_num (n_items n)) (child_num (n_items n2))) then Ok false
  else
    let '(Node _ _ l) := n in
    (fix go (l l2 : list item) {struct l} : res bool :=
       match l, l2 with
       | i :: r, i2 :: r2 =>
         e <- item_are_equal i i2 trimmed ;;
         if negb e then Ok false
         else
           e <- match i, i2 with
                | INode c, INode c2 => tree_are_equal c c2 trimmed
                | _, _ => Ok true
                end ;;
           if negb e then Ok false else go r r2
       | [], [] => Ok true
       | _, _ => Ok false
       end) l (n_items n2).
(** axl_doc_are_equal_common, axl_doc.c:2086-2119; axl_node_are_equal answers false for a
    NULL node *)
Definition doc_are_equal_common (d d2 : doc) (trimmed : bool) : res bool :=
  match d_root d, d_root d2 with
  | Some n, Some n2 => tree_are_equal n n2 trimmed
  | _, _ => Ok false
  end.
(** axl_doc_are_equal_trimmed, axl_doc.c:2141-2146, and axl_doc_are_equal, 2168-2173 *)
Definition doc_are_equal_trimmed (d d2 : doc) : res bool := doc_are_equal_common d d2 true.
Definition doc_are_equal (d d2 : doc) : res bool := doc_are_equal_common d d2 true.

(** ** copies *)
(** axl_strdup, axl_stream.c:3501-3506, on a C string that may be NULL *)
Definition dup (s : bytes) : res bytes := b <- c_strdup (cs s) ;; Ok (cstr b).
Definition dup_opt (s : option bytes) : res (option bytes) :=
  match s with None => Ok None | Some s => s <- dup s ;; Ok (Some s) end.
(** __axl_node_copy_attr_list, axl_node.c:118-140 *)
Fixpoint copy_attr_list (l : list attr) : res (list attr) :=
  match l with
  | [] => Ok []
  | a :: r =>
    k <- dup (a_name a) ;;
    v <- dup_opt (a_value a) ;;
    r <- copy_attr_list r ;;
    Ok (Attr k v false :: r)
  end.
(** the attributes, axl_node.c:912-932.  __axl_node_copy_key and _value (866-878) are strdup: a
    C string with the same bytes *)
Definition copy_attrs (a : attrs) : res attrs :=
  if is_null (a_store a) then Ok no_attrs
  else if 11 <=? a_num a then
    h <- as_hash (a_store a) ;;
    h <- hash_copy bytes (option bytes) unit shash skeq (fun n => h_key _ _ _ n)
           (fun n => h_data _ _ _ n) h (Some (Some tt, Some tt)) ;;
    Ok (Attrs (AHash h) (a_num a))
  else
    l <- as_list (a_store a) ;;
    l <- copy_attr_list l ;;
    Ok (Attrs (AList l) (a_num a)).
(** axl_node.c:6473-6483: the string is duplicated and the size kept; a content with a NUL
    inside gets a block smaller than its size, which is reported at once as [UB] *)
Definition copy_content (b : bytes) : res bytes :=
  c <- dup b ;; if Nat.eqb (length c) (length b) then Ok c else UB.
(** axl_pi_copy, axl_doc.c:2832-2862 *)
Definition pi_copy (p : pi) : res pi :=
  k <- dup (pi_name p) ;; c <- dup_opt (pi_content p) ;; Ok (Pi k c).
(** axl_node_copy, axl_node.c:894-960 and axl_item_copy, 6452-6499.  The copy of a reference
    has no content (item->data is NULL, which every later use dereferences): [UB] here *)
Fixpoint node_copy (n : node) (copy_attributes copy_childs : bool) {struct n} : res node :=
  let '(Node name a l) := n in
  name <- dup name ;;
  a <- (if copy_attributes then copy_attrs a else Ok no_attrs) ;;
  l <- (if copy_childs then
          (fix go (l : list item) {struct l} : res (list item) :=
             match l with
             | [] => Ok []
             | i :: r => i <- item_copy i ;; r <- go r ;; Ok (i :: r)
             end) l
        else Ok []) ;;
  Ok (Node name a l)
with item_copy (i : item) {struct i} : res item :=
  match i with
  | INode n => n <- node_copy n true true ;; Ok (INode n)
  | IContent b => b <- copy_content b ;; Ok (IContent b)
  | ICdata b => b <- copy_content b ;; Ok (ICdata b)
  | IComment b => b <- copy_content b ;; Ok (IComment b)
  | IPi p => p <- pi_copy p ;; Ok (IPi p)
  | IRef b => UB
  end.
