(** Model of the attribute functions of src/axl_node.c: a linked list up to ten
    attributes, a hash (of step 1) from eleven on.

    node->attributes is untyped in C: which of the two structures it points to is
    only known from node->attr_num.  Here the structure is tagged, and using it as
    the other one is [UB].  Attribute names and values are C strings; a value may be
    NULL ([None]).  Simplifications as in HashModel and EscModel. *)
From Verif Require Import Prelude HashModel HashStrProofs StrModel EscModel.
Open Scope Z_scope.

(** struct _axlNodeAttr, axl_node.c:87-108 (its [next] is the list structure) *)
Record attr := Attr { a_name : bytes; a_value : option bytes; a_fac : bool }.

Notation ahash := (hash bytes (option bytes) unit).
Notation ah_insert := (hash_insert_full bytes (option bytes) unit shash skeq).
Notation ah_remove := (hash_remove bytes (option bytes) unit shash skeq).
Notation ah_get := (hash_get bytes (option bytes) unit shash skeq None).
Notation ah_exists := (hash_exists bytes (option bytes) unit shash skeq).
Notation ah_items := (hash_items bytes (option bytes) unit).
Notation ah_foreach := (hash_foreach bytes (option bytes) unit).

(** node->attributes; NULL is the empty list *)
Inductive store := AList (l : list attr) | AHash (h : ahash).
(** node->attributes and node->attr_num, axl_node.c:254-267 *)
Record attrs := Attrs { a_store : store; a_num : Z }.
Definition no_attrs : attrs := Attrs (AList []) 0.

Definition as_list (s : store) : res (list attr) := match s with AList l => Ok l | AHash _ => UB end.
Definition as_hash (s : store) : res ahash := match s with AHash h => Ok h | AList _ => UB end.
Definition is_null (s : store) : bool := match s with AList [] => true | _ => false end.

(** the search loops, axl_node.c:1296-1303 and 1483-1490 *)
Fixpoint list_find (l : list attr) (name : bytes) : res (option attr) :=
  match l with
  | [] => Ok None
  | a :: r =>
    e <- axl_cmp (Some (cs (a_name a))) (Some (cs name)) ;;
    if (e : bool) then Ok (Some a) else list_find r name
  end.

(** axl_node_has_attribute, axl_node.c:1282-1311 *)
Definition has_attribute (n : attrs) (name : bytes) : res bool :=
  if is_null (a_store n) then Ok false
  else if a_num n <=? 10 then
    (l <- as_list (a_store n) ;; o <- list_find l name ;; Ok (match o with Some _ => true | None => false end))
  else (h <- as_hash (a_store n) ;; ah_exists h name).

Definition handler (fac : bool) : option unit := if fac then None else Some tt.

(** the loop moving the list into the hash, axl_node.c:1097-1111 *)
Fixpoint list_to_hash (l : list attr) (h : ahash) : res ahash :=
  match l with
  | [] => Ok h
  | a :: r =>
    h <- ah_insert h (a_name a) (handler (a_fac a)) (a_value a) (handler (a_fac a)) ;;
    list_to_hash r h
  end.

(** __axl_node_set_attribute, axl_node.c:1031-1126 *)
Definition set_attribute_core (n : attrs) (name : bytes) (value : option bytes) (fac : bool) : res (attrs * bool) :=
  if is_null (a_store n) then Ok (Attrs (AList [Attr name value fac]) 1, true)
  else if a_num n <? 10 then
    e <- has_attribute n name ;;
    if (e : bool) then Ok (n, false)
    else (l <- as_list (a_store n) ;; Ok (Attrs (AList (Attr name value fac :: l)) (a_num n + 1), true))
  else
    e <- has_attribute n name ;;
    if (e : bool) then Ok (n, false)
    else
      h <- (if a_num n =? 10 then
              (l <- as_list (a_store n) ;; list_to_hash l (hash_new_full bytes (option bytes) unit 1))
            else as_hash (a_store n)) ;;
      h <- ah_insert h name (handler fac) value (handler fac) ;;
      Ok (Attrs (AHash h) (a_num n + 1), true).

(** axl_node_set_attribute, axl_node.c:1154-1211 *)
Definition set_attribute (n : attrs) (name value : bytes) : res attrs :=
  match name with
  | [] => Ok n
  | _ =>
    e_name <- attr_escape (cs name) ;;
    e_value <- attr_escape (cs value) ;;
    '(n, _) <- set_attribute_core n (cstr e_name) (Some (cstr e_value)) false ;;
    Ok n
  end.

(** axl_node_get_attribute_value, axl_node.c:1468-1498; [None] for NULL *)
Definition get_attribute_value (n : attrs) (name : bytes) : res (option bytes) :=
  if is_null (a_store n) then Ok None
  else if a_num n <=? 10 then
    (l <- as_list (a_store n) ;; o <- list_find l name ;; Ok (match o with Some a => a_value a | None => None end))
  else (h <- as_hash (a_store n) ;; ah_get h name).

(** the unlinking loop, axl_node.c:1347-1378: [None] when nothing was found *)
Fixpoint list_unlink (l : list attr) (name : bytes) : res (option (list attr)) :=
  match l with
  | [] => Ok None
  | a :: r =>
    e <- axl_cmp (Some (cs (a_name a))) (Some (cs name)) ;;
    if (e : bool) then Ok (Some r)
    else (o <- list_unlink r name ;; Ok (match o with Some r' => Some (a :: r') | None => None end))
  end.

(** __axl_node_remove_attribute_reinsert, axl_node.c:1313-1320 (a NULL value is
    refused by axl_node_set_attribute) *)
Definition reinsert (x : hnode bytes (option bytes) unit) (acc : res attrs) : res attrs * bool :=
  (n <- acc ;;
   match h_data _ _ _ x with
   | Some v => set_attribute n (h_key _ _ _ x) v
   | None => Ok n
   end, false).

(** axl_node_remove_attribute, axl_node.c:1331-1408 *)
Definition remove_attribute (n : attrs) (name : bytes) : res attrs :=
  if is_null (a_store n) then Ok n
  else if a_num n <=? 10 then
    l <- as_list (a_store n) ;;
    o <- list_unlink l name ;;
    match o with
    | Some l => Ok (Attrs (AList l) (a_num n - 1))
    | None => Ok n
    end
  else
    h <- as_hash (a_store n) ;;
    '(h, _) <- ah_remove h name ;;
    let num := ah_items h in
    if num =? 10 then ah_foreach (res attrs) reinsert h (Ok no_attrs)
    else Ok (Attrs (AHash h) num).

(** axl_node_num_attributes, axl_node.c:1419-1429 *)
Definition num_attributes (n : attrs) : res Z :=
  if a_num n <=? 10 then Ok (a_num n) else (h <- as_hash (a_store n) ;; Ok (ah_items h)).
(** axl_node_has_attributes, axl_node.c:1441-1447 *)
Definition has_attributes (n : attrs) : bool := negb (is_null (a_store n)).

(** axl_node_attr_foreach, axl_node.c:5823-5854: the names and values shown to a
    handler that asks to stop at the first pair satisfying [stop] *)
Fixpoint list_foreach (stop : bytes -> option bytes -> bool) (l : list attr) : list (bytes * option bytes) :=
  match l with
  | [] => []
  | a :: r =>
    if stop (a_name a) (a_value a) then [(a_name a, a_value a)]
    else (a_name a, a_value a) :: list_foreach stop r
  end.
Definition attr_foreach (stop : bytes -> option bytes -> bool) (n : attrs) : res (list (bytes * option bytes)) :=
  if is_null (a_store n) then Ok []
  else if a_num n <? 11 then (l <- as_list (a_store n) ;; Ok (list_foreach stop l))
  else
    h <- as_hash (a_store n) ;;
    Ok (ah_foreach (list (bytes * option bytes))
          (fun x acc => (acc ++ [(h_key _ _ _ x, h_data _ _ _ x)], stop (h_key _ _ _ x) (h_data _ _ _ x))) h []).

(** struct _axlAttrCursor, axl_node.c:5555-5570: the node, the number of attributes
    when created, and the position (the rest of the list, or a hash cursor) *)
Inductive apos_t := PList (l : list attr) | PHash (c : hcursor).
Record acursor := ACursor { ac_count : Z; ac_pos : apos_t }.
(** axl_node_attr_cursor_new, axl_node.c:5583-5606, and _first, 5614-5633, which puts
    the same position *)
Definition attr_cursor_new (n : attrs) : res acursor :=
  if a_num n <=? 10 then (l <- as_list (a_store n) ;; Ok (ACursor (a_num n) (PList l)))
  else (h <- as_hash (a_store n) ;; Ok (ACursor (a_num n) (PHash (cursor_new _ _ _ h)))).
(** axl_node_attr_cursor_has_item, axl_node.c:5703-5720 *)
Definition attr_cursor_has_item (n : attrs) (c : acursor) : bool :=
  if negb (ac_count c =? a_num n) then false
  else match ac_pos c with
       | PList [] => false
       | PList _ => true
       | PHash p => cursor_has_item p
       end.
(** axl_node_attr_cursor_get_key and _get_value, axl_node.c:5730-5774 *)
Definition attr_cursor_get (n : attrs) (c : acursor) : res (option (bytes * option bytes)) :=
  if negb (ac_count c =? a_num n) then Ok None
  else match ac_pos c with
       | PList [] => UB
       | PList (a :: _) => Ok (Some (a_name a, a_value a))
       | PHash p => h <- as_hash (a_store n) ;; cursor_get _ _ _ h p
       end.
(** axl_node_attr_cursor_next, axl_node.c:5641-5667 *)
Definition attr_cursor_next (n : attrs) (c : acursor) : res acursor :=
  if negb (ac_count c =? a_num n) then Ok c
  else match ac_pos c with
       | PList [] => Ok c
       | PList (_ :: r) => Ok (ACursor (ac_count c) (PList r))
       | PHash p => h <- as_hash (a_store n) ;; p <- cursor_next _ _ _ h p ;; Ok (ACursor (ac_count c) (PHash p))
       end.
(** axl_node_attr_cursor_has_next, axl_node.c:5677-5693: reads [next] through
    cursor->data even when it is NULL *)
Definition attr_cursor_has_next (n : attrs) (c : acursor) : res bool :=
  if negb (ac_count c =? a_num n) then Ok false
  else match ac_pos c with
       | PList [] => UB
       | PList (_ :: r) => Ok (match r with [] => false | _ => true end)
       | PHash p => h <- as_hash (a_store n) ;; cursor_has_next _ _ _ h p
       end.
