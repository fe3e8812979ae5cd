(** XML namespaces: ns/axl_ns_doc.c and ns/axl_ns_node.c, on the elements of a tree.

    Simplifications: only elements are kept (axl_node_get_first_child and
    axl_node_get_next skip the other items, see ItemModel); the annotation under NS_TABLE is
    a field of the element (see NoteModel for annotations); the attribute cursor is the
    list of pairs it visits (AttrModel); the colon that is overwritten with NUL while a
    prefix is looked up, and put back, is a split of the name; logs and error texts are
    dropped; NULL arguments, which are refused, are not modelled. *)
From Verif Require Import Prelude HashModel HashStrProofs StrModel AttrModel AttrExec TreeModel EqModel.
Open Scope list_scope.
Open Scope Z_scope.

Notation phash := (hash bytes (option bytes) unit).
(** struct _axlNsTable, axl_ns_doc.c:65-71; a table that was not made is NULL *)
Record nstable := NsTable { t_table : option phash; t_default : option bytes }.
(** an element with its annotation *)
Inductive elem := Elem (name : bytes) (a : attrs) (t : option nstable) (childs : list elem).
Definition e_name (e : elem) : bytes := let '(Elem n _ _ _) := e in n.
Definition e_table (e : elem) : option nstable := let '(Elem _ _ t _) := e in t.
Definition e_childs (e : elem) : list elem := let '(Elem _ _ _ l) := e in l.

(** the elements of a tree, without annotations *)
Fixpoint elem_of (n : node) : elem :=
  let '(Node name a l) := n in
  Elem name a None
    ((fix go (l : list item) : list elem :=
        match l with
        | [] => []
        | INode c :: r => elem_of c :: go r
        | _ :: r => go r
        end) l).

(** what axl_node_attr_cursor_new, _has_item, _get_key, _get_value and _next show
    (axl_node.c:1535-1633) *)
Definition attr_pairs (a : attrs) : res (list (bytes * option bytes)) :=
  c <- attr_cursor_new a ;; attr_walk (S (Z.to_nat (a_num a))) a c.

(** axl_hash_exists and axl_hash_get with a NULL hash, axl_hash.c:223-227, 866-871 *)
Definition exists_in (h : option phash) (k : bytes) : res bool :=
  match h with None => Ok false | Some h => hash_exists bytes (option bytes) unit shash skeq h k end.
Definition get_in (h : option phash) (k : bytes) : res (option bytes) :=
  match h with None => Ok None | Some h => hash_get bytes (option bytes) unit shash skeq None h k end.

(** __axl_ns_node_check_and_install_ns_decls, axl_ns_doc.c:88-166 *)
Fixpoint install_decls (l : list (bytes * option bytes)) (ns_table : option nstable) (default_found : bool) : res (option nstable * bool) :=
  match l with
  | [] => Ok (ns_table, true)
  | (attr, value) :: r =>
    m <- axl_memcmp (cs attr) (cs (s2b "xmlns")) 5 ;;
    if negb m then install_decls r ns_table default_found
    else
      let t := match ns_table with Some t => t | None => NsTable None None end in
      if Nat.eqb (length attr) 5 then
        if default_found then Ok (Some t, false)
        else install_decls r (Some (NsTable (t_table t) value)) true
      else
        let h := match t_table t with Some h => h | None => hash_new_full bytes (option bytes) unit 1 end in
        let attr := skipn 6 attr in
        x <- hash_exists bytes (option bytes) unit shash skeq h attr ;;
        if (x : bool) then Ok (Some (NsTable (Some h) (t_default t)), false)
        else
          h <- hash_insert_full bytes (option bytes) unit shash skeq h attr None value None ;;
          install_decls r (Some (NsTable (Some h) (t_default t))) default_found
  end.

(** the search for a colon, axl_ns_doc.c:205-217, 272-284, and axl_ns_node_is_prefixed,
    axl_ns_node.c:331-362: the parts before and after it *)
Fixpoint colon (name : bytes) : option (bytes * bytes) :=
  match name with
  | [] => None
  | c :: r =>
    if Ascii.eqb c ":" then Some ([], r)
    else match colon r with Some (p, l) => Some (c :: p, l) | None => None end
  end.
(** the loop over the node and its parents, axl_ns_doc.c:222-250, 287-315; [up] are their
    tables, the node first *)
Fixpoint declared_in (up : list (option nstable)) (prefix : bytes) : res bool :=
  match up with
  | [] => Ok false
  | t :: up =>
    x <- match t with Some t => exists_in (t_table t) prefix | None => Ok false end ;;
    if (x : bool) then Ok true else declared_in up prefix
  end.
Definition name_declared (up : list (option nstable)) (name : bytes) : res bool :=
  match colon name with Some (p, _) => declared_in up p | None => Ok true end.
(** the attributes, axl_ns_doc.c:253-325 *)
Fixpoint attrs_declared (up : list (option nstable)) (l : list (bytes * option bytes)) : res bool :=
  match l with
  | [] => Ok true
  | (name, _) :: r =>
    m <- axl_memcmp (cs name) (cs (s2b "xmlns")) 5 ;;
    if (m : bool) then attrs_declared up r
    else
      d <- name_declared up name ;;
      if (d : bool) then attrs_declared up r else Ok false
  end.
(** __axl_ns_node_validate, axl_ns_doc.c:172-340: the tree with the annotations installed,
    and the result *)
Fixpoint ns_validate (up : list (option nstable)) (e : elem) {struct e} : res (elem * bool) :=
  let '(Elem name a t childs) := e in
  l <- (if has_attributes a then attr_pairs a else Ok []) ;;
  ' (t', ok) <- install_decls l None false ;;
  let t := match t' with Some t' => Some t' | None => t end in
  if negb ok then Ok (Elem name a t childs, false)
  else
    let up := t :: up in
    d <- name_declared up name ;;
    if negb d then Ok (Elem name a t childs, false)
    else
      d <- attrs_declared up l ;;
      if negb d then Ok (Elem name a t childs, false)
      else
        ' (childs, ok) <-
          (fix go (l : list elem) : res (list elem * bool) :=
             match l with
             | [] => Ok ([], true)
             | c :: r =>
               ' (c, ok) <- ns_validate up c ;;
               if negb ok then Ok (c :: r, false)
               else ' (r, ok) <- go r ;; Ok (c :: r, ok)
             end) childs ;;
        Ok (Elem name a t childs, ok).
(** axl_ns_doc_validate, axl_ns_doc.c:431-451 *)
Definition ns_doc_validate (root : option elem) : res (option elem * bool) :=
  match root with
  | None => Ok (None, true)
  | Some e => ' (e, ok) <- ns_validate [] e ;; Ok (Some e, ok)
  end.

(** axl_ns_doc_node_check, axl_ns_doc.c:469-494 *)
Fixpoint node_check (up : list (option nstable)) (ns_prefix ns : bytes) : res bool :=
  match up with
  | [] => Ok false
  | t :: up =>
    match t with
    | None => node_check up ns_prefix ns
    | Some t =>
      x <- exists_in (t_table t) ns_prefix ;;
      if (x : bool) then (v <- get_in (t_table t) ns_prefix ;; axl_cmp (option_map cs v) (Some (cs ns)))
      else node_check up ns_prefix ns
    end
  end.
(** axl_ns_doc_check_default, axl_ns_doc.c:509-533 *)
Fixpoint check_default (up : list (option nstable)) (ns : bytes) : res bool :=
  match up with
  | [] => Ok false
  | t :: up =>
    match t with
    | Some (NsTable _ (Some d)) => axl_cmp (Some (cs d)) (Some (cs ns))
    | _ => check_default up ns
    end
  end.
(** axl_ns_node_cmp, axl_ns_node.c:91-129; the node is given with its parents *)
Definition ns_node_cmp (up : list elem) (ns name : bytes) : res bool :=
  match up with
  | [] => Ok false
  | e :: _ =>
    let tables := map e_table up in
    match colon (e_name e) with
    | Some (p, l) =>
      ok <- node_check tables p ns ;;
      if negb ok then Ok false else axl_cmp (Some (cs name)) (Some (cs l))
    | None =>
      ok <- check_default tables ns ;;
      if negb ok then Ok false else axl_cmp (Some (cs name)) (Some (cs (e_name e)))
    end
  end.

(** ** searching *)
(** axl_ns_node_get_child_called, axl_ns_node.c:211-229: the node found is named by its
    place among the elements *)
Fixpoint ns_child_called (up : list elem) (l : list elem) (i : nat) (ns name : bytes) : res (option nat) :=
  match l with
  | [] => Ok None
  | c :: r =>
    e <- ns_node_cmp (c :: up) ns name ;;
    if (e : bool) then Ok (Some i) else ns_child_called up r (S i) ns name
  end.
(** axl_ns_node_find_called, axl_ns_node.c:164-192: the node found is named by its path *)
Fixpoint ns_find_called (up : list elem) (e : elem) (ns name : bytes) {struct e} : res (option (list nat)) :=
  let '(Elem _ _ _ childs) := e in
  o <- ns_child_called (e :: up) childs 0 ns name ;;
  match o with
  | Some i => Ok (Some [i])
  | None =>
    (fix go (l : list elem) (i : nat) : res (option (list nat)) :=
       match l with
       | [] => Ok None
       | c :: r =>
         o <- ns_find_called (e :: up) c ns name ;;
         match o with Some p => Ok (Some (i :: p)) | None => go r (S i) end
       end) childs 0%nat
  end.
(** axl_ns_node_get_next_called, axl_ns_node.c:250-273, from the [i]-th element among its
    siblings [l] *)
Definition ns_next_called (up : list elem) (l : list elem) (i : nat) (ns name : bytes) : res (option nat) :=
  ns_child_called up (skipn (S i) l) (S i) ns name.
(** axl_ns_node_get_previous_called, axl_ns_node.c:290-313 *)
Fixpoint ns_back (up : list elem) (l : list elem) (i : nat) (ns name : bytes) : res (option nat) :=
  match i with
  | O => Ok None
  | S i =>
    c <- of_option (nth_error l i) ;;
    e <- ns_node_cmp (c :: up) ns name ;;
    if (e : bool) then Ok (Some i) else ns_back up l i ns name
  end.
Definition ns_previous_called := ns_back.
