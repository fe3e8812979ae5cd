(** Who owns the memory of a node: its name, its attributes, its contents, its items and
    itself, in src/axl_node.c and src/axl_doc.c.

    A block of memory comes from malloc (axl_new, axl_strdup, or given by the caller) or
    from one of the pools of a document (the five factories of axl_doc.c, FactoryModel:
    released together by axl_doc_free).  Releasing a block of a pool, or a block that is
    not allocated, and reading a block that has been released are [UB].

    Simplifications: a node and what hangs from it is a tree (its links are LinkModel and
    ItemModel); the text of a string is kept in its block, escaping is a function [esc]
    on it (EscModel); the header, the table and the factory of a hash are one block; the
    names are compared as lists of bytes (axl_cmp and axl_hash_equal_string, StrModel and
    HashModel); annotations (NoteModel) are left out. *)
From Verif Require Import Prelude HashModel HashStrProofs.
Open Scope nat_scope.

(** a block: its address, the document whose pool it belongs to ([None]: malloc), its text *)
Record blk := Blk { b_id : nat; b_org : option nat; b_str : bytes }.
(** the blocks allocated with malloc and not yet released, the next address, the documents
    released *)
Record mem := Mem { m_live : list nat; m_next : nat; m_dead : list nat }.

(** axl_new, axl_strdup *)
Definition malloc (s : bytes) (m : mem) : blk * mem :=
  (Blk (m_next m) None s, Mem (m_next m :: m_live m) (S (m_next m)) (m_dead m)).
Definition alive (d : nat) (m : mem) : bool := negb (existsb (Nat.eqb d) (m_dead m)).
Definition live (a : nat) (m : mem) : bool := existsb (Nat.eqb a) (m_live m).
(** axl_factory_get and axl_string_factory_alloc of the factories of document [d] *)
Definition pool (d : nat) (s : bytes) (m : mem) : res (blk * mem) :=
  if alive d m then Ok (Blk (m_next m) (Some d) s, Mem (m_live m) (S (m_next m)) (m_dead m)) else UB.
(** reading a block *)
Definition rd (b : blk) (m : mem) : res unit :=
  if match b_org b with Some d => alive d m | None => live (b_id b) m end then Ok tt else UB.
Fixpoint drop1 (a : nat) (l : list nat) : list nat :=
  match l with [] => [] | x :: r => if Nat.eqb x a then r else x :: drop1 a r end.
(** axl_free *)
Definition free (b : blk) (m : mem) : res mem :=
  match b_org b with
  | Some _ => UB
  | None => if live (b_id b) m then Ok (Mem (drop1 (b_id b) (m_live m)) (m_next m) (m_dead m)) else UB
  end.
Definition free_unless (fac : bool) (b : blk) (m : mem) : res mem := if fac then Ok m else free b m.
Definition free_opt (o : option blk) (m : mem) : res mem := match o with Some b => free b m | None => Ok m end.

(** the hash of the attributes: its keys and values are blocks, its destroy handlers axl_free *)
Definition bkeq (a b : blk) : bool := skeq (b_str a) (b_str b).
Definition bhash (a : blk) : N := shash (b_str a).
Notation ahash := (hash blk blk unit).
Notation anode := (hnode blk blk unit).
Notation ah_insert := (hash_insert_full blk blk unit bhash bkeq).
Notation ah_remove := (hash_remove blk blk unit bhash bkeq).
Notation ah_exists := (hash_exists blk blk unit bhash bkeq).
Definition ah_pairs (h : ahash) : list anode := concat (table blk blk unit h).

(** struct _axlNodeAttr, axl_node.c:87-108 *)
Record attr := Attr { at_blk : blk; at_name : blk; at_value : blk; at_fac : bool }.
(** node->attributes, axl_node.c:267; NULL is the empty list *)
Inductive store := AList (l : list attr) | AHash (b : blk) (h : ahash).
(** struct _axlItem, axl_node.c:297-: the item, ITEM_FROM_FACTORY, its document *)
Record hold := Hold { hd_blk : blk; hd_fac : bool; hd_doc : option nat }.
Inductive kind := KContent | KCdata | KComment.
(** struct _axlNode, axl_node.c:245-295: the node, NODE_FROM_FACTORY, its name,
    NODE_NAME_FROM_FACTORY, attributes, attr_num, the items, the holder *)
Inductive node :=
  Node (self : blk) (fac : bool) (name : option blk) (name_fac : bool) (attributes : store) (num : nat)
       (items : list item) (holder : option hold)
(** an item: a node (the item is the holder of the node), a text with its axlNodeContent and
    ITEM_CONTENT_FROM_FACTORY, or a processing instruction with its axlPI *)
with item :=
  | INode (n : node)
  | IText (k : kind) (h : hold) (data content : blk) (c_fac : bool)
  | IPi (h : hold) (pi name : blk) (content : option blk).

Definition n_self n := match n with Node b _ _ _ _ _ _ _ => b end.
Definition n_fac n := match n with Node _ f _ _ _ _ _ _ => f end.
Definition n_name n := match n with Node _ _ s _ _ _ _ _ => s end.
Definition n_name_fac n := match n with Node _ _ _ f _ _ _ _ => f end.
Definition n_attrs n := match n with Node _ _ _ _ a _ _ _ => a end.
Definition n_num n := match n with Node _ _ _ _ _ k _ _ => k end.
Definition n_items n := match n with Node _ _ _ _ _ _ l _ => l end.
Definition n_holder n := match n with Node _ _ _ _ _ _ _ h => h end.
Definition w_name (s : option blk) (f : bool) n := match n with Node b c _ _ a k l h => Node b c s f a k l h end.
Definition w_attrs (a : store) (k : nat) n := match n with Node b c s f _ _ l h => Node b c s f a k l h end.
Definition w_items (l : list item) n := match n with Node b c s f a k _ h => Node b c s f a k l h end.
Definition w_holder (h : option hold) n := match n with Node b c s f a k l _ => Node b c s f a k l h end.

(** axl_node_create_ref, axl_node.c:784-794 (axl_node_create, 552-562, duplicates the name) *)
Definition node_create (s : bytes) (m : mem) : node * mem :=
  let '(name, m) := malloc s m in
  let '(b, m) := malloc [] m in
  (Node b false (Some name) false (AList []) 0 [] None, m).
(** axl_node_factory_get, axl_node.c:6887-6896, with axl_node_set_name_from_factory, 855-864:
    how the parser makes a node, axl_doc.c:843-844 *)
Definition node_parsed (d : nat) (s : bytes) (m : mem) : res (node * mem) :=
  '(name, m) <- pool d s m ;;
  '(b, m) <- pool d [] m ;;
  Ok (Node b true (Some name) true (AList []) 0 [] None, m).

(** axl_node_set_name, axl_node.c:807-818 *)
Definition set_name (s : bytes) (n : node) (m : mem) : res (node * mem) :=
  _ <- rd (n_self n) m ;;
  m <- (if n_name_fac n then Ok m else free_opt (n_name n) m) ;;
  let '(b, m) := malloc s m in
  Ok (w_name (Some b) false n, m).
(** axl_node_set_name_ref, axl_node.c:832-842: the block is given by the caller; the flag
    NODE_NAME_FROM_FACTORY is not touched *)
Definition set_name_ref (s : bytes) (n : node) (m : mem) : res (node * mem) :=
  let '(b, m) := malloc s m in
  _ <- rd (n_self n) m ;;
  m <- (if n_name_fac n then Ok m else free_opt (n_name n) m) ;;
  Ok (w_name (Some b) (n_name_fac n) n, m).

(** the search loop of axl_node_has_attribute, axl_node.c:1293-1307 *)
Fixpoint list_exists (l : list attr) (s : bytes) (m : mem) : res bool :=
  match l with
  | [] => Ok false
  | a :: r =>
    _ <- rd (at_blk a) m ;;
    _ <- rd (at_name a) m ;;
    if bytes_eqb (b_str (at_name a)) s then Ok true else list_exists r s m
  end.
(** every key of the hash is readable (a lookup reads some of them) *)
Fixpoint rd_keys (l : list anode) (m : mem) : res unit :=
  match l with [] => Ok tt | x :: r => _ <- rd (h_key blk blk unit x) m ;; rd_keys r m end.
(** a string of the caller, to look up *)
Definition probe (s : bytes) : blk := Blk 0 None s.
Definition is_null (s : store) : bool := match s with AList [] => true | _ => false end.
(** axl_node_has_attribute, axl_node.c:1282-1311: a hash used as a list, or a list used as a
    hash, is [UB] *)
Definition has_attribute (s : bytes) (n : node) (m : mem) : res bool :=
  if is_null (n_attrs n) then Ok false
  else if Nat.leb (n_num n) 10 then
    match n_attrs n with AList l => list_exists l s m | AHash _ _ => UB end
  else
    match n_attrs n with
    | AHash b h => _ <- rd b m ;; _ <- rd_keys (ah_pairs h) m ;; ah_exists h (probe s)
    | AList _ => UB
    end.

(** the destroy handlers run by the hash: axl_free on each *)
Fixpoint run_events (l : list (devent blk blk unit)) (m : mem) : res mem :=
  match l with
  | [] => Ok m
  | DKey _ _ _ _ b :: r => m <- free b m ;; run_events r m
  | DData _ _ _ _ b :: r => m <- free b m ;; run_events r m
  end.
Definition clear_trace (h : ahash) : ahash :=
  Hash blk blk unit (table blk blk unit h) (h_items blk blk unit h) (h_step blk blk unit h) (h_next blk blk unit h) [].
(** from_factory ? NULL : axl_free *)
Definition handler (fac : bool) : option unit := if fac then None else Some tt.
(** axl_hash_insert_full as called at axl_node.c:1099-1103 and 1116-1118 *)
Definition hash_put (h : ahash) (name value : blk) (fac : bool) (m : mem) : res (ahash * mem) :=
  _ <- rd_keys (ah_pairs h) m ;;
  _ <- rd name m ;;
  h <- ah_insert h name (handler fac) value (handler fac) ;;
  m <- run_events (htrace blk blk unit h) m ;;
  Ok (clear_trace h, m).

(** the loop moving the list into the hash, axl_node.c:1097-1111 *)
Fixpoint list_to_hash (l : list attr) (h : ahash) (m : mem) : res (ahash * mem) :=
  match l with
  | [] => Ok (h, m)
  | a :: r =>
    _ <- rd (at_blk a) m ;;
    '(h, m) <- hash_put h (at_name a) (at_value a) (at_fac a) m ;;
    m <- free_unless (at_fac a) (at_blk a) m ;;
    list_to_hash r h m
  end.

(** axl_factory_get (factory) or axl_new (axlNodeAttr, 1), axl_node.c:1047-1050, 1069-1072 *)
Definition new_attr (d : option nat) (m : mem) : res (blk * mem) :=
  match d with Some d => pool d [] m | None => Ok (malloc [] m) end.
Definition is_some {A} (o : option A) : bool := match o with Some _ => true | None => false end.

(** __axl_node_set_attribute, axl_node.c:1031-1126; [d] is the document of the factory
    ([None]: from_factory is false) *)
Definition set_attribute_core (d : option nat) (name value : blk) (n : node) (m : mem) : res (node * mem * bool) :=
  let fac := is_some d in
  if is_null (n_attrs n) then
    '(b, m) <- new_attr d m ;;
    Ok (w_attrs (AList [Attr b name value fac]) 1 n, m, true)
  else if Nat.ltb (n_num n) 10 then
    e <- has_attribute (b_str name) n m ;;
    if (e : bool) then Ok (n, m, false)
    else
      '(b, m) <- new_attr d m ;;
      match n_attrs n with
      | AList l => Ok (w_attrs (AList (Attr b name value fac :: l)) (S (n_num n)) n, m, true)
      | AHash _ _ => UB
      end
  else
    e <- has_attribute (b_str name) n m ;;
    if (e : bool) then Ok (n, m, false)
    else
      '(b, h, m) <- (if Nat.eqb (n_num n) 10 then
                       match n_attrs n with
                       | AList l =>
                         let '(b, m) := malloc [] m in
                         '(h, m) <- list_to_hash l (hash_new_full blk blk unit 1) m ;;
                         Ok (b, h, m)
                       | AHash _ _ => UB
                       end
                     else match n_attrs n with AHash b h => Ok (b, h, m) | AList _ => UB end) ;;
      '(h, m) <- hash_put h name value fac m ;;
      Ok (w_attrs (AHash b h) (S (n_num n)) n, m, true).

Section Esc.
(** what escaping does to a text (EscModel) *)
Variable esc : bytes -> bytes.

(** axl_node_set_attribute, axl_node.c:1154-1211 *)
Definition set_attribute (s v : bytes) (n : node) (m : mem) : res (node * mem) :=
  match s with
  | [] => Ok (n, m)
  | _ =>
    _ <- rd (n_self n) m ;;
    let '(a, m) := malloc (esc s) m in
    let '(b, m) := malloc (esc v) m in
    '(n, m, done) <- set_attribute_core None a b n m ;;
    if (done : bool) then Ok (n, m)
    else (m <- free a m ;; m <- free b m ;; Ok (n, m))
  end.
(** axl_node_set_attribute_ref, axl_node.c:1228-1243: the two blocks are given by the caller *)
Definition set_attribute_ref (s v : bytes) (n : node) (m : mem) : res (node * mem) :=
  let '(a, m) := malloc s m in
  let '(b, m) := malloc v m in
  _ <- rd (n_self n) m ;;
  '(n, m, done) <- set_attribute_core None a b n m ;;
  if (done : bool) then Ok (n, m)
  else (m <- free a m ;; m <- free b m ;; Ok (n, m)).
(** axl_node_set_attribute_from_factory, axl_node.c:1257-1266, as the parser calls it,
    axl_doc.c:998 *)
Definition set_attribute_fac (d : nat) (s v : bytes) (n : node) (m : mem) : res (node * mem) :=
  '(a, m) <- pool d s m ;;
  '(b, m) <- pool d v m ;;
  _ <- rd (n_self n) m ;;
  '(n, m, _) <- set_attribute_core (Some d) a b n m ;;
  Ok (n, m).

(** the unlinking loop, axl_node.c:1347-1378: [None] when nothing was found *)
Fixpoint list_unlink (l : list attr) (s : bytes) (m : mem) : res (option (attr * list attr)) :=
  match l with
  | [] => Ok None
  | a :: r =>
    _ <- rd (at_blk a) m ;;
    _ <- rd (at_name a) m ;;
    if bytes_eqb (b_str (at_name a)) s then Ok (Some (a, r))
    else (o <- list_unlink r s m ;; Ok (match o with Some (x, r') => Some (x, a :: r') | None => None end))
  end.
(** __axl_node_remove_attribute_reinsert, axl_node.c:1313-1320, on every pair of the hash *)
Fixpoint reinsert (l : list anode) (n : node) (m : mem) : res (node * mem) :=
  match l with
  | [] => Ok (n, m)
  | x :: r =>
    _ <- rd (h_key blk blk unit x) m ;;
    _ <- rd (h_data blk blk unit x) m ;;
    '(n, m) <- set_attribute (b_str (h_key blk blk unit x)) (b_str (h_data blk blk unit x)) n m ;;
    reinsert r n m
  end.
(** axl_hash_free, axl_hash.c:1474-1519 *)
Definition ah_free (b : blk) (h : ahash) (m : mem) : res mem :=
  _ <- rd b m ;;
  m <- run_events (hash_free blk blk unit (fun _ => false) (fun _ => false) h) m ;;
  free b m.
Definition free_attr (a : attr) (m : mem) : res mem :=
  if at_fac a then Ok m
  else (m <- free (at_name a) m ;; m <- free (at_value a) m ;; free (at_blk a) m).
(** axl_node_remove_attribute, axl_node.c:1331-1408 *)
Definition remove_attribute (s : bytes) (n : node) (m : mem) : res (node * mem) :=
  _ <- rd (n_self n) m ;;
  if is_null (n_attrs n) then Ok (n, m)
  else if Nat.leb (n_num n) 10 then
    match n_attrs n with
    | AList l =>
      o <- list_unlink l s m ;;
      match o with
      | Some (a, r) => m <- free_attr a m ;; Ok (w_attrs (AList r) (n_num n - 1) n, m)
      | None => Ok (n, m)
      end
    | AHash _ _ => UB
    end
  else
    match n_attrs n with
    | AHash b h =>
      _ <- rd b m ;;
      _ <- rd_keys (ah_pairs h) m ;;
      '(h, _) <- ah_remove h (probe s) ;;
      m <- run_events (htrace blk blk unit h) m ;;
      let h := clear_trace h in
      let k := Z.to_nat (hash_items blk blk unit h) in
      if Nat.eqb k 10 then
        '(n, m) <- reinsert (ah_pairs h) (w_attrs (AList []) 0 n) m ;;
        m <- ah_free b h m ;;
        Ok (n, m)
      else Ok (w_attrs (AHash b h) k n, m)
    | AList _ => UB
    end.
End Esc.

(** the document of an item, whose factory is about to be used *)
Definition n_doc (n : node) : option nat := match n_holder n with Some h => hd_doc h | None => None end.
(** __axl_item_common_configure for an item that has to be made, axl_node.c:6321-6330 *)
Definition new_item (parent : node) (m : mem) : res (hold * mem) :=
  match n_doc parent with
  | Some d => '(b, m) <- pool d [] m ;; Ok (Hold b true (Some d), m)
  | None => let '(b, m) := malloc [] m in Ok (Hold b false None, m)
  end.
Definition rd_hold (o : option hold) (m : mem) : res unit :=
  match o with Some h => rd (hd_blk h) m | None => Ok tt end.
(** ... and for a node, which may have a holder, axl_node.c:6305-6330 *)
Definition node_item (parent child : node) (m : mem) : res (hold * mem) :=
  match n_holder child with
  | Some h => _ <- rd (hd_blk h) m ;; Ok (Hold (hd_blk h) (hd_fac h) (n_doc parent), m)
  | None => new_item parent m
  end.
Definition push (i : item) (n : node) : node := w_items (n_items n ++ [i]) n.

(** axl_node_set_content, axl_node.c:2788-2830, axl_node_set_comment, 3041-3066,
    axl_node_set_cdata_content, 2973-3004 and axl_node_set_content_ref, 2915-2926: the
    axlNodeContent and the text are malloc'ed *)
Definition set_text (k : kind) (s : bytes) (n : node) (m : mem) : res (node * mem) :=
  _ <- rd (n_self n) m ;;
  _ <- rd_hold (n_holder n) m ;;
  let '(data, m) := malloc [] m in
  let '(c, m) := malloc s m in
  '(h, m) <- new_item n m ;;
  Ok (push (IText k h data c false) n, m).
(** axl_node_set_content_from_factory, axl_node.c:2933-2944, and
    axl_node_set_cdata_content_from_factory, 3012-3023, as the parser calls them,
    axl_doc.c:1242 and 1287 *)
Definition set_text_fac (d : nat) (k : kind) (s : bytes) (n : node) (m : mem) : res (node * mem) :=
  '(c, m) <- pool d s m ;;
  _ <- rd (n_self n) m ;;
  _ <- rd_hold (n_holder n) m ;;
  '(data, m) <- pool d [] m ;;
  '(h, m) <- new_item n m ;;
  Ok (push (IText k h data c true) n, m).
(** axl_node_add_pi_target, axl_node.c:4097-4117, with axl_pi_create, axl_doc.c:2792-2822 *)
Definition add_pi (s : bytes) (c : option bytes) (n : node) (m : mem) : res (node * mem) :=
  _ <- rd (n_self n) m ;;
  _ <- rd_hold (n_holder n) m ;;
  let '(pi, m) := malloc [] m in
  let '(name, m) := malloc s m in
  let '(o, m) := match c with Some t => let '(b, m) := malloc t m in (Some b, m) | None => (None, m) end in
  '(h, m) <- new_item n m ;;
  Ok (push (IPi h pi name o) n, m).

(** axl_node_set_child, axl_node.c:3377-3388, 6359-6370, 6410-6436 *)
Definition set_child (child n : node) (m : mem) : res (node * mem) :=
  _ <- rd (n_self n) m ;;
  _ <- rd (n_self child) m ;;
  _ <- rd_hold (n_holder n) m ;;
  '(h, m) <- node_item n child m ;;
  Ok (push (INode (w_holder (Some h) child)) n, m).
(** axl_node_set_child_after the [k]-th item of [n], which is a node, axl_node.c:3401-3408,
    6383-6407 *)
Definition set_after (k : nat) (child n : node) (m : mem) : res (node * mem) :=
  _ <- rd (n_self n) m ;;
  _ <- rd (n_self child) m ;;
  _ <- rd_hold (n_holder n) m ;;
  '(h, m) <- node_item n child m ;;
  Ok (w_items (firstn (S k) (n_items n) ++ INode (w_holder (Some h) child) :: skipn (S k) (n_items n)) n, m).

(** axl_pi_free, axl_doc.c:2929-2944 *)
Definition pi_free (pi name : blk) (c : option blk) (m : mem) : res mem :=
  _ <- rd pi m ;;
  m <- free name m ;;
  m <- free_opt c m ;;
  free pi m.
Fixpoint free_attrs (l : list attr) (m : mem) : res mem :=
  match l with
  | [] => Ok m
  | a :: r => _ <- rd (at_blk a) m ;; m <- free_attr a m ;; free_attrs r m
  end.
(** __axl_node_free_internal: name and attributes, axl_node.c:5399-5409, with
    __axl_node_free_attr_list, 149-176 *)
Definition free_name_attrs (n : node) (m : mem) : res mem :=
  m <- (if n_name_fac n then Ok m else free_opt (n_name n) m) ;;
  if is_null (n_attrs n) then Ok m
  else if Nat.leb (n_num n) 10 then
    match n_attrs n with AList l => free_attrs l m | AHash _ _ => UB end
  else match n_attrs n with AHash b h => ah_free b h m | AList _ => UB end.
(** the holder, axl_node.c:5433-5441, then the node itself, 5466-5468 *)
Definition free_holder_self (n : node) (m : mem) : res mem :=
  _ <- rd_hold (n_holder n) m ;;
  m <- match n_holder n with Some h => free_unless (hd_fac h) (hd_blk h) m | None => Ok m end ;;
  _ <- rd (n_self n) m ;;
  free_unless (n_fac n) (n_self n) m.
(** axl_item_free on an item that holds no node, axl_node.c:6836-6860 *)
Definition leaf_free (i : item) (m : mem) : res mem :=
  match i with
  | INode _ => Ok m
  | IText _ h data c f =>
    _ <- rd (hd_blk h) m ;;
    m <- (if f then Ok m else (_ <- rd data m ;; m <- free c m ;; free data m)) ;;
    free_unless (hd_fac h) (hd_blk h) m
  | IPi h pi name c =>
    _ <- rd (hd_blk h) m ;;
    m <- pi_free pi name c m ;;
    free_unless (hd_fac h) (hd_blk h) m
  end.
(** axl_node_free, axl_node.c:5455-5478, with __axl_node_free_internal, 5392-5445, and
    axl_item_free, 6824-6870 *)
Fixpoint node_free (n : node) (m : mem) {struct n} : res mem :=
  match n with
  | Node self fac name nfac attributes num items holder =>
    _ <- rd self m ;;
    m <- free_name_attrs n m ;;
    m <- (fix free_items (l : list item) (m : mem) : res mem :=
            match l with
            | [] => Ok m
            | INode c :: r =>
              _ <- rd_hold (n_holder c) m ;;
              m <- node_free c m ;;
              free_items r m
            | i :: r => m <- leaf_free i m ;; free_items r m
            end) items m ;;
    free_holder_self n m
  end.
(** axl_node_free_full, axl_node.c:5489-5511: the argument also_childs is not used *)
Definition node_free_full (also_childs : bool) (n : node) (m : mem) : res mem :=
  _ <- rd (n_self n) m ;;
  m <- free_name_attrs n m ;;
  free_holder_self n m.

(** reading the document of an item, axl_doc_get_root at axl_node.c:3503 *)
Definition rd_doc (o : option hold) (m : mem) : res unit :=
  match o with
  | Some h => match hd_doc h with Some d => if alive d m then Ok tt else UB | None => Ok tt end
  | None => Ok tt
  end.
(** axl_node_remove of the [k]-th item of [n], a node, without dealloc, axl_node.c:3492-3552
    (but for 3501-3507, [rd_doc]): the node taken out keeps its holder *)
Definition take_out (k : nat) (n : node) (m : mem) : res (node * mem) :=
  _ <- rd (n_self n) m ;;
  match nth_error (n_items n) k with
  | Some (INode c) => _ <- rd (n_self c) m ;; _ <- rd_hold (n_holder c) m ;; Ok (c, m)
  | _ => UB
  end.
Definition cut (k : nat) (l : list item) : list item := firstn k l ++ skipn (S k) l.
(** axl_node_replace of the [k]-th item of [n], a node, by [x], axl_node.c:3443-3461: the
    holder passes to [x], and the holder [x] had is forgotten; the node replaced *)
Definition swap (k : nat) (x n : node) (m : mem) : res (node * node * mem) :=
  _ <- rd (n_self x) m ;;
  '(c, m) <- take_out k n m ;;
  Ok (w_items (firstn k (n_items n) ++ INode (w_holder (n_holder c) x) :: skipn (S k) (n_items n)) n,
      w_holder None c, m).

(** axl_node_set_doc, axl_node.c:991-1019 *)
Definition set_doc (d : nat) (n : node) (m : mem) : res (node * mem) :=
  _ <- rd (n_self n) m ;;
  match n_holder n with
  | None => '(b, m) <- pool d [] m ;; Ok (w_holder (Some (Hold b true (Some d))) n, m)
  | Some h => _ <- rd (hd_blk h) m ;; Ok (w_holder (Some (Hold (hd_blk h) (hd_fac h) (Some d))) n, m)
  end.

(** __axl_node_copy_attr_list, axl_node.c:118-140 *)
Fixpoint copy_attrs (l : list attr) (m : mem) : res (list attr * mem) :=
  match l with
  | [] => Ok ([], m)
  | a :: r =>
    _ <- rd (at_blk a) m ;;
    _ <- rd (at_name a) m ;;
    _ <- rd (at_value a) m ;;
    let '(b, m) := malloc [] m in
    let '(x, m) := malloc (b_str (at_name a)) m in
    let '(y, m) := malloc (b_str (at_value a)) m in
    '(r, m) <- copy_attrs r m ;;
    Ok (Attr b x y false :: r, m)
  end.
(** the position of a key in the order the pairs are visited *)
Fixpoint pos (l : list anode) (k : blk) : nat :=
  match l with [] => 0 | x :: r => if bkeq (h_key blk blk unit x) k then 0 else S (pos r k) end.
Fixpoint rd_pairs (l : list anode) (m : mem) : res unit :=
  match l with
  | [] => Ok tt
  | x :: r => _ <- rd (h_key blk blk unit x) m ;; _ <- rd (h_data blk blk unit x) m ;; rd_pairs r m
  end.
(** __axl_node_copy_key and __axl_node_copy_value, axl_node.c:866-878: the [i]-th pair visited
    takes the blocks [base + 2i] and [base + 2i + 1] *)
Definition copy_key (base : nat) (l : list anode) (x : anode) : blk :=
  Blk (base + 2 * pos l (h_key blk blk unit x)) None (b_str (h_key blk blk unit x)).
Definition copy_value (base : nat) (l : list anode) (x : anode) : blk :=
  Blk (S (base + 2 * pos l (h_key blk blk unit x))) None (b_str (h_data blk blk unit x)).
(** axl_hash_copy_full as called at axl_node.c:919-927 *)
Definition ah_copy (h : ahash) (m : mem) : res (blk * ahash * mem) :=
  let l := ah_pairs h in
  _ <- rd_pairs l m ;;
  let '(b, m) := malloc [] m in
  r <- hash_copy blk blk unit bhash bkeq (copy_key (m_next m) l) (copy_value (m_next m) l) h
                 (Some (Some tt, Some tt)) ;;
  Ok (b, r, Mem (seq (m_next m) (2 * length l) ++ m_live m) (m_next m + 2 * length l) (m_dead m)).
Definition copy_store (n : node) (m : mem) : res (store * nat * mem) :=
  if is_null (n_attrs n) then Ok (AList [], 0, m)
  else if Nat.leb 11 (n_num n) then
    match n_attrs n with
    | AHash b h => _ <- rd b m ;; '(b, h, m) <- ah_copy h m ;; Ok (AHash b h, n_num n, m)
    | AList _ => UB
    end
  else
    match n_attrs n with
    | AList l => '(l, m) <- copy_attrs l m ;; Ok (AList l, n_num n, m)
    | AHash _ _ => UB
    end.
(** axl_node_copy of name and attributes, axl_node.c:894-932 *)
Definition copy_head (n : node) (m : mem) : res (node * mem) :=
  _ <- rd (n_self n) m ;;
  _ <- match n_name n with Some b => rd b m | None => Ok tt end ;;
  let '(b, m) := malloc [] m in
  let '(name, m) := match n_name n with
                    | Some s => let '(x, m) := malloc (b_str s) m in (Some x, m)
                    | None => (None, m)
                    end in
  '(a, k, m) <- copy_store n m ;;
  Ok (Node b false name false a k [] None, m).
(** axl_item_copy of an item that holds no node, axl_node.c:6452-6499 *)
Definition leaf_copy (i : item) (m : mem) : res (item * mem) :=
  match i with
  | INode _ => UB
  | IText k h data c _ =>
    _ <- rd (hd_blk h) m ;;
    _ <- rd data m ;;
    _ <- rd c m ;;
    let '(b, m) := malloc [] m in
    let '(x, m) := malloc [] m in
    let '(y, m) := malloc (b_str c) m in
    Ok (IText k (Hold b false None) x y false, m)
  | IPi h pi name c =>
    _ <- rd (hd_blk h) m ;;
    _ <- rd pi m ;;
    _ <- rd name m ;;
    let '(b, m) := malloc [] m in
    let '(x, m) := malloc [] m in
    let '(y, m) := malloc (b_str name) m in
    '(o, m) <- match c with
               | Some t => _ <- rd t m ;; let '(z, m) := malloc (b_str t) m in Ok (Some z, m)
               | None => Ok (None, m)
               end ;;
    Ok (IPi (Hold b false None) x y o, m)
  end.
(** axl_node_copy with attributes and childs, axl_node.c:894-960, and axl_item_copy,
    6452-6499 *)
Fixpoint node_copy (n : node) (m : mem) {struct n} : res (node * mem) :=
  match n with
  | Node self fac name nfac attributes num items holder =>
    '(r, m) <- copy_head n m ;;
    '(l, m) <- (fix copy_items (l : list item) (m : mem) : res (list item * mem) :=
                  match l with
                  | [] => Ok ([], m)
                  | INode c :: t =>
                    _ <- rd_hold (n_holder c) m ;;
                    let '(b, m) := malloc [] m in
                    '(c, m) <- node_copy c m ;;
                    '(t, m) <- copy_items t m ;;
                    Ok (INode (w_holder (Some (Hold b false None)) c) :: t, m)
                  | i :: t =>
                    '(i, m) <- leaf_copy i m ;;
                    '(t, m) <- copy_items t m ;;
                    Ok (i :: t, m)
                  end) items m ;;
    Ok (w_items l r, m)
  end.
