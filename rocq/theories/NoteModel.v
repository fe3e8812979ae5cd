(** Annotations on nodes: src/axl_node.c, over the links of ItemModel and the hash of
    HashModel.

    Simplifications: keys are C strings that the caller keeps unchanged (the code stores
    the pointer only); a pointer given by the caller is a number ([NRaw]); a double is the
    number of its bits; NULL nodes and keys, which are refused, are not modelled; freeing
    a node is not modelled. *)
From Verif Require Import Prelude HashModel HashStrProofs EscModel EqModel ItemModel ItemSpec ItemExec.
Open Scope list_scope.

(** AnnotateNodeData, axl_node.c:1798-1830, and pointers of the caller *)
Inductive note := NInt (z : Z) | NStr (s : bytes) | NDouble (bits : Z) | NRaw (p : nat).
(** __axl_annotate_data_free (axl_node.c:1832-1845), or a handler of the caller *)
Inductive handler := FreeNote | User (f : nat).
Definition nhash := hash bytes (option note) handler.
(** the heap and the field annotate_data of each node (axl_node.c:245-295) *)
Record nheap := NHeap { nh_heap : heap; nh_notes : nat -> option nhash }.
Definition nheap_new : nheap := NHeap heap_new (fun _ => None).

(** __init_node_annotation, axl_node.c:1643-1648 *)
Definition init_annotation (t : nheap) (n : nat) : nhash :=
  match nh_notes t n with Some a => a | None => hash_new bytes (option note) handler end.
(** axl_node_annotate_data_full, axl_node.c:1719-1735; axl_node_annotate_data (1682-1696)
    gives no handlers *)
Definition annotate_data_full (t : nheap) (n : nat) (key : bytes) (kd : option handler) (data : option note) (dd : option handler) : res nheap :=
  _ <- rd_n (nh_heap t) n ;;
  a <- hash_insert_full bytes (option note) handler shash skeq (init_annotation t n) key kd data dd ;;
  Ok (NHeap (nh_heap t) (upd (nh_notes t) n a)).
Definition annotate_data (t : nheap) (n : nat) (key : bytes) (data : option note) : res nheap := annotate_data_full t n key None data None.
(** axl_node_annotate_int, axl_node.c:1887-1906 *)
Definition annotate_int (t : nheap) (n : nat) (key : bytes) (z : Z) : res nheap :=
  annotate_data_full t n key None (Some (NInt z)) (Some FreeNote).
(** axl_node_annotate_string, axl_node.c:1948-1968 *)
Definition annotate_string (t : nheap) (n : nat) (key s : bytes) : res nheap :=
  s <- dup s ;; annotate_data_full t n key None (Some (NStr s)) (Some FreeNote).
(** axl_node_annotate_double, axl_node.c:2009-2028 *)
Definition annotate_double (t : nheap) (n : nat) (key : bytes) (d : Z) : res nheap :=
  annotate_data_full t n key None (Some (NDouble d)) (Some FreeNote).

(** axl_hash_get on the annotations of a node, NULL when it has none *)
Definition note_of (t : nheap) (n : nat) (key : bytes) : res (option note) :=
  match nh_notes t n with
  | None => Ok None
  | Some a => hash_get bytes (option note) handler shash skeq None a key
  end.
(** the loop of axl_node_annotate_get, axl_node.c:1780-1791 *)
Fixpoint get_in_parents (fuel : nat) (t : nheap) (parent : option nat) (key : bytes) : res (option note) :=
  match parent with
  | None => Ok None
  | Some p =>
    match fuel with
    | O => NoFuel
    | S fuel =>
      nd <- rd_n (nh_heap t) p ;;
      r <- note_of t p key ;;
      match r with
      | Some v => Ok (Some v)
      | None => q <- holder_parent (nh_heap t) (n_holder nd) ;; get_in_parents fuel t q key
      end
    end
  end.
(** axl_node_annotate_get, axl_node.c:1753-1796 *)
Definition annotate_get (fuel : nat) (t : nheap) (n : nat) (key : bytes) (lookup_in_parent : bool) : res (option note) :=
  nd <- rd_n (nh_heap t) n ;;
  r <- note_of t n key ;;
  match r with
  | Some v => Ok (Some v)
  | None =>
    if lookup_in_parent then
      p <- holder_parent (nh_heap t) (n_holder nd) ;; get_in_parents fuel t p key
    else Ok None
  end.
(** axl_node_annotate_get_int, axl_node.c:2051-2076.  A pointer of the caller is read as if
    it were the structure: [UB] *)
Definition annotate_get_int (fuel : nat) (t : nheap) (n : nat) (key : bytes) (inh : bool) : res Z :=
  r <- annotate_get fuel t n key inh ;;
  match r with
  | None => Ok 0%Z
  | Some (NInt z) => Ok z
  | Some (NRaw _) => UB
  | Some _ => Ok 0%Z
  end.
(** axl_node_annotate_get_string, axl_node.c:2099-2124 *)
Definition annotate_get_string (fuel : nat) (t : nheap) (n : nat) (key : bytes) (inh : bool) : res (option bytes) :=
  r <- annotate_get fuel t n key inh ;;
  match r with
  | None => Ok None
  | Some (NStr s) => Ok (Some s)
  | Some (NRaw _) => UB
  | Some _ => Ok None
  end.
(** axl_node_annotate_get_double, axl_node.c:2147-2172 *)
Definition annotate_get_double (fuel : nat) (t : nheap) (n : nat) (key : bytes) (inh : bool) : res Z :=
  r <- annotate_get fuel t n key inh ;;
  match r with
  | None => Ok 0%Z
  | Some (NDouble d) => Ok d
  | Some (NRaw _) => UB
  | Some _ => Ok 0%Z
  end.
