(** Processing instructions of nodes and documents: src/axl_node.c and src/axl_doc.c, on the
    links of ItemModel.

    A processing instruction is a block of its own, [None] once released; the item that holds
    it has its address as data.  Reading or releasing a released block is [UB].
    Simplifications: axl_cmp (C14) is [bytes_eqb], axl_strdup gives the same bytes; NULL
    arguments, which are refused, are not modelled; axl_list_add with
    axl_list_always_return_1 appends (C06). *)
From Verif Require Import Prelude TreeModel ItemModel ItemSpec ItemExec.
Open Scope nat_scope.
Open Scope list_scope.

(** the nodes and items, the blocks, and the list piTargets of a document (axl_doc.c:366) *)
Record pheap := PHeap { ph_heap : heap; ph_pis : list (option pi); ph_doc : list nat }.
Definition pheap_new : pheap := PHeap heap_new [] [].
(** the fields of a block: axl_pi_get_name, axl_pi_get_content, axl_doc.c:2899-2923 *)
Definition rd_pi (t : pheap) (a : nat) : res pi := match nth_error (ph_pis t) a with Some (Some p) => Ok p | _ => UB end.
(** axl_pi_create, axl_doc.c:2780-2809 *)
Definition pi_create (t : pheap) (target : bytes) (content : option bytes) : pheap * nat :=
  (PHeap (ph_heap t) (ph_pis t ++ [Some (Pi target content)]) (ph_doc t), length (ph_pis t)).
(** axl_pi_free, axl_doc.c:2930-2940 *)
Fixpoint release (l : list (option pi)) (a : nat) : list (option pi) :=
  match l, a with
  | [], _ => []
  | _ :: l, O => None :: l
  | x :: l, S a => x :: release l a
  end.
Definition pi_free (t : pheap) (a : nat) : res pheap := _ <- rd_pi t a ;; Ok (PHeap (ph_heap t) (release (ph_pis t) a) (ph_doc t)).

(** axl_node_add_pi_target, axl_node.c:4097-4114 *)
Definition node_add_pi (t : pheap) (n : nat) (target : bytes) (content : option bytes) : res pheap :=
  let '(t, a) := pi_create t target content in
  h <- item_set_child (ph_heap t) n KPi a ;;
  Ok (PHeap h (ph_pis t) (ph_doc t)).
Definition is_pi (k : kind) : bool := match k with KPi => true | _ => false end.
(** the loop of axl_node_has_pi_target (axl_node.c:4134-4163) and of
    axl_node_get_pi_target_content (4177-4206): the first instruction with that name *)
Fixpoint pi_loop (fuel : nat) (t : pheap) (x : bytes) (i : option nat) : res (option pi) :=
  match i with
  | None => Ok None
  | Some i =>
    match fuel with
    | O => NoFuel
    | S fuel =>
      it <- rd_i (ph_heap t) i ;;
      if is_pi (i_kind it) then
        p <- rd_pi t (i_data it) ;;
        if bytes_eqb (pi_name p) x then Ok (Some p) else pi_loop fuel t x (i_next it)
      else pi_loop fuel t x (i_next it)
    end
  end.
Definition node_find_pi (t : pheap) (n : nat) (x : bytes) : res (option pi) :=
  nd <- rd_n (ph_heap t) n ;; pi_loop (h_ifresh (ph_heap t)) t x (n_first nd).
Definition node_has_pi (t : pheap) (n : nat) (x : bytes) : res bool :=
  r <- node_find_pi t n x ;; Ok (match r with Some _ => true | None => false end).
Definition node_pi_content (t : pheap) (n : nat) (x : bytes) : res (option bytes) :=
  r <- node_find_pi t n x ;; Ok (match r with Some p => pi_content p | None => None end).
(** axl_node_get_pi_target_list, axl_node.c:4510-4539: NULL without instructions *)
Fixpoint pi_list_loop (fuel : nat) (t : pheap) (result : option (list nat)) (i : option nat) : res (option (list nat)) :=
  match i with
  | None => Ok result
  | Some i =>
    match fuel with
    | O => NoFuel
    | S fuel =>
      it <- rd_i (ph_heap t) i ;;
      pi_list_loop fuel t
        (if is_pi (i_kind it) then Some (match result with None => [] | Some l => l end ++ [i_data it]) else result) (i_next it)
    end
  end.
Definition node_pi_list (t : pheap) (n : nat) : res (option (list nat)) :=
  nd <- rd_n (ph_heap t) n ;; pi_list_loop (h_ifresh (ph_heap t)) t None (n_first nd).
(** axl_list_free (axl_list.c:1564-1596) of that list, whose destroy function is axl_pi_free
    (axl_node.c:4526) *)
Fixpoint pi_list_free (t : pheap) (l : list nat) : res pheap :=
  match l with [] => Ok t | a :: l => t <- pi_free t a ;; pi_list_free t l end.

(** axl_doc_add_pi_target, axl_doc.c:2634-2651 *)
Definition doc_add_pi (t : pheap) (target : bytes) (content : option bytes) : pheap :=
  let '(t, a) := pi_create t target content in PHeap (ph_heap t) (ph_pis t) (ph_doc t ++ [a]).
(** the loop of axl_doc_has_pi_target (axl_doc.c:2668-2691) and of
    axl_doc_get_pi_target_content (2704-2726) *)
Fixpoint doc_pi_loop (t : pheap) (x : bytes) (l : list nat) : res (option pi) :=
  match l with
  | [] => Ok None
  | a :: l => p <- rd_pi t a ;; if bytes_eqb (pi_name p) x then Ok (Some p) else doc_pi_loop t x l
  end.
Definition doc_has_pi (t : pheap) (x : bytes) : res bool := r <- doc_pi_loop t x (ph_doc t) ;; Ok (match r with Some _ => true | None => false end).
Definition doc_pi_content (t : pheap) (x : bytes) : res (option bytes) :=
  r <- doc_pi_loop t x (ph_doc t) ;; Ok (match r with Some p => pi_content p | None => None end).
(** axl_doc_get_pi_target_list, axl_doc.c:2770-2775 *)
Definition doc_pi_list (t : pheap) : list nat := ph_doc t.

(** a call of the user: on the tree (no child is an instruction), or one of the above *)
Inductive pop := PTree (o : op) | PNode (n : nat) (target : bytes) (content : option bytes) | PDoc (target : bytes) (content : option bytes).
Definition p_exec (t : pheap) (o : pop) : res pheap :=
  match o with
  | PTree o => h <- exec (ph_heap t) o ;; Ok (PHeap h (ph_pis t) (ph_doc t))
  | PNode n x c => node_add_pi t n x c
  | PDoc x c => Ok (doc_add_pi t x c)
  end.
Fixpoint p_run (t : pheap) (l : list pop) : res pheap := match l with [] => Ok t | o :: l => t <- p_exec t o ;; p_run t l end.
