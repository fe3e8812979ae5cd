(** The calls a program can make on nodes and documents, run on OwnModel. *)
From Verif Require Import Prelude HashModel OwnModel.
Open Scope nat_scope.

(** the trees in the hands of the program; [Some d] for the root of document [d] *)
Definition forest := list (node * option nat).
Record st := St { s_roots : forest; s_mem : mem }.
Definition st0 : st := St [] (Mem [] 0 []).

(** a node: the tree, and the way down by positions among the items *)
Definition place := (nat * list nat)%type.
Inductive call :=
| CCreate (s : bytes)                              (* axl_node_create, axl_node_create_ref *)
| CParsed (d : nat) (s : bytes)                    (* the parser makes a node of document d *)
| CSetName (p : place) (s : bytes)
| CSetNameRef (p : place) (s : bytes)
| CSetAttr (p : place) (s v : bytes)
| CSetAttrRef (p : place) (s v : bytes)
| CSetAttrParsed (p : place) (d : nat) (s v : bytes)
| CRemoveAttr (p : place) (s : bytes)
| CText (p : place) (k : kind) (s : bytes)
| CTextParsed (p : place) (d : nat) (k : kind) (s : bytes)
| CPi (p : place) (s : bytes) (c : option bytes)
| CSetChild (p : place) (j : nat)                  (* tree j becomes the last child *)
| CSetAfter (p : place) (k j : nat)                (* ... or follows the k-th item *)
| CRemove (p : place) (k : nat) (dealloc : bool)   (* axl_node_remove *)
| CReplace (p : place) (k j : nat) (dealloc : bool)
| CCopy (p : place)
| CFree (j : nat)
| CFreeFull (j : nat) (also_childs : bool)
| CSetRoot (j d : nat)                             (* axl_doc_set_root *)
| CDetach (j : nat)                                (* axl_node_deattach, of a root *)
| CDocFree (d : nat).

Definition del_nth {A} (k : nat) (l : list A) : list A := firstn k l ++ skipn (S k) l.
Definition set_nth {A} (k : nat) (x : A) (l : list A) : list A := firstn k l ++ x :: skipn (S k) l.

(** the node at the end of a path *)
Fixpoint get (p : list nat) (n : node) : option node :=
  match p with
  | [] => Some n
  | k :: p => match nth_error (n_items n) k with Some (INode c) => get p c | _ => None end
  end.
(** a function on the node at the end of a path; a path that leads nowhere is [UB] *)
Fixpoint at_path {A} (p : list nat) (f : node -> mem -> res (node * mem * A)) (n : node) (m : mem)
  : res (node * mem * A) :=
  match p with
  | [] => f n m
  | k :: p =>
    match nth_error (n_items n) k with
    | Some (INode c) =>
      '(c, m, a) <- at_path p f c m ;;
      Ok (w_items (set_nth k (INode c) (n_items n)) n, m, a)
    | _ => UB
    end
  end.
Definition simple (f : node -> mem -> res (node * mem)) : node -> mem -> res (node * mem * list node) :=
  fun n m => '(n, m) <- f n m ;; Ok (n, m, []).
Definition add_trees (l : list node) (r : forest) : forest := r ++ map (fun n => (n, None)) l.
(** run [f] at a place; the trees it hands out join the others.  No call is made when
    the place does not exist. *)
Definition on (p : place) (f : node -> mem -> res (node * mem * list node)) (s : st) : res st :=
  match nth_error (s_roots s) (fst p) with
  | Some (n, d) =>
    match get (snd p) n with
    | Some _ =>
      '(n, m, l) <- at_path (snd p) f n (s_mem s) ;;
      Ok (St (add_trees l (set_nth (fst p) (n, d) (s_roots s))) m)
    | None => Ok s
    end
  | None => Ok s
  end.
(** tree [j], if it is not the root of a document: such a tree has to be taken from the
    document first (CDetach), or the document would keep a pointer to it *)
Definition loose (j : nat) (s : st) : option node :=
  match nth_error (s_roots s) j with Some (n, None) => Some n | _ => None end.
(** run [f] with tree [j] at a place in another tree; [j] leaves the hands of the program *)
Definition on2 (p : place) (j : nat) (f : node -> node -> mem -> res (node * mem * list node)) (s : st) : res st :=
  match loose j s with
  | Some x =>
    if Nat.eqb (fst p) j then Ok s
    else
      match nth_error (s_roots s) (fst p) with
      | Some (n, d) =>
        match get (snd p) n with
        | Some _ =>
          '(n, m, l) <- at_path (snd p) (f x) n (s_mem s) ;;
          Ok (St (add_trees l (del_nth j (set_nth (fst p) (n, d) (s_roots s)))) m)
        | None => Ok s
        end
      | None => Ok s
      end
  | None => Ok s
  end.
Definition is_node (o : option item) : bool := match o with Some (INode _) => true | _ => false end.

Definition do_after (k : nat) (x n : node) (m : mem) : res (node * mem * list node) :=
  if is_node (nth_error (n_items n) k) then ('(n, m) <- set_after k x n m ;; Ok (n, m, []))
  else Ok (n, m, [x]).
(** axl_node_remove, axl_node.c:3492-3552 *)
Definition do_remove (k : nat) (dealloc : bool) (n : node) (m : mem) : res (node * mem * list node) :=
  if is_node (nth_error (n_items n) k) then
    '(c, m) <- take_out k n m ;;
    _ <- rd_doc (n_holder c) m ;;
    let n := w_items (cut k (n_items n)) n in
    if dealloc then (m <- node_free c m ;; Ok (n, m, [])) else Ok (n, m, [c])
  else Ok (n, m, []).
(** axl_node_replace of a node that has a parent, axl_node.c:3425-3471 *)
Definition do_replace (k : nat) (dealloc : bool) (x n : node) (m : mem) : res (node * mem * list node) :=
  if is_node (nth_error (n_items n) k) then
    '(n, c, m) <- swap k x n m ;;
    if dealloc then (m <- node_free c m ;; Ok (n, m, [])) else Ok (n, m, [c])
  else Ok (n, m, [x]).
Definition do_copy (n : node) (m : mem) : res (node * mem * list node) :=
  '(c, m) <- node_copy n m ;; Ok (n, m, [c]).

Definition kill (d : nat) (m : mem) : mem := Mem (m_live m) (m_next m) (d :: m_dead m).
Definition is_root (d : nat) (x : node * option nat) : bool :=
  match snd x with Some e => Nat.eqb e d | None => false end.
(** the pointers of document [d] to its root is overwritten *)
Definition unroot (d : nat) (r : forest) : forest :=
  map (fun x => if is_root d x then (fst x, None) else x) r.
Fixpoint free_all (l : forest) (m : mem) : res mem :=
  match l with [] => Ok m | x :: r => m <- node_free (fst x) m ;; free_all r m end.

Section Exec.
Variable esc : bytes -> bytes.

(** axl_doc_set_root is axl_doc.c:2530-2545 (axl_node_set_doc, then the old root is only
    forgotten), axl_node_deattach axl_node.c:3569-3579, axl_doc_free axl_doc.c:3264-3315: the
    root first, then the pools.  No call is made on a document already released: its handle
    is gone. *)
Definition exec (s : st) (c : call) : res st :=
  let m := s_mem s in
  match c with
  | CCreate x => let '(n, m) := node_create x m in Ok (St (add_trees [n] (s_roots s)) m)
  | CParsed d x =>
    if alive d m then ('(n, m) <- node_parsed d x m ;; Ok (St (add_trees [n] (s_roots s)) m)) else Ok s
  | CSetName p x => on p (simple (set_name x)) s
  | CSetNameRef p x => on p (simple (set_name_ref x)) s
  | CSetAttr p a v => on p (simple (set_attribute esc a v)) s
  | CSetAttrRef p a v => on p (simple (set_attribute_ref a v)) s
  | CSetAttrParsed p d a v => if alive d m then on p (simple (set_attribute_fac d a v)) s else Ok s
  | CRemoveAttr p a => on p (simple (remove_attribute esc a)) s
  | CText p k x => on p (simple (set_text k x)) s
  | CTextParsed p d k x => if alive d m then on p (simple (set_text_fac d k x)) s else Ok s
  | CPi p x t => on p (simple (add_pi x t)) s
  | CSetChild p j => on2 p j (fun x => simple (set_child x)) s
  | CSetAfter p k j => on2 p j (do_after k) s
  | CRemove p k dealloc => on p (do_remove k dealloc) s
  | CReplace p k j dealloc => on2 p j (do_replace k dealloc) s
  | CCopy p => on p do_copy s
  | CFree j =>
    match loose j s with
    | Some n => m <- node_free n m ;; Ok (St (del_nth j (s_roots s)) m)
    | None => Ok s
    end
  | CFreeFull j a =>
    match loose j s with
    | Some n => m <- node_free_full a n m ;; Ok (St (del_nth j (s_roots s)) m)
    | None => Ok s
    end
  | CSetRoot j d =>
    match loose j s with
    | Some n =>
      if alive d m then
        ('(n, m) <- set_doc d n m ;; Ok (St (set_nth j (n, Some d) (unroot d (s_roots s))) m))
      else Ok s
    | None => Ok s
    end
  | CDetach j =>
    match nth_error (s_roots s) j with
    | Some (n, _) => Ok (St (set_nth j (n, None) (s_roots s)) m)
    | None => Ok s
    end
  | CDocFree d =>
    if alive d m then
      m <- free_all (filter (is_root d) (s_roots s)) m ;;
      Ok (St (filter (fun x => negb (is_root d x)) (s_roots s)) (kill d m))
    else Ok s
  end.
Fixpoint exec_all (s : st) (l : list call) : res st :=
  match l with [] => Ok s | c :: r => s <- exec s c ;; exec_all s r end.
End Exec.
