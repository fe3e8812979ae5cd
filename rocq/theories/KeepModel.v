(** Nodes made from text, axl_node_parse and axl_node_parse_strings of src/axl_node.c: a
    node that keeps the document it was read into, and releases it when it is released.

    The memory is that of OwnModel.  The document is kept as an annotation of the node; the
    annotations of a node are released last (axl_node.c:5455-5478).

    Simplifications: only the annotation "__root_document" is modelled, as a pair of the
    address of the node and the document (NoteModel has the others); its hash, which comes
    from malloc and goes with the node, is left out; the memory a document has besides its
    pools is left out, as in OwnModel. *)
From Verif Require Import Prelude HashModel OwnModel OwnExec.
Open Scope nat_scope.

(** the documents kept: the address of a node, the document *)
Definition keep := list (nat * nat).
Definition addr (n : node) : nat := b_id (n_self n).
Definition kept (a : nat) (k : keep) : list nat := map snd (filter (fun x => Nat.eqb (fst x) a) k).
Definition drop (a : nat) (k : keep) : keep := filter (fun x => negb (Nat.eqb (fst x) a)) k.

(** axl_doc_free on documents without a root, axl_doc.c:3264-3316; a second release is [UB] *)
Fixpoint release (l : list nat) (m : mem) : res mem :=
  match l with
  | [] => Ok m
  | d :: r => if alive d m then release r (kill d m) else UB
  end.
(** axl_hash_free (hash), axl_node.c:5474, 5507: the documents kept by the node at [a] *)
Definition free_notes (a : nat) (k : keep) (m : mem) : res (keep * mem) :=
  m <- release (kept a k) m ;; Ok (drop a k, m).

(** axl_node_free, axl_node.c:5455-5478, with __axl_node_free_internal, 5392-5445, and
    axl_item_free, 6824-6870: as [node_free], then the annotations *)
Fixpoint kfree (n : node) (k : keep) (m : mem) {struct n} : res (keep * mem) :=
  match n with
  | Node self fac name nfac attributes num items holder =>
    _ <- rd self m ;;
    m <- free_name_attrs n m ;;
    '(k, m) <- (fix kfree_items (l : list item) (k : keep) (m : mem) : res (keep * mem) :=
                  match l with
                  | [] => Ok (k, m)
                  | INode c :: r =>
                    _ <- rd_hold (n_holder c) m ;;
                    '(k, m) <- kfree c k m ;;
                    kfree_items r k m
                  | i :: r => m <- leaf_free i m ;; kfree_items r k m
                  end) items k m ;;
    m <- free_holder_self n m ;;
    free_notes (b_id self) k m
  end.
(** axl_node_free_full, axl_node.c:5489-5511 *)
Definition kfree_full (also_childs : bool) (n : node) (k : keep) (m : mem) : res (keep * mem) :=
  m <- node_free_full also_childs n m ;;
  free_notes (addr n) k m.
Fixpoint kfree_all (l : forest) (k : keep) (m : mem) : res (keep * mem) :=
  match l with [] => Ok (k, m) | x :: r => '(k, m) <- kfree (fst x) k m ;; kfree_all r k m end.

(** the trees in hand, the memory, the documents kept *)
Record kst := KSt { k_st : st; k_keep : keep }.
Definition kst0 : kst := KSt st0 [].
Inductive kcall :=
| KCall (c : call)
(** the end of axl_node_parse and of axl_node_parse_strings, once the text was read into a
    document whose root is tree [j] *)
| KParsed (j : nat).

Definition eq_opt (o : option nat) (d : nat) : bool := match o with Some e => Nat.eqb e d | None => false end.
(** axl_node_deattach (axl_node.c:3569-3579, 3492-3507) and axl_node_annotate_data_full
    (1719-1735) as called at 668-679 and 734-745: the document forgets its root if the holder
    of the root names it *)
Definition keep_doc (j : nat) (s : kst) : res kst :=
  let m := s_mem (k_st s) in
  match nth_error (s_roots (k_st s)) j with
  | Some (n, Some d) =>
    _ <- rd (n_self n) m ;;
    _ <- rd_hold (n_holder n) m ;;
    _ <- rd_doc (n_holder n) m ;;
    let r := if eq_opt (n_doc n) d then unroot d (s_roots (k_st s)) else s_roots (k_st s) in
    Ok (KSt (St r m) ((addr n, d) :: k_keep s))
  | _ => Ok s
  end.
(** axl_node_free on tree [j] *)
Definition free_tree (j : nat) (s : kst) : res kst :=
  match loose j (k_st s) with
  | Some n =>
    '(k, m) <- kfree n (k_keep s) (s_mem (k_st s)) ;;
    Ok (KSt (St (del_nth j (s_roots (k_st s))) m) k)
  | None => Ok s
  end.
(** the [k]-th item at place [p] is a node *)
Definition node_there (p : place) (k : nat) (s : st) : bool :=
  match nth_error (s_roots s) (fst p) with
  | Some (n, _) => match get (snd p) n with Some c => is_node (nth_error (n_items c) k) | None => false end
  | None => false
  end.
Definition last_tree (s : kst) : nat := length (s_roots (k_st s)) - 1.

Section Exec.
Variable esc : bytes -> bytes.
Definition plain (s : kst) (c : call) : res kst := s' <- exec esc (k_st s) c ;; Ok (KSt s' (k_keep s)).
(** axl_node_remove, axl_node.c:3492-3552, and axl_node_replace, 3425-3471, end with
    axl_node_free on the node taken out, if asked for; the other calls are those of OwnExec *)
Definition kexec (s : kst) (c : kcall) : res kst :=
  match c with
  | KParsed j => keep_doc j s
  | KCall (CFree j) => free_tree j s
  | KCall (CFreeFull j a) =>
    match loose j (k_st s) with
    | Some n =>
      '(k, m) <- kfree_full a n (k_keep s) (s_mem (k_st s)) ;;
      Ok (KSt (St (del_nth j (s_roots (k_st s))) m) k)
    | None => Ok s
    end
  | KCall (CRemove p k true) =>
    s' <- plain s (CRemove p k false) ;;
    if node_there p k (k_st s) then free_tree (last_tree s') s' else Ok s'
  | KCall (CReplace p k j true) =>
    s' <- plain s (CReplace p k j false) ;;
    if node_there p k (k_st s) && is_some (loose j (k_st s)) && negb (Nat.eqb (fst p) j)
    then free_tree (last_tree s') s' else Ok s'
  | KCall (CDocFree d) =>
    if alive d (s_mem (k_st s)) then
      '(k, m) <- kfree_all (filter (is_root d) (s_roots (k_st s))) (k_keep s) (s_mem (k_st s)) ;;
      Ok (KSt (St (filter (fun x => negb (is_root d x)) (s_roots (k_st s))) (kill d m)) k)
    else Ok s
  | KCall c => plain s c
  end.
Fixpoint kexec_all (s : kst) (l : list kcall) : res kst :=
  match l with [] => Ok s | c :: r => s <- kexec s c ;; kexec_all s r end.
End Exec.
