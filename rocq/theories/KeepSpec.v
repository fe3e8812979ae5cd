(** What a program has to respect with nodes made from text, besides what OwnSpec says. *)
From Verif Require Import Prelude HashModel OwnModel OwnExec OwnSpec KeepModel.
Open Scope nat_scope.

(** the addresses of the nodes of a tree, and of all trees *)
Fixpoint ids (n : node) : list nat :=
  match n with
  | Node self _ _ _ _ _ items _ =>
    b_id self ::
    (fix go (l : list item) : list nat :=
       match l with [] => [] | INode c :: r => ids c ++ go r | _ :: r => go r end) items
  end.
Definition all_ids (r : forest) : list nat := flat_map (fun x => ids (fst x)) r.

(** the tree without the node at the end of a path *)
Fixpoint prune (i : nat) (p : list nat) (n : node) : node :=
  match p with
  | [] => w_items (del_nth i (n_items n)) n
  | i' :: p' =>
    match nth_error (n_items n) i with
    | Some (INode c) => w_items (set_nth i (INode (prune i' p' c)) (n_items n)) n
    | _ => n
    end
  end.
(** the tree has no node outside the one that keeps a document which depends on that
    document *)
Definition closed (k : keep) (n : node) : Prop :=
  forall i p c d, get (i :: p) n = Some c -> In (addr c, d) k -> ~ depends d (prune i p n).
(** tree [n] can be released: it is closed, and no other tree depends on a document that
    is kept in it *)
Definition releasable (k : keep) (n : node) (others : forest) : Prop :=
  closed k n /\
  forall a d x o, In a (ids n) -> In (a, d) k -> In (x, o) others -> ~ depends d x.
Definition releasable_at (j : nat) (s : kst) : Prop :=
  forall n, loose j (k_st s) = Some n -> releasable (k_keep s) n (del_nth j (s_roots (k_st s))).

(** what the program has to respect: the conditions of OwnSpec, and
    - a document that is kept by a node is not used otherwise (the program never saw it),
    - what is released can be released in the sense above *)
Definition klegal (esc : bytes -> bytes) (s : kst) (c : kcall) : Prop :=
  match c with
  | KParsed j => True
  | KCall c =>
    legal (k_st s) c /\
    match c with
    | CFree j | CFreeFull j _ => releasable_at j s
    | CRemove p k true => forall s', plain esc s (CRemove p k false) = Ok s' -> releasable_at (last_tree s') s'
    | CReplace p k j true => forall s', plain esc s (CReplace p k j false) = Ok s' -> releasable_at (last_tree s') s'
    | CSetRoot _ d => ~ In d (map snd (k_keep s))
    | CDocFree d =>
      ~ In d (map snd (k_keep s)) /\
      forall l1 n l2, s_roots (k_st s) = l1 ++ (n, Some d) :: l2 -> releasable (k_keep s) n (l1 ++ l2)
    | _ => True
    end
  end.
Fixpoint klegal_all (esc : bytes -> bytes) (s : kst) (l : list kcall) : Prop :=
  match l with
  | [] => True
  | c :: r => klegal esc s c /\ forall s', kexec esc s c = Ok s' -> klegal_all esc s' r
  end.
