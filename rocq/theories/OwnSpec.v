(** What a user expects of the memory of a set of nodes: the blocks that can be reached from
    the nodes in hand, and which of them came from malloc. *)
From Verif Require Import Prelude HashModel OwnModel OwnExec.
Open Scope nat_scope.

Definition opt_blk (o : option blk) : list blk := match o with Some b => [b] | None => [] end.
Definition store_blocks (s : store) : list blk :=
  match s with
  | AList l => flat_map (fun a => [at_blk a; at_name a; at_value a]) l
  | AHash b h => b :: flat_map (fun x => [h_key blk blk unit x; h_data blk blk unit x]) (ah_pairs h)
  end.
Definition hold_blk (o : option hold) : list blk := match o with Some h => [hd_blk h] | None => [] end.
(** every block that can be reached from a node *)
Fixpoint blocks (n : node) : list blk :=
  match n with
  | Node self _ name _ a _ items holder =>
    self :: opt_blk name ++ store_blocks a ++ hold_blk holder ++
    (fix go (l : list item) : list blk :=
       match l with
       | [] => []
       | INode c :: r => blocks c ++ go r
       | IText _ h data c _ :: r => hd_blk h :: data :: c :: go r
       | IPi h pi s c :: r => hd_blk h :: pi :: s :: opt_blk c ++ go r
       end) items
  end.
(** every document that is mentioned by an item below a node *)
Definition hold_doc (h : hold) : list nat := match hd_doc h with Some d => [d] | None => [] end.
Fixpoint docs (n : node) : list nat :=
  match n with
  | Node _ _ _ _ _ _ items holder =>
    (match holder with Some h => hold_doc h | None => [] end) ++
    (fix go (l : list item) : list nat :=
       match l with
       | [] => []
       | INode c :: r => docs c ++ go r
       | IText _ h _ _ _ :: r => hold_doc h ++ go r
       | IPi h _ _ _ :: r => hold_doc h ++ go r
       end) items
  end.
(** the blocks that came from malloc, by address *)
Definition malloced (l : list blk) : list nat :=
  flat_map (fun b => match b_org b with None => [b_id b] | Some _ => [] end) l.

(** a node and its tree depend on document [d]: they use its memory, or point to it *)
Definition depends (d : nat) (n : node) : Prop :=
  (exists b, In b (blocks n) /\ b_org b = Some d) \/ In d (docs n).

(** the node at a place *)
Definition node_at (p : place) (s : st) : option node :=
  match nth_error (s_roots s) (fst p) with Some (n, _) => get (snd p) n | None => None end.
(** what the program has to respect:
    - a name is handed over by reference to a node only if the name it replaces is not
      memory of a document,
    - axl_node_free_full is only called on a node without content,
    - a node replaces another only if it has no holder of its own from malloc (it has one
      after having been the child of a node outside any document),
    - a document is released when no other tree depends on it *)
Definition legal (s : st) (c : call) : Prop :=
  match c with
  | CSetNameRef p _ => forall n b, node_at p s = Some n -> n_name n = Some b -> b_org b = None
  | CFreeFull j _ => forall n, loose j s = Some n -> n_items n = []
  | CReplace _ _ j _ => forall x h, loose j s = Some x -> n_holder x = Some h -> b_org (hd_blk h) <> None
  | CDocFree d => forall n o, In (n, o) (s_roots s) -> o <> Some d -> ~ depends d n
  | _ => True
  end.
Fixpoint legal_all (esc : bytes -> bytes) (s : st) (l : list call) : Prop :=
  match l with
  | [] => True
  | c :: r => legal s c /\ forall s', exec esc s c = Ok s' -> legal_all esc s' r
  end.
(** the blocks of malloc that can be reached from the trees in hand *)
Definition in_hand (s : st) : list nat := malloced (flat_map (fun x => blocks (fst x)) (s_roots s)).
