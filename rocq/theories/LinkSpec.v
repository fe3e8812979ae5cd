(** What it means that a tree of values is found in the nodes and items of a parsed
    document, and the orders and paths of a tree of values. *)
From Verif Require Import Prelude AttrModel TreeModel.
From Verif Require ItemModel.
Import ItemModel(heap, kind, KNode, KContent, KPi, KComment, KRef, KCdata, childs, childs_back, h_items, i_kind, i_data, i_parent).
Open Scope list_scope.

(** what is known besides the links: the name and the attributes of each node, and the
    block of each item that is not a node *)
Record store := Store { s_heap : heap; s_names : nat -> option (bytes * attrs); s_blocks : nat -> option item }.

(** The node [n] is the element [t]: it has its name and its attributes; walking over its
    items forwards gives them in order, walking backwards gives them in the reverse order;
    each of them names [n] as its parent and holds what it should. *)
Inductive is_tree (s : store) : nat -> node -> Prop :=
| Is_tree n x a l items :
    s_names s n = Some (x, a) -> childs (s_heap s) n = Ok items -> childs_back (s_heap s) n = Ok (rev items) -> are_items s n items l ->
    is_tree s n (Node x a l)
with are_items (s : store) : nat -> list nat -> list item -> Prop :=
| Are_none n : are_items s n [] []
| Are_node n i it items t l : h_items (s_heap s) i = Some it -> i_parent it = Some n -> i_kind it = KNode -> is_tree s (i_data it) t ->
    are_items s n items l -> are_items s n (i :: items) (INode t :: l)
| Are_text n i it items b l : h_items (s_heap s) i = Some it -> i_parent it = Some n -> i_kind it = KContent -> s_blocks s (i_data it) = Some (IContent b) ->
    are_items s n items l -> are_items s n (i :: items) (IContent b :: l)
| Are_cdata n i it items b l : h_items (s_heap s) i = Some it -> i_parent it = Some n -> i_kind it = KCdata -> s_blocks s (i_data it) = Some (ICdata b) ->
    are_items s n items l -> are_items s n (i :: items) (ICdata b :: l)
| Are_pi n i it items b l : h_items (s_heap s) i = Some it -> i_parent it = Some n -> i_kind it = KPi -> s_blocks s (i_data it) = Some (IPi b) ->
    are_items s n items l -> are_items s n (i :: items) (IPi b :: l)
| Are_comment n i it items b l : h_items (s_heap s) i = Some it -> i_parent it = Some n -> i_kind it = KComment -> s_blocks s (i_data it) = Some (IComment b) ->
    are_items s n items l -> are_items s n (i :: items) (IComment b :: l).

(** the elements inside an element *)
Fixpoint elems_of (l : list item) : list node :=
  match l with [] => [] | INode n :: l => n :: elems_of l | _ :: l => elems_of l end.
(** all elements, in document order *)
Fixpoint all_elems (n : node) : list node :=
  let '(Node x a l) := n in
  n :: (fix go (l : list item) : list node := match l with [] => [] | INode n :: l => all_elems n ++ go l | _ :: l => go l end) l.
(** the elements inside, then what is inside each of them *)
Fixpoint inside_of (n : node) : list node :=
  let '(Node x a l) := n in
  elems_of l ++ (fix go (l : list item) : list node := match l with [] => [] | INode n :: l => inside_of n ++ go l | _ :: l => go l end) l.
(** [m] is reached from [n] by the names [p], from parent to child *)
Inductive reaches : node -> list bytes -> node -> Prop :=
| reaches_here n : reaches n [] n
| reaches_down n c p m : In c (elems_of (n_items n)) -> reaches c p m -> reaches n (n_name c :: p) m.
(** the path starts with the name of the root *)
Definition reached (root : node) (p : list bytes) (m : node) : Prop :=
  match p with [] => False | x :: p => n_name root = x /\ reaches root p m end.
(** no element has two children with the same name *)
Definition names_differ (root : node) : Prop := forall n, In n (all_elems root) -> NoDup (map n_name (elems_of (n_items n))).
(** the elements level after level, [k] levels *)
Fixpoint levels_of (k : nat) (l : list node) : list node :=
  match k with O => [] | S k => l ++ levels_of k (flat_map (fun n => elems_of (n_items n)) l) end.
