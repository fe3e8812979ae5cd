(** What a user expects of the comparison and the copy of trees: independent of the
    functions that compare and copy. *)
From Coq Require Import Permutation.
From Verif Require Import Prelude StrSpec AttrSpec AttrModel TreeModel EqModel XmlSpec.
Open Scope list_scope.

(** a text without the white space around it *)
Fixpoint drop_white (s : bytes) : bytes :=
  match s with c :: r => if white c then drop_white r else s | [] => [] end.
Definition strip (s : bytes) : bytes := rev (drop_white (rev (drop_white s))).

(** two texts are the same: up to surrounding white space when [trim] *)
Definition same_text (trim : bool) (s t : bytes) : Prop := if trim then strip s = strip t else s = t.

(** two trees are the same: names, the attributes in any order, the items in order *)
Inductive same (trim : bool) : xnode -> xnode -> Prop :=
| Same name ats ats' l l' : Permutation ats ats' -> same_items trim l l' -> same trim (XNode name ats l) (XNode name ats' l')
with same_items (trim : bool) : list xitem -> list xitem -> Prop :=
| same_nil : same_items trim [] []
| same_elem x y l m : same trim x y -> same_items trim l m -> same_items trim (XElem x :: l) (XElem y :: m)
| same_xtext s t l m : same_text trim s t -> same_items trim l m -> same_items trim (XText s :: l) (XText t :: m)
| same_cdata s t l m : same_text trim s t -> same_items trim l m -> same_items trim (XCdata s :: l) (XCdata t :: m)
| same_comment s t l m : same_text trim s t -> same_items trim l m -> same_items trim (XComment s :: l) (XComment t :: m)
| same_ref s t l m : same_text trim s t -> same_items trim l m -> same_items trim (XRef s :: l) (XRef t :: m)
| same_pi n c l m : same_items trim l m -> same_items trim (XPi n c :: l) (XPi n c :: m).

(** attributes that come from the parser or from the API: set, removed and copied in any way *)
Inductive made : attrs -> Prop :=
| made_none : made no_attrs
| made_core a k v fac a' r : made a -> nul_free k -> nul_free v -> set_attribute_core a k (Some v) fac = Ok (a', r) -> made a'
| made_set a k v a' : made a -> good_name k -> nul_free v -> set_attribute a k v = Ok a' -> made a'
| made_remove a k a' l : made a -> attr_foreach (fun _ _ => false) a = Ok l -> Forall (fun p => good_name (fst p)) l ->
    nul_free k -> remove_attribute a k = Ok a' -> made a'
| made_copy a a' : made a -> copy_attrs a = Ok a' -> made a'.

(** trees with such attributes, whose strings have no NUL inside *)
Inductive regular : node -> Prop :=
| Regular name a l : nul_free name -> made a -> regular_items l -> regular (Node name a l)
with regular_items : list item -> Prop :=
| regular_nil : regular_items []
| regular_node n l : regular n -> regular_items l -> regular_items (INode n :: l)
| regular_content b l : nul_free b -> regular_items l -> regular_items (IContent b :: l)
| regular_cdata b l : nul_free b -> regular_items l -> regular_items (ICdata b :: l)
| regular_comment b l : nul_free b -> regular_items l -> regular_items (IComment b :: l)
| regular_ref b l : nul_free b -> regular_items l -> regular_items (IRef b :: l)
| regular_pi n c l : nul_free n -> (forall v, c = Some v -> nul_free v) -> regular_items l -> regular_items (IPi (Pi n c) :: l).

(** [P] of every item at any depth *)
Fixpoint all_items (P : item -> bool) (n : node) : bool :=
  let '(Node _ _ l) := n in forallb (fun i => P i && match i with INode c => all_items P c | _ => true end) l.
(** every processing instruction has a content *)
Definition pi_full (i : item) : bool := match i with IPi (Pi _ None) => false | _ => true end.
(** not an entity reference *)
Definition no_ref (i : item) : bool := match i with IRef _ => false | _ => true end.
