(** XML namespaces as the recommendation has them, on the documents of XmlSpec: independent
    of the functions that validate and compare. *)
From Verif Require Import Prelude XmlSpec.
Open Scope list_scope.

(** [name] is prefix, colon, local part *)
Definition splits (name prefix local : bytes) : Prop := name = prefix ++ ":"%char :: local /\ ~ In ":"%char prefix.
Definition unprefixed (name : bytes) : Prop := ~ In ":"%char name.

(** attributes of an element and of its ancestors, the innermost first *)
Definition scope := list (list (bytes * option bytes)).
Definition default_decl : bytes := str "xmlns".
Definition decl (p : bytes) : bytes := str "xmlns:" ++ p.
(** the nearest attribute called [key] has the value [v] *)
Inductive nearest (key : bytes) : scope -> bytes -> Prop :=
| nearest_here ats s v : In (key, Some v) ats -> nearest key (ats :: s) v
| nearest_up ats s v : ~ In key (map fst ats) -> nearest key s v -> nearest key (ats :: s) v.
Definition declared (s : scope) (p : bytes) : Prop := p = str "xml" \/ Exists (fun ats => In (decl p) (map fst ats)) s.
Definition is_decl (a : bytes) : Prop := a = default_decl \/ exists p, a = decl p.

(** the elements among items, and the element at a path with its scope *)
Fixpoint elems (l : list xitem) : list xnode :=
  match l with [] => [] | XElem x :: r => x :: elems r | _ :: r => elems r end.
Inductive at_path : scope -> xnode -> list nat -> xnode -> scope -> Prop :=
| at_here s name ats items : at_path s (XNode name ats items) [] (XNode name ats items) (ats :: s)
| at_below s name ats items i c path y s' : nth_error (elems items) i = Some c -> at_path (ats :: s) c path y s' ->
    at_path s (XNode name ats items) (i :: path) y s'.
Definition xname (x : xnode) : bytes := let '(XNode n _ _) := x in n.
Definition xattrs (x : xnode) : list (bytes * option bytes) := let '(XNode _ a _) := x in a.

(** every prefix used is declared *)
Definition name_ok (s : scope) (name : bytes) : Prop := forall p l, splits name p l -> declared s p.
Definition ns_valid (x : xnode) : Prop :=
  forall path y s, at_path [] x path y s ->
    name_ok s (xname y) /\ forall a, In a (map fst (xattrs y)) -> is_decl a \/ name_ok s a.

(** the element [name] in the scope [s] is the element [local] of the namespace [ns] *)
Definition named (s : scope) (name ns local : bytes) : Prop :=
  (exists p, splits name p local /\ nearest (decl p) s ns) \/
  (unprefixed name /\ name = local /\ nearest default_decl s ns).

(** ** what the theorems leave out *)
(** attributes like xmlnsfoo: they start as a declaration does, and are none *)
Definition lookalike (a : bytes) : Prop := (exists r, a = str "xmlns" ++ r) /\ ~ is_decl a.
(** names that use the prefix xml, which is declared without being declared *)
Definition uses_xml (name : bytes) : Prop := exists l, splits name (str "xml") l.
Definition ordinary (x : xnode) : Prop :=
  forall path y s, at_path [] x path y s ->
    ~ uses_xml (xname y) /\ forall a, In a (map fst (xattrs y)) -> ~ lookalike a /\ ~ uses_xml a.

(** ** searching below an element, [s] being its scope and [l] its elements *)
Definition nth_named (s : scope) (l : list xnode) (ns local : bytes) (i : nat) : Prop :=
  exists c, nth_error l i = Some c /\ named (xattrs c :: s) (xname c) ns local.
(** the first one *)
Definition first_named (s : scope) (l : list xnode) (ns local : bytes) (o : option nat) : Prop :=
  match o with
  | Some i => nth_named s l ns local i /\ forall j, j < i -> ~ nth_named s l ns local j
  | None => forall j, ~ nth_named s l ns local j
  end.
(** the first one after the [i]-th, and the last one before it *)
Definition next_named (s : scope) (l : list xnode) (ns local : bytes) (i : nat) (o : option nat) : Prop :=
  match o with
  | Some k => i < k /\ nth_named s l ns local k /\ forall j, i < j < k -> ~ nth_named s l ns local j
  | None => forall j, i < j -> ~ nth_named s l ns local j
  end.
Definition previous_named (s : scope) (l : list xnode) (ns local : bytes) (i : nat) (o : option nat) : Prop :=
  match o with
  | Some k => k < i /\ nth_named s l ns local k /\ forall j, k < j < i -> ~ nth_named s l ns local j
  | None => forall j, j < i -> ~ nth_named s l ns local j
  end.
(** nothing below *)
Definition none_below (s : scope) (x : xnode) (ns local : bytes) : Prop :=
  forall path y s', path <> [] -> at_path s x path y s' -> ~ named s' (xname y) ns local.
(** the first one below [x], whose parents have the scope [s]: a child, otherwise the first
    one below a child *)
Inductive found_below (ns local : bytes) : scope -> xnode -> list nat -> Prop :=
| found_child s x i : first_named (xattrs x :: s) (elems (xitems x)) ns local (Some i) -> found_below ns local s x [i]
| found_deeper s x i c path : first_named (xattrs x :: s) (elems (xitems x)) ns local None ->
    nth_error (elems (xitems x)) i = Some c -> found_below ns local (xattrs x :: s) c path ->
    (forall j d, j < i -> nth_error (elems (xitems x)) j = Some d -> none_below (xattrs x :: s) d ns local) ->
    found_below ns local s x (i :: path).
