(** What a Python program expects of the objects of py-axl, and what it has to respect. *)
From Verif Require Import Prelude PyModel.
Open Scope nat_scope.

(** all nodes that hang from something *)
Definition all_addrs (l : list (tree * option nat)) : list nat := flat_map (fun x => addrs (fst x)) l.
Definition body_of (o : nat) (w : world) : option body := option_map o_body (look o (w_objs w)).
(** an object refers to something that is allocated *)
Definition valid (w : world) (b : body) : Prop :=
  match b with
  | BDoc d _ => In d (w_docs w)
  | BNode (Some a) _ _ => In a (w_live w)
  | BNode None _ _ => True
  end.

(** the objects that are collected when the program gives up a reference *)
Definition last_ref (o : nat) (w : world) : bool :=
  match look o (w_objs w) with Some (Obj r _) => r <=? 1 | None => false end.
Definition collected (o : nat) (w : world) : list nat :=
  if last_ref o w then
    o :: match body_of o w with
         | Some (BNode _ _ (Some q)) => if last_ref q w then [q] else []
         | _ => []
         end
  else [].
(** the nodes that are released with an object *)
Definition owned (w : world) (b : body) : list nat :=
  match b with
  | BNode (Some a) true _ => match sub_of a w with Some t => addrs t | None => [] end
  | BDoc d true => all_addrs (filter (is_root_of d) (w_trees w))
  | _ => []
  end.
Definition refers_into (l : list nat) (b : body) : Prop :=
  match b with BNode (Some a) _ _ => In a l | _ => False end.
Definition made_by (o : nat) (w : world) : Prop := exists a q, body_of o w = Some (BNode (Some a) true q).

(** what the program has to respect:
    - a reference is given up only if no object that remains refers to what is released with it,
    - a document gets a root only once, and only a node whose object made it and has not handed
      it over becomes a root or a child,
    - a child is put below a node that is itself in a document, or whose object made it and has
      not handed it over; a sibling only beside a node with a parent,
    - a node is removed with its memory, and no other object refers to it or to what is below it *)
Definition proper (w : world) (c : action) : Prop :=
  match c with
  | ASetRoot o n =>
    made_by n w /\ forall d fin, body_of o w = Some (BDoc d fin) -> root_addr d w = None
  | ASetChild o c =>
    made_by c w /\
    forall a fin q b fin' q', body_of o w = Some (BNode (Some a) fin q) -> body_of c w = Some (BNode (Some b) fin' q') ->
      (fin = true \/ exists d, get_doc a w = Ok (Some d)) /\
      forall t, sub_of b w = Some t -> ~ In a (addrs t)
  | ASetAfter o c =>
    made_by c w /\
    forall a fin q b fin' q', body_of o w = Some (BNode (Some a) fin q) -> body_of c w = Some (BNode (Some b) fin' q') ->
      (exists d, get_doc a w = Ok (Some d)) /\
      (exists t od p, where_ a w = Some (t, od) /\ par a t = Some p) /\
      forall t, sub_of b w = Some t -> ~ In a (addrs t)
  | ARemove o dealloc =>
    dealloc = true /\
    forall a fin q t, body_of o w = Some (BNode (Some a) fin q) -> sub_of a w = Some t ->
    forall y b, y <> o -> body_of y w = Some b -> ~ refers_into (addrs t) b
  | ADrop o =>
    forall x bx y b, In x (collected o w) -> body_of x w = Some bx -> ~ In y (collected o w) -> body_of y w = Some b ->
      ~ refers_into (owned w bx) b /\ forall d fin, bx = BDoc d true -> b <> BDoc d fin
  | _ => True
  end.
Fixpoint proper_all (w : world) (l : list action) : Prop :=
  match l with [] => True | c :: r => proper w c /\ forall w', act c w = Ok w' -> proper_all w' r end.

(** a program that reads: it parses documents, makes empty ones, moves around in them and looks at
    their nodes, and keeps and gives up references in any order *)
Definition reads (c : action) : bool :=
  match c with
  | ADoc | AParse _ | ARoot _ | ADocGet _ _ | AGo _ _ | ARead _ | ADup _ | ADrop _ => true
  | _ => false
  end.

(** what holds at every moment of a program that respects this: nothing is released that is still
    part of a tree, every object refers to something allocated, every node is released with some
    object, and when the program has no reference left nothing is left *)
Definition sound (w : world) : Prop :=
  (forall a, In a (w_live w) <-> In a (all_addrs (w_trees w))) /\ NoDup (w_live w) /\
  (forall o b, body_of o w = Some b -> valid w b) /\
  (forall a, In a (w_live w) -> exists o b, body_of o w = Some b /\ In a (owned w b)) /\
  (w_held w = [] -> w_objs w = [] /\ w_live w = [] /\ w_docs w = []).
