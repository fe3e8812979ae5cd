(** Namespaces of a document that is changed: the document as plain text, independent of
    memory and tables. *)
From Verif Require Import Prelude XmlSpec NsSpec NsmemModel.
Open Scope nat_scope.
Open Scope list_scope.

(** an element: its parent, its name and its attributes *)
Definition pelem := (option nat * bytes * list (bytes * option bytes))%type.
Definition pdoc := list pelem.
Definition pattrs (e : pelem) : list (bytes * option bytes) := snd e.
Definition at_ (d : pdoc) (i : nat) (f : list (bytes * option bytes) -> list (bytes * option bytes)) : pdoc :=
  match nth_error d i with
  | Some (p, n, l) => firstn i d ++ (p, n, f l) :: skipn (S i) d
  | None => d
  end.
Definition add (n v : bytes) (l : list (bytes * option bytes)) : list (bytes * option bytes) :=
  if existsb (fun x => bytes_eqb (fst x) n) l then l else (n, Some v) :: l.
Definition del (n : bytes) (l : list (bytes * option bytes)) : list (bytes * option bytes) :=
  filter (fun x => negb (bytes_eqb (fst x) n)) l.
(** what a call does to the text of the document *)
Definition edit (d : pdoc) (c : call) : pdoc :=
  match c with
  | New p n =>
    match d with
    | [] => [(None, n, [])]
    | _ => if p <? length d then d ++ [(Some p, n, [])] else d
    end
  | Set_ i n v | Parsed i n v => match n with [] => d | _ => at_ d i (add n v) end
  | Remove i n => at_ d i (del n)
  | Validate => d
  end.
Definition edits (d : pdoc) (l : list call) : pdoc := fold_left edit l d.

(** the attributes of an element and of its parents *)
Inductive scope_of (d : pdoc) : option nat -> scope -> Prop :=
| scope_none : scope_of d None []
| scope_some i p n ats s : nth_error d i = Some (p, n, ats) -> scope_of d p s -> scope_of d (Some i) (ats :: s).
(** every prefix is declared *)
Definition valid (d : pdoc) : Prop :=
  forall i p n ats s, nth_error d i = Some (p, n, ats) -> scope_of d (Some i) s ->
    name_ok s n /\ forall a, In a (map fst ats) -> is_decl a \/ name_ok s a.
(** element [i] is called [local] in the namespace [ns] *)
Definition is_named (d : pdoc) (i : nat) (ns local : bytes) : Prop :=
  exists p n ats s, nth_error d i = Some (p, n, ats) /\ scope_of d (Some i) s /\ named s n ns local.

(** names that start as a declaration does *)
Definition decl_like (a : bytes) : Prop := exists r, a = str "xmlns" ++ r.
(** no name uses the prefix xml, and there are no attributes like xmlnsfoo (as in C39) *)
Definition ordinary (d : pdoc) : Prop :=
  forall i p n ats, nth_error d i = Some (p, n, ats) ->
    ~ uses_xml n /\ forall a, In a (map fst ats) -> ~ lookalike a /\ ~ uses_xml a.
(** the same of the names in a call *)
Definition usual (c : call) : Prop :=
  match c with
  | New _ n => ~ uses_xml n
  | Set_ _ n _ | Parsed _ n _ => ~ lookalike n /\ ~ uses_xml n
  | _ => True
  end.
(** calls that remove no declaration *)
Definition keeps (c : call) : Prop := match c with Remove _ n => ~ decl_like n | _ => True end.
(** calls after which tables that were made stay as they are: no declaration is removed, and
    nothing is removed from an element that has eleven attributes *)
Definition calm (d : pdoc) (c : call) : Prop :=
  match c with
  | Remove i n => ~ decl_like n /\ forall p m ats, nth_error d i = Some (p, m, ats) -> In n (map fst ats) -> length ats <> 11
  | Validate => False
  | _ => True
  end.
Fixpoint all_calm (d : pdoc) (l : list call) : Prop :=
  match l with [] => True | c :: r => calm d c /\ all_calm (edit d c) r end.
(** calls that set a declaration *)
Definition declares (c : call) : bool :=
  match c with Set_ _ n _ | Parsed _ n _ => bytes_eqb (firstn 5 n) (str "xmlns") | _ => false end.
