(** What a namespace error says, and where it has to be. *)
From Verif Require Import Prelude XmlSpec NsSpec NserrModel.
Open Scope nat_scope.
Open Scope list_scope.

(** The errors reported *)
Definition errors (ev : list event) : list nserr := flat_map (fun e => match e with Error er => [er] | _ => [] end) ev.
(** Cursors are made one at a time, and each is released: [now] one is in use *)
Fixpoint cursors (now : bool) (ev : list event) : Prop :=
  match ev with
  | [] => now = false
  | CursorNew :: r => now = false /\ cursors true r
  | CursorFree :: r => now = true /\ cursors false r
  | Error _ :: r => cursors now r
  end.
(** The element at the first path starts before the one at the second *)
Inductive before : list nat -> list nat -> Prop :=
| before_inside i q : before [] (i :: q)
| before_sibling i j p q : i < j -> before (i :: p) (j :: q)
| before_same i p q : before p q -> before (i :: p) (i :: q).
(** All prefixes of the name and the attributes of an element are declared *)
Definition fine (y : xnode) (s : scope) : Prop :=
  name_ok s (xname y) /\ forall a, In a (map fst (xattrs y)) -> is_decl a \/ name_ok s a.
(** What the message says of the element is so *)
Definition says (er : nserr) (y : xnode) (s : scope) : Prop :=
  match er with
  | NamePrefix => ~ name_ok s (xname y)
  | AttrPrefix => name_ok s (xname y) /\ exists a, In a (map fst (xattrs y)) /\ ~ is_decl a /\ ~ name_ok s a
  | _ => False
  end.
