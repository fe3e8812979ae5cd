(** What an axlList is supposed to be: a finite sequence.  This file does not
    mention cells, pointers or the pool. *)
From Verif Require Import Prelude.
Open Scope Z_scope.

Section ListSpec.
Variable D : Type.
Variable null : D.
Variable deqb : D -> D -> bool.
Variable cmp : D -> D -> Z.
Variable has_destroy : bool.

(** API calls.  The boolean of removals: [true] = axl_list_remove*, which also
    calls the destroy function, [false] = axl_list_unlink*. *)
Inductive op :=
| OAppend (x : D) | OPrepend (x : D) | OAddAt (x : D) (pos : Z) | OAdd (x : D)
| ORemove (x : D) (also : bool) | ORemovePtr (x : D) (also : bool)
| ORemoveAt (pos : Z) (also : bool)
| ORemoveFirst (also : bool) | ORemoveLast (also : bool)
| OGetNth (pos : Z) | OGetFirst | OGetLast | OLength | OIsEmpty
| OExistsAt (x : D) (pos : Z) | OLookup (f : D -> bool) | OExists (x : D).

Inductive answer := AUnit | AData (d : D) | AInt (z : Z) | ABool (b : bool).

(** positional views of a sequence *)
Definition insert_at (l : list D) (k : nat) (x : D) : list D :=
  firstn k l ++ x :: skipn k l.
Definition delete_at (l : list D) (k : nat) : list D :=
  firstn k l ++ skipn (S k) l.

(** index of the first element satisfying [p] *)
Fixpoint index_of (p : D -> bool) (l : list D) : option nat :=
  match l with
  | [] => None
  | x :: r => if p x then Some O else option_map S (index_of p r)
  end.

(** position given by the user to an index of a sequence of length [n] *)
Definition in_range (pos : Z) (n : nat) : option nat :=
  if (0 <=? pos) && (pos <? Z.of_nat n) then Some (Z.to_nat pos) else None.

(** where axl_list_add_at inserts: positions outside the list are clamped *)
Definition clamp (pos : Z) (n : nat) : nat :=
  Z.to_nat (Z.max 0 (Z.min pos (Z.of_nat n))).

Definition remove_index (l : list D) (o : option nat) (also : bool) : list D * list D :=
  match o with
  | None => (l, [])
  | Some k => (delete_at l k,
               if also && has_destroy
               then match nth_error l k with Some d => [d] | None => [] end
               else [])
  end.

(** One step of the ideal sequence: new contents, data handed to the destroy
    function, answer. [add] is the sequence obtained by axl_list_add and [exi]
    the answer of axl_list_exists (both depend on the comparison function and
    are specified separately). *)
Variable add : list D -> D -> list D.
Variable exi : list D -> D -> bool.

Definition spec_step (l : list D) (o : op) : list D * list D * answer :=
  match o with
  | OAppend x => (l ++ [x], [], AUnit)
  | OPrepend x => (x :: l, [], AUnit)
  | OAddAt x pos => (insert_at l (clamp pos (length l)) x, [], AUnit)
  | OAdd x => (add l x, [], AUnit)
  | ORemove x also =>
      (remove_index l (index_of (fun d => cmp d x =? 0) l) also, AUnit)
  | ORemovePtr x also => (remove_index l (index_of (fun d => deqb d x) l) also, AUnit)
  | ORemoveAt pos also => (remove_index l (in_range pos (length l)) also, AUnit)
  | ORemoveFirst also => (remove_index l (in_range 0 (length l)) also, AUnit)
  | ORemoveLast also =>
      (remove_index l (in_range (Z.of_nat (length l) - 1) (length l)) also, AUnit)
  | OGetNth pos =>
      (l, [], AData (match in_range pos (length l) with
                     | Some k => nth k l null | None => null end))
  | OGetFirst => (l, [], AData (hd null l))
  | OGetLast => (l, [], AData (last l null))
  | OLength => (l, [], AInt (Z.of_nat (length l)))
  | OIsEmpty => (l, [], ABool (match l with [] => true | _ => false end))
  | OExistsAt x pos =>
      (l, [], ABool (match in_range pos (length l) with
                     | Some k => cmp (nth k l null) x =? 0 | None => false end))
  | OLookup f => (l, [], AData (match find f l with Some d => d | None => null end))
  | OExists x => (l, [], ABool (exi l x))
  end.

(** a history: final contents, everything destroyed (in order), all answers *)
Fixpoint spec_run (l : list D) (ops : list op) : list D * list D * list answer :=
  match ops with
  | [] => (l, [], [])
  | o :: r =>
    let '(l1, d1, a1) := spec_step l o in
    let '(l2, d2, a2) := spec_run l1 r in
    (l2, d1 ++ d2, a1 :: a2)
  end.

(** operations whose effect does not depend on the order induced by the
    comparison function *)
Definition positional (o : op) : Prop :=
  match o with OAdd _ | OExists _ => False | _ => True end.

(** Comparison functions that are the sign of a strict total order [lt]:
    axl_list_add calls [cmp stored new] and reads -1 as "new goes before
    stored", 1 as "new goes after stored". *)
Record order_cmp (lt : D -> D -> Prop) : Prop := {
  oc_lt   : forall a b, cmp a b = -1 <-> lt b a;
  oc_eq   : forall a b, cmp a b = 0 <-> a = b;
  oc_gt   : forall a b, cmp a b = 1 <-> lt a b;
  oc_sign : forall a b, cmp a b = -1 \/ cmp a b = 0 \/ cmp a b = 1;
  oc_trans : forall a b c, lt a b -> lt b c -> lt a c
}.

(** strictly increasing *)
Inductive increasing (lt : D -> D -> Prop) : list D -> Prop :=
| inc_nil : increasing lt []
| inc_cons x l : (forall y, In y l -> lt x y) -> increasing lt l -> increasing lt (x :: l).

End ListSpec.

Arguments op D : clear implicits.
Arguments answer D : clear implicits.
Arguments OGetFirst {D}. Arguments OGetLast {D}. Arguments OLength {D}. Arguments OIsEmpty {D}.
Arguments OAppend {D} x. Arguments OPrepend {D} x. Arguments OAddAt {D} x pos. Arguments OAdd {D} x.
Arguments ORemove {D} x also. Arguments ORemovePtr {D} x also. Arguments ORemoveAt {D} pos also.
Arguments ORemoveFirst {D} also. Arguments ORemoveLast {D} also. Arguments OGetNth {D} pos.
Arguments OExistsAt {D} x pos. Arguments OLookup {D} f. Arguments OExists {D} x.
Arguments AUnit {D}. Arguments AData {D} d. Arguments AInt {D} z. Arguments ABool {D} b.
Arguments positional {D} o.
Arguments increasing {D} lt l.
Arguments order_cmp {D} cmp lt.

(** Histories of an ordered list: only axl_list_add, axl_list_remove/unlink and
    queries. *)
Definition ordered_op {D} (o : op D) : Prop :=
  match o with
  | OAdd _ | ORemove _ _ => True
  | OGetNth _ | OGetFirst | OGetLast | OLength | OIsEmpty | OExistsAt _ _
  | OLookup _ | OExists _ => True
  | _ => False
  end.

(** [y] was added at some point and never removed afterwards *)
Definition live {D} (ops : list (op D)) (y : D) : Prop :=
  exists before after, ops = before ++ OAdd y :: after /\
    forall also, ~ In (ORemove y also) after.
