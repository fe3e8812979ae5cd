(** Trees of elements, the orders in which they are searched and visited. *)
From Verif Require Import Prelude ItemModel ItemSpec FindModel.
Open Scope nat_scope.
Open Scope list_scope.

(** the elements among children *)
Definition elements (l : list child) : list nat := flat_map (fun c => match c with (KNode, n) => [n] | _ => [] end) l.

Inductive tree := T (n : nat) (ts : list tree).
Definition label (t : tree) : nat := match t with T n _ => n end.
Definition subs (t : tree) : list tree := match t with T _ ts => ts end.
(** document order *)
Fixpoint pre (t : tree) : list nat := match t with T n ts => n :: flat_map pre ts end.
(** the descendants: the children, then what is below each of them *)
Fixpoint below (t : tree) : list nat := match t with T _ ts => map label ts ++ flat_map below ts end.
Fixpoint height (t : tree) : nat := match t with T _ ts => S (list_max (map height ts)) end.

(** [t] is the tree of elements at its label in the family *)
Inductive shows (f : family) : tree -> Prop :=
| Shows n ts : elements (f n) = map label ts -> (forall t, In t ts -> shows f t) -> shows f (T n ts).

(** [l] is one level, [next] the level below, in order *)
Definition next_level (l : list tree) : list tree := flat_map subs l.
Fixpoint levels (k : nat) (l : list tree) : list nat :=
  match k with O => [] | S k => map label l ++ levels k (next_level l) end.

(** ** Visits: the handler is asked for each element; an element that it removes is not
    entered *)
Section Visit.
Variable decide : calls -> verdict.
(** in document order *)
Fixpoint deep (p : option nat) (t : tree) (seen : calls) : calls * bool :=
  match t with
  | T n ts =>
    let seen := seen ++ [(n, p)] in
    if negb (v_go (decide seen)) then (seen, false)
    else if v_removed (decide seen) then (seen, true)
    else (fix go (ts : list tree) (seen : calls) : calls * bool :=
            match ts with
            | [] => (seen, true)
            | t :: ts => let (seen, b) := deep (Some n) t seen in if b then go ts seen else (seen, false)
            end) ts seen
  end.
(** one level, with what it leaves for the next one *)
Fixpoint level (l : list (tree * option nat)) (seen : calls) : list (tree * option nat) * calls * bool :=
  match l with
  | [] => ([], seen, true)
  | (T n ts, p) :: l =>
    let seen := seen ++ [(n, p)] in
    if negb (v_go (decide seen)) then ([], seen, false)
    else
      let '(next, seen', b) := level l seen in
      ((if v_removed (decide seen) then [] else map (fun t => (t, Some n)) ts) ++ next, seen', b)
  end.
(** level after level *)
Inductive wide : list (tree * option nat) -> calls -> calls -> bool -> Prop :=
| wide_end seen : wide [] seen seen true
| wide_stop l seen next seen' : level l seen = (next, seen', false) -> wide l seen seen' false
| wide_level l seen next seen' seen'' b : l <> [] -> level l seen = (next, seen', true) -> wide next seen' seen'' b -> wide l seen seen'' b.

(** the elements removed *)
Fixpoint gone (done todo : calls) : list nat :=
  match todo with
  | [] => []
  | c :: todo => (if v_removed (decide (done ++ [c])) then [fst c] else []) ++ gone (done ++ [c]) todo
  end.
Definition stays (l : list nat) (c : child) : bool := match c with (KNode, n) => negb (existsb (Nat.eqb n) l) | _ => true end.
(** the family without them *)
Definition without (s : fam) (l : list nat) : fam := Fam (f_new s) (f_nodes s) (fun p => filter (stays l) (f_kids s p)).
End Visit.
(** a handler that looks at everything *)
Definition always : calls -> verdict := fun _ => Verdict true false.

(** ** Paths *)
Inductive spells (name : nat -> bytes) (f : family) : nat -> list bytes -> nat -> Prop :=
| spells_here n : spells name f n [] n
| spells_down n c x l m : In c (elements (f n)) -> name c = x -> spells name f c l m -> spells name f n (x :: l) m.
(** [m] is found at the path [l] from the root *)
Definition at_path (name : nat -> bytes) (f : family) (root : nat) (l : list bytes) (m : nat) : Prop :=
  match l with [] => False | x :: l => name root = x /\ spells name f root l m end.
Definition path_text (l : list bytes) : bytes := flat_map (fun x => slash ++ x) l.
(** names used in paths *)
Definition plain (x : bytes) : Prop := nul_free x /\ ~ In "/"%char x /\ x <> [] /\ x <> star.
(** what is between two slashes *)
Definition segment (x : bytes) : Prop := nul_free x /\ ~ In "/"%char x.
(** no element has two children with the same name *)
Definition unique_names (name : nat -> bytes) (s : fam) : Prop := forall p, known s p = true -> NoDup (map name (elements (f_kids s p))).
(** the first one called [x] *)
Definition called (name : nat -> bytes) (x : bytes) (l : list nat) : option nat := find (fun n => bytes_eqb (name n) x) l.
