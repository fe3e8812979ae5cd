(** What a content specification means, and the specifications for which the validator
    keeps to it. *)
From Verif Require Import Prelude DtdModel.
Open Scope nat_scope.
Open Scope list_scope.

Definition word := list bytes.
Definition words := word -> Prop.
(** any number of words of [L], one after the other *)
Inductive star (L : words) : words :=
| star_nil : star L []
| star_app u v : L u -> star L v -> star L (u ++ v).
Definition reps (t : times) (L : words) : words :=
  match t with
  | TOne => L
  | TOpt => fun w => w = [] \/ L w
  | TMany => star L
  | TPlus => fun w => exists u v, w = u ++ v /\ L u /\ star L v
  | TUnknown => fun _ => False
  end.
(** one word of each, in order *)
Fixpoint in_order (Ls : list words) : words :=
  match Ls with
  | [] => fun w => w = []
  | L :: Ls => fun w => exists u v, w = u ++ v /\ L u /\ in_order Ls v
  end.
Definition one_of (Ls : list words) : words := fun w => exists L, In L Ls /\ L w.
(** the sequences of child names that a specification allows (XML 1.0, 3.2.1) *)
Fixpoint lang (p : part) : words :=
  match p with
  | Leaf x t => reps t (fun w => w = [x])
  | Group Sequence t ps => reps t (in_order (map lang ps))
  | Group _ t ps => reps t (one_of (map lang ps))
  end.
Definition once (ty : nested) (ps : list part) : words := match ty with Sequence => in_order (map lang ps) | _ => one_of (map lang ps) end.

(** ** Where acceptance is sound *)
Definition optional (t : times) : bool := match t with TOpt | TMany => true | _ => false end.
(** the empty word is allowed *)
Fixpoint nullable (p : part) : bool :=
  match p with
  | Leaf _ t => optional t
  | Group ty t ps => optional t || (negb (times_eqb t TUnknown) && (if is_sequence ty then forallb nullable ps else existsb nullable ps))
  end.
Definition null_once (ty : nested) (ps : list part) : bool := if is_sequence ty then forallb nullable ps else existsb nullable ps.
Definition known_times (t : times) : bool := negb (times_eqb t TUnknown).
(** nothing compulsory comes after something optional *)
Fixpoint optional_last (ps : list part) : bool :=
  match ps with
  | [] => true
  | p :: ps => (if optional (repeat_of p) then forallb nullable ps else true) && optional_last ps
  end.
Definition leaf_optional (p : part) : bool := match p with Leaf _ t => optional t | _ => false end.
(** a failure does not move the position *)
Fixpoint stays (p : part) : bool :=
  match p with
  | Leaf _ t => known_times t
  | Group ty t ps =>
    if is_sequence ty then match ps with [] => true | q :: qs => stays q && forallb leaf_optional qs end
    else forallb stays ps
  end.
Fixpoint safe (p : part) : bool :=
  match p with
  | Leaf _ t => known_times t
  | Group ty t ps =>
    known_times t && forallb safe ps && (if is_sequence ty then optional_last ps else forallb stays ps) &&
    (if times_eqb t TPlus then null_once ty ps else true)
  end.
(** at the top a [+] needs not be nullable, if one of its items is a compulsory name *)
Definition compulsory (p : part) : bool := match p with Leaf _ t => times_eqb t TOne || times_eqb t TPlus | _ => false end.
Definition safe_top (p : part) : bool :=
  match p with
  | Leaf _ _ => false
  | Group ty t ps =>
    known_times t && forallb safe ps && (if is_sequence ty then optional_last ps else forallb stays ps) &&
    (if times_eqb t TPlus then null_once ty ps || existsb compulsory ps else true)
  end.

(** ** Where everything allowed is accepted
    One name of look-ahead tells what to do, and every repetition has something to match. *)
Definition memb (x : bytes) (l : list bytes) : bool := existsb (bytes_eqb x) l.
Definition apart (a b : list bytes) : bool := forallb (fun x => negb (memb x b)) a.
(** passed over when the next name is not one it starts with *)
Fixpoint skips (p : part) : bool :=
  match p with
  | Leaf _ t => optional t
  | Group ty t ps => match t with TOne => is_sequence ty && forallb skips ps | TUnknown => false | _ => true end
  end.
Definition skips_once (ty : nested) (ps : list part) : bool := is_sequence ty && forallb skips ps.
Fixpoint seq_starts (l : list (list bytes * bool)) : list bytes :=
  match l with [] => [] | (s, k) :: l => s ++ (if k : bool then seq_starts l else []) end.
(** the names it may start with *)
Fixpoint starts (p : part) : list bytes :=
  match p with
  | Leaf x _ => [x]
  | Group ty _ ps => if is_sequence ty then seq_starts (map (fun q => (starts q, skips q)) ps) else flat_map starts ps
  end.
Definition starts_once (ty : nested) (ps : list part) : list bytes := if is_sequence ty then seq_starts (map (fun q => (starts q, skips q)) ps) else flat_map starts ps.
Fixpoint seq_grows (l : list (list bytes * bool)) : list bytes :=
  match l with [] => [] | (s, _) :: l => (if forallb snd l then s else []) ++ seq_grows l end.
(** the names with which it may go on when it could also end *)
Fixpoint grows (p : part) : list bytes :=
  match p with
  | Leaf x t => if times_eqb t TOne then [] else [x]
  | Group ty t ps =>
    (if is_sequence ty then seq_grows (map (fun q => (grows q, nullable q)) ps) else flat_map grows ps) ++
    (if times_eqb t TOne then [] else starts_once ty ps)
  end.
Definition grows_once (ty : nested) (ps : list part) : list bytes := if is_sequence ty then seq_grows (map (fun q => (grows q, nullable q)) ps) else flat_map grows ps.
(** what may continue an item does not start one of the following *)
Fixpoint seq_det (ps : list part) : bool :=
  match ps with [] => true | q :: qs => apart (grows q) (starts_once Sequence qs) && seq_det qs end.
(** each alternative starts with names of its own *)
Fixpoint choice_det (ps : list part) : bool :=
  match ps with [] => true | q :: qs => negb (skips q) && forallb (fun r => apart (starts r) (starts q)) qs && choice_det qs end.
Fixpoint det (p : part) : bool :=
  match p with
  | Leaf _ t => known_times t
  | Group ty t ps =>
    forallb det ps && negb (null_once ty ps) && (if is_sequence ty then seq_det ps else choice_det ps) &&
    match t with
    | TUnknown => false
    | TOne => true
    | TOpt => negb (is_sequence ty)
    | TMany | TPlus =>
      apart (starts_once ty ps) (grows_once ty ps) && negb (skips_once ty ps) &&
      (if is_sequence ty then match ps with [] => false | q :: _ => negb (optional (repeat_of q)) end else true)
    end
  end.
(** an element at the root of the DTD: a sequence there cannot be repeated with [+] *)
Definition det_top (p : part) (top : bool) : bool :=
  match p with
  | Leaf _ _ => false
  | Group ty t ps => det p && negb (top && is_sequence ty && times_eqb t TPlus)
  end.

(** ** Where the validation ends *)
(** a match takes at least one child, if there is one *)
Fixpoint takes (p : part) : bool :=
  match p with
  | Leaf _ t => match t with TOne | TPlus => true | _ => false end
  | Group ty t ps =>
    match t with
    | TOne => if is_sequence ty then existsb takes ps else forallb (fun q => match q with Leaf _ _ => true | _ => takes q end) ps
    | TOpt => is_sequence ty && existsb takes ps
    | _ => false
    end
  end.
Definition takes_once (ty : nested) (ps : list part) : bool := if is_sequence ty then existsb takes ps else forallb (fun q => match q with Leaf _ _ => true | _ => takes q end) ps.
Definition needs (ps : list part) : bool := match ps with [] => false | q :: _ => negb (optional (repeat_of q)) end.
Fixpoint ends (p : part) : bool :=
  match p with
  | Leaf _ t => known_times t
  | Group ty t ps =>
    forallb ends ps &&
    match t with
    | TMany | TPlus => takes_once ty ps && (if is_sequence ty then needs ps else true)
    | _ => true
    end
  end.
