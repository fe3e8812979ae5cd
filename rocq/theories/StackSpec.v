(** What a user expects of the two stacks: plain lists, top of the stack first. *)
From Verif Require Import Prelude.

Section Spec.
Variable P : Type.

Inductive sop :=
| SPush (x : option P)             (* None: pushing NULL *)
| SPop | SPeek | SSize | SIsEmpty
| SForeach (stop : option P -> bool).   (* visit until [stop]; report the visited values *)

Inductive sans :=
| SUnit
| SVal (x : option P)
| SNat (n : nat)
| SBool (b : bool)
| SVisited (l : list (option P)) (complete : bool).

(** values seen when walking [l] and stopping after the first one satisfying [stop] *)
Fixpoint walk (stop : option P -> bool) (l : list P) : list (option P) * bool :=
  match l with
  | [] => ([], true)
  | x :: r =>
    if stop (Some x) then ([Some x], false)
    else let '(v, c) := walk stop r in (Some x :: v, c)
  end.

Definition sspec (l : list P) (o : sop) : list P * sans :=
  match o with
  | SPush None => (l, SUnit)
  | SPush (Some x) => (x :: l, SUnit)
  | SPop => match l with [] => ([], SVal None) | x :: r => (r, SVal (Some x)) end
  | SPeek => (l, SVal (hd_error l))
  | SSize => (l, SNat (length l))
  | SIsEmpty => (l, SBool (match l with [] => true | _ => false end))
  | SForeach stop => (l, let '(v, c) := walk stop l in SVisited v c)
  end.

Fixpoint srun (l : list P) (ops : list sop) : list P * list sans :=
  match ops with
  | [] => (l, [])
  | o :: r => let '(l1, a) := sspec l o in let '(l2, as_) := srun l1 r in (l2, a :: as_)
  end.
End Spec.
Arguments SPush {P} x. Arguments SPop {P}. Arguments SPeek {P}. Arguments SSize {P}.
Arguments SIsEmpty {P}. Arguments SForeach {P} stop.
Arguments SUnit {P}. Arguments SVal {P} x. Arguments SNat {P} n. Arguments SBool {P} b.
Arguments SVisited {P} l complete.

(** the stack of booleans *)
Inductive bop := BPush (b : bool) | BPushSame | BPop | BPeek | BSize | BIsEmpty.
Inductive bans := BUnit | BBool (b : bool) | BInt (z : Z).
Definition bspec (l : list bool) (o : bop) : list bool * bans :=
  match o with
  | BPush b => (b :: l, BUnit)
  | BPushSame => (match l with [] => [] | b :: r => b :: b :: r end, BUnit)
  | BPop => match l with [] => ([], BBool false) | b :: r => (r, BBool b) end
  | BPeek => (l, BBool (hd false l))
  | BSize => (l, BInt (Z.of_nat (length l)))
  | BIsEmpty => (l, BBool (match l with [] => true | _ => false end))
  end.
Fixpoint bsrun (l : list bool) (ops : list bop) : list bool * list bans :=
  match ops with
  | [] => (l, [])
  | o :: r => let '(l1, a) := bspec l o in let '(l2, as_) := bsrun l1 r in (l2, a :: as_)
  end.
