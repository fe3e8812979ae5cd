(** Driving the stack models with a history of API calls. *)
From Verif Require Import Prelude Arr StackModel StackSpec.

Section Exec.
Variable P : Type.
(** dispatch only; the foreach handler records what it is given *)
Definition sexec (s : stack P) (o : sop P) : res (stack P * sans P) :=
  match o with
  | SPush x => s <- stack_push P s x ;; Ok (s, SUnit)
  | SPop => '(s, p) <- stack_pop P s ;; Ok (s, SVal p)
  | SPeek => p <- stack_peek P s ;; Ok (s, SVal p)
  | SSize => Ok (s, SNat (stack_size P s))
  | SIsEmpty => Ok (s, SBool (stack_is_empty P s))
  | SForeach stop =>
    '(l, c) <- stack_foreach P (list (option P)) (fun x acc => (acc ++ [x], stop x)) s [] ;;
    Ok (s, SVisited l c)
  end.
Fixpoint sexec_all (s : stack P) (ops : list (sop P)) : res (stack P * list (sans P)) :=
  match ops with
  | [] => Ok (s, [])
  | o :: r => '(s, a) <- sexec s o ;; '(s, l) <- sexec_all s r ;; Ok (s, a :: l)
  end.
End Exec.

Definition bexec (s : bstack) (o : bop) : res (bstack * bans) :=
  match o with
  | BPush x => s <- bstack_push s x ;; Ok (s, BUnit)
  | BPushSame => s <- bstack_push_the_same s ;; Ok (s, BUnit)
  | BPop => '(s, p) <- bstack_pop s ;; Ok (s, BBool p)
  | BPeek => p <- bstack_peek s ;; Ok (s, BBool p)
  | BSize => Ok (s, BInt (bstack_size s))
  | BIsEmpty => Ok (s, BBool (bstack_is_empty s))
  end.
Fixpoint bexec_all (s : bstack) (ops : list bop) : res (bstack * list bans) :=
  match ops with
  | [] => Ok (s, [])
  | o :: r => '(s, a) <- bexec s o ;; '(s, l) <- bexec_all s r ;; Ok (s, a :: l)
  end.
