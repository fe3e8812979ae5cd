(** Model of src/axl_stack.c: the pointer stack and the run-length binary stack.

    Simplifications (whole file): allocation never fails; [int] is unbounded; a
    NULL stack argument (rejected by every entry point) is not modelled. *)
From Verif Require Import Prelude Arr.

Section Stack.
Variable P : Type.                     (* non-NULL pointers; NULL is [None] *)

(** struct _axlStack, axl_stack.c:46-51.  [arr] is the array [stack] of
    [size] = [length arr] slots, [None] for a slot never written.  [sdtrace] is
    the ordered trace of the calls of the destroy function. *)
Record stack := Stack { arr : list (option P); items : nat; sdtrace : list (option P) }.

(** axl_stack_new, axl_stack.c:76-88 *)
Definition stack_new : stack := Stack [] 0 [].

(** axl_stack_push, axl_stack.c:100-138 *)
Definition stack_push (s : stack) (data : option P) : res stack :=
  match data with
  | None => Ok s
  | Some _ =>
    let a := if Nat.eqb (length (arr s)) (items s) then arr s ++ [None] else arr s in
    a <- aset a (items s) data ;;
    Ok (Stack a (S (items s)) (sdtrace s))
  end.

(** axl_stack_is_empty, axl_stack.c:333-339 *)
Definition stack_is_empty (s : stack) : bool := Nat.eqb (items s) 0.

(** axl_stack_size, axl_stack.c:317-323 *)
Definition stack_size (s : stack) : nat := items s.

(** axl_stack_pop, axl_stack.c:148-165 *)
Definition stack_pop (s : stack) : res (stack * option P) :=
  if stack_is_empty s then Ok (s, None)
  else
    let i := items s - 1 in
    p <- aget (arr s) i ;;
    Ok (Stack (arr s) i (sdtrace s), p).

(** axl_stack_peek, axl_stack.c:179-190 *)
Definition stack_peek (s : stack) : res (option P) :=
  if stack_is_empty s then Ok None
  else aget (arr s) (items s - 1).

(** __axl_stack_foreach_common, axl_stack.c:196-224 (also axl_stack_foreach
    256-263 and axl_stack_foreach3 299-307, which only select the handler).  The
    handler [f] works on a caller-defined state [A] and returns true to stop;
    the handler is assumed not to modify the stack. *)
Section Foreach.
Variable A : Type.
Variable f : option P -> A -> A * bool.
Fixpoint stack_foreach_loop (todo iterator : nat) (s : stack) (acc : A) : res (A * bool) :=
  match todo with
  | O => Ok (acc, true)
  | S todo' =>
    x <- aget (arr s) (items s - iterator - 1) ;;
    let '(acc, stop) := f x acc in
    if stop then Ok (acc, false) else stack_foreach_loop todo' (S iterator) s acc
  end.
Definition stack_foreach (s : stack) (acc : A) : res (A * bool) :=
  stack_foreach_loop (items s) 0 s acc.
End Foreach.

(** axl_stack_free, axl_stack.c:346-368: the destroy calls it makes *)
Fixpoint stack_free_loop (todo : nat) (s : stack) : res stack :=
  if stack_is_empty s then Ok s
  else match todo with
  | O => NoFuel
  | S todo' =>
    '(s, p) <- stack_pop s ;;
    stack_free_loop todo' (Stack (arr s) (items s) (sdtrace s ++ [p]))
  end.
Definition stack_free (has_destroy : bool) (s : stack) : res stack :=
  if has_destroy then stack_free_loop (items s) s else Ok s.

End Stack.

(** struct _axlBinaryStackNode, axl_stack.c:372-375 *)
Record bnode := BNode { b_count : nat; b_state : bool }.

(** struct _axlBinaryStack, axl_stack.c:378-383 (the unused [factory] field
    dropped), with the heap of nodes; a freed node is unmapped. *)
Record bstack := BStack {
  b_last : option nat;
  b_stack : stack nat;
  b_total : Z;
  b_heap : nat -> option bnode;
  b_fresh : nat
}.

Definition bupd (h : nat -> option bnode) (a : nat) (v : option bnode) : nat -> option bnode :=
  fun x => if Nat.eqb x a then v else h x.

(** axl_binary_stack_new, axl_stack.c:415-427 *)
Definition bstack_new : bstack := BStack None (stack_new nat) 0 (fun _ => None) 0.

(** the creation branch of axl_binary_stack_push, axl_stack.c:446-469 *)
Definition bstack_push_create (b : bstack) (state : bool) : res bstack :=
  let n := b_fresh b in
  s <- stack_push nat (b_stack b) (Some n) ;;
  Ok (BStack (Some n) s (b_total b + 1) (bupd (b_heap b) n (Some (BNode 1 state))) (S n)).

(** axl_binary_stack_push, axl_stack.c:436-492 *)
Definition bstack_push (b : bstack) (state : bool) : res bstack :=
  match b_last b with
  | None => bstack_push_create b state
  | Some a =>
    n <- of_option (b_heap b a) ;;
    if Bool.eqb (b_state n) state then
      Ok (BStack (b_last b) (b_stack b) (b_total b + 1)
                 (bupd (b_heap b) a (Some (BNode (S (b_count n)) (b_state n)))) (b_fresh b))
    else bstack_push_create b state
  end.

(** axl_binary_stack_push_the_same, axl_stack.c:505-515 *)
Definition bstack_push_the_same (b : bstack) : res bstack :=
  match b_last b with
  | None => Ok b
  | Some a =>
    n <- of_option (b_heap b a) ;;
    Ok (BStack (b_last b) (b_stack b) (b_total b + 1)
               (bupd (b_heap b) a (Some (BNode (S (b_count n)) (b_state n)))) (b_fresh b))
  end.

(** axl_binary_stack_pop, axl_stack.c:528-588 *)
Definition bstack_pop (b : bstack) : res (bstack * bool) :=
  match b_last b with
  | None => Ok (b, false)
  | Some a =>
    n <- of_option (b_heap b a) ;;
    if Nat.ltb 1 (b_count n) then
      Ok (BStack (b_last b) (b_stack b) (b_total b - 1)
                 (bupd (b_heap b) a (Some (BNode (b_count n - 1) (b_state n)))) (b_fresh b),
          b_state n)
    else if Nat.eqb (b_count n) 1 then
      '(s, _) <- stack_pop nat (b_stack b) ;;
      l <- stack_peek nat s ;;
      Ok (BStack l s (b_total b - 1) (bupd (b_heap b) a None) (b_fresh b), b_state n)
    else Ok (b, false)
  end.

(** axl_binary_stack_peek, axl_stack.c:600-606 *)
Definition bstack_peek (b : bstack) : res bool :=
  match b_last b with
  | None => Ok false
  | Some a => n <- of_option (b_heap b a) ;; Ok (b_state n)
  end.

(** axl_binary_stack_is_empty, axl_stack.c:617-623 *)
Definition bstack_is_empty (b : bstack) : bool :=
  match b_last b with None => stack_is_empty nat (b_stack b) | Some _ => false end.

(** axl_binary_stack_size, axl_stack.c:633-639 *)
Definition bstack_size (b : bstack) : Z := b_total b.

(** axl_binary_stack_free, axl_stack.c:646-656: every node still in the stack is
    given to free(); freeing an unmapped node is UB. *)
Fixpoint bstack_free_nodes (h : nat -> option bnode) (l : list (option nat)) : res (nat -> option bnode) :=
  match l with
  | [] => Ok h
  | None :: r => bstack_free_nodes h r
  | Some a :: r => _ <- of_option (h a) ;; bstack_free_nodes (bupd h a None) r
  end.
Definition bstack_free (b : bstack) : res (nat -> option bnode) :=
  s <- stack_free nat true (b_stack b) ;;
  bstack_free_nodes (b_heap b) (sdtrace nat s).
