(** C07, C08: the pointer stack and the binary stack. *)
From Verif Require Import Prelude StackModel StackSpec StackExec StackProofs.

(** C07 - every history of calls answers as a LIFO stack of the non-NULL values
    pushed, and no call leaves the array. *)
Theorem C07_stack_lifo :
  forall (P : Type) (ops : list (sop P)),
    exists s, sexec_all P (stack_new P) ops = Ok (s, snd (srun P [] ops)).
Proof. exact C07_lemma. Qed.
Print Assumptions C07_stack_lifo.

(** axl_stack_free gives every value still stored to the destroy function, once,
    top first. *)
Theorem C07_stack_free :
  forall (P : Type) (ops : list (sop P)),
    exists s s' ans, sexec_all P (stack_new P) ops = Ok (s, ans) /\
      stack_free P true s = Ok s' /\
      sdtrace P s' = sdtrace P s ++ map Some (fst (srun P [] ops)).
Proof. exact C07_free_lemma. Qed.
Print Assumptions C07_stack_free.

Example C07_case :
  exists s, sexec_all nat (stack_new nat)
    [SPush (Some 3); SPush None; SPush (Some 5); SPop; SPush (Some 7); SPush (Some 8); SPeek; SSize;
     SForeach (fun x => match x with Some 7 => true | _ => false end); SPop; SPop; SPop; SPop; SIsEmpty]
  = Ok (s, [SUnit; SUnit; SUnit; SVal (Some 5); SUnit; SUnit; SVal (Some 8); SNat 3;
            SVisited [Some 8; Some 7] false; SVal (Some 8); SVal (Some 7); SVal (Some 3); SVal None; SBool true]).
Proof. eexists. vm_compute. reflexivity. Qed.

(** C08 - every history of calls on the binary stack answers as a LIFO stack of
    booleans; no freed or missing run node is ever touched. *)
Theorem C08_binary_stack_lifo :
  forall (ops : list bop), exists b, bexec_all bstack_new ops = Ok (b, snd (bsrun [] ops)).
Proof. exact C08_lemma. Qed.
Print Assumptions C08_binary_stack_lifo.

(** axl_binary_stack_free frees every run node exactly once. *)
Theorem C08_binary_stack_free :
  forall (ops : list bop), exists b h ans,
    bexec_all bstack_new ops = Ok (b, ans) /\ bstack_free b = Ok h /\ forall a, h a = None.
Proof. exact C08_free_lemma. Qed.
Print Assumptions C08_binary_stack_free.

Example C08_case :
  exists b, bexec_all bstack_new
    [BPushSame; BPush true; BPush true; BPush false; BPushSame; BPush true; BSize; BPop; BPop; BPeek; BPop;
     BPop; BPop; BPop; BIsEmpty]
  = Ok (b, [BUnit; BUnit; BUnit; BUnit; BUnit; BUnit; BInt 5; BBool true; BBool false; BBool false;
            BBool false; BBool true; BBool true; BBool false; BBool true]).
Proof. eexists. vm_compute. reflexivity. Qed.
