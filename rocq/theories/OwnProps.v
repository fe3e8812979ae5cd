(** C59: the memory of nodes and documents. *)
From Coq Require Import Permutation.
From Verif Require Import Prelude HashModel OwnModel OwnExec OwnSpec OwnProofs7 OwnCases.
Open Scope nat_scope.

(** For every run of calls that respects the four conditions of [legal]: no call reads
    memory that was released, no call releases memory it must not release, and afterwards
    the blocks allocated are exactly those that can be reached from the trees in hand, each
    from one place only. *)
Theorem C59_owned_partial :
  forall esc calls, legal_all esc st0 calls ->
  exists s, exec_all esc st0 calls = Ok s /\
    NoDup (m_live (s_mem s)) /\ Permutation (m_live (s_mem s)) (in_hand s).
Proof. exact owned. Qed.
Print Assumptions C59_owned_partial.

(** When all trees have been released, so has all the memory. *)
Theorem C59_released_partial :
  forall esc calls s, legal_all esc st0 calls -> exec_all esc st0 calls = Ok s ->
  s_roots s = [] -> m_live (s_mem s) = [].
Proof. exact released. Qed.
Print Assumptions C59_released_partial.

(** A copy shares nothing with the original: the two can be released in either order, and
    what is left then is the memory of the other trees. *)
Theorem C59_copy_partial :
  forall esc calls s p k n, legal_all esc st0 calls -> exec_all esc st0 calls = Ok s ->
  node_at p s = Some n -> k = length (s_roots s) ->
  exists s1 s2, exec esc s (CCopy p) = Ok s1 /\ exec esc s1 (CFree k) = Ok s2 /\
    s_roots s2 = s_roots s /\ Permutation (m_live (s_mem s2)) (m_live (s_mem s)).
Proof. exact copy_free. Qed.
Print Assumptions C59_copy_partial.

(** The run of OwnCases: thirty six calls, all of them effective; before the document is
    released its root has three items and eleven attributes hang below it. *)
Example C59_case :
  legal_all idesc st0 (life ++ [CDocFree 0]) /\
  (exists s, exec_all idesc st0 life = Ok s /\ length (m_live (s_mem s)) = 42 /\ length (s_roots s) = 1 /\
     option_map (fun n => length (n_items n)) (node_at (0, []) s) = Some 3 /\
     option_map n_num (node_at (0, [1]) s) = Some 11) /\
  (exists s, exec_all idesc st0 (life ++ [CDocFree 0]) = Ok s /\ s_roots s = [] /\ m_live (s_mem s) = []).
Proof. exact life_runs. Qed.

(** ** each of the four conditions is needed *)
(** axl_node_set_name_ref on a node of the parser: the name given is never released *)
Theorem C59_name_refuted :
  exists calls s, exec_all idesc st0 calls = Ok s /\ s_roots s = [] /\ m_live (s_mem s) <> [] /\
    calls = [CParsed 0 (s2b "a"); CSetNameRef (0, []) (s2b "b"); CFree 0; CDocFree 0].
Proof. exact name_leak. Qed.
(** axl_node_free_full does not release the childs, whatever its second argument *)
Theorem C59_free_full_refuted :
  exists calls s, exec_all idesc st0 calls = Ok s /\ s_roots s = [] /\ m_live (s_mem s) <> [] /\
    calls = [CCreate (s2b "a"); CText (0, []) KContent (s2b "t"); CFreeFull 0 true].
Proof. exact full_leak. Qed.
(** axl_node_replace with a node that was the child of another: the item it had is lost *)
Theorem C59_replace_refuted :
  exists calls s, exec_all idesc st0 calls = Ok s /\ s_roots s = [] /\ m_live (s_mem s) <> [] /\
    calls = [CCreate (s2b "a"); CCreate (s2b "b"); CSetChild (0, []) 1; CRemove (0, []) 0 false;
             CCreate (s2b "c"); CSetChild (0, []) 2; CReplace (0, []) 0 1 true; CFree 0].
Proof. exact replace_leak. Qed.
(** a node of the parser put into another document: when its own document is released the
    other one cannot be released any more, its nodes are gone *)
Theorem C59_moved_refuted :
  exists calls, exec_all idesc st0 calls = UB /\
    calls = [CParsed 0 (s2b "a"); CCreate (s2b "b"); CSetRoot 1 1; CSetChild (1, []) 0; CDocFree 0; CDocFree 1].
Proof. exact moved_ub. Qed.
