(** Processing instructions of nodes and documents. *)
From Verif Require Import Prelude TreeModel ItemModel ItemSpec PiModel PiSpec PiProofs.
Open Scope nat_scope.
Open Scope list_scope.

Definition pi_ops : list pop :=
  [PTree ONode; PTree ONode; PNode 0 (s2b "a") (Some (s2b "1")); PTree (OChild 0 (KNode, 1)); PNode 0 (s2b "b") None; PNode 1 (s2b "c") (Some (s2b "2"));
   PDoc (s2b "a") (Some (s2b "3")); PTree (OChild 0 (KContent, 0)); PNode 0 (s2b "a") (Some (s2b "4")); PTree (OTransfer 1 0); PDoc (s2b "d") (Some (s2b "5"))].
Definition pi_world : world := match run_world world_new pi_ops with Some w => w | None => world_new end.
Example pi_ops_ok : run_world world_new pi_ops = Some pi_world /\ fit_world world_new pi_ops = true /\
  pis_of pi_world 0 = [Pi (s2b "a") (Some (s2b "1")); Pi (s2b "b") None; Pi (s2b "a") (Some (s2b "4")); Pi (s2b "c") (Some (s2b "2"))] /\ pis_of pi_world 1 = [] /\
  w_doc pi_world = [Pi (s2b "a") (Some (s2b "3")); Pi (s2b "d") (Some (s2b "5"))].
Proof. repeat split; vm_compute; reflexivity. Qed.

(** C54: after any history of additions, moves and removals, a node has an instruction
    exactly if one of its children is one with that name, its content is the one of the first
    of them, and the list has all of them in order.
    Missing: the histories of C32 in which the first or the last text is removed. *)
Theorem C54_node_partial : forall ops w, run_world world_new ops = Some w -> fit_world world_new ops = true -> exists t, p_run pheap_new ops = Ok t /\
  forall n, known (w_fam w) n = true ->
    (forall x, node_has_pi t n x = Ok (existsb (named x) (pis_of w n))) /\
    (forall x, node_pi_content t n x = Ok (match find (named x) (pis_of w n) with Some p => pi_content p | None => None end)) /\
    exists l, node_pi_list t n = Ok (match l with [] => None | _ => Some l end) /\ Forall2 (fun a q => rd_pi t a = Ok q) l (pis_of w n).
Proof. exact node_pis. Qed.
Print Assumptions C54_node_partial.
Example C54_node_case : exists t, p_run pheap_new pi_ops = Ok t /\ known (w_fam pi_world) 0 = true /\ node_has_pi t 0 (s2b "c") = Ok true /\ node_has_pi t 1 (s2b "c") = Ok false /\
  node_pi_content t 0 (s2b "a") = Ok (Some (s2b "1")) /\ node_pi_content t 0 (s2b "b") = Ok None /\ node_pi_list t 0 = Ok (Some [0; 1; 4; 2]).
Proof. eexists. split; [vm_compute; reflexivity|]. repeat split; vm_compute; reflexivity. Qed.
(** and so for a document *)
Theorem C54_doc : forall ops w, run_world world_new ops = Some w -> fit_world world_new ops = true -> exists t, p_run pheap_new ops = Ok t /\
  (forall x, doc_has_pi t x = Ok (existsb (named x) (w_doc w))) /\
  (forall x, doc_pi_content t x = Ok (match find (named x) (w_doc w) with Some p => pi_content p | None => None end)) /\
  Forall2 (fun a q => rd_pi t a = Ok q) (doc_pi_list t) (w_doc w).
Proof. exact doc_pis. Qed.
Print Assumptions C54_doc.
Example C54_doc_case : exists t, p_run pheap_new pi_ops = Ok t /\ doc_pi_content t (s2b "a") = Ok (Some (s2b "3")) /\ doc_has_pi t (s2b "b") = Ok false.
Proof. eexists. split; [vm_compute; reflexivity|]. repeat split; vm_compute; reflexivity. Qed.
(** releasing the list, as the documentation asks for, releases the instructions that the
    node still has *)
Theorem C54_list_refuted : exists ops w t n l t', run_world world_new ops = Some w /\ fit_world world_new ops = true /\ p_run pheap_new ops = Ok t /\ known (w_fam w) n = true /\
  node_pi_list t n = Ok (Some l) /\ pi_list_free t l = Ok t' /\ node_has_pi t' n (s2b "a") = UB /\ pi_list_free t' l = UB.
Proof.
  exists [PTree ONode; PNode 0 (s2b "a") None]. do 2 eexists. exists 0. do 2 eexists. split; [vm_compute; reflexivity|]. split; [vm_compute; reflexivity|]. split; [vm_compute; reflexivity|].
  split; [vm_compute; reflexivity|]. split; [vm_compute; reflexivity|]. split; [vm_compute; reflexivity|]. split; vm_compute; reflexivity.
Qed.
Print Assumptions C54_list_refuted.
