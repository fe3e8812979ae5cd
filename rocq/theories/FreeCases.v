(** Histories that go wrong. *)
From Verif Require Import Prelude ItemModel ItemSpec ItemExec FreeModel FreeSpec FreeExec.
Open Scope nat_scope.
Open Scope list_scope.

Definition text_ops : list dop := [DOp ONode; DOp (OChild 0 (KContent, 7)); DItemRemove 0 0; DFree 0].
Lemma text_used_again : exists ops w, run_w w_new ops = Some w /\ d_run heap_new ops = UB.
Proof. exists text_ops. eexists. split; vm_compute; reflexivity. Qed.
Definition lost_ops : list dop := [DOp ONode; DOp ONode; DOp ONode; DOp (OChild 0 (KNode, 1)); DOp (OChild 0 (KNode, 2)); DOp (ORemove 1); DReplace 2 1; DFree 0].
Lemma item_lost : exists ops w h, run_w w_new ops = Some w /\ w_fit w_new ops = true /\ f_nodes (w_fam w) = [] /\ w_taken w = 0 /\ d_run heap_new ops = Ok h /\ live_items h = 1.
Proof. exists lost_ops. eexists. eexists. repeat match goal with |- _ /\ _ => split end; [vm_compute; reflexivity..|]. vm_compute; reflexivity. Qed.
Definition stale_ops : list dop := [DOp ONode; DOp ONode; DOp (OChild 0 (KNode, 1)); DOp (ORemove 1); DFree 0].
Lemma old_parent_used : exists ops w h n, run_w w_new ops = Some w /\ w_fit w_new ops = true /\ d_run heap_new ops = Ok h /\ alone (w_fam w) n = true /\ node_remove_d h n = UB.
Proof. exists stale_ops. eexists. eexists. exists 1. repeat match goal with |- _ /\ _ => split end; [vm_compute; reflexivity..|]. vm_compute; reflexivity. Qed.
