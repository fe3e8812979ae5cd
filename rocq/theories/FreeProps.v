(** C52: what is released, and when. *)
From Verif Require Import Prelude ItemModel ItemSpec ItemExec FreeModel FreeSpec FreeExec FreeProofs5 FreeCases.
Open Scope nat_scope.
Open Scope list_scope.

(** C52.  Nothing released is used or released again ([d_run] is [Ok]), the nodes that are
    left are those that have not been released, with the children they should have, and the
    items in memory are those of the texts of these nodes, one for each of these nodes that
    has been in a tree, the ones that the caller took out, and the ones that are lost.
    Missing for the full statement: items that are not nodes and are first or last
    ([w_fit], see [C52_text_refuted]), and no item lost ([C52_lost_refuted]); the names,
    attributes, annotations and contents, which go with their node or item, and the memory
    of the document factories are not part of the model. *)
Theorem C52_released_partial : forall ops w, run_w w_new ops = Some w -> w_fit w_new ops = true ->
  exists h, d_run heap_new ops = Ok h /\
    (forall n, h_nodes h n <> None <-> In n (f_nodes (w_fam w))) /\
    (forall p, In p (f_nodes (w_fam w)) -> items_shown h (w_fam w) p) /\ items_apart h (w_fam w) /\
    live_nodes h = length (f_nodes (w_fam w)) /\
    live_items h = texts (w_fam w) + length (w_held w) + w_taken w + w_lost w /\
    incl (w_held w) (f_nodes (w_fam w)).
Proof. exact free_all. Qed.
Print Assumptions C52_released_partial.

(** when the last node has been released nothing is left but what the caller took out and
    what is lost *)
Theorem C52_nothing_left_partial : forall ops w, run_w w_new ops = Some w -> w_fit w_new ops = true -> f_nodes (w_fam w) = [] ->
  exists h, d_run heap_new ops = Ok h /\ live_nodes h = 0 /\ live_items h = w_taken w + w_lost w.
Proof. exact free_nothing_left. Qed.
Print Assumptions C52_nothing_left_partial.

(** axl_item_remove with dealloc of the only text of an element, then axl_node_free of the
    element: the text is used and released again *)
Theorem C52_text_refuted : exists ops w, run_w w_new ops = Some w /\ d_run heap_new ops = UB.
Proof. exact text_used_again. Qed.
Print Assumptions C52_text_refuted.
(** an element is taken out and put in the place of another one with axl_node_replace: the
    item it had is never released *)
Theorem C52_lost_refuted : exists ops w h, run_w w_new ops = Some w /\ w_fit w_new ops = true /\ f_nodes (w_fam w) = [] /\ w_taken w = 0 /\
  d_run heap_new ops = Ok h /\ live_items h = 1.
Proof. exact item_lost. Qed.
Print Assumptions C52_lost_refuted.
(** an element is taken out, the element it was in is released; releasing the first one with
    axl_node_remove writes in the memory of the second one *)
Theorem C52_old_parent_refuted : exists ops w h n, run_w w_new ops = Some w /\ w_fit w_new ops = true /\ d_run heap_new ops = Ok h /\
  alone (w_fam w) n = true /\ node_remove_d h n = UB.
Proof. exact old_parent_used. Qed.
Print Assumptions C52_old_parent_refuted.

(** trees built, moved and released, to the last one *)
Definition C52_ops : list dop :=
  [DOp ONode; DOp ONode; DOp ONode; DOp ONode; DOp ONode; DOp (OChild 0 (KContent, 7)); DOp (OChild 0 (KNode, 1)); DOp (OChild 0 (KComment, 8)); DOp (OAfter 0 1 (KNode, 2));
   DOp (OChild 1 (KContent, 9)); DOp (OChild 1 (KNode, 3)); DOp (OChild 2 (KContent, 6)); DItemReplace 0 2 (KNode, 4); DOp (OItemRemove 0 2); DOp (OChild 4 (KCdata, 5)); DRemove 1].
Example C52_case : w_fit w_new C52_ops = true /\
  option_map (fun w => (f_nodes (w_fam w), w_held w, texts (w_fam w))) (run_w w_new C52_ops) = Some ([4; 0], [4], 3) /\
  option_map (fun w => (f_nodes (w_fam w), w_held w, w_taken w + w_lost w)) (run_w w_new (C52_ops ++ [DFree 0; DFree 4])) = Some ([], [], 0) /\
  w_fit w_new (C52_ops ++ [DFree 0; DFree 4]) = true.
Proof. repeat split; vm_compute; reflexivity. Qed.
