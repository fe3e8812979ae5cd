(** Tree editing. *)
From Verif Require Import Prelude ItemModel ItemSpec ItemExec ItemProofs7 ItemCases.
Open Scope list_scope.

(** C32.  Missing for the full statement: axl_item_remove and axl_item_replace of an item
    that is not an element and is the first or the last one ([fit]); see [C32_refuted]. *)
Theorem C32_links_partial : forall ops s, run_fam fam_new ops = Some s -> fit fam_new ops = true ->
  exists h, run heap_new ops = Ok h /\
    (forall p, known s p = true -> items_shown h s p) /\ items_apart h s /\
    (forall p, known s p = true -> node_first_child h p = Ok (first_node (f_kids s p)) /\ node_last_child h p = Ok (first_node (rev (f_kids s p)))) /\
    (forall n p, parent s n = Some p ->
       node_get_parent h n = Ok (Some p) /\ node_get_next h n = Ok (after_node n (f_kids s p)) /\ node_get_previous h n = Ok (before_node n (f_kids s p))) /\
    (forall n, alone s n = true -> node_get_next h n = Ok None /\ node_get_previous h n = Ok None).
Proof. exact links. Qed.
Print Assumptions C32_links_partial.

(** the first of two texts is removed: it is still on the list and the other one is lost *)
Theorem C32_refuted : exists ops s h, run_fam fam_new ops = Some s /\ run heap_new ops = Ok h /\ known s 0 = true /\ ~ items_shown h s 0.
Proof. exact remove_first_text. Qed.
Print Assumptions C32_refuted.
(** the same for axl_item_replace of the last item *)
Theorem C32_replace_refuted : exists ops s h, run_fam fam_new ops = Some s /\ run heap_new ops = Ok h /\ known s 0 = true /\ ~ items_shown h s 0.
Proof. exact replace_last_text. Qed.
Print Assumptions C32_replace_refuted.
(** a removed element still names its old parent *)
Theorem C32_parent_refuted : exists ops s h n p, run_fam fam_new ops = Some s /\ fit fam_new ops = true /\ run heap_new ops = Ok h /\
  alone s n = true /\ node_get_parent h n = Ok (Some p).
Proof. exact stale_parent. Qed.
Print Assumptions C32_parent_refuted.
(** removing it again, which should change nothing, empties the list of its old parent *)
Theorem C32_twice_refuted : exists ops s h n h', run_fam fam_new ops = Some s /\ fit fam_new ops = true /\ run heap_new ops = Ok h /\
  alone s n = true /\ node_remove h n = Ok h' /\ f_kids s 0 <> [] /\ childs h' 0 = Ok [].
Proof. exact remove_twice. Qed.
Print Assumptions C32_twice_refuted.

(** four nodes, texts, a move, a replacement and a removal *)
Definition C32_ops : list op :=
  [ONode; ONode; ONode; ONode; OChild 0 (KContent, 7); OChild 0 (KNode, 1); OChild 0 (KComment, 8); OAfter 0 1 (KNode, 2); OChild 1 (KContent, 9); OChild 1 (KNode, 3);
   OTransferAfter 1 0 2; OItemRemove 0 3; ORemove 1; OReplace 2 1; OItemReplace 0 1 (KCdata, 5)].
Example C32_case : fit fam_new C32_ops = true /\
  option_map (fun s => (f_kids s 0, known s 0, parent s 3, alone s 2)) (run_fam fam_new C32_ops) =
    Some ([(KContent, 7); (KCdata, 5); (KNode, 3); (KComment, 8)], true, Some 0, true).
Proof. split; vm_compute; reflexivity. Qed.
