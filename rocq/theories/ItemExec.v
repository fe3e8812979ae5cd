(** Running calls on the heap; items are found by walking from the first child. *)
From Verif Require Import Prelude ItemModel ItemSpec.
Open Scope list_scope.

Definition nth_item (h : heap) (p k : nat) : res nat := l <- childs h p ;; of_option (nth_error l k).
Definition exec (h : heap) (o : op) : res heap :=
  match o with
  | ONode => Ok (fst (new_node h))
  | OChild p (KNode, n) => node_set_child h p n
  | OChild p (k, d) => item_set_child h p k d
  | OAfter p k c => i <- nth_item h p k ;; item_set_after h i (fst c) (snd c)
  | ONodeAfter r n => node_set_child_after h r n
  | ORemove n => node_remove h n
  | OReplace n x => node_replace h n x
  | OItemRemove p k => i <- nth_item h p k ;; item_remove h i
  | OItemReplace p k c => i <- nth_item h p k ;; ' (h, x) <- item_new_ref h (fst c) (snd c) ;; item_replace h i x
  | OTransfer p q => transfer_childs h p q
  | OTransferAfter p q k => r <- nth_item h q k ;; transfer_childs_after h p r
  end.
Fixpoint run (h : heap) (l : list op) : res heap :=
  match l with [] => Ok h | o :: l => h <- exec h o ;; run h l end.

(** What the items of [p] look like: the walk forward and the walk backward are each
    other's mirror image, the items hold the children of [p] in the family, in order,
    and each of them names [p] as its parent. *)
Definition items_shown (h : heap) (s : fam) (p : nat) : Prop :=
  exists l, childs h p = Ok l /\ childs_back h p = Ok (rev l) /\ length l = length (f_kids s p) /\
    forall k i, nth_error l k = Some i ->
      exists it, h_items h i = Some it /\ nth_error (f_kids s p) k = Some (i_kind it, i_data it) /\ i_parent it = Some p.
(** No item is on two lists, or twice on the same one. *)
Definition items_apart (h : heap) (s : fam) : Prop :=
  forall p q l1 l2, known s p = true -> known s q = true -> childs h p = Ok l1 -> childs h q = Ok l2 ->
    NoDup l1 /\ (p <> q -> forall x, In x l1 -> ~ In x l2).
