(** Running calls on the heap. *)
From Verif Require Import Prelude ItemModel ItemSpec ItemExec FreeModel FreeSpec.
Open Scope list_scope.

Definition d_exec (h : heap) (o : dop) : res heap :=
  match o with
  | DOp o => exec h o
  | DFree n => node_dealloc h n
  | DRemove n => node_remove_d h n
  | DReplace n x => node_replace_d h n x
  | DItemRemove p k => i <- nth_item h p k ;; item_remove_d h i
  | DItemReplace p k c => i <- nth_item h p k ;; ' (h, x) <- item_new_ref h (fst c) (snd c) ;; item_replace_d h i x
  end.
Fixpoint d_run (h : heap) (l : list dop) : res heap :=
  match l with [] => Ok h | o :: l => h <- d_exec h o ;; d_run h l end.
