(** Running histories of tree edits and annotations. *)
From Verif Require Import Prelude ItemModel ItemSpec ItemExec NoteModel NoteSpec.
Open Scope list_scope.

Definition nexec (t : nheap) (o : nop) : res nheap :=
  match o with
  | NTree o => h <- exec (nh_heap t) o ;; Ok (NHeap h (nh_notes t))
  | NData n k kd v dd => annotate_data_full t n k kd v dd
  | NPutInt n k z => annotate_int t n k z
  | NPutStr n k s => annotate_string t n k s
  | NPutDouble n k d => annotate_double t n k d
  end.
Fixpoint nrun (t : nheap) (l : list nop) : res nheap :=
  match l with [] => Ok t | o :: l => t <- nexec t o ;; nrun t l end.
