(** Building the text of an element by a sequence of calls. *)
From Verif Require Import Prelude StrModel EscModel.
Open Scope Z_scope.

(** axl_node_set_content (node, s, -1), axl_node_set_cdata_content (node, s, -1),
    and any other item (element, comment, processing instruction) *)
Inductive text_op :=
| SetText (s : bytes)
| SetCdata (s : bytes)
| SetOther.

Fixpoint run_texts (items : list item) (ops : list text_op) : res (list item) :=
  match ops with
  | [] => Ok items
  | SetText s :: r => items <- node_set_content items (cs s) (-1) ;; run_texts items r
  | SetCdata s :: r => items <- node_set_cdata_content items (cs s) (-1) ;; run_texts items r
  | SetOther :: r => run_texts (items ++ [ItOther]) r
  end.
