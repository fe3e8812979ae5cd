(** What a parsed document looks like to the functions that follow its links. *)
From Verif Require Import Prelude TreeModel LinkModel LinkSpec.
Open Scope list_scope.

Definition store_of (l : ldoc) : store := Store (l_heap l) (nth_error (l_names l)) (nth_error (l_conts l)).
(** [l] is the document [d]: following the links from its root shows the tree *)
Definition is_document (l : ldoc) (d : doc) : Prop :=
  exists r t, l_root l = Some r /\ d_root d = Some t /\ is_tree (store_of l) r t /\
    l_encoding l = d_encoding d /\ l_standalone l = d_standalone d /\ l_pis l = d_pis d.
(** the two parsers do the same *)
Definition agree (x : res (option ldoc)) (y : res (option doc)) : Prop :=
  match x, y with
  | Ok (Some l), Ok (Some d) => is_document l d
  | Ok None, Ok None | UB, UB | NoFuel, NoFuel => True
  | _, _ => False
  end.
