(** Walking down the elements. *)
From Verif Require Import Prelude NsModel.
(** the element at a path, followed by its parents *)
Fixpoint chain_at (up : list elem) (e : elem) (path : list nat) : option (list elem) :=
  match path with
  | [] => Some (e :: up)
  | i :: path => match nth_error (e_childs e) i with Some c => chain_at (e :: up) c path | None => None end
  end.
