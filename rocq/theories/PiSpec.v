(** The instructions that nodes and documents have. *)
From Verif Require Import Prelude TreeModel ItemModel ItemSpec PiModel.
Open Scope nat_scope.
Open Scope list_scope.

(** the trees, the instructions made so far, and those of the document *)
Record world := World { w_fam : fam; w_made : list pi; w_doc : list pi }.
Definition world_new : world := World fam_new [] [].
Definition no_pi (c : child) : bool := match fst c with KPi => false | _ => true end.
(** calls on the tree that add no instruction *)
Definition plain_op (o : op) : bool :=
  match o with OChild _ c | OAfter _ _ c | OItemReplace _ _ c => no_pi c | _ => true end.
Definition step_world (w : world) (o : pop) : option world :=
  match o with
  | PTree o => if plain_op o then match step_fam (w_fam w) o with Some s => Some (World s (w_made w) (w_doc w)) | None => None end else None
  | PNode n x c =>
    (* the new instruction is the last child of the node *)
    if known (w_fam w) n then
      match step_fam (w_fam w) (OChild n (KPi, length (w_made w))) with Some s => Some (World s (w_made w ++ [Pi x c]) (w_doc w)) | None => None end
    else None
  | PDoc x c => Some (World (w_fam w) (w_made w ++ [Pi x c]) (w_doc w ++ [Pi x c]))
  end.
Fixpoint run_world (w : world) (l : list pop) : option world :=
  match l with [] => Some w | o :: l => match step_world w o with Some w => run_world w l | None => None end end.
Definition fits_world (w : world) (o : pop) : bool := match o with PTree o => fits (w_fam w) o | _ => true end.
Fixpoint fit_world (w : world) (l : list pop) : bool :=
  match l with [] => true | o :: l => fits_world w o && match step_world w o with Some w => fit_world w l | None => true end end.
(** the instructions of a node, in order *)
Definition pis_of (w : world) (n : nat) : list pi :=
  flat_map (fun c => match fst c with KPi => match nth_error (w_made w) (snd c) with Some p => [p] | None => [] end | _ => [] end) (f_kids (w_fam w) n).
Definition named (x : bytes) (p : pi) : bool := bytes_eqb (pi_name p) x.
