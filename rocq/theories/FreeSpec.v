(** What is kept while trees are made, edited and released.  An item is the memory that
    keeps a node, a text... in its place. *)
From Verif Require Import Prelude ItemModel ItemSpec FindSpec.
Open Scope nat_scope.
Open Scope list_scope.

Inductive dop :=
| DOp (o : op)
| DFree (n : nat)                        (* axl_node_free of a node without parent *)
| DRemove (n : nat)                      (* axl_node_remove with dealloc *)
| DReplace (n x : nat)                   (* axl_node_replace with dealloc *)
| DItemRemove (p k : nat)                (* axl_item_remove of the k-th item of p, with dealloc *)
| DItemReplace (p k : nat) (c : child).  (* axl_item_replace of it by axl_item_new_ref (c), with dealloc *)

(** [w_held]: the nodes that have an item of their own, which they get with their first
    parent; [w_taken]: the items taken out by the caller, who has to release them;
    [w_lost]: the items that nobody knows any more *)
Record world := World { w_fam : fam; w_held : list nat; w_taken : nat; w_lost : nat }.
Definition w_new : world := World fam_new [] 0 0.

Definition mem (n : nat) (l : list nat) : bool := existsb (Nat.eqb n) l.
Definition outside (l : list nat) (n : nat) : bool := negb (mem n l).
Definition hold (n : nat) (l : list nat) : list nat := if mem n l then l else n :: l.
Definition hold_child (c : child) (l : list nat) : list nat := match c with (KNode, n) => hold n l | _ => l end.
Definition one (b : bool) : nat := if b then 1 else 0.
Definition held_child (c : child) (l : list nat) : bool := match c with (KNode, n) => mem n l | _ => false end.
(** the [k]-th item of [p] is not a node *)
Definition text_at (s : fam) (p k : nat) : bool := match nth_error (f_kids s p) k with Some (KNode, _) | None => false | Some _ => true end.

(** a node and what is below it *)
Fixpoint kin (depth : nat) (f : family) (n : nat) : list nat :=
  n :: match depth with O => [] | S depth => flat_map (kin depth f) (elements (f n)) end.
Definition drop (w : world) (n : nat) : world :=
  let s := w_fam w in
  let l := kin (length (f_nodes s)) (f_kids s) n in
  World (Fam (f_new s) (filter (outside l) (f_nodes s)) (f_kids s)) (filter (outside l) (w_held w)) (w_taken w) (w_lost w).
Definition release (w : world) (c : option child) : world :=
  match c with
  | None => w
  | Some (KNode, n) => drop w n
  | Some _ => World (w_fam w) (w_held w) (pred (w_taken w)) (w_lost w)
  end.

Definition step_op (w : world) (o : op) : option world :=
  match step_fam (w_fam w) o with
  | None => None
  | Some s =>
    let l := w_held w in
    let t := w_taken w in
    let g := w_lost w in
    Some match o with
         | OChild _ c | OAfter _ _ c => World s (hold_child c l) t g
         | ONodeAfter _ n => World s (hold n l) t g
         | OReplace n x => World s (hold x (filter (outside [n]) l)) t (g + one (mem x l))
         | OItemRemove p k => World s l (t + one (text_at (w_fam w) p k)) g
         | OItemReplace p k c => World s (hold_child c l) (t + one (text_at (w_fam w) p k)) (g + one (held_child c l))
         | ONode | ORemove _ | OTransfer _ _ | OTransferAfter _ _ _ => World s l t g
         end
  end.
Definition then_release (w : option world) (c : option child) : option world := match w with Some w => Some (release w c) | None => None end.
Definition step_w (w : world) (o : dop) : option world :=
  let s := w_fam w in
  match o with
  | DOp o => step_op w o
  | DFree n => guard (alone s n) (drop w n)
  | DRemove n => then_release (step_op w (ORemove n)) (Some (KNode, n))
  | DReplace n x => then_release (step_op w (OReplace n x)) (Some (KNode, n))
  | DItemRemove p k => then_release (step_op w (OItemRemove p k)) (nth_error (f_kids s p) k)
  | DItemReplace p k c => then_release (step_op w (OItemReplace p k c)) (nth_error (f_kids s p) k)
  end.
Fixpoint run_w (w : world) (l : list dop) : option world :=
  match l with [] => Some w | o :: l => match step_w w o with Some w => run_w w l | None => None end end.
(** as [fit]: an item that is not a node and is the first or the last one cannot be removed *)
Definition w_fits (w : world) (o : dop) : bool :=
  match o with
  | DOp o => fits (w_fam w) o
  | DItemRemove p k => fits (w_fam w) (OItemRemove p k)
  | DItemReplace p k c => fits (w_fam w) (OItemReplace p k c)
  | _ => true
  end.
Fixpoint w_fit (w : world) (l : list dop) : bool :=
  match l with [] => true | o :: l => w_fits w o && match step_w w o with Some w => w_fit w l | None => true end end.

(** the items of the nodes that are not nodes themselves *)
Definition texts (s : fam) : nat := list_sum (map (fun p => length (filter (fun c => negb (is_node (fst c))) (f_kids s p))) (f_nodes s)).

(** ** Calls on the heap *)
Definition live_items (h : heap) : nat := length (filter (fun a => match h_items h a with Some _ => true | None => false end) (seq 0 (h_ifresh h))).
Definition live_nodes (h : heap) : nat := length (filter (fun a => match h_nodes h a with Some _ => true | None => false end) (seq 0 (h_nfresh h))).
