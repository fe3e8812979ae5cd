(** A family of ordered trees: what the tree functions should do.  A child is a kind and
    a handle; the handle of a node child is the node. *)
From Verif Require Import Prelude ItemModel.
Open Scope list_scope.

Definition child := (kind * nat)%type.
Definition family := nat -> list child.   (* the children of each node, in order *)
(** [f_new] is the number of the next node made *)
Record fam := Fam { f_new : nat; f_nodes : list nat; f_kids : family }.

Definition set_kids (f : family) (p : nat) (l : list child) : family := fun x => if Nat.eqb x p then l else f x.
Definition eqc (a b : child) : bool :=
  match fst a, fst b with KNode, KNode => Nat.eqb (snd a) (snd b) | _, _ => false end.
(** the position of a node among children *)
Fixpoint place (n : nat) (l : list child) : option nat :=
  match l with
  | [] => None
  | c :: l => if eqc (KNode, n) c then Some 0 else option_map S (place n l)
  end.
Definition put (k : nat) (c : list child) (l : list child) : list child := firstn k l ++ c ++ skipn k l.
Definition cut (k : nat) (l : list child) : list child := firstn k l ++ skipn (S k) l.
(** the parent of a node *)
Fixpoint parent_in (ps : list nat) (f : family) (n : nat) : option nat :=
  match ps with [] => None | p :: ps => match place n (f p) with Some _ => Some p | None => parent_in ps f n end end.
Definition parent (s : fam) (n : nat) : option nat := parent_in (f_nodes s) (f_kids s) n.
Definition known (s : fam) (n : nat) : bool := existsb (Nat.eqb n) (f_nodes s).
Definition alone (s : fam) (n : nat) : bool := known s n && match parent s n with None => true | Some _ => false end.
Definition may_hold (s : fam) (c : child) : bool := match fst c with KNode => alone s (snd c) | _ => true end.

Inductive op :=
| ONode                               (* axl_node_create *)
| OChild (p : nat) (c : child)        (* axl_node_set_child, axl_item_set_child *)
| OAfter (p k : nat) (c : child)      (* axl_item_set_after the k-th item of p *)
| ONodeAfter (r n : nat)              (* axl_node_set_child_after *)
| ORemove (n : nat)                   (* axl_node_remove, axl_node_deattach *)
| OReplace (n x : nat)                (* axl_node_replace *)
| OItemRemove (p k : nat)             (* axl_item_remove the k-th item of p *)
| OItemReplace (p k : nat) (c : child) (* axl_item_replace it by axl_item_new_ref (c) *)
| OTransfer (p q : nat)               (* axl_node_transfer_childs from p to q *)
| OTransferAfter (p q k : nat).       (* axl_item_transfer_childs_after the k-th item of q *)

(** [None]: the call is not allowed: unknown nodes, a node that already has a parent, a
    position that does not exist, children moved to their own parent *)
Definition guard {A} (b : bool) (x : A) : option A := if b then Some x else None.
(** nodes are numbered in the order in which they are made *)
Definition step_fam (s : fam) (o : op) : option fam :=
  let kids := f_kids s in
  let new := f_new s in
  match o with
  | ONode => Some (Fam (S new) (new :: f_nodes s) (set_kids kids new []))
  | OChild p c => guard (known s p && may_hold s c) (Fam (f_new s) (f_nodes s) (set_kids kids p (kids p ++ [c])))
  | OAfter p k c => guard (known s p && (k <? length (kids p)) && may_hold s c) (Fam (f_new s) (f_nodes s) (set_kids kids p (put (S k) [c] (kids p))))
  | ONodeAfter r n =>
    match parent s r with
    | None => None
    | Some p => match place r (kids p) with
                | None => None
                | Some k => guard (alone s n) (Fam (f_new s) (f_nodes s) (set_kids kids p (put (S k) [(KNode, n)] (kids p))))
                end
    end
  | ORemove n =>
    match parent s n with
    | None => None
    | Some p => match place n (kids p) with None => None | Some k => Some (Fam (f_new s) (f_nodes s) (set_kids kids p (cut k (kids p)))) end
    end
  | OReplace n x =>
    match parent s n with
    | None => None
    | Some p => match place n (kids p) with
                | None => None
                | Some k => guard (alone s x) (Fam (f_new s) (f_nodes s) (set_kids kids p (put k [(KNode, x)] (cut k (kids p)))))
                end
    end
  | OItemRemove p k => guard (known s p && (k <? length (kids p))) (Fam (f_new s) (f_nodes s) (set_kids kids p (cut k (kids p))))
  | OItemReplace p k c => guard (known s p && (k <? length (kids p)) && may_hold s c) (Fam (f_new s) (f_nodes s) (set_kids kids p (put k [c] (cut k (kids p)))))
  | OTransfer p q => guard (known s p && known s q && negb (Nat.eqb p q))
      (Fam (f_new s) (f_nodes s) (set_kids (set_kids kids q (kids q ++ kids p)) p []))
  | OTransferAfter p q k => guard (known s p && known s q && negb (Nat.eqb p q) && (k <? length (kids q)))
      (Fam (f_new s) (f_nodes s) (set_kids (set_kids kids q (put (S k) (kids p) (kids q))) p []))
  end.

(** the neighbours that are nodes *)
Fixpoint first_node (l : list child) : option nat :=
  match l with [] => None | (KNode, n) :: _ => Some n | _ :: l => first_node l end.
Definition after_node (n : nat) (l : list child) : option nat :=
  match place n l with None => None | Some k => first_node (skipn (S k) l) end.
Definition before_node (n : nat) (l : list child) : option nat :=
  match place n l with None => None | Some k => first_node (rev (firstn k l)) end.

Fixpoint run_fam (s : fam) (l : list op) : option fam :=
  match l with [] => Some s | o :: l => match step_fam s o with Some s => run_fam s l | None => None end end.
Definition fam_new : fam := Fam 0 [] (fun _ => []).

(** axl_item_remove and axl_item_replace: an item that is not a node must not be the
    first or the last one *)
Definition inside (l : list child) (k : nat) : bool :=
  match nth_error l k with
  | Some (KNode, _) => true
  | _ => (0 <? k) && (S k <? length l)
  end.
Definition fits (s : fam) (o : op) : bool :=
  match o with
  | OItemRemove p k | OItemReplace p k _ => inside (f_kids s p) k
  | _ => true
  end.
Fixpoint fit (s : fam) (l : list op) : bool :=
  match l with [] => true | o :: l => fits s o && match step_fam s o with Some s => fit s l | None => true end end.
