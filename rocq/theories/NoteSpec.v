(** What a user expects of annotations: each node has a map, and a lookup in the parents
    finds the nearest one that has the key. *)
From Verif Require Import Prelude ItemModel ItemSpec NoteModel.
Open Scope list_scope.

(** what is stored: for each node and key the last value *)
Definition store := nat -> bytes -> option note.
Definition put_note (m : store) (n : nat) (k : bytes) (v : option note) : store :=
  fun x y => if Nat.eqb x n && bytes_eqb y k then v else m x y.

Inductive nop :=
| NTree (o : op)                       (* any editing of the tree *)
| NData (n : nat) (k : bytes) (kd : option handler) (v : option note) (dd : option handler)
| NPutInt (n : nat) (k : bytes) (z : Z)
| NPutStr (n : nat) (k s : bytes)
| NPutDouble (n : nat) (k : bytes) (d : Z).

Definition target (o : nop) : option nat :=
  match o with
  | NTree _ => None
  | NData n _ _ _ _ | NPutInt n _ _ | NPutStr n _ _ | NPutDouble n _ _ => Some n
  end.
Definition stored (m : store) (o : nop) : store :=
  match o with
  | NTree _ => m
  | NData n k _ v _ => put_note m n k v
  | NPutInt n k z => put_note m n k (Some (NInt z))
  | NPutStr n k s => put_note m n k (Some (NStr s))
  | NPutDouble n k d => put_note m n k (Some (NDouble d))
  end.
(** allowed histories: as in [step_fam] and [fits], annotations on nodes that exist, texts
    are C strings *)
Definition nstep (s : fam) (m : store) (o : nop) : option (fam * store) :=
  match o with
  | NTree o => if fits s o then option_map (fun s => (s, m)) (step_fam s o) else None
  | NPutStr n _ t => if known s n && forallb (fun c => negb (Ascii.eqb c NUL)) t then Some (s, stored m o) else None
  | NData n _ _ _ _ | NPutInt n _ _ | NPutDouble n _ _ => if known s n then Some (s, stored m o) else None
  end.
Fixpoint nspec (s : fam) (m : store) (l : list nop) : option (fam * store) :=
  match l with
  | [] => Some (s, m)
  | o :: l => match nstep s m o with Some (s, m) => nspec s m l | None => None end
  end.
Definition no_notes : store := fun _ _ => None.

(** a node and the ones above it, up to one without parent *)
Inductive line (s : fam) : nat -> list nat -> Prop :=
| line_top n : parent s n = None -> line s n [n]
| line_up n p l : parent s n = Some p -> line s p l -> line s n (n :: l).
Fixpoint nearest (m : store) (k : bytes) (l : list nat) : option note :=
  match l with [] => None | n :: l => match m n k with Some v => Some v | None => nearest m k l end end.

(** the node was made a child of another one by the call *)
Definition attaches (o : nop) (n : nat) : bool :=
  match o with
  | NTree (OChild _ c) | NTree (OAfter _ _ c) | NTree (OItemReplace _ _ c) => eqc (KNode, n) c
  | NTree (ONodeAfter _ x) | NTree (OReplace _ x) => Nat.eqb n x
  | _ => false
  end.
Definition always_top (l : list nop) (n : nat) : bool := forallb (fun o => negb (attaches o n)) l.

(** what the typed functions make of it; not for pointers of the caller *)
Definition not_raw (v : option note) : bool := match v with Some (NRaw _) => false | _ => true end.
Definition as_int (v : option note) : Z := match v with Some (NInt z) => z | _ => 0%Z end.
Definition as_str (v : option note) : option bytes := match v with Some (NStr s) => Some s | _ => None end.
Definition as_double (v : option note) : Z := match v with Some (NDouble d) => d | _ => 0%Z end.
