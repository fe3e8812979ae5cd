(** What a client expects of memory handed out: inside allocated memory, disjoint
    from everything else still in use. *)
From Verif Require Import Prelude.
Open Scope Z_scope.

(** a region: block number, first byte, number of bytes *)
Definition region := (nat * Z * Z)%type.
Definition inside (blks : list Z) (r : region) : Prop :=
  let '(b, off, len) := r in
  exists size, nth_error blks b = Some size /\ 0 <= off /\ off + len <= size.
Definition disjoint (r1 r2 : region) : Prop :=
  let '(b1, o1, l1) := r1 in let '(b2, o2, l2) := r2 in
  b1 <> b2 \/ o1 + l1 <= o2 \/ o2 + l2 <= o1.
Definition safe (blks : list Z) (live : list region) : Prop :=
  Forall (inside blks) live /\ ForallOrdPairs disjoint live.

(** requests: get one item, or give back the n-th item still in use *)
Inductive fop := FGet | FRelease (n : nat).
Fixpoint drop_nth {A} (n : nat) (l : list A) : list A :=
  match n, l with
  | _, [] => []
  | O, _ :: r => r
  | S n', x :: r => x :: drop_nth n' r
  end.
