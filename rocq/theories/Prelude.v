(** Shared vocabulary of the model.

    [res] is the outcome of a piece of C code:
    - [Ok a]    the code ran to completion and produced [a];
    - [UB]      the code performed an access outside an allocated object, used a
                NULL / unmapped pointer or an uninitialised value;
    - [NoFuel]  the loop bound given to the model was exhausted (theorems either
                exclude this outcome or show that no bound suffices). *)
From Coq Require Export Ascii String ZArith Lia Bool Arith List.
Export ListNotations.
Open Scope list_scope.

Inductive res (A : Type) : Type :=
| Ok (a : A)
| UB
| NoFuel.
Arguments Ok {A} a.
Arguments UB {A}.
Arguments NoFuel {A}.

Definition bind {A B} (r : res A) (k : A -> res B) : res B :=
  match r with
  | Ok a => k a
  | UB => UB
  | NoFuel => NoFuel
  end.

Notation "x <- e ;; k" := (bind e (fun x => k))
  (at level 61, e at next level, right associativity).
Notation "' p <- e ;; k" := (bind e (fun p => k))
  (at level 61, p pattern, e at next level, right associativity).

Definition of_option {A} (o : option A) : res A :=
  match o with Some a => Ok a | None => UB end.

(** Bytes and C strings.  A C string is represented by the bytes that precede
    its terminating NUL. *)
Definition byte := ascii.
Definition bytes := list ascii.
Definition NUL : ascii := Ascii.zero.

Definition s2b (s : string) : bytes := list_ascii_of_string s.
Definition b2s (b : bytes) : string := string_of_list_ascii b.

Definition beqb (a b : ascii) : bool := Ascii.eqb a b.

Fixpoint bytes_eqb (a b : bytes) : bool :=
  match a, b with
  | [], [] => true
  | x :: a', y :: b' => Ascii.eqb x y && bytes_eqb a' b'
  | _, _ => false
  end.

Definition nul_free (b : bytes) : Prop := ~ In NUL b.

(** strlen/strdup view of a buffer: everything before the first NUL. *)
Fixpoint cstr (b : bytes) : bytes :=
  match b with
  | [] => []
  | c :: b' => if Ascii.eqb c NUL then [] else c :: cstr b'
  end.

Lemma bytes_eqb_eq a b : bytes_eqb a b = true <-> a = b.
Proof.
  revert b; induction a as [|x a IH]; intros [|y b]; simpl; split; intro H;
    try reflexivity; try discriminate.
  - apply andb_true_iff in H; destruct H as [H1 H2].
    apply Ascii.eqb_eq in H1; apply IH in H2; subst; reflexivity.
  - inversion H; subst; rewrite Ascii.eqb_refl; simpl; apply IH; reflexivity.
Qed.

Lemma bytes_eqb_refl a : bytes_eqb a a = true.
Proof. apply bytes_eqb_eq; reflexivity. Qed.

Lemma bytes_eqb_neq a b : bytes_eqb a b = false <-> a <> b.
Proof.
  split; intro H.
  - intro E; apply bytes_eqb_eq in E; congruence.
  - destruct (bytes_eqb a b) eqn:E; [apply bytes_eqb_eq in E; contradiction|reflexivity].
Qed.

Definition bytes_eq_dec (a b : bytes) : {a = b} + {a <> b} :=
  list_eq_dec ascii_dec a b.

Lemma cstr_nul_free b : nul_free (cstr b).
Proof.
  unfold nul_free; induction b as [|c b IH]; simpl; [tauto|].
  destruct (Ascii.eqb_spec c NUL) as [->|N]; simpl; [tauto|].
  intros [E|E]; [congruence|tauto].
Qed.

Lemma cstr_id b : nul_free b -> cstr b = b.
Proof.
  unfold nul_free; induction b as [|c b IH]; simpl; intro H; [reflexivity|].
  destruct (Ascii.eqb_spec c NUL) as [->|N].
  - exfalso; apply H; left; reflexivity.
  - f_equal; apply IH; tauto.
Qed.
