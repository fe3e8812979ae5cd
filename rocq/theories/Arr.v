(** C arrays as lists: reading or writing outside the array is [UB]. *)
From Verif Require Import Prelude.

Definition aget {A} (l : list A) (n : nat) : res A := of_option (nth_error l n).

Fixpoint aset {A} (l : list A) (n : nat) (v : A) : res (list A) :=
  match l, n with
  | [], _ => UB
  | _ :: l', O => Ok (v :: l')
  | x :: l', S n' => r <- aset l' n' v ;; Ok (x :: r)
  end.

Lemma aget_ok {A} (l : list A) n x : nth_error l n = Some x -> aget l n = Ok x.
Proof. unfold aget; intros ->; reflexivity. Qed.

Lemma aset_split {A} (l1 l2 : list A) x v :
  aset (l1 ++ x :: l2) (length l1) v = Ok (l1 ++ v :: l2).
Proof.
  induction l1 as [|y l1 IH]; simpl; [reflexivity|]. rewrite IH; reflexivity.
Qed.

Lemma aget_split {A} (l1 l2 : list A) x : aget (l1 ++ x :: l2) (length l1) = Ok x.
Proof.
  unfold aget. rewrite nth_error_app2 by lia. rewrite Nat.sub_diag. reflexivity.
Qed.

Lemma aset_length {A} (l : list A) n v l' : aset l n v = Ok l' -> length l' = length l.
Proof.
  revert n l'; induction l as [|x l IH]; intros [|n] l' H; simpl in H; try discriminate.
  - inversion H; reflexivity.
  - destruct (aset l n v) eqn:E; simpl in H; try discriminate.
    inversion H; simpl; f_equal; eauto.
Qed.

Lemma aset_ok {A} (l : list A) n v : n < length l -> exists l', aset l n v = Ok l'.
Proof.
  revert n; induction l as [|x l IH]; intros [|n] H; simpl in *; try lia; eauto.
  destruct (IH n) as [l' E]; [lia|]. rewrite E; simpl; eauto.
Qed.

Lemma aset_nth {A} (l : list A) n v l' :
  aset l n v = Ok l' ->
  forall m, nth_error l' m = if Nat.eqb m n then Some v else nth_error l m.
Proof.
  revert n l'; induction l as [|x l IH]; intros [|n] l' H m; simpl in H; try discriminate.
  - inversion H; destruct m; reflexivity.
  - destruct (aset l n v) eqn:E; simpl in H; try discriminate.
    inversion H; destruct m; simpl; [reflexivity|]. apply IH; assumption.
Qed.
