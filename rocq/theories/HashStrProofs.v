From Verif Require Import Prelude HashModel HashSpec.

Lemma str_differs_spec a b : str_differs a b = false <-> a = b.
Proof.
  revert b; induction a as [|x a IH]; intros [|y b]; simpl; split; intro H; try discriminate; auto.
  - destruct (Ascii.eqb_spec x y) as [->|]; [|discriminate]. apply IH in H. subst; reflexivity.
  - inversion H; subst. rewrite Ascii.eqb_refl. apply IH; reflexivity.
Qed.

Definition skeq (a b : bytes) : bool := str_keq (Some a) (Some b).
Definition shash (a : bytes) : N := hash_string (Some a).

Lemma skeq_spec a b : skeq a b = true <-> a = b.
Proof.
  unfold skeq, str_keq, equal_string. rewrite <- str_differs_spec.
  destruct (str_differs a b); simpl; split; congruence.
Qed.

Lemma str_key_ok : key_ok bytes skeq shash.
Proof.
  repeat split.
  - intro a; apply skeq_spec; reflexivity.
  - intros a b. destruct (skeq a b) eqn:E, (skeq b a) eqn:E2; auto.
    + apply skeq_spec in E; subst. rewrite <- E2. symmetry. apply skeq_spec; reflexivity.
    + apply skeq_spec in E2; subst. rewrite <- E. apply skeq_spec; reflexivity.
  - intros a b c H1 H2. apply skeq_spec in H1; apply skeq_spec in H2; apply skeq_spec; congruence.
  - intros a b H. apply skeq_spec in H; subst; reflexivity.
Qed.

Lemma int_key_ok : key_ok Z int_keq int_hash.
Proof.
  unfold int_keq. repeat split; intros.
  - apply Z.eqb_refl.
  - apply Z.eqb_sym.
  - apply Z.eqb_eq in H, H0. apply Z.eqb_eq. congruence.
  - apply Z.eqb_eq in H. congruence.
Qed.
