(** A regular file that is larger than the buffer. *)
From Verif Require Import Prelude StrModel TreeModel StreamModel ParseModel ParseProofs2 FileSpec FileProofs4 FileCases.

Definition nl : bytes := ["010"%char].
Definition ex_line : bytes := s2b "<item k='v' l=""w"">some text</item>" ++ nl.
Definition ex_large : bytes := s2b "<?xml version='1.0' encoding='utf-8' ?>" ++ nl ++ s2b "<list>" ++ nl ++
  concat (repeat ex_line (N.to_nat 600)) ++ s2b "</list>" ++ nl.
Lemma large_regular : regular ex_large.
Proof.
  apply (regular_test ex_large (removelast ex_large) "010"%char (s2b "<?") (skipn 2 ex_large)).
  - vm_cast_no_check (eq_refl ex_large).
  - cbn. auto.
  - vm_cast_no_check (eq_refl true).
  - vm_cast_no_check (eq_refl ex_large).
  - exists (s2b " "), [], "039"%char, (skipn 19 ex_large).
    split; [vm_cast_no_check (eq_refl ex_large)|]. split; [repeat constructor|]. split; [constructor|]. right. reflexivity.
  - reflexivity.
  - vm_cast_no_check (eq_refl true).
Qed.
Lemma large_case : regular ex_large /\ ~ fits ex_large /\
  kids_of (doc_parse_file ex_large) = Some 600%nat.
Proof.
  split; [exact large_regular|]. split.
  - unfold fits. intros H.
    assert (E : N.of_nat (length ex_large) = 21055%N) by vm_cast_no_check (eq_refl 21055%N).
    rewrite E in H. revert H. vm_compute. intros H. apply H. reflexivity.
  - rewrite (file_regular _ large_regular), parse_ok. vm_cast_no_check (eq_refl (Some 600%nat)).
Qed.
