(** What C71 says, from the two outcomes of [file_ends]. *)
From Verif Require Import Prelude StrModel XmlSpec TreeModel StreamModel ParseModel LinkModel LinkExec LinkProofs2 LinkProofs3 FsafeProofs3.

Lemma never_stuck content : ParseModel.doc_parse_file content <> NoFuel.
Proof. destruct (file_ends content) as [[r ->]|[-> _]]; discriminate. Qed.
Lemma file_inside content :
  (forall a q v q' b, content = a ++ s2b "standalone=" ++ [q] ++ v ++ [q'] ++ b -> quote q -> quote q' -> (2 <= length v)%nat) ->
  exists r, ParseModel.doc_parse_file content = Ok r.
Proof.
  intros H. destruct (file_ends content) as [E|[_ (a & q & v & q' & b & E & Q & Q' & L)]]; [exact E|].
  specialize (H a q v q' b E Q Q'). lia.
Qed.
Lemma linked_inside content : LinkModel.doc_parse_file content <> NoFuel /\
  ((forall a q v q' b, content = a ++ s2b "standalone=" ++ [q] ++ v ++ [q'] ++ b -> quote q -> quote q' -> (2 <= length v)%nat) ->
   exists r, LinkModel.doc_parse_file content = Ok r).
Proof.
  pose proof (proj2 (agree_both content)) as A. split.
  - intros E. rewrite E in A. pose proof (never_stuck content) as N. destruct (ParseModel.doc_parse_file content) as [[d|]| |]; try contradiction.
  - intros H. destruct (file_inside content H) as [r E]. rewrite E in A.
    destruct (LinkModel.doc_parse_file content) as [o| |]; [eauto|destruct r; contradiction|destruct r; contradiction].
Qed.
