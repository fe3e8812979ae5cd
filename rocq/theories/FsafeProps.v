(** C71: parsing a file ends, inside its buffer. *)
From Verif Require Import Prelude StrModel XmlSpec TreeModel StreamModel ParseModel LinkModel LinkExec LinkProofs2 FsafeProofs3 FsafeProofs4 FsafeCases.

(** The full claim would be

      forall content, exists r, doc_parse_file content = Ok r

    It is false only because of a short standalone= value, see below. *)

(** Whatever the file holds, the call returns: no loop goes on for ever. *)
Theorem C71_ends : forall content, ParseModel.doc_parse_file content <> NoFuel.
Proof. exact never_stuck. Qed.
Print Assumptions C71_ends.

(** It reads and writes inside the buffer, however often it is filled again.
    Missing: a quoted value of standalone= with less than two bytes. *)
Theorem C71_inside_partial :
  forall content,
  (forall a q v q' b, content = a ++ s2b "standalone=" ++ [q] ++ v ++ [q'] ++ b -> quote q -> quote q' -> (2 <= length v)%nat) ->
  exists r, ParseModel.doc_parse_file content = Ok r.
Proof. exact file_inside. Qed.
Print Assumptions C71_inside_partial.

(** With a shorter one, memcmp is asked for three bytes of a smaller block. *)
Theorem C71_standalone_refuted : exists content, ParseModel.doc_parse_file content = UB.
Proof. exists (s2b "<?xml version='1.0' standalone='' ?><a/>"). vm_compute. reflexivity. Qed.
Print Assumptions C71_standalone_refuted.

(** The parser that links the nodes as well. *)
Theorem C71_linked_partial :
  forall content, LinkModel.doc_parse_file content <> NoFuel /\
  ((forall a q v q' b, content = a ++ s2b "standalone=" ++ [q] ++ v ++ [q'] ++ b -> quote q -> quote q' -> (2 <= length v)%nat) ->
   exists r, LinkModel.doc_parse_file content = Ok r).
Proof. exact linked_inside. Qed.
Print Assumptions C71_linked_partial.

Example C71_case : ParseModel.doc_parse_file c71_odd = Ok None /\ exists r, LinkModel.doc_parse_file c71_odd = Ok r.
Proof. split; [exact c71_odd_ends|]. exact (proj2 (linked_inside _) c71_odd_plain). Qed.
