(** C42: parsing a file and parsing its content. *)
From Verif Require Import Prelude TreeModel StreamModel ParseModel FileSpec FileProofs FileProofs4 FileCases FileCases2.

(** The full claim would be

      forall content, doc_parse_file content = doc_parse content

    It is false: see the refuted statements below. What is missing from the two
    partial statements is exactly the contents excluded by their hypotheses. *)

(** A file that fits in the buffer gives the same result (the same document, or a
    rejection in both cases) as its content, if in its last bytes no text begins with white
    space *)
Theorem C42_small_partial : forall content,
  fits content -> settled content -> doc_parse_file content = doc_parse content.
Proof. exact file_same. Qed.
Print Assumptions C42_small_partial.
Example C42_small_case : fits ex_small /\ settled ex_small /\ accepted (doc_parse ex_small) = true /\
  root_kids (doc_parse_file ex_small) =
    Some [IContent (s2b " t &amp; u"); INode (Node (s2b "b") AttrModel.no_attrs []); IPi (Pi (s2b "p") (Some (s2b "q")));
          ICdata (s2b "<x>"); IContent (s2b " some text ")].
Proof. exact small_case. Qed.

(** A regular file of any size gives the same result as its content, wherever the
    buffer boundaries fall *)
Theorem C42_regular_partial : forall content,
  regular content -> doc_parse_file content = doc_parse content.
Proof. exact file_regular. Qed.
Print Assumptions C42_regular_partial.
Example C42_regular_case : regular ex_large /\ ~ fits ex_large /\ kids_of (doc_parse_file ex_large) = Some 600%nat.
Proof. exact large_case. Qed.

(** A file in which text starts with white space loses it: [<a> x</a>] *)
Theorem C42_text_refuted : exists content text text',
  root_kids (doc_parse content) = Some [IContent text] /\ root_kids (doc_parse_file content) = Some [IContent text'] /\
  text <> text'.
Proof. exists ex_text, (s2b " x"), (s2b "x"). split; [exact text_memory|]. split; [exact text_file|discriminate]. Qed.
Print Assumptions C42_text_refuted.

(** A document that is accepted from memory is rejected from a file because its last
    tag ends with the file, or because the end of a comment crosses the end of the
    buffer *)
Theorem C42_rejected_refuted : exists content content',
  accepted (doc_parse content) = true /\ rejected (doc_parse_file content) = true /\
  accepted (doc_parse content') = true /\ rejected (doc_parse_file content') = true /\ content <> content'.
Proof.
  exists ex_end, ex_comment. split; [exact end_memory|]. split; [exact end_file|]. split; [exact comment_memory|].
  split; [exact comment_file|]. intros E. discriminate E.
Qed.
Print Assumptions C42_rejected_refuted.

(** A document is accepted from a file, but with the elements between two CDATA
    sections swallowed *)
Theorem C42_swallowed_refuted : exists content,
  kids_of (doc_parse content) = Some 3%nat /\ kids_of (doc_parse_file content) = Some 1%nat.
Proof. exists ex_cdata. split; [exact cdata_memory|exact cdata_file]. Qed.
Print Assumptions C42_swallowed_refuted.
