(** C70: axl-knife --htmlize shows the document. *)
From Coq Require Import Permutation.
From Verif Require Import Prelude StrModel StrSpec AttrModel TreeModel ParseModel XmlSpec ParseProofs SoundSpec NsCases EqSpec HtmlModel HtmlSpec HtmlProofs HtmlProofs2 HtmlProofs3 HtmlCases.
Open Scope nat_scope.
Open Scope list_scope.

(** What a browser shows of the page is white space around a well-formed text, and the
    document in this text is the given one, up to the order of attributes and white space around
    texts and comments.  With all options.
    Missing: empty elements without attributes, processing instructions, references, and quotes
    and brackets in values, for which it is false, see below. *)
Theorem C70_shows_partial :
  forall skip cls d n x, class_ok cls -> d_root d = Some n -> regular n -> shows n x -> proper x -> showable x ->
  exists page w t w' y, htmlize skip cls d = Ok page /\ displays page (w ++ t ++ w') /\ blank w /\ blank w' /\ elem_text t y /\ same true x y.
Proof. exact page_shown. Qed.
Print Assumptions C70_shows_partial.

(** From the text of a document: what is seen of its page can be read again by the parser, and
    gives the document.  Missing: as above. *)
Theorem C70_again_partial :
  forall skip cls text encoding standalone pis x, doc_text text encoding standalone pis x -> nul_free text -> closed_quotes text -> showable x -> class_ok cls ->
  exists d page seen d' n' y, doc_parse text = Ok (Some d) /\ htmlize skip cls d = Ok page /\ displays page seen /\
    doc_parse seen = Ok (Some d') /\ d_root d' = Some n' /\ shows n' y /\ same true x y.
Proof. exact seen_again. Qed.
Print Assumptions C70_again_partial.

(** a page shows one text only *)
Theorem C70_one_text : forall page t t', displays page t -> displays page t' -> t = t'.
Proof. intros page t t' H. exact (displays_once page t H t'). Qed.
Print Assumptions C70_one_text.

Example C70_case :
  proper x_case /\ showable x_case /\ doc_text (text_of x_case) None false [] x_case /\ nul_free (text_of x_case) /\ closed_quotes (text_of x_case) /\
  class_ok (Some (str "xml")) /\ class_ok None.
Proof.
  split; [exact p_case|]. split; [exact s_case|]. split; [apply text_of_ok; [exact p_case|reflexivity]|]. split; [nf|]. split; [apply cqb_ok; reflexivity|].
  split; intros v E; [injection E as <-; split; reflexivity|discriminate].
Qed.

(** An empty element without attributes is shown as a start tag that nothing closes. *)
Theorem C70_empty_refuted :
  exists x text d page seen, doc_text text None false [] x /\ doc_parse text = Ok (Some d) /\ htmlize false None d = Ok page /\ displays page seen /\ doc_parse seen = Ok None.
Proof. exists x_empty. eapply lost; [exact p_empty|reflexivity|vm_compute; reflexivity|vm_compute; reflexivity]. Qed.
Print Assumptions C70_empty_refuted.

(** A reference in a text is shown as the character it stands for. *)
Theorem C70_reference_refuted :
  exists x text d page seen, x = XNode (str "a") [] [XText (str "1 &lt; 2")] /\
    doc_text text None false [] x /\ doc_parse text = Ok (Some d) /\ htmlize false None d = Ok page /\ displays page seen /\ doc_parse seen = Ok None.
Proof.
  exists x_ref. destruct (lost x_ref _ p_ref eq_refl ltac:(vm_compute; reflexivity) ltac:(vm_compute; reflexivity)) as (text & d & page & seen & H).
  exists text, d, page, seen. split; [reflexivity|exact H].
Qed.
Print Assumptions C70_reference_refuted.

(** A double quote in a value ends it. *)
Theorem C70_quote_refuted :
  exists x text d page seen, x = XNode (str "a") [(str "k", Some (str "say " ++ ["034"%char] ++ str "x" ++ ["034"%char]))] [] /\
    doc_text text None false [] x /\ doc_parse text = Ok (Some d) /\ htmlize false None d = Ok page /\ displays page seen /\ doc_parse seen = Ok None.
Proof.
  exists x_quote. destruct (lost x_quote _ p_quote eq_refl ltac:(vm_compute; reflexivity) ltac:(vm_compute; reflexivity)) as (text & d & page & seen & H).
  exists text, d, page, seen. split; [reflexivity|exact H].
Qed.
Print Assumptions C70_quote_refuted.

(** Processing instructions are not shown. *)
Theorem C70_instruction_refuted :
  exists x y text d page seen d' n', doc_text text None false [] x /\ doc_parse text = Ok (Some d) /\ htmlize false None d = Ok page /\ displays page seen /\
    doc_parse seen = Ok (Some d') /\ d_root d' = Some n' /\ shows n' y /\ ~ same true x y.
Proof.
  exists x_pi, (XNode (str "a") [] [XText (str "t")]). eapply (changed (same true)); [exact p_pi|reflexivity|vm_compute; reflexivity| |].
  - eexists _, _. split; [vm_compute; reflexivity|]. split; [reflexivity|]. econstructor; [reflexivity|constructor|]. repeat constructor.
  - intros H. inversion H as [? ? ? ? ? _ H']; subst. inversion H'.
Qed.
Print Assumptions C70_instruction_refuted.

(** Brackets in a value are taken for a tag, and not shown. *)
Theorem C70_bracket_refuted :
  exists x y text d page seen d' n', doc_text text None false [] x /\ doc_parse text = Ok (Some d) /\ htmlize false None d = Ok page /\ displays page seen /\
    doc_parse seen = Ok (Some d') /\ d_root d' = Some n' /\ shows n' y /\ ~ same true x y.
Proof.
  exists x_mark, (XNode (str "a") [(str "k", Some [])] []). eapply (changed (same true)); [exact p_mark|reflexivity|vm_compute; reflexivity| |].
  - eexists _, _. split; [vm_compute; reflexivity|]. split; [reflexivity|]. econstructor; [reflexivity|apply Permutation_refl|constructor].
  - intros H. inversion H as [? ? ? ? ? P _]; subst. apply Permutation_length_1 in P. discriminate.
Qed.
Print Assumptions C70_bracket_refuted.

(** The texts of elements with attributes begin with a line end that the document does not have. *)
Theorem C70_line_refuted :
  exists x y text d page seen d' n', doc_text text None false [] x /\ doc_parse text = Ok (Some d) /\ htmlize false None d = Ok page /\ displays page seen /\
    doc_parse seen = Ok (Some d') /\ d_root d' = Some n' /\ shows n' y /\ ~ same false x y.
Proof.
  exists x_line, (XNode (str "a") [(str "k", Some (str "1"))] [XText (LF :: str "t")]). eapply (changed (same false)); [exact p_line|reflexivity|vm_compute; reflexivity| |].
  - eexists _, _. split; [vm_compute; reflexivity|]. split; [reflexivity|]. econstructor; [reflexivity|apply Permutation_refl|repeat constructor].
  - intros H. inversion H as [? ? ? ? ? _ H']; subst. inversion H' as [| |? ? ? ? E _| | | |]; subst. discriminate E.
Qed.
Print Assumptions C70_line_refuted.
