(** C58: documents that are cut off. *)
From Verif Require Import Prelude StrSpec AttrModel TreeModel ParseModel XmlSpec CutSpec CutProofs3 CutCases.
Open Scope nat_scope.
Open Scope list_scope.

(** Of the beginnings of a text that goes on in any way behind a document, those are
    accepted that contain the whole document, and no others, as long as no attribute value and
    no encoding name contains [>]. *)
Theorem C58_cut_partial :
  forall text encoding standalone pis x rest piece missing,
  whole text encoding standalone pis x -> tame x -> (forall v, encoding = Some v -> has ">" v = false) ->
  text ++ rest = piece ++ missing ->
  ((exists d, doc_parse piece = Ok (Some d)) <-> length text <= length piece).
Proof. exact cuts_ok. Qed.
Print Assumptions C58_cut_partial.

(** With [>] in an attribute value it is false: of <a b='/>' /> the first eight bytes are
    accepted, as an element with an attribute without value. *)
Theorem C58_cut_refuted :
  exists text encoding standalone pis x piece missing, whole text encoding standalone pis x /\
    text = piece ++ missing /\ missing <> [] /\
    exists d n, doc_parse piece = Ok (Some d) /\ d_root d = Some n /\ shows n (XNode (s2b "a") [(s2b "b", None)] []).
Proof.
  exists angry, None, false, [], angry_tree, (s2b "<a b='/>"), (s2b "' />"). split; [exact angry_whole|]. split; [reflexivity|]. split; [discriminate|].
  eexists _, _. split; [vm_compute; reflexivity|]. split; [reflexivity|]. econstructor; [reflexivity|constructor; constructor|constructor].
Qed.
Print Assumptions C58_cut_refuted.

(** Nor is what follows an accepted text without importance when the text is not well-formed. *)
Theorem C58_rest_refuted :
  exists text rest d, doc_parse text = Ok (Some d) /\ doc_parse (text ++ rest) = Ok None.
Proof. exists (s2b "<a b='/>"), (s2b "'"). eexists. split; vm_compute; reflexivity. Qed.
Print Assumptions C58_rest_refuted.

Example C58_case : whole letter (Some (s2b "utf-8")) false [Pi (s2b "p") (Some (s2b "q>"))] letter_tree /\ tame letter_tree /\
  (forall v, Some (s2b "utf-8") = Some v -> has ">" v = false) /\ length letter = 117.
Proof. split; [exact letter_whole|]. split; [exact letter_tame|]. split; [intros v H; injection H as <-; reflexivity|reflexivity]. Qed.
