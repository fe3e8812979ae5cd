(** C25 and C26: what an accepted document is. *)
From Coq Require Import Permutation.
From Verif Require Import Prelude StrSpec AttrModel TreeModel StreamModel ParseModel XmlSpec SoundSpec SoundProofs SoundProofs2.
Open Scope list_scope.

(** ** C25 *)

(** Every accepted text is a head (byte order mark, declaration, comments, processing
    instructions, document type), one element and a rest, and the root of the document
    is the tree of that element: each start tag has its end tag with the same name, in
    proper nesting, and the items of every element are those of its text in order.
    Missing: that the rest is only white space, comments and processing instructions,
    that the first character is [<], and that names are not empty (all false, below). *)
Theorem C25_nesting_partial :
  forall content d, doc_parse content = Ok (Some d) ->
  exists n pre b e rest, d_root d = Some n /\ content = pre ++ b ++ e ++ rest /\
    head_loose pre /\ (b = [] \/ b = str "<") /\ elem_loose e n.
Proof.
  intros content d H. destruct (parse_sound content d H) as (n & R & pre & b & e & post & X). exists n, pre, b, e, post. exact (conj R X).
Qed.
Print Assumptions C25_nesting_partial.

(** Accepted although there is text and a start tag after the root; a root with an
    empty name; a root without [<]. *)
Theorem C25_refuted :
  exists d1 d2 d3 n, doc_parse (str "<a></a>junk<b>") = Ok (Some d1) /\
    doc_parse (str "</>") = Ok (Some d2) /\ d_root d2 = Some n /\ n_name n = [] /\
    doc_parse (str "a/>") = Ok (Some d3).
Proof.
  eexists _, _, _, _. split; [vm_compute; reflexivity|]. split; [vm_compute; reflexivity|]. split; [reflexivity|]. split; [reflexivity|].
  vm_compute. reflexivity.
Qed.
Print Assumptions C25_refuted.

Example C25_case :
  (exists d, doc_parse (str "<?xml version='1.0'?><!-- c --><a b='1'>t<c/><d>x</d></a>") = Ok (Some d)) /\
  doc_parse (str "<a><b></a></b>") = Ok None /\ doc_parse (str "<a><b></b>") = Ok None /\
  elem_loose (str "a><b>x</b></a>") (Node (str "a") no_attrs [INode (Node (str "b") no_attrs [IContent (str "x")])]).
Proof.
  assert (N : attrs_of no_attrs []) by (exists []; repeat split; constructor).
  split; [eexists; vm_compute; reflexivity|]. split; [vm_compute; reflexivity|]. split; [vm_compute; reflexivity|].
  apply (elem_loose_full (str "a>") (str "a") [] no_attrs (str "<b>x</b>") _ (str "</a>")); [|exact N| |].
  - apply (tag_loose_plain (str "a")); try reflexivity; discriminate.
  - apply (body_loose_elem [] [] [] (str "b>x</b>") (Node (str "b") no_attrs [IContent (str "x")]) [] []); [constructor|auto| |constructor].
    apply (elem_loose_full (str "b>") (str "b") [] no_attrs (str "x") _ (str "</b>")); [|exact N| |].
    + apply (tag_loose_plain (str "b")); try reflexivity; discriminate.
    + apply (body_loose_text (str "x") [] []); [reflexivity|discriminate|constructor].
    + exists (str "b"), []. repeat split; try reflexivity; [discriminate|auto].
  - exists (str "a"), []. repeat split; try reflexivity; [discriminate|auto].
Qed.

(** ** C26 *)

(** In an accepted document no element has two attributes with the same name. *)
Theorem C26_distinct :
  forall content d n, doc_parse content = Ok (Some d) -> d_root d = Some n -> every (fun n => distinct (n_attrs n)) n.
Proof. exact parse_distinct. Qed.
Print Assumptions C26_distinct.

(** If every quote after an equals sign is closed somewhere, all attributes have values.
    Missing: without that condition it is false, below. *)
Theorem C26_values_partial :
  forall content d n, closed_quotes content -> doc_parse content = Ok (Some d) -> d_root d = Some n ->
  every (fun n => valued (n_attrs n)) n.
Proof. exact parse_valued. Qed.
Print Assumptions C26_values_partial.

Theorem C26_refuted :
  exists d n, doc_parse (str "<a b='/>") = Ok (Some d) /\ d_root d = Some n /\
    attr_foreach (fun _ _ => false) (n_attrs n) = Ok [(str "b", None)].
Proof. eexists _, _. split; [vm_compute; reflexivity|]. split; [reflexivity|]. vm_compute. reflexivity. Qed.
Print Assumptions C26_refuted.

Example C26_case :
  (exists d, doc_parse (str "<a b='1' c='2'><d b='3'/></a>") = Ok (Some d)) /\
  doc_parse (str "<a b='1' c='2' b='1'/>") = Ok None /\
  closed_quotes (str "<a b='1' c=''/>").
Proof.
  split; [eexists; vm_compute; reflexivity|]. split; [vm_compute; reflexivity|].
  intros u q v E [->| ->].
  - do 14 (destruct u as [|? u]; [injection E; intros; subst; first [discriminate | reflexivity] | injection E as ? E; try discriminate E]).
    destruct u; [discriminate|destruct u; discriminate].
  - do 14 (destruct u as [|? u]; [injection E; intros; subst; discriminate | injection E as ? E; try discriminate E]).
    destruct u; [discriminate|destruct u; discriminate].
Qed.
