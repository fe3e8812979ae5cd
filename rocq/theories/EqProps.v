(** C31: comparing and copying trees and documents. *)
From Coq Require Import Permutation.
From Verif Require Import Prelude StrSpec AttrModel TreeModel StreamModel ParseModel XmlSpec SoundSpec EqModel EqSpec EqProofs EqProofs2 EqProofs3 EqProofs4.
Open Scope list_scope.

(** axl_node_are_equal answers for every two nodes, and is reflexive, symmetric and transitive. *)
Theorem C31_node_equivalence :
  forall n1 n2 n3, regular n1 -> regular n2 -> regular n3 ->
  (exists b, node_are_equal n1 n2 = Ok b) /\
  node_are_equal n1 n1 = Ok true /\
  node_are_equal n1 n2 = node_are_equal n2 n1 /\
  (node_are_equal n1 n2 = Ok true -> node_are_equal n2 n3 = Ok true -> node_are_equal n1 n3 = Ok true).
Proof.
  intros n1 n2 n3 R1 R2 R3. split; [exact (node_total n1 n2 R1 R2)|]. split; [exact (node_refl n1 R1)|]. split; [exact (node_sym n1 n2 R1 R2)|].
  exact (node_trans n1 n2 n3 R1 R2 R3).
Qed.
Print Assumptions C31_node_equivalence.

(** Two nodes that it calls equal have the same name and the same attributes. *)
Theorem C31_node_attributes :
  forall n1 n2 name1 name2 ats1 ats2 l1 l2, regular n1 -> regular n2 ->
  shows n1 (XNode name1 ats1 l1) -> shows n2 (XNode name2 ats2 l2) -> node_are_equal n1 n2 = Ok true ->
  name1 = name2 /\ Permutation ats1 ats2.
Proof. exact node_attributes. Qed.
Print Assumptions C31_node_attributes.

(** The comparison of documents says exactly whether the trees are the same: names,
    attributes in any order, items in order, texts without ([false]) or up to the white
    space around them ([true]).  Missing: trees in which a processing instruction has no
    content (false, below). *)
Theorem C31_decides_partial :
  forall trimmed d1 d2 n1 n2 x1 x2, d_root d1 = Some n1 -> d_root d2 = Some n2 -> regular n1 -> regular n2 ->
  all_items pi_full n1 = true -> shows n1 x1 -> shows n2 x2 ->
  exists b, doc_are_equal_common d1 d2 trimmed = Ok b /\ (b = true <-> same trimmed x1 x2).
Proof. exact doc_decides. Qed.
Print Assumptions C31_decides_partial.

(** The comparison of documents is reflexive, symmetric and transitive.  Missing: as above,
    and documents without root (false, below). *)
Theorem C31_equivalence_partial :
  forall trimmed d1 d2 d3 n1 n2 n3, d_root d1 = Some n1 -> d_root d2 = Some n2 -> d_root d3 = Some n3 ->
  regular n1 -> regular n2 -> regular n3 ->
  all_items pi_full n1 = true -> all_items pi_full n2 = true -> all_items pi_full n3 = true ->
  doc_are_equal_common d1 d1 trimmed = Ok true /\
  doc_are_equal_common d1 d2 trimmed = doc_are_equal_common d2 d1 trimmed /\
  (doc_are_equal_common d1 d2 trimmed = Ok true -> doc_are_equal_common d2 d3 trimmed = Ok true ->
   doc_are_equal_common d1 d3 trimmed = Ok true).
Proof. exact doc_equivalence. Qed.
Print Assumptions C31_equivalence_partial.

(** Every node without entity references in it can be copied; the copy shows the same tree
    and is equal to the original.  Missing: references (false, below), processing
    instructions without content for the comparison of whole trees. *)
Theorem C31_copy_partial :
  forall n, regular n -> all_items no_ref n = true ->
  exists c, node_copy n true true = Ok c /\ regular c /\
    (forall x, shows n x -> shows c x) /\ (forall x, shows c x -> shows n x) /\
    node_are_equal n c = Ok true /\
    (all_items pi_full n = true -> forall trimmed, tree_are_equal n c trimmed = Ok true).
Proof. exact copy_ok. Qed.
Print Assumptions C31_copy_partial.

(** Without attributes or without children the copy has none and the rest is the same. *)
Theorem C31_copy_flags_partial :
  forall n attributes children, regular n -> (children = true -> all_items no_ref n = true) ->
  exists c, node_copy n attributes children = Ok c /\ regular c /\ n_name c = n_name n /\
    (attributes = false -> n_attrs c = no_attrs) /\ (children = false -> n_items c = []) /\
    (forall name ats l, shows n (XNode name ats l) ->
     shows c (XNode name (if attributes then ats else []) (if children then l else []))).
Proof. exact copy_flags. Qed.
Print Assumptions C31_copy_flags_partial.

(** The theorems above apply to the documents the parser accepts. *)
Theorem C31_parsed_partial :
  forall content d n, nul_free content -> closed_quotes content -> doc_parse content = Ok (Some d) -> d_root d = Some n ->
  regular n /\ all_items no_ref n = true.
Proof. intros content d n N C P R. exact (conj (parse_regular content d n N C P R) (parse_no_ref content d n P R)). Qed.
Print Assumptions C31_parsed_partial.

(** axl_doc_are_equal does not distinguish texts with different white space around them. *)
Theorem C31_refuted :
  exists d1 d2, doc_parse (str "<a>x</a>") = Ok (Some d1) /\ doc_parse (str "<a> x </a>") = Ok (Some d2) /\
    doc_are_equal d1 d2 = Ok true /\ doc_are_equal_common d1 d2 false = Ok false.
Proof.
  eexists. eexists. split; [vm_compute; reflexivity|]. split; [vm_compute; reflexivity|]. split; vm_compute; reflexivity.
Qed.
Print Assumptions C31_refuted.

(** A document with a processing instruction without content is not equal to itself, and a
    document without root neither. *)
Theorem C31_reflexive_refuted :
  (exists d, doc_parse (str "<a><?x?></a>") = Ok (Some d) /\ doc_are_equal d d = Ok false) /\
  (exists d, d_root d = None /\ doc_are_equal d d = Ok false).
Proof.
  split; [eexists; split; [vm_compute; reflexivity|vm_compute; reflexivity]|]. exists (Doc None None false []). split; reflexivity.
Qed.
Print Assumptions C31_reflexive_refuted.

(** The copy of a node with an entity reference uses memory it must not. *)
Theorem C31_copy_refuted : exists n, regular n /\ node_copy n true true = UB.
Proof.
  exists (Node (str "a") no_attrs [IRef (str "x")]). split; [|reflexivity].
  constructor; [exact (nul_free_str "a" eq_refl)|constructor|]. constructor; [exact (nul_free_str "x" eq_refl)|constructor].
Qed.
Print Assumptions C31_copy_refuted.

(** Trees with attributes given in another order and a nested element, a text and a
    processing instruction. *)
Definition tree1 : res (option doc) := doc_parse (str "<a b='1' c='2'>t <d/><?p q?><![CDATA[<]]></a>").
Definition tree2 : res (option doc) := doc_parse (str "<a c='2' b='1'>t<d/><?p q?><![CDATA[<]]></a>").
Definition same_docs (trim : bool) (a b : res (option doc)) : res bool :=
  a <- a ;; b <- b ;; match a, b with Some a, Some b => doc_are_equal_common a b trim | _, _ => UB end.
Definition copied (a : res (option doc)) : res (option bool) :=
  a <- a ;;
  match a with
  | Some a => match d_root a with Some n => c <- node_copy n true true ;; e <- tree_are_equal n c false ;; Ok (Some e) | None => UB end
  | None => UB
  end.
Example C31_case :
  same_docs false tree1 tree1 = Ok true /\ same_docs true tree1 tree2 = Ok true /\ same_docs false tree1 tree2 = Ok false /\
  same_docs true tree1 (doc_parse (str "<a b='1' c='2'><d/>t<?p q?><![CDATA[<]]></a>")) = Ok false /\
  same_docs true tree1 (doc_parse (str "<a b='1' c='3'>t<d/><?p q?><![CDATA[<]]></a>")) = Ok false /\
  copied tree1 = Ok (Some true) /\
  (exists d n, tree1 = Ok (Some d) /\ d_root d = Some n /\ all_items pi_full n = true /\ regular n).
Proof.
  repeat (split; [vm_compute; reflexivity|]).
  eexists. eexists. split; [vm_compute; reflexivity|]. split; [reflexivity|]. split; [vm_compute; reflexivity|].
  repeat first [apply Regular | apply regular_nil | apply regular_node | apply regular_content | apply regular_cdata | apply regular_pi];
    try (apply nul_free_bool; reflexivity); try (intros v X; injection X as <-; apply nul_free_bool; reflexivity).
  - eapply (made_core (match set_attribute_core no_attrs (str "b") (Some (str "1")) true with Ok (a, _) => a | _ => no_attrs end) (str "c") (str "2") true);
      [eapply (made_core no_attrs (str "b") (str "1") true); [constructor|apply nul_free_bool; reflexivity..|vm_compute; reflexivity]
      |apply nul_free_bool; reflexivity..|vm_compute; reflexivity].
  - constructor.
Qed.
