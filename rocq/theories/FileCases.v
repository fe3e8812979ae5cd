(** Concrete files. *)
From Verif Require Import Prelude StrModel TreeModel StreamModel ParseModel FileSpec FileProofs.

Definition txt (n : N) : bytes := repeat "x"%char (N.to_nat n).
(** the text starts with white space and ends with the file *)
Definition ex_text : bytes := s2b "<a> x</a>".
(** the end tag crosses the end of the buffer *)
Definition ex_end : bytes := s2b "<aaa>" ++ txt 8183 ++ s2b "</aaa>".
(** the end of the comment crosses the end of the buffer *)
Definition ex_comment : bytes := s2b "<a><!--" ++ txt 8183 ++ s2b "--><b/></a>".

Definition root_kids (r : res (option doc)) : option (list item) :=
  match r with Ok (Some d) => match d_root d with Some (Node _ _ k) => Some k | None => None end | _ => None end.
Definition accepted (r : res (option doc)) : bool := match r with Ok (Some _) => true | _ => false end.
Definition rejected (r : res (option doc)) : bool := match r with Ok None => true | _ => false end.

(** the end of the first CDATA section crosses the end of the buffer *)
Definition ex_cdata : bytes := s2b "<a><![CDATA[" ++ txt 8178 ++ s2b "]]><b/><![CDATA[y]]></a>".

Definition kids_of (r : res (option doc)) : option nat :=
  match r with Ok (Some d) => match d_root d with Some (Node _ _ k) => Some (length k) | None => None end | _ => None end.

Lemma text_memory : root_kids (doc_parse ex_text) = Some [IContent (s2b " x")].
Proof. vm_cast_no_check (eq_refl (Some [IContent (s2b " x")])). Qed.
Lemma text_file : root_kids (doc_parse_file ex_text) = Some [IContent (s2b "x")].
Proof. vm_cast_no_check (eq_refl (Some [IContent (s2b "x")])). Qed.
Lemma end_memory : accepted (doc_parse ex_end) = true.
Proof. vm_cast_no_check (eq_refl (true)). Qed.
Lemma end_file : rejected (doc_parse_file ex_end) = true.
Proof. vm_cast_no_check (eq_refl (true)). Qed.
Lemma comment_memory : accepted (doc_parse ex_comment) = true.
Proof. vm_cast_no_check (eq_refl (true)). Qed.
Lemma comment_file : rejected (doc_parse_file ex_comment) = true.
Proof. vm_cast_no_check (eq_refl (true)). Qed.
Lemma cdata_memory : kids_of (doc_parse ex_cdata) = Some 3%nat.
Proof. vm_cast_no_check (eq_refl (Some 3%nat)). Qed.
Lemma cdata_file : kids_of (doc_parse_file ex_cdata) = Some 1%nat.
Proof. vm_cast_no_check (eq_refl (Some 1%nat)). Qed.

(** a file with a declaration, attributes, comments, a processing instruction, CDATA,
    references and text starting with white space *)
Definition ex_small : bytes := s2b "<?xml version='1.0' encoding='utf-8'?><!-- c --><a b='1' c='&lt;'> t &amp; u<b/><?p q?><![CDATA[<x>]]> some text </a>".
Lemma small_settled : settled ex_small.
Proof. apply settled_test. vm_compute. reflexivity. Qed.
Lemma small_case : fits ex_small /\ settled ex_small /\ accepted (doc_parse ex_small) = true /\
  root_kids (doc_parse_file ex_small) =
    Some [IContent (s2b " t &amp; u"); INode (Node (s2b "b") AttrModel.no_attrs []); IPi (Pi (s2b "p") (Some (s2b "q")));
          ICdata (s2b "<x>"); IContent (s2b " some text ")].
Proof.
  split; [vm_compute; discriminate|]. split; [apply small_settled|].
  split; [vm_cast_no_check (eq_refl true)|].
  vm_compute. reflexivity.
Qed.
