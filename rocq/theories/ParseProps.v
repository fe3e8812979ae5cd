(** C22-C28, C43 and C49: parsing and writing documents. *)
From Coq Require Import Permutation.
From Verif Require Import Prelude StrSpec StrProofs AttrModel TreeModel StreamModel ParseModel ParseProofs DumpModel XmlSpec GramProofs4 GramProofs5 GramProofs3.
Open Scope Z_scope.

(** ** C22 *)

(** Every document and every node, plain and pretty, for every tabular width: the dump
    succeeds inside a block of size + 1 bytes, what it wrote is the XML text of the
    tree, a NUL follows it, and the size reported is the length of the text. *)
Theorem C22_dump_size :
  forall n x encoding standalone pis, shows n x -> measurable x -> (forall v, encoding = Some v -> nul_free v) ->
  exists x', shows n x' /\
    doc_dump (Doc (Some n) encoding standalone pis) =
      Ok (Some (doc_xml None encoding standalone x' ++ [NUL], Z.of_nat (length (doc_xml None encoding standalone x')))) /\
    (forall t, doc_dump_pretty (Doc (Some n) encoding standalone pis) (Z.of_nat t) =
       Ok (Some (doc_xml (Some t) encoding standalone x' ++ [NUL], Z.of_nat (length (doc_xml (Some t) encoding standalone x'))))) /\
    node_dump n = Ok (Some (elem_xml None 0 x' ++ [NUL], Z.of_nat (length (elem_xml None 0 x')))) /\
    (forall t, node_dump_pretty n (Z.of_nat t) =
       Ok (Some (elem_xml (Some t) 0 x' ++ [NUL], Z.of_nat (length (elem_xml (Some t) 0 x'))))).
Proof. exact dumps. Qed.
Print Assumptions C22_dump_size.

(** With a negative width the block is too small and the dump writes behind it. *)
Theorem C22_negative_width_refuted :
  exists n x t, shows n x /\ measurable x /\ node_dump_pretty n t = UB.
Proof.
  exists (Node (s2b "a") no_attrs [INode (Node (s2b "b") no_attrs [])]), (XNode (s2b "a") [] [XElem (XNode (s2b "b") [] [])]), (-2).
  split; [|split; [|vm_compute; reflexivity]].
  - econstructor; [reflexivity|constructor|]. repeat econstructor.
  - repeat first [nf | constructor].
Qed.
Print Assumptions C22_negative_width_refuted.

(** An attribute or a processing instruction without value, and an empty comment, are
    read through a NULL pointer or before their first byte. *)
Theorem C22_null_refuted :
  exists a, attr_foreach (fun _ _ => false) a = Ok [(s2b "b", None)] /\
    node_dump (Node (s2b "a") a []) = UB /\
    node_dump (Node (s2b "a") no_attrs [IPi (Pi (s2b "p") None)]) = UB /\
    node_dump (Node (s2b "a") no_attrs [IComment []]) = UB.
Proof.
  exists (match set_attribute_core no_attrs (s2b "b") None true with Ok (a, _) => a | _ => no_attrs end).
  repeat split; vm_compute; reflexivity.
Qed.
Print Assumptions C22_null_refuted.

Definition tree1 : node := Node (s2b "a") no_attrs
  [IContent (s2b "t"); INode (Node (s2b "b") no_attrs [ICdata (s2b "<")]); IPi (Pi (s2b "p") (Some (s2b "q"))); IComment (s2b "c"); INode (Node (s2b "d") no_attrs [])].
Example C22_case :
  node_dump_pretty tree1 2 = Ok (Some (s2b "<a>" ++ ["010"%char] ++ s2b "t  <b><![CDATA[<]]></b>" ++ ["010"%char] ++ s2b "<?p q?>  <!-- c -->" ++ ["010"%char] ++
     s2b "  <d />" ++ ["010"%char] ++ s2b "</a>" ++ ["010"%char; NUL], 61)) /\
  exists x, shows tree1 x /\ measurable x.
Proof.
  split; [vm_compute; reflexivity|].
  exists (XNode (s2b "a") [] [XText (s2b "t"); XElem (XNode (s2b "b") [] [XCdata (s2b "<")]); XPi (s2b "p") (Some (s2b "q")); XComment (s2b "c"); XElem (XNode (s2b "d") [] [])]).
  split.
  - econstructor; [reflexivity|constructor|]. constructor. constructor; [repeat econstructor|].
    apply (shows_pi (Pi (s2b "p") (Some (s2b "q")))). constructor. constructor; repeat econstructor.
  - repeat first [nf | discriminate | constructor].
Qed.

(** ** C23 *)

(** Parsing what was written gives the same tree, encoding and standalone mark, with a
    space added on each side of a comment that has none there; this for trees whose
    names are names, whose attribute values do not use both quotes, with no [xml:space],
    whose texts are not blank, not adjacent, hold no [<] and do not begin with white
    space right after a comment or a processing instruction ([proper]); the pretty
    layout also needs that no element mixes text with elements.  Missing for the full
    statement: what the theorems below refute. *)
Theorem C23_round_trip_partial :
  forall n x encoding standalone pis, shows n x -> proper x -> is_encoding encoding ->
  exists text d' n',
    doc_dump (Doc (Some n) encoding standalone pis) = Ok (Some (text ++ [NUL], Z.of_nat (length text))) /\
    doc_parse text = Ok (Some d') /\ d_root d' = Some n' /\ shows n' (pad_tree x) /\
    d_encoding d' = encoding /\ d_standalone d' = standalone /\ d_pis d' = [].
Proof. intros n x e sa pis S P E. exact (round_trip None n x e sa pis S P (or_introl eq_refl) E). Qed.
Print Assumptions C23_round_trip_partial.

Theorem C23_pretty_partial :
  forall n x encoding standalone pis t, shows n x -> proper x -> unmixed x -> is_encoding encoding ->
  exists text d' n',
    doc_dump_pretty (Doc (Some n) encoding standalone pis) (Z.of_nat t) = Ok (Some (text ++ [NUL], Z.of_nat (length text))) /\
    doc_parse text = Ok (Some d') /\ d_root d' = Some n' /\ shows n' (pad_tree x) /\
    d_encoding d' = encoding /\ d_standalone d' = standalone /\ d_pis d' = [].
Proof. intros n x e sa pis t S P U E. exact (round_trip (Some t) n x e sa pis S P (or_intror U) E). Qed.
Print Assumptions C23_pretty_partial.

(** The tree itself comes back when every comment begins and ends with a space. *)
Theorem C23_spaced_partial :
  forall n x encoding standalone pis, shows n x -> proper x -> spaced x -> is_encoding encoding ->
  exists text d' n',
    doc_dump (Doc (Some n) encoding standalone pis) = Ok (Some (text ++ [NUL], Z.of_nat (length text))) /\
    doc_parse text = Ok (Some d') /\ d_root d' = Some n' /\ shows n' x /\
    d_encoding d' = encoding /\ d_standalone d' = standalone.
Proof.
  intros n x e sa pis S P Sp E. destruct (round_trip None n x e sa pis S P (or_introl eq_refl) E) as (text & d' & n' & H1 & H2 & H3 & H4 & H5 & H6 & _).
  rewrite (proj1 pad_spaced x Sp) in H4. exists text, d', n'. auto 10.
Qed.
Print Assumptions C23_spaced_partial.

Definition reparse (n : node) : res (option node) :=
  x <- doc_dump (Doc (Some n) None false []) ;;
  match x with
  | Some (b, size) => d <- doc_parse (firstn (Z.to_nat size) b) ;; Ok (match d with Some d => d_root d | None => None end)
  | None => Ok None
  end.
(** A comment without spaces, white space after a comment, two texts in a row, a blank
    text and a reference do not come back; a processing instruction of the document is
    lost. *)
Theorem C23_refuted :
  reparse (Node (s2b "a") no_attrs [IComment (s2b "x")]) = Ok (Some (Node (s2b "a") no_attrs [IComment (s2b " x ")])) /\
  reparse (Node (s2b "a") no_attrs [IComment (s2b " x "); IContent (s2b " y")]) = Ok (Some (Node (s2b "a") no_attrs [IComment (s2b " x "); IContent (s2b "y")])) /\
  reparse (Node (s2b "a") no_attrs [IContent (s2b "x"); IContent (s2b "y")]) = Ok (Some (Node (s2b "a") no_attrs [IContent (s2b "xy")])) /\
  reparse (Node (s2b "a") no_attrs [IContent (s2b " ")]) = Ok (Some (Node (s2b "a") no_attrs [])) /\
  reparse (Node (s2b "a") no_attrs [IContent (s2b "x"); IRef (s2b "r")]) = Ok (Some (Node (s2b "a") no_attrs [IContent (s2b "x&r;")])) /\
  doc_dump (Doc (Some (Node (s2b "a") no_attrs [])) None false [Pi (s2b "p") (Some (s2b "q"))]) =
    Ok (Some (s2b "<?xml version='1.0' ?><a />" ++ [NUL], 27)).
Proof. repeat split; vm_compute; reflexivity. Qed.
Print Assumptions C23_refuted.

Definition xtree : xnode := XNode (s2b "a") [(s2b "k", Some (s2b "it's")); (s2b "l", Some (s2b "<&>"))]
  [XText (s2b " t&amp; "); XElem (XNode (s2b "b") [] [XCdata (s2b "<b>]]")]); XPi (s2b "p") (Some (s2b "q ?")); XText (s2b "u"); XComment (s2b " c-- ")].
Ltac no_occ := let a := fresh "a" in let b := fresh "b" in let E := fresh "E" in intros (a & b & E); vm_compute in E;
  repeat (destruct a as [|? a]; [discriminate E|cbn [app] in E; try discriminate E; injection E as _ E]).
Ltac case_tac := repeat match goal with
  | H : Fresh = _ |- _ => discriminate H
  | H : AfterText = _ |- _ => discriminate H
  | |- nul_free _ => nf
  | |- ~ occurs _ _ => no_occ
  | |- ~ blank _ => discriminate
  | |- is_name _ => split; [discriminate|reflexivity]
  | |- is_target _ => split; [|intros (? & ? & ? & H & _); discriminate H]
  | |- is_pi_content _ => split; [|split; [|discriminate]]
  | |- is_comment _ => split; [discriminate|]
  | |- is_attr _ => split; [|split; [discriminate|eexists; split; [reflexivity|split]]]
  | |- NoDup _ => constructor; [cbn; intuition discriminate|]
  | |- _ <> _ => discriminate
  | |- _ = false \/ _ => (left; reflexivity) || (right; reflexivity)
  | |- _ -> _ => intro
  | |- _ = _ => reflexivity
  | |- _ => constructor
  end.
Definition xattrs : attrs :=
  match set_attribute_core no_attrs (s2b "k") (Some (s2b "it's")) true with
  | Ok (a, _) => match set_attribute_core a (s2b "l") (Some (s2b "<&>")) true with Ok (a, _) => a | _ => no_attrs end
  | _ => no_attrs
  end.
Example C23_case : proper xtree /\ spaced xtree /\ is_encoding (Some (s2b "utf-8")) /\
  exists n, shows n xtree /\ reparse n = Ok (Some n).
Proof.
  split; [|split; [|split]].
  - case_tac.
  - case_tac.
  - intros v E. injection E as <-. repeat split. nf.
  - exists (Node (s2b "a") xattrs [IContent (s2b " t&amp; "); INode (Node (s2b "b") no_attrs [ICdata (s2b "<b>]]")]); IPi (Pi (s2b "p") (Some (s2b "q ?"))); IContent (s2b "u"); IComment (s2b " c-- ")]).
    split; [|vm_compute; reflexivity]. econstructor; [vm_compute; reflexivity|apply perm_swap|].
    constructor. constructor; [repeat econstructor|]. apply (shows_pi (Pi (s2b "p") (Some (s2b "q ?")))). repeat constructor.
Qed.

(** ** C24 *)

(** Every buffer: the parser comes to an end. *)
Theorem C24_terminates :
  forall content, doc_parse content = UB \/ (exists d, doc_parse content = Ok (Some d)) \/ doc_parse content = Ok None.
Proof. intros content. destruct (parse_cases content) as [H|[[d|] H]]; eauto. Qed.
Print Assumptions C24_terminates.

(** Every buffer in which each [standalone=] has a value of two bytes or more: no read
    outside, and a document or an error.  Missing: the shorter values. *)
Theorem C24_reads_inside_partial :
  forall content,
  (forall a q v q' b, content = a ++ s2b "standalone=" ++ [q] ++ v ++ [q'] ++ b -> quote q -> quote q' -> (2 <= length v)%nat) ->
  exists r, doc_parse content = Ok r.
Proof. exact parse_inside. Qed.
Print Assumptions C24_reads_inside_partial.

(** With a shorter one, memcmp is asked for three bytes of a smaller block. *)
Theorem C24_standalone_refuted : exists content, doc_parse content = UB.
Proof. exists (s2b "<?xml version='1.0' standalone='' ?><a/>"). vm_compute. reflexivity. Qed.
Print Assumptions C24_standalone_refuted.

Example C24_case :
  (exists d, doc_parse (s2b "<?xml version='1.0' standalone='no' ?><a b='c'><!-- " ++ [NUL] ++ s2b " --></a>") = Ok (Some d)) /\
  doc_parse (s2b "<?xml version='1.0' standalone='no' ?><a b='c><!-- " ++ [NUL]) = Ok None.
Proof. split; [eexists|]; vm_compute; reflexivity. Qed.

(** ** C27 *)

(** Documents of well-formed texts in which no processing instruction is without
    content: the dump succeeds and parses again, to the same tree with comments padded.
    Missing: inputs that are accepted without being well-formed, and [<?pi?>]. *)
Theorem C27_again_partial :
  forall text encoding standalone pis x, doc_text text encoding standalone pis x -> filled x ->
  exists d text' d' n', doc_parse text = Ok (Some d) /\
    doc_dump d = Ok (Some (text' ++ [NUL], Z.of_nat (length text'))) /\
    doc_parse text' = Ok (Some d') /\ d_root d' = Some n' /\ shows n' (pad_tree x) /\ d_encoding d' = encoding /\ d_standalone d' = standalone.
Proof. exact again. Qed.
Print Assumptions C27_again_partial.

(** Accepted, and reads through NULL when dumped; accepted, and its dump is refused. *)
Theorem C27_null_refuted :
  exists t1 t2 d1 d2, doc_parse t1 = Ok (Some d1) /\ doc_dump d1 = UB /\ doc_parse t2 = Ok (Some d2) /\ doc_dump d2 = UB.
Proof.
  exists (s2b "<a b='/>"), (s2b "<a><?pi?></a>"). eexists. eexists.
  split; [vm_compute; reflexivity|]. split; [vm_compute; reflexivity|]. split; vm_compute; reflexivity.
Qed.
Print Assumptions C27_null_refuted.

(** ** C28 *)

(** A comment or processing instruction put anywhere into a writable tree, between two
    items or inside a text: the text of the new tree is accepted and gives the item at
    its position.  Missing: an empty comment, and a text beginning with white space
    right after the item. *)
Theorem C28_inserted_partial :
  forall i x y encoding standalone, is_misc i -> proper x -> inserted i x y -> is_encoding encoding ->
  exists d n, doc_parse (doc_xml None encoding standalone y) = Ok (Some d) /\ d_root d = Some n /\ shows n (pad_tree y).
Proof.
  intros i x y e sa M P I E.
  destruct (doc_text_ok _ _ _ _ _ (doc_written None e sa y (proper_inserted i x y M I P) (or_introl eq_refl) E)) as (d & n & H1 & H2 & H3 & _).
  exists d, n. auto.
Qed.
Print Assumptions C28_inserted_partial.

(** The empty comment is refused; white space after a comment is lost. *)
Theorem C28_refuted :
  doc_parse (s2b "<a><!----></a>") = Ok None /\
  doc_parse (s2b "<a>x<!-- c --> y</a>") =
    Ok (Some (Doc (Some (Node (s2b "a") no_attrs [IContent (s2b "x"); IComment (s2b " c "); IContent (s2b "y")])) None false [])).
Proof. split; vm_compute; reflexivity. Qed.
Print Assumptions C28_refuted.

Example C28_case : is_misc (XComment (s2b " in ")) /\
  inserted (XComment (s2b " in ")) (XNode (s2b "r") [] [XElem xtree])
    (XNode (s2b "r") [] [XElem (XNode (s2b "a") [(s2b "k", Some (s2b "it's")); (s2b "l", Some (s2b "<&>"))]
      [XText (s2b " t"); XComment (s2b " in "); XText (s2b "&amp; "); XElem (XNode (s2b "b") [] [XCdata (s2b "<b>]]")]); XPi (s2b "p") (Some (s2b "q ?")); XText (s2b "u"); XComment (s2b " c-- ")])]).
Proof.
  split; [split; [discriminate|no_occ]|]. apply (inserted_below _ _ _ []). apply (inserted_text _ _ _ [] (s2b " t") (s2b "&amp; ")); discriminate || reflexivity.
Qed.

(** ** C43 *)

(** Well-formed texts without [xml:space] (they may have white space anywhere between
    tags): no blank text is kept.  Missing: documents with [xml:space]. *)
Theorem C43_default_partial :
  forall text encoding standalone pis x, doc_text text encoding standalone pis x ->
  exists d n, doc_parse text = Ok (Some d) /\ d_root d = Some n /\ shows n x /\ no_blanks x.
Proof.
  intros t e sa l x D. destruct (doc_text_ok _ _ _ _ _ D) as (d & n & H1 & H2 & H3 & _). exists d, n.
  split; [exact H1|]. split; [exact H2|]. split; [exact H3|]. eapply doc_text_no_blanks, D.
Qed.
Print Assumptions C43_default_partial.

(** Inside preserve, blank text is lost once an element without attributes was closed;
    outside, it is kept after an empty element that had the attribute. *)
Theorem C43_refuted :
  (exists a, doc_parse (s2b "<a xml:space='preserve'><b></b> </a>") =
    Ok (Some (Doc (Some (Node (s2b "a") a [INode (Node (s2b "b") no_attrs [])])) None false []))) /\
  (exists b, doc_parse (s2b "<a><b xml:space='preserve'/> </a>") =
    Ok (Some (Doc (Some (Node (s2b "a") no_attrs [INode (Node (s2b "b") b []); IContent (s2b " ")])) None false []))).
Proof. split; eexists; vm_compute; reflexivity. Qed.
Print Assumptions C43_refuted.

(** ** C49 *)

(** Every well-formed text (a byte order mark, declaration, comments, DOCTYPE without
    [>] inside, comments and processing instructions, the root element, anything) is
    accepted and gives its tree. *)
Theorem C49_accepted :
  forall text encoding standalone pis x, doc_text text encoding standalone pis x ->
  exists d n, doc_parse text = Ok (Some d) /\ d_root d = Some n /\ shows n x /\
    d_encoding d = encoding /\ d_standalone d = standalone /\ d_pis d = pis.
Proof. exact doc_text_ok. Qed.
Print Assumptions C49_accepted.

(** White space allowed by XML is refused around the equal sign and before the end of a
    closing tag; so is a processing instruction at the very beginning. *)
Theorem C49_refuted :
  doc_parse (s2b "<a b = 'c'/>") = Ok None /\ doc_parse (s2b "<a></a  >") = Ok None /\
  doc_parse (s2b "<?pi x?><a/>") = Ok None.
Proof. repeat split; vm_compute; reflexivity. Qed.
Print Assumptions C49_refuted.

Example C49_case : exists text,
  text = s2b "<?xml version='1.0' encoding='utf-8' ?> <!-- a --><!DOCTYPE x><?p q?><x  y='z' > <b/>t<c>u</c > </x>" /\
  doc_text text (Some (s2b "utf-8")) false [Pi (s2b "p") (Some (s2b "q"))]
    (XNode (s2b "x") [(s2b "y", Some (s2b "z"))] [XElem (XNode (s2b "b") [] []); XText (s2b "t"); XElem (XNode (s2b "c") [] [XText (s2b "u")])]).
Proof.
  eexists. split; [reflexivity|].
  apply (doc_with_decl [] (s2b "<?xml version='1.0' encoding='utf-8' ?>") _ _ (s2b " <!-- a -->") (s2b "<!DOCTYPE x>") (s2b "<?p q?>") _
    (s2b "<x  y='z' > <b/>t<c>u</c > </x>") _ []).
  - left. reflexivity.
  - apply (Decl (s2b " ") [] "'" (s2b " ") (s2b "encoding='utf-8'") (Some (s2b "utf-8")) (s2b " ") [] None []); try reflexivity; try (left; reflexivity); try discriminate.
    + apply (field_some (str "encoding") "'" (s2b "utf-8")); try reflexivity; [left; reflexivity|nf].
  - apply (misc_comment _ (s2b " ") (s2b " a ") []); [reflexivity|split; [discriminate|no_occ]|constructor; reflexivity].
  - apply (doctype_some (s2b " x")). reflexivity.
  - apply (misc_pi _ [] (s2b "<?p q?>") _ _ []); [reflexivity|reflexivity| |constructor; reflexivity].
    apply (pi_full (s2b "p") " " (s2b "q")); [|reflexivity|]; case_tac.
  - apply (elem_full (s2b "x") (s2b "  y='z'") _ (s2b " ") (s2b " <b/>t<c>u</c > ") _ []); try reflexivity.
    + case_tac.
    + apply (attrs_more (s2b "  ") (s2b "y") "'" (s2b "z") [] []); try reflexivity; try discriminate; [case_tac|left; reflexivity|nf|constructor|intros []].
    + apply (content_elem Fresh (s2b " ") (s2b "<b/>") _ (s2b "t<c>u</c > ")); [split; [reflexivity|discriminate]| |].
      * apply (elem_empty (s2b "b") [] [] []); [case_tac|constructor|reflexivity].
      * apply (content_text_fresh (s2b "t") (s2b "<c>u</c > ")); [nf|discriminate|reflexivity|].
        apply (content_elem AfterText [] (s2b "<c>u</c >") _ (s2b " ")); [split; reflexivity| |].
        -- apply (elem_full (s2b "c") [] [] [] (s2b "u") _ (s2b " ")); try reflexivity; [case_tac|constructor|].
           apply (content_text_fresh (s2b "u") []); [nf|discriminate|reflexivity|]. constructor. split; reflexivity.
        -- constructor. split; [reflexivity|discriminate].
    + cbn; lia.
Qed.
