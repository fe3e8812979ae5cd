(** Namespaces. *)
From Coq Require Import Permutation.
From Verif Require Import Prelude StrSpec AttrModel TreeModel ParseModel XmlSpec SoundSpec EqModel EqSpec EqProofs4 NsModel NsExec NsSpec NsProofs2 NsCases.
Open Scope nat_scope.
Open Scope list_scope.

(** C39: a tree is accepted exactly when every prefix used by an element or an attribute is
    declared on the element or above.
    Missing for the full statement: documents that use the prefix xml, or have attributes
    whose names start with xmlns without being declarations; see the refuted theorems. *)
Theorem C39_validates_partial :
  forall n x, regular n -> shows n x -> ordinary x ->
  exists e ok, ns_doc_validate (Some (elem_of n)) = Ok (Some e, ok) /\ (ok = true <-> ns_valid x).
Proof. exact ns_validates. Qed.
Print Assumptions C39_validates_partial.

(** After it, the comparison of an element anywhere in the tree decides whether the nearest
    declaration of its prefix, or the nearest default namespace, is the one asked for; and the
    searches find the first such element. *)
Theorem C39_resolves_partial :
  forall n x, regular n -> shows n x -> ordinary x -> forall e, ns_doc_validate (Some (elem_of n)) = Ok (Some e, true) ->
  forall path y s, at_path [] x path y s -> exists c up, chain_at [] e path = Some (c :: up) /\
  forall ns local, nul_free ns -> nul_free local ->
    (exists b, ns_node_cmp (c :: up) ns local = Ok b /\ (b = true <-> named s (xname y) ns local)) /\
    (exists o, ns_child_called (c :: up) (e_childs c) 0 ns local = Ok o /\ first_named s (elems (xitems y)) ns local o) /\
    (forall i, i < length (elems (xitems y)) -> exists o, ns_next_called (c :: up) (e_childs c) i ns local = Ok o /\ next_named s (elems (xitems y)) ns local i o) /\
    (forall i, i < length (elems (xitems y)) -> exists o, ns_previous_called (c :: up) (e_childs c) i ns local = Ok o /\ previous_named s (elems (xitems y)) ns local i o) /\
    (exists o, ns_find_called up c ns local = Ok o /\ match o with Some p => found_below ns local (tl s) y p | None => none_below (tl s) y ns local end).
Proof. exact ns_resolves. Qed.
Print Assumptions C39_resolves_partial.

(** [regular] holds of what the parser accepts. *)
Theorem C39_parsed_partial :
  forall content d n, nul_free content -> closed_quotes content -> doc_parse content = Ok (Some d) -> d_root d = Some n -> regular n.
Proof. exact parse_regular. Qed.
Print Assumptions C39_parsed_partial.

(** <a xmlnsfoo='u'><oo:b/></a> is accepted, <oo:b/> then being in the namespace u. *)
Theorem C39_undeclared_refuted :
  exists d n x e, doc_parse (str "<a xmlnsfoo='u'><oo:b/></a>") = Ok (Some d) /\ d_root d = Some n /\ shows n x /\ ~ ns_valid x /\
    ns_doc_validate (Some (elem_of n)) = Ok (Some e, true) /\
    exists up, chain_at [] e [0] = Some up /\ ns_node_cmp up (str "u") (str "b") = Ok true.
Proof. exact lookalike_accepted. Qed.
Print Assumptions C39_undeclared_refuted.
(** <a xml:lang='en'/> is rejected. *)
Theorem C39_xml_refuted :
  exists d n x e, doc_parse (str "<a xml:lang='en'/>") = Ok (Some d) /\ d_root d = Some n /\ shows n x /\ ns_valid x /\
    ns_doc_validate (Some (elem_of n)) = Ok (Some e, false).
Proof. exact xml_rejected. Qed.
Print Assumptions C39_xml_refuted.
(** <a xmlns:p='u' xmlnsXp='v'/> is rejected. *)
Theorem C39_twice_refuted :
  exists d n x e, doc_parse (str "<a xmlns:p='u' xmlnsXp='v'/>") = Ok (Some d) /\ d_root d = Some n /\ shows n x /\ ns_valid x /\
    ns_doc_validate (Some (elem_of n)) = Ok (Some e, false).
Proof. exact twice_rejected. Qed.
Print Assumptions C39_twice_refuted.
(** The namespace name u?x&y, written u?x&amp;y as it must, is not recognised. *)
Theorem C39_escaped_refuted :
  exists d n e, doc_parse (str "<a xmlns='u?x&amp;y'/>") = Ok (Some d) /\ d_root d = Some n /\
    ns_doc_validate (Some (elem_of n)) = Ok (Some e, true) /\ ns_node_cmp [e] (str "u?x&y") (str "a") = Ok false.
Proof. exact escaped_missed. Qed.
Print Assumptions C39_escaped_refuted.

(** A prefix declared twice, the inner declaration shadowing the outer one, a default
    namespace, a prefixed attribute. *)
Example C39_case :
  exists x, shows case_root x /\ regular case_root /\ ordinary x /\ ns_valid x /\
    doc_parse case_text = Ok (Some (Doc (Some case_root) None false [])) /\
    case_cmp [0; 0] "v" "c" = Ok true /\ case_cmp [0; 0] "u" "c" = Ok false /\ case_cmp [1] "u" "d" = Ok true /\ case_cmp [0] "w" "b" = Ok true /\
    case_find "v" "c" = Ok (Some [0; 0]) /\ case_find "u" "d" = Ok (Some [1]) /\ case_find "u" "c" = Ok None.
Proof. exact case_ok. Qed.
