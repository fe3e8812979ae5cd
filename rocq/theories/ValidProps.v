(** C55: documents checked against a DTD, both given as text. *)
From Verif Require Import Prelude StrSpec TreeModel XmlSpec DtdModel DtdSpec DtdDocModel LoadModel LoadSpec LoadCases ValidModel ValidSpec ValidProofs2 ValidCases.
Open Scope nat_scope.
Open Scope list_scope.

(** A well-formed document that is accepted by the validation against a well-formed DTD: every
    element is declared and has the children and attributes that are declared for it, the
    identifiers are distinct, and if none is left out every reference is to one of them.
    Missing: the specifications for which validation is wrong (C33) or that are loaded as
    others (C50), ANY; and what is false (below): text between the children, anything in an
    EMPTY element, attributes of elements for which none are declared. *)
Theorem C55_accepted_partial : forall dt ds text encoding standalone pis x, dtd_text dt ds -> declared_well ds -> sound_for ds -> doc_text text encoding standalone pis x ->
  exists n, forall fuel, n <= fuel -> check fuel dt text = Ok true ->
  (forall e, In e (x_elems x) -> exists c, In (x_name e, c) (elements_of ds) /\ shape_fits c e /\ (listed ds (x_name e) -> x_atts_fit (atts_of ds (x_name e)) e)) /\
  NoDup (flat_map (x_typed ds is_id_type) (x_elems x)) /\
  (ids_present ds x -> checked_doc ds x).
Proof. exact checked_sound. Qed.
Print Assumptions C55_accepted_partial.
(** Every valid document is accepted.  Missing: the specifications for which validation refuses
    what they allow (C34), identifiers that are left out (C37). *)
Theorem C55_valid_partial : forall dt ds text encoding standalone pis x, dtd_text dt ds -> declared_well ds -> sound_for ds -> doc_text text encoding standalone pis x ->
  complete_for ds -> ids_present ds x -> valid_doc ds x ->
  exists n, forall fuel, n <= fuel -> check fuel dt text = Ok true.
Proof. exact valid_accepted. Qed.
Print Assumptions C55_valid_partial.
(** Loading, parsing and validating end, and tell exactly whether the document is as declared.
    Missing: as above, and specifications for which validation does not end (C35). *)
Theorem C55_decides_partial : forall dt ds text encoding standalone pis x, dtd_text dt ds -> declared_well ds -> sound_for ds -> doc_text text encoding standalone pis x ->
  complete_for ds -> ids_present ds x -> (forall y p, In (y, CKids p) (elements_of ds) -> ends p = true) ->
  exists n, forall fuel, n <= fuel -> exists b, check fuel dt text = Ok b /\ (b = true <-> checked_doc ds x).
Proof. exact check_decides. Qed.
Print Assumptions C55_decides_partial.
Example C55_case : dtd_text small small_decls /\ declared_well small_decls /\ sound_for small_decls /\ complete_for small_decls /\
  (forall y p, In (y, CKids p) (elements_of small_decls) -> ends p = true) /\
  doc_text (text_of x_good) None false [] x_good /\ ids_present small_decls x_good /\ valid_doc small_decls x_good /\
  check 40 small (text_of x_good) = Ok true /\
  (* no item; the items first; an element not declared; a wrong value; twice the same identifier; a reference to nothing; no fixed value *)
  map (fun l => check 40 small (text_of (x_doc l)))
    [[XElem x_head]; [XElem (x_item [at_ "v" "1"; at_ "id" "p"]); XElem x_head]; [XElem x_head; XElem (XNode (str "z") [] [])];
     [XElem x_head; XElem (x_item [at_ "v" "1"; at_ "id" "p"; at_ "kind" "z"])];
     [XElem x_head; XElem (x_item [at_ "v" "1"; at_ "id" "p"]); XElem (x_item [at_ "v" "1"; at_ "id" "p"])];
     [XElem x_head; XElem (x_item [at_ "v" "1"; at_ "id" "p"; at_ "ref" "q"])]; [XElem x_head; XElem (x_item [at_ "id" "p"])]] = repeat (Ok false) 7.
Proof.
  split; [exact small_text|]. split; [exact small_well|]. split; [exact small_sound|]. split; [exact small_complete|]. split; [exact small_ends|].
  split; [exact good_text|]. split; [exact good_ids|]. split; [exact good_valid|]. split; vm_compute; reflexivity.
Qed.

(** Text between the elements of a content without text *)
Theorem C55_text_refuted : exists x, doc_text (text_of x) None false [] x /\ check 40 small (text_of x) = Ok true /\
  In (str "doc", CKids p_doc) (elements_of small_decls) /\ x_name x = str "doc" /\ x_no_text x = false.
Proof. exists x_text. split; [exact text_text|]. split; [vm_compute; reflexivity|]. split; [left; reflexivity|]. split; reflexivity. Qed.
Print Assumptions C55_text_refuted.
(** a comment in an element declared EMPTY, and an attribute of an element for which none is declared *)
Theorem C55_empty_refuted : exists x e, doc_text (text_of x) None false [] x /\ check 40 small (text_of x) = Ok true /\
  In e (x_elems x) /\ In (x_name e, CEmpty) (elements_of small_decls) /\ xitems e <> [] /\ x_atts e <> [] /\ atts_of small_decls (x_name e) = [].
Proof.
  exists x_comment, x_b. split; [exact comment_text|]. split; [vm_compute; reflexivity|]. split; [cbn; tauto|]. split; [cbn; tauto|]. split; [discriminate|]. split; [discriminate|reflexivity].
Qed.
Print Assumptions C55_empty_refuted.
