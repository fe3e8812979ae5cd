(** References to parameter entities in a document type definition. *)
From Verif Require Import Prelude StrSpec StreamModel XmlSpec DtdModel DtdSpec DtdDocModel DtdDocSpec LoadModel LoadSpec RefSpec LoadCases RefCases RefProofs RefProofs2.
Open Scope nat_scope.
Open Scope list_scope.

(** C50: after well-formed declarations, a reference in the place of the type of an
    attribute, after any other attributes, is read as if the value of the entity were in its
    place: the text with the value (and a space) in place of the reference is loaded in the
    same way, whatever comes next.
    Missing: values that start with white space or with another reference, and references in
    other places, for which it is false. *)
Theorem C50_reference_partial : forall a ds w x t l w1 y w2 e v b, dtd_text a ds -> NoDup (map fst (elements_of ds)) -> (forall z, atts_good (atts_of ds z)) ->
  gap1 w -> is_name x -> atts_text t l -> atts_good (atts_of ds x ++ l) -> gap1 w1 -> is_name y -> gap1 w2 -> is_tok e -> parameter ds e v -> starts_at_once v ->
  exists n, forall fuel, n <= fuel ->
    dtd_parse fuel (a ++ str "<!ATTLIST" ++ w ++ x ++ t ++ w1 ++ y ++ w2 ++ str "%" ++ e ++ str ";" ++ b) =
    dtd_parse fuel (a ++ str "<!ATTLIST" ++ w ++ x ++ t ++ w1 ++ y ++ w2 ++ v ++ str " " ++ b).
Proof. exact reference_read. Qed.
Print Assumptions C50_reference_partial.
Example C50_reference_case : dtd_text ref_before ref_decls /\ atts_text (t_at1 ++ []) ref_atts /\ parameter ref_decls (str "type") (str "CDATA") /\ starts_at_once (str "CDATA") /\
  is_tok (str "type") /\ NoDup (map fst (elements_of ref_decls)) /\ (forall z, atts_good (atts_of ref_decls z)) /\ atts_good (atts_of ref_decls (str "a") ++ ref_atts) /\
  exists d ents, dtd_parse 20 (ref_before ++ str "<!ATTLIST" ++ str " " ++ str "a" ++ (t_at1 ++ []) ++ str " " ++ str "v" ++ str " " ++ str "%" ++ str "type" ++ str ";" ++ str "#IMPLIED>") =
    Ok (Some (d, ents)) /\ d_attrs d = [(str "a", ref_atts ++ [AtDecl (str "v") ACdata AImplied None])].
Proof.
  split; [exact ref_text|]. split; [exact ref_atts_text|]. split; [exact ref_parameter|]. split; [do 2 eexists; split; [reflexivity|]; split; [reflexivity|discriminate]|].
  split; [tok|]. split; [apply ref_good|]. split; [apply ref_good|]. split; [apply ref_good|]. do 2 eexists. split; [vm_compute; reflexivity|reflexivity].
Qed.
(** a value that starts with white space, or with another reference: the text with the value
    in place of the reference is accepted, the one with the reference is not *)
Theorem C50_reference_start_refuted : exists b, forall v, v = str " CDATA" \/ v = str "%s;" ->
  dtd_parse 20 (later_value v ++ str "<!ATTLIST a x %t;" ++ b) = Ok None /\ exists r, dtd_parse 20 (later_value v ++ str "<!ATTLIST a x " ++ v ++ str " " ++ b) = Ok (Some r).
Proof. exists (str " #IMPLIED>"). intros v [->| ->]; (split; [vm_compute; reflexivity|eexists; vm_compute; reflexivity]). Qed.
Print Assumptions C50_reference_start_refuted.
(** a reference in a content specification is the name of a child *)
Theorem C50_reference_place_refuted : exists d ents, dtd_parse 20 (str "<!ENTITY % c 'b'><!ELEMENT a (%c;)>") = Ok (Some (d, ents)) /\
  map el_list (d_elements d) = [Some (Group Sequence TOne [Leaf (str "%c;") TOne])].
Proof. do 2 eexists. split; [vm_compute; reflexivity|reflexivity]. Qed.
Print Assumptions C50_reference_place_refuted.

(** C51: loading a text with parameter entities ends if no entity refers to itself and the
    values hold no declarations.
    Missing: values with declarations; elements that contain each other (refuted). *)
Theorem C51_references_partial : forall content, nul_free content -> no_cycle content -> no_declaration_inside content ->
  exists o : option load,
    (exists n, forall fuel, n <= fuel ->
       match o with
       | None => dtd_loop fuel (stream_mem content) load_new 0 = Ok None
       | Some l => exists st, dtd_loop fuel (stream_mem content) load_new 0 = Ok (Some (st, l))
       end) /\
    ((forall l, o = Some l -> acyclic (l_elements l)) -> exists n r, forall fuel, n <= fuel -> dtd_parse fuel content = Ok r).
Proof. exact references_end. Qed.
Print Assumptions C51_references_partial.
Example C51_references_case : nul_free nested_refs /\ no_cycle nested_refs /\ no_declaration_inside nested_refs /\
  exists d ents, dtd_parse 20 nested_refs = Ok (Some (d, ents)) /\ d_attrs d = [(str "a", nested_atts)].
Proof.
  split; [intros I; vm_compute in I; repeat (destruct I as [I|I]; [discriminate|]); destruct I|].
  split; [apply (check_rank_ok nested_rank); vm_compute; reflexivity|]. split; [apply check_inside_ok; vm_compute; reflexivity|].
  do 2 eexists. split; [vm_compute; reflexivity|reflexivity].
Qed.
