(** Validation against a DTD. *)
From Verif Require Import Prelude HashModel DtdModel DtdSpec DtdProofs DtdProofs2 DtdProofs3 DtdDocModel DtdDocSpec DtdDocProofs3 DtdDocProofs4 DtdCases.
Open Scope nat_scope.
Open Scope list_scope.

(** C33, for one element: for the specifications [safe_top] the children of an accepted element are
    a word of the language.  Missing: the other specifications, for which it is false. *)
Theorem C33_children_partial : forall kids fuel p top, safe_top p = true ->
  validate_children kids fuel p (compulsory_num p) top = Ok true -> lang p kids.
Proof. exact children_sound. Qed.
Print Assumptions C33_children_partial.
Example C33_children_case : safe_top cm_ok = true /\ lang cm_ok (nms ["a"; "b"; "b"; "d"; "e"; "c"]%string) /\
  validate_children (nms ["a"; "b"; "b"; "d"; "e"; "c"]%string) 10 cm_ok (compulsory_num cm_ok) true = Ok true /\
  validate_children (nms ["a"; "b"; "b"; "d"; "a"]%string) 10 cm_ok (compulsory_num cm_ok) true = Ok false.
Proof. split; [reflexivity|]. split; [exact cm_ok_word|]. split; vm_compute; reflexivity. Qed.

(** for a document: every element looked at (all of them, when nothing is declared ANY) has a
    declaration, and its content follows it when the specification is one of those *)
Theorem C33_document_partial : forall fuel cfuel d root e, dtd_ok d -> validate fuel cfuel d root = Ok true -> In e (elems d root) ->
  exists c, declared d e c /\ (content_safe c -> content_valid c e).
Proof. exact doc_content_sound. Qed.
Print Assumptions C33_document_partial.
Theorem C33_all_elements : forall d e, no_any d -> elems d e = all_elems e.
Proof. exact elems_all. Qed.
Print Assumptions C33_all_elements.
Example C33_document_case : dtd_ok (dtd_of ARequired) /\ no_any (dtd_of ARequired) /\ validate 10 10 (dtd_of ARequired) doc_ok = Ok true /\
  length (all_elems doc_ok) = 4 /\ (forall c, In c (d_elements (dtd_of ARequired)) -> content_safe c) /\
  validate 10 10 (dtd_of ARequired) (Elem (s2b "r") [] false [h_el; h_el]) = Ok false.
Proof.
  split; [exact (dtd_of_ok ARequired)|]. split; [exact (dtd_of_no_any ARequired)|]. split; [vm_compute; reflexivity|]. split; [vm_compute; reflexivity|].
  split; [intros c H; apply (dtd_of_models ARequired c H)|vm_compute; reflexivity].
Qed.
(** [(a*, b)] accepts [a]; [(c, (a|b)+, d)] accepts [c d]; [(x | (a,b) | (c,d))] accepts [a c d];
    [((a,b) | a)] accepts [a x] *)
Theorem C33_refuted : exists p kids, validate_children kids 10 p (compulsory_num p) false = Ok true /\ ~ lang p kids.
Proof. exists cm_star, (nms ["a"]%string). split; [vm_compute; reflexivity|exact not_star]. Qed.
Print Assumptions C33_refuted.
Theorem C33_plus_refuted : exists p kids, validate_children kids 10 p (compulsory_num p) true = Ok true /\ ~ lang p kids.
Proof. exists cm_plus, (nms ["c"; "d"]%string). split; [vm_compute; reflexivity|exact not_plus]. Qed.
Print Assumptions C33_plus_refuted.
Theorem C33_choice_refuted : exists p kids, validate_children kids 10 p (compulsory_num p) true = Ok true /\ ~ lang p kids.
Proof. exists cm_alt, (nms ["a"; "c"; "d"]%string). split; [vm_compute; reflexivity|exact not_alt]. Qed.
Print Assumptions C33_choice_refuted.
Theorem C33_skipped_refuted : exists p kids, validate_children kids 10 p (compulsory_num p) true = Ok true /\ ~ lang p kids.
Proof. exists cm_start, (nms ["a"; "x"]%string). split; [vm_compute; reflexivity|exact not_start]. Qed.
Print Assumptions C33_skipped_refuted.

(** C34, for one element: for the specifications [det_top] every word of the language is accepted.
    Missing: the other deterministic specifications, for which it is false. *)
Theorem C34_children_partial : forall kids fuel p top, det_top p top = true ->
  (match p with Group Undef _ (_ :: _ :: _) => false | _ => true end = true) -> length kids < fuel -> lang p kids ->
  validate_children kids fuel p (compulsory_num p) top = Ok true.
Proof. exact children_complete. Qed.
Print Assumptions C34_children_partial.
Example C34_children_case : det_top cm_ok true = true /\ lang cm_ok (nms ["a"; "b"; "b"; "d"; "e"; "c"]%string).
Proof. split; [vm_compute; reflexivity|exact cm_ok_word]. Qed.
(** for a document *)
Theorem C34_document_partial : forall fuel cfuel d root, dtd_ok d -> atts_distinct d root -> ids_given d root -> ends_plain d root = true ->
  (forall c, declared d root c -> content_det c true) -> (forall c, In c (d_elements d) -> content_det c false) ->
  length (elems d root) <= fuel -> (forall e, In e (elems d root) -> length (e_subs e) < cfuel) ->
  valid d root -> validate fuel cfuel d root = Ok true.
Proof. exact doc_complete. Qed.
Print Assumptions C34_document_partial.
(** both directions together *)
Theorem C34_exact_partial : forall fuel cfuel d root, dtd_ok d -> atts_distinct d root -> ids_given d root -> ends_plain d root = true ->
  (forall c, In c (d_elements d) -> content_safe c /\ content_det c true) ->
  length (elems d root) <= fuel -> (forall e, In e (elems d root) -> length (e_subs e) < cfuel) ->
  (validate fuel cfuel d root = Ok true <-> valid d root).
Proof. exact doc_exact. Qed.
Print Assumptions C34_exact_partial.
Example C34_document_case : dtd_ok (dtd_of ARequired) /\ atts_distinct (dtd_of ARequired) doc_ok /\ ids_given (dtd_of ARequired) doc_ok /\
  ends_plain (dtd_of ARequired) doc_ok = true /\ (forall c, In c (d_elements (dtd_of ARequired)) -> content_safe c /\ content_det c true) /\ valid (dtd_of ARequired) doc_ok.
Proof.
  assert (M : forall c, In c (d_elements (dtd_of ARequired)) -> content_safe c /\ content_det c true) by (intros c H; destruct (dtd_of_models ARequired c H) as (A & B & _); auto).
  split; [exact (dtd_of_ok ARequired)|]. split; [exact nodup_tac_ok|]. split; [exact ok_ids_given|]. split; [reflexivity|]. split; [exact M|].
  apply (doc_exact 10 10); [exact (dtd_of_ok ARequired)|exact nodup_tac_ok|exact ok_ids_given|reflexivity|exact M|vm_compute; repeat constructor| |vm_compute; reflexivity].
  intros e H. assert (X : Forall (fun e => length (e_subs e) < 10) (elems (dtd_of ARequired) doc_ok)) by (vm_compute; repeat constructor).
  rewrite Forall_forall in X. exact (X e H).
Qed.
(** [((a,b)?, c)] rejects [c]; [(a,b)?] rejects nothing at all; [(a,b)+] of the root element rejects
    [a b a b]; [(a, (b?, c?))] rejects [a] *)
Theorem C34_refuted : exists p kids, lang p kids /\ validate_children kids 10 p (compulsory_num p) false = Ok false.
Proof. exists cm_opt, (nms ["c"]%string). split; [exact in_opt|vm_compute; reflexivity]. Qed.
Print Assumptions C34_refuted.
Theorem C34_empty_refuted : exists p kids, lang p kids /\ validate_children kids 10 p (compulsory_num p) false = Ok false.
Proof. exists cm_opt_top, []. split; [exact in_opt_top|vm_compute; reflexivity]. Qed.
Print Assumptions C34_empty_refuted.
Theorem C34_root_refuted : exists p kids, lang p kids /\ validate_children kids 10 p (compulsory_num p) true = Ok false /\ validate_children kids 10 p (compulsory_num p) false = Ok true.
Proof. exists cm_again, (nms ["a"; "b"; "a"; "b"]%string). split; [exact in_again|split; vm_compute; reflexivity]. Qed.
Print Assumptions C34_root_refuted.
Theorem C34_nested_refuted : exists p kids, lang p kids /\ validate_children kids 10 p (compulsory_num p) false = Ok false.
Proof. exists cm_rest, (nms ["a"]%string). split; [exact in_rest|vm_compute; reflexivity]. Qed.
Print Assumptions C34_nested_refuted.

(** C35: where every repetition has something to match, and the last element looked at is not
    declared ANY, validation ends *)
Theorem C35_children_partial : forall kids fuel p m top, ends p = true -> (match p with Leaf _ _ => false | _ => true end = true) ->
  length kids < fuel -> exists b, validate_children kids fuel p m top = Ok b.
Proof. exact children_ends. Qed.
Print Assumptions C35_children_partial.
Theorem C35_document_partial : forall fuel cfuel d root, dtd_ok d -> (forall c, In c (d_elements d) -> content_ends c) -> ends_plain d root = true ->
  length (elems d root) <= fuel -> (forall e, In e (elems d root) -> length (e_subs e) < cfuel) ->
  exists b, validate fuel cfuel d root = Ok b.
Proof. exact validate_ends. Qed.
Print Assumptions C35_document_partial.
Example C35_case : dtd_ok (dtd_of AImplied) /\ (forall c, In c (d_elements (dtd_of AImplied)) -> content_ends c) /\ ends_plain (dtd_of AImplied) doc_no_id = true /\
  length (elems (dtd_of AImplied) doc_no_id) = 4.
Proof.
  split; [exact (dtd_of_ok AImplied)|]. split; [intros c H; apply (dtd_of_models AImplied c H)|]. split; vm_compute; reflexivity.
Qed.
(** [(a?)*] on an empty element, and an element declared ANY: no number of steps is enough *)
Theorem C35_refuted : exists p kids, forall fuel top, validate_children kids fuel p (compulsory_num p) top = NoFuel.
Proof. exists cm_loop, []. exact cm_loops. Qed.
Print Assumptions C35_refuted.
Theorem C35_any_refuted : exists d root, dtd_ok d /\ valid d root /\ forall fuel cfuel, validate fuel cfuel d root = NoFuel.
Proof.
  exists dtd_any, doc_any. split; [exact dtd_any_ok|]. split; [|exact any_loops]. constructor.
  - intros e [<-|[]]. exists d_any. split; [split; [left; reflexivity|reflexivity]|]. split; [exact Logic.I|]. intros l [].
  - constructor.
  - intros v [].
Qed.
Print Assumptions C35_any_refuted.

(** C36: the search for the root ends when no declaration leads back to itself *)
Theorem C36_root_search_partial : forall l, l <> [] -> acyclic l -> exists n, forall fuel pfuel, n <= fuel -> n <= pfuel ->
  exists r, new_root fuel pfuel l = Ok r /\ In r l /\ forall e, In e l -> ~ mentions e r.
Proof. exact new_root_ends. Qed.
Print Assumptions C36_root_search_partial.
(** and whenever it ends, its result is an element that none mentions *)
Theorem C36_root_is_top : forall fuel pfuel l r, (forall e p, In e l -> el_list e = Some p -> psize p <= pfuel) -> new_root fuel pfuel l = Ok r ->
  In r l /\ forall e, In e l -> ~ mentions e r.
Proof. exact new_root_top. Qed.
Print Assumptions C36_root_is_top.
Example C36_case : acyclic r_tree /\ r_tree <> [] /\ match new_root 10 10 r_tree with Ok r => el_name r | _ => [] end = s2b "top".
Proof. split; [exact r_tree_acyclic|]. split; [discriminate|vm_compute; reflexivity]. Qed.
(** [<!ELEMENT a (a?)>] *)
Theorem C36_refuted : exists l, l <> [] /\ forall fuel pfuel, new_root fuel (3 + pfuel) l = NoFuel.
Proof. exists [r_self]. split; [discriminate|exact self_loops]. Qed.
Print Assumptions C36_refuted.

(** C37: in an accepted document the IDs are distinct *)
Theorem C37_distinct_ids_partial : forall fuel cfuel d root, dtd_ok d -> atts_distinct d root -> validate fuel cfuel d root = Ok true ->
  NoDup (flat_map (ids d) (elems d root)).
Proof. exact doc_ids_sound. Qed.
Print Assumptions C37_distinct_ids_partial.
(** every reference is to an ID, if no ID is left out.  Missing: elements without their implied ID,
    and what is below an element declared ANY *)
Theorem C37_references_partial : forall fuel cfuel d root, dtd_ok d -> atts_distinct d root -> ids_given d root -> validate fuel cfuel d root = Ok true ->
  incl (flat_map (idrefs d) (elems d root)) (flat_map (ids d) (elems d root)).
Proof. exact doc_refs_sound. Qed.
Print Assumptions C37_references_partial.
(** (that a document meeting the rules is not rejected is part of C34_document_partial) *)
Example C37_case : dtd_ok (dtd_of ARequired) /\ atts_distinct (dtd_of ARequired) doc_ok /\ ids_given (dtd_of ARequired) doc_ok /\ validate 10 10 (dtd_of ARequired) doc_ok = Ok true /\
  flat_map (ids (dtd_of ARequired)) (all_elems doc_ok) = [s2b "p"; s2b "q"] /\ flat_map (idrefs (dtd_of ARequired)) (all_elems doc_ok) = [s2b "p"] /\
  validate 10 10 (dtd_of ARequired) (doc_of [item_el [("id", "p"); ("ver", "1")]%string; item_el [("ver", "1"); ("id", "p")]%string]) = Ok false /\
  validate 10 10 (dtd_of ARequired) (doc_of [item_el [("id", "p"); ("ver", "1"); ("ref", "q")]%string]) = Ok false.
Proof.
  split; [exact (dtd_of_ok ARequired)|]. split; [exact nodup_tac_ok|]. split; [exact ok_ids_given|]. repeat split; vm_compute; reflexivity.
Qed.
(** the absence of an implied ID makes a valid document be rejected, a dangling reference be accepted *)
Theorem C37_refuted : exists d root, dtd_ok d /\ no_any d /\ valid d root /\ validate 10 10 d root = Ok false.
Proof.
  exists (dtd_of AImplied), doc_no_id. split; [exact (dtd_of_ok AImplied)|]. split; [exact (dtd_of_no_any AImplied)|]. split; [exact doc_no_id_valid|vm_compute; reflexivity].
Qed.
Print Assumptions C37_refuted.
Theorem C37_dangling_refuted : exists d root v, dtd_ok d /\ no_any d /\ validate 10 10 d root = Ok true /\
  In v (flat_map (idrefs d) (all_elems root)) /\ ~ In v (flat_map (ids d) (all_elems root)).
Proof.
  exists (dtd_of AImplied), doc_dangling, (s2b "d"). split; [exact (dtd_of_ok AImplied)|]. split; [exact (dtd_of_no_any AImplied)|]. split; [vm_compute; reflexivity|].
  split; [vm_compute; left; reflexivity|vm_compute; intros []].
Qed.
Print Assumptions C37_dangling_refuted.
(** IDs below ANY *)
Theorem C37_any_refuted : exists d root v, dtd_ok d /\ validate 10 10 d root = Ok true /\ flat_map (ids d) (all_elems root) = [v; v].
Proof. exists dtd_box, doc_box, (s2b "p"). split; [exact dtd_box_ok|]. split; vm_compute; reflexivity. Qed.
Print Assumptions C37_any_refuted.

(** C38: the attributes of every element looked at follow the declarations.  Missing: elements below
    one declared ANY (C33_all_elements: otherwise these are all the elements) *)
Theorem C38_attributes_partial : forall fuel cfuel d root e, dtd_ok d -> validate fuel cfuel d root = Ok true -> In e (elems d root) -> atts_valid d e.
Proof. exact doc_atts_sound. Qed.
Print Assumptions C38_attributes_partial.
Example C38_case : dtd_ok (dtd_of ARequired) /\ validate 10 10 (dtd_of ARequired) doc_ok = Ok true /\
  map (fun l => validate 10 10 (dtd_of ARequired) (doc_of [item_el l]))
    [[("ver", "1"); ("id", "p"); ("kind", "z")]; [("ver", "1"); ("id", "p"); ("what", "z")]; [("ver", "2"); ("id", "p")]; [("id", "p")]; [("ver", "1")]; [("ver", "1"); ("id", "p"); ("kind", "x")]]%string
  = [Ok false; Ok false; Ok false; Ok false; Ok false; Ok true].
Proof. split; [exact (dtd_of_ok ARequired)|]. split; vm_compute; reflexivity. Qed.
Theorem C38_any_refuted : exists d root e l, dtd_ok d /\ validate 10 10 d root = Ok true /\ In e (all_elems root) /\ In (e_name e, l) (d_attrs d) /\
  has e (s2b "other") (s2b "2") /\ ~ In (s2b "other") (map ad_name l).
Proof.
  exists dtd_box, doc_box, (item_el [("id", "p"); ("other", "2")]%string), (item_atts ARequired). split; [exact dtd_box_ok|]. split; [vm_compute; reflexivity|].
  split; [cbn; tauto|]. split; [cbn; tauto|]. split; [right; left; reflexivity|]. vm_compute. intro H. repeat (destruct H as [H|H]; [discriminate H|]). exact H.
Qed.
Print Assumptions C38_any_refuted.

(** C44: the first declaration with the name and the kind *)
Theorem C44_entity_lookup : forall l name ty,
  match entity_lookup l name ty with
  | Some e => entity_exists l name ty = true /\ entity_value l name ty = en_content e /\
      exists l1 l2, l = l1 ++ e :: l2 /\ entity_is name ty e /\ forall x, In x l1 -> ~ entity_is name ty x
  | None => entity_exists l name ty = false /\ entity_value l name ty = None /\ forall x, In x l -> ~ entity_is name ty x
  end.
Proof.
  intros l name ty. unfold entity_exists, entity_value. pose proof (entity_first l name ty) as H.
  destruct (entity_lookup l name ty); (split; [reflexivity|]); split; [reflexivity|exact H|reflexivity|exact H].
Qed.
Print Assumptions C44_entity_lookup.
Example C44_case :
  let l := [Entity (s2b "a") EParameter (Some (s2b "1")); Entity (s2b "a") EGeneral (Some (s2b "2")); Entity (s2b "a") EGeneral (Some (s2b "3"))] in
  entity_value l (s2b "a") EGeneral = Some (s2b "2") /\ entity_value l (s2b "a") EParameter = Some (s2b "1") /\ entity_exists l (s2b "b") EGeneral = false.
Proof. repeat split; vm_compute; reflexivity. Qed.
