(** What a DTD answers. *)
From Verif Require Import Prelude XmlSpec DtdModel DtdDocModel LoadModel LoadSpec LoadCases AskModel AskSpec AskProofs.
Open Scope nat_scope.
Open Scope list_scope.

(** C72: a DTD loaded from the text of declarations tells, for every declared element, its
    name, its kind and its content, item by item as they were written, and knows no other
    element.  Missing: contents in which a group has no name before its first separator,
    which are not loaded as they are written (C50). *)
Theorem C72_content_partial : forall text ds, dtd_text text ds -> declared_well ds ->
  exists n, forall fuel, n <= fuel -> exists d ents, dtd_parse fuel text = Ok (Some (d, ents)) /\
    (forall x c, In (x, c) (elements_of ds) -> told d x c) /\ (forall x, ~ In x (map fst (elements_of ds)) -> dtd_get_element d (Some x) = None).
Proof. exact content_told. Qed.
Print Assumptions C72_content_partial.
Example C72_content_case : dtd_text sample sample_decls /\ declared_well sample_decls /\ In (str "item", CKids p_item) (elements_of sample_decls) /\ exact p_item = true /\
  exists d ents, dtd_parse 20 sample = Ok (Some (d, ents)) /\ let l := item_list (dtd_get_element d (Some (str "item"))) in
    item_list_count l = 2%Z /\ item_node_type (item_list_get_node l 0) = KindList /\ item_node_value (item_list_get_node l 1) = Some (str "c") /\
    item_node_repeat (item_list_get_node l 0) = TMany /\ item_list_get_node l 2 = None /\ item_list_get_node l (-1) = None.
Proof.
  split; [exact sample_text|]. split; [exact sample_well|]. split; [right; right; left; reflexivity|]. split; [reflexivity|].
  do 2 eexists. split; [vm_compute; reflexivity|]. repeat split; reflexivity.
Qed.
(** and what is told leaves no doubt: only one content gives these answers *)
Theorem C72_no_doubt : forall l p q, looks l p -> looks l q -> p = q.
Proof. exact looks_same. Qed.
Print Assumptions C72_no_doubt.
Example C72_no_doubt_case : looks (items_of p_item) p_item.
Proof. apply looks_top. reflexivity. Qed.

(** an element is said to be of the top level exactly if no declaration allows it in a
    content, and the root that is told is declared and of the top level *)
Theorem C72_toplevel : forall text ds, dtd_text text ds -> declared_well ds ->
  exists n, forall fuel, n <= fuel -> exists d ents, dtd_parse fuel text = Ok (Some (d, ents)) /\
    exists m, forall pfuel, m <= pfuel ->
      (forall x, In x (map fst (elements_of ds)) -> exists b, is_toplevel pfuel d (dtd_get_element d (Some x)) = Ok b /\ (b = true <-> outermost ds x)) /\
      (elements_of ds <> [] -> exists x, element_name (dtd_get_root d) = Some x /\ In x (map fst (elements_of ds)) /\ is_toplevel pfuel d (dtd_get_root d) = Ok true).
Proof. exact top_told. Qed.
Print Assumptions C72_toplevel.
Example C72_toplevel_case : dtd_text sample sample_decls /\ declared_well sample_decls /\
  exists d ents, dtd_parse 20 sample = Ok (Some (d, ents)) /\
    map (fun x => is_toplevel 20 d (dtd_get_element d (Some (str x)))) ["doc"; "head"; "item"; "a"; "b"; "c"; "x"]%string =
    [Ok true; Ok false; Ok false; Ok false; Ok false; Ok false; Ok false].
Proof. split; [exact sample_text|]. split; [exact sample_well|]. do 2 eexists. split; [vm_compute; reflexivity|]. vm_compute. reflexivity. Qed.
(** the question is answered for every DTD, whatever it declares *)
Theorem C72_answers : forall d e, exists m, forall pfuel, m <= pfuel -> exists b, is_toplevel pfuel d e = Ok b.
Proof. exact top_answers. Qed.
Print Assumptions C72_answers.
(** here for elements that contain each other *)
Example C72_answers_case : let e := ElDecl (str "a") TChildren (Some (Group Sequence TOne [Leaf (str "b") TOne])) 1 in
  let f := ElDecl (str "b") TChildren (Some (Group Sequence TOne [Leaf (str "a") TOpt])) 0 in
  is_toplevel 20 (Dtd [e; f] [] None false false) (Some e) = Ok false.
Proof. reflexivity. Qed.

(** the number of attributes of an element is the number of them that are declared.
    Missing: elements for which no list of attributes is declared. *)
Theorem C72_constraints_partial : forall text ds, dtd_text text ds -> declared_well ds ->
  exists n, forall fuel, n <= fuel -> exists d ents, dtd_parse fuel text = Ok (Some (d, ents)) /\
    (forall x, listed ds x -> attr_constraints d (Some x) = Ok (Z.of_nat (length (atts_of ds x)))) /\ (forall x, ~ listed ds x -> attr_constraints d (Some x) = UB).
Proof. exact constraints_told. Qed.
Print Assumptions C72_constraints_partial.
Example C72_constraints_case : dtd_text sample sample_decls /\ declared_well sample_decls /\ listed sample_decls (str "item") /\
  exists d ents, dtd_parse 20 sample = Ok (Some (d, ents)) /\ attr_constraints d (Some (str "item")) = Ok 4%Z /\ attr_constraints d None = Ok (-1)%Z.
Proof.
  split; [exact sample_text|]. split; [exact sample_well|]. split; [exists atts_item; cbn; tauto|].
  do 2 eexists. split; [vm_compute; reflexivity|]. split; reflexivity.
Qed.
(** for these it is not 0: NULL is dereferenced, also if the element is declared *)
Theorem C72_constraints_refuted : exists text ds d ents x, dtd_text text ds /\ declared_well ds /\ dtd_parse 20 text = Ok (Some (d, ents)) /\
  In x (map fst (elements_of ds)) /\ ~ listed ds x /\ attr_constraints d (Some x) = UB.
Proof.
  exists sample, sample_decls. do 2 eexists. exists (str "doc"). split; [exact sample_text|]. split; [exact sample_well|]. split; [vm_compute; reflexivity|].
  split; [left; reflexivity|]. split; [|reflexivity]. intros (l & J). cbn in J. repeat (destruct J as [J|J]; [discriminate|]). destruct J.
Qed.
Print Assumptions C72_constraints_refuted.
(** the value of an item that is a group is not NULL, but a text that could be a name *)
Theorem C72_value_refuted : exists n x, item_node_type n = KindList /\ item_node_value n = Some x /\ is_tok x.
Proof. exists (Some p_item). eexists. split; [reflexivity|]. split; [reflexivity|]. split; [discriminate|reflexivity]. Qed.
Print Assumptions C72_value_refuted.
