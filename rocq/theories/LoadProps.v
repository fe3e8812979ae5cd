(** Loading a document type definition. *)
From Verif Require Import Prelude StrSpec StreamModel XmlSpec DtdModel DtdSpec DtdDocModel DtdDocSpec LoadModel LoadSpec LoadProofs8 LoadProofs9 LoadProofs10 LoadCases.
Open Scope nat_scope.
Open Scope list_scope.

(** C50: the text of well-formed declarations is accepted and what is loaded is what they
    declare: the elements in order with their content, the attributes of every element in
    order, the entities, and as root an element that no other one contains.
    Missing: choices (and nested sequences) without a name before a separator, for which
    it is false, and declarations that mention each other in a cycle (C51). *)
Theorem C50_loads_partial : forall text ds, dtd_text text ds -> declared_well ds -> groups_shown ds ->
  exists n, forall fuel, n <= fuel -> exists d ents, dtd_parse fuel text = Ok (Some (d, ents)) /\ loaded ds d ents.
Proof. exact load_ok. Qed.
Print Assumptions C50_loads_partial.
Example C50_loads_case : dtd_text sample sample_decls /\ declared_well sample_decls /\ groups_shown sample_decls /\ length (elements_of sample_decls) = 6 /\
  exists d, dtd_parse 20 sample = Ok (Some (d, entities_of sample_decls)) /\ d_attrs d = [(str "item", atts_item)] /\
    option_map el_name (d_top d) = Some (str "doc") /\ map el_list (firstn 3 (d_elements d)) = [Some p_doc; Some (Group Sequence TOne [Leaf (str "#PCDATA") TOne]); Some p_item].
Proof.
  split; [exact sample_text|]. split; [exact sample_well|]. split; [intros x p I; apply exact_grouped, (sample_exact x p I)|]. split; [reflexivity|].
  eexists. split; [vm_compute; reflexivity|]. split; [reflexivity|]. split; reflexivity.
Qed.
(** what is kept of a mixed content allows its names in any order *)
Theorem C50_mixed_content : forall xs w, ~ In (str "#PCDATA") w -> (lang (mixed xs) w <-> forall y, In y w -> In y xs).
Proof. exact mixed_lang. Qed.
Print Assumptions C50_mixed_content.
Example C50_mixed_case : ~ In (str "#PCDATA") [str "b"; str "a"; str "b"].
Proof. intros I. repeat (destruct I as [I|I]; [discriminate|]). destruct I. Qed.

(** and a document accepted by the validation against it has only declared elements, whose
    content and attributes follow the declarations as they were written.
    Missing: the specifications for which the validation itself is wrong (C33), ANY. *)
Theorem C50_validates_partial : forall text ds, dtd_text text ds -> declared_well ds -> elements_of ds <> [] -> (forall x, NoDup (map ad_name (atts_of ds x))) ->
  (forall x p, In (x, CKids p) (elements_of ds) -> exact p = true /\ safe_top p = true) -> (forall x, ~ In (x, CAny) (elements_of ds)) ->
  exists n, forall fuel d ents, n <= fuel -> dtd_parse fuel text = Ok (Some (d, ents)) ->
    forall f1 f2 root, validate f1 f2 d root = Ok true -> forall e, In e (every_elem root) ->
      exists c, In (e_name e, c) (elements_of ds) /\ follows c e /\ (listed ds (e_name e) -> atts_follow (atts_of ds (e_name e)) e).
Proof. exact valid_as_written. Qed.
Print Assumptions C50_validates_partial.
Example C50_validates_case : dtd_text sample sample_decls /\ declared_well sample_decls /\ elements_of sample_decls <> [] /\
  (forall x, NoDup (map ad_name (atts_of sample_decls x))) /\
  (forall x p, In (x, CKids p) (elements_of sample_decls) -> exact p = true /\ safe_top p = true) /\ (forall x, ~ In (x, CAny) (elements_of sample_decls)) /\
  sample_checks (sample_doc "y" sample_kids) = Ok true /\ sample_checks (sample_doc "z" sample_kids) = Ok false /\
  sample_checks (sample_doc "y" (rev sample_kids)) = Ok false.
Proof.
  split; [exact sample_text|]. split; [exact sample_well|]. split; [discriminate|]. split.
  { intros x. cbn [atts_of sample_decls flat_map]. rewrite !app_nil_r. destruct (bytes_eqb (str "item") x); [|constructor].
    repeat constructor; intros I; cbn in I; repeat (destruct I as [I|I]; [discriminate|]); destruct I. }
  split; [exact sample_exact|]. split; [intros x I; cbn in I; repeat (destruct I as [I|I]; [discriminate|]); destruct I|].
  split; [vm_compute; reflexivity|]. split; vm_compute; reflexivity.
Qed.
(** ((a,b)|(c,d)) is loaded as ((a,b),(c,d)) *)
Theorem C50_choice_refuted : exists text ds d ents, dtd_text text ds /\ declared_well ds /\ dtd_parse 20 text = Ok (Some (d, ents)) /\ ~ loaded ds d ents.
Proof. do 4 eexists. split; [exact pairs_text|]. split; [exact pairs_well|]. split; [exact pairs_parse|apply pairs_wrong]. Qed.
Print Assumptions C50_choice_refuted.
(** a text that ends within a declaration is accepted *)
Theorem C50_unended_refuted : exists text d ents, (forall ds, ~ dtd_text text ds) /\ dtd_parse 20 text = Ok (Some (d, ents)).
Proof. exists unended. do 2 eexists. split; [exact unended_not|exact unended_parse]. Qed.
Print Assumptions C50_unended_refuted.
(** an entity kept elsewhere cannot be declared *)
Theorem C50_external_refuted : exists text, external_text text /\ dtd_parse 20 text = Ok None.
Proof. exists external. split; [exact external_is|vm_compute; reflexivity]. Qed.
Print Assumptions C50_external_refuted.

(** Whatever the bytes, what is loaded declares no element twice, has the attributes of an
    element in one place, has no two ID attributes, no fixed one and no default outside of
    an enumeration in it, no reference without an identifier, and a root that it declares. *)
Theorem C50_kept : forall fuel content d ents, dtd_parse fuel content = Ok (Some (d, ents)) -> well_kept d.
Proof. exact load_kept. Qed.
Print Assumptions C50_kept.
Example C50_kept_case : exists d ents, dtd_parse 20 sample = Ok (Some (d, ents)) /\ length (d_elements d) = 6 /\ map (fun p => length (snd p)) (d_attrs d) = [4].
Proof. do 2 eexists. split; [vm_compute; reflexivity|]. split; reflexivity. Qed.
(** after declarations that are well formed, another one for a declared element is refused *)
Theorem C50_twice : forall text ds w x w1 b c c0 w2 k, dtd_text text ds -> NoDup (map fst (elements_of ds)) -> (forall x, atts_good (atts_of ds x)) ->
  gap1 w -> is_tok x -> gap1 w1 -> content_text b c -> blank w2 -> In (x, c0) (elements_of ds) ->
  exists n, forall fuel, n <= fuel -> dtd_parse fuel (text ++ str "<!ELEMENT" ++ w ++ x ++ w1 ++ b ++ w2 ++ str ">" ++ k) = Ok None.
Proof. exact twice_refused. Qed.
Print Assumptions C50_twice.
Example C50_twice_case : dtd_text ([] ++ t_first ++ []) first_decls /\ NoDup (map fst (elements_of first_decls)) /\ (forall x, atts_good (atts_of first_decls x)) /\
  In (str "a", CEmpty) (elements_of first_decls) /\ content_text (str "ANY") CAny.
Proof. split; [exact first_text|]. split; [apply first_well|]. split; [apply first_well|]. split; [left; reflexivity|constructor]. Qed.
(** and so is a specification in which a group, nested or not, has both separators, if the
    second one comes after a name and a name comes before the first one or the like of it.
    Missing: a second separator after a group, for which it is false. *)
Theorem C50_clash_partial : forall text ds w x w1 ps p s, dtd_text text ds -> NoDup (map fst (elements_of ds)) -> (forall x, atts_good (atts_of ds x)) ->
  gap1 w -> is_tok x -> gap1 w1 -> clash_text ps p s -> existsb is_leaf ps = true -> is_leaf p = true ->
  exists n, forall fuel, n <= fuel -> dtd_parse fuel (text ++ str "<!ELEMENT" ++ w ++ x ++ w1 ++ s) = Ok None.
Proof. exact clash_refused. Qed.
Print Assumptions C50_clash_partial.
Example C50_clash_case : dtd_text ([] ++ t_first ++ []) first_decls /\ clash_text [leaf_a] (Leaf (str "b") TMany) clash /\ clash = str "(a, (a, b* | c)" /\
  is_tok (str "x") /\ gap1 (str " ").
Proof. split; [exact first_text|]. split; [exact clash_is|]. split; [reflexivity|]. split; split; (discriminate || reflexivity). Qed.
(** (a,(b)|c) is accepted *)
Theorem C50_clash_refuted : exists ps p s d ents, clash_text ps p s /\ dtd_parse 20 (str "<!ELEMENT x " ++ s) = Ok (Some (d, ents)).
Proof. do 5 eexists. split; [exact hidden_is|]. vm_compute. reflexivity. Qed.
Print Assumptions C50_clash_refuted.

(** C51: whatever the bytes, loading never goes outside its buffers *)
Theorem C51_no_fault : forall fuel content, dtd_parse fuel content <> UB.
Proof. exact parse_no_ub. Qed.
Print Assumptions C51_no_fault.
Example C51_no_fault_case : map (dtd_parse 20) [str "<!ELEMENT x (a"; str "<!ATTLIST x a ("; str "<!ENTITY x '"; str "<!ELEMENT x ((((a"; str "%"] = [Ok None; Ok None; Ok None; Ok None; Ok None].
Proof. vm_compute. reflexivity. Qed.
(** and it ends for texts without "%" whose elements do not contain each other in a cycle:
    the declarations are read in any case, and the search of the root ends if it can.
    Missing: parameter entities that do not name themselves (C51_references_partial). *)
Theorem C51_ends_partial : forall content, ~ In "%"%char content ->
  exists o : option load,
    (forall fuel, length content + 4 <= fuel ->
       match o with
       | None => dtd_loop fuel (stream_mem content) load_new 0 = Ok None
       | Some l => exists st, dtd_loop fuel (stream_mem content) load_new 0 = Ok (Some (st, l))
       end) /\
    ((forall l, o = Some l -> acyclic (l_elements l)) -> exists n r, forall fuel, n <= fuel -> dtd_parse fuel content = Ok r).
Proof. exact load_ends. Qed.
Print Assumptions C51_ends_partial.
Example C51_ends_case : ~ In "%"%char pairs /\ exists r, dtd_parse (length pairs + 4) pairs = Ok (Some r).
Proof. split; [intros I; cbn in I; repeat (destruct I as [I|I]; [discriminate|]); destruct I|]. eexists. vm_compute. reflexivity. Qed.
(** a parameter entity whose value names it is put in its own place for ever *)
Theorem C51_entity_refuted : exists content, forall fuel, dtd_parse fuel content = NoFuel.
Proof. exists endless_entity. exact endless_ok. Qed.
Print Assumptions C51_entity_refuted.
(** an element that may contain itself *)
Theorem C51_recursive_refuted : exists content, ~ In "%"%char content /\ forall fuel, dtd_parse fuel content = NoFuel.
Proof. exists recursive. split; [intros I; cbn in I; repeat (destruct I as [I|I]; [discriminate|]); destruct I|exact recursive_ok]. Qed.
Print Assumptions C51_recursive_refuted.
