(** Comparing document type definitions. *)
From Verif Require Import Prelude StrSpec XmlSpec DtdModel DtdSpec DtdDocModel LoadModel LoadSpec DtdEqModel DtdEqSpec DtdEqProofs LoadCases DtdEqCases.
Open Scope nat_scope.
Open Scope list_scope.

(** C53: definitions with the same rules are equal.
    Missing: entities without a value, for which it is false. *)
Theorem C53_same_partial : forall d ents d' ents', grouped_content d -> values_given ents -> same_rules d ents d' ents' -> dtd_equal d ents d' ents' = Ok true.
Proof. exact equal_same. Qed.
Print Assumptions C53_same_partial.
Example C53_same_case : exists d ents, dtd_parse 20 sample = Ok (Some (d, ents)) /\ grouped_content d /\ values_given ents /\ length (d_elements d) = 6 /\ length ents = 2.
Proof.
  do 2 eexists. split; [vm_compute; reflexivity|]. split; [|split; [|split; reflexivity]].
  - intros e I. cbn in I. repeat (destruct I as [<-|I]; [exact Logic.I|]). destruct I.
  - intros e I. cbn in I. repeat (destruct I as [<-|I]; [discriminate|]). destruct I.
Qed.
(** so that whatever is loaded is equal to itself *)
Theorem C53_self_partial : forall fuel content d ents, dtd_parse fuel content = Ok (Some (d, ents)) -> values_given ents -> dtd_equal d ents d ents = Ok true.
Proof. exact load_equal_self. Qed.
Print Assumptions C53_self_partial.
Example C53_self_case : compare sample sample = Ok (Some true).
Proof. vm_compute. reflexivity. Qed.
(** and two texts with the same declarations, whatever the white space, the comments and the
    quotes, are loaded as equal ones.
    Missing: #PCDATA, whose repetition is compared although it says nothing. *)
Theorem C53_layout_partial : forall text text' ds, dtd_text text ds -> dtd_text text' ds -> declared_well ds -> groups_shown ds -> (forall x, ~ In (x, CText) (elements_of ds)) ->
  exists n, forall fuel, n <= fuel -> exists d ents d' ents',
    dtd_parse fuel text = Ok (Some (d, ents)) /\ dtd_parse fuel text' = Ok (Some (d', ents')) /\ dtd_equal d ents d' ents' = Ok true.
Proof. exact layout_equal. Qed.
Print Assumptions C53_layout_partial.
Example C53_layout_case : dtd_text lay1 lay_decls /\ dtd_text lay2 lay_decls /\ declared_well lay_decls /\ groups_shown lay_decls /\ (forall x, ~ In (x, CText) (elements_of lay_decls)) /\
  lay1 = str "<!ELEMENT a (b?,c*)><!ATTLIST b k CDATA '1'>" /\ compare lay1 lay2 = Ok (Some true).
Proof. split; [exact lay1_text|]. split; [exact lay2_text|]. split; [apply lay_well|]. split; [apply lay_well|]. split; [apply lay_well|]. split; [reflexivity|vm_compute; reflexivity]. Qed.
(** definitions that are found equal declare the same elements, of the same kind and in the
    same order, the same entities, and the same attributes, with the same types and the same
    kind of default.
    Missing: the contents of the elements and the default values, for which it is false. *)
Theorem C53_alike_partial : forall text ds text' ds', dtd_text text ds -> declared_well ds -> groups_shown ds -> dtd_text text' ds' -> declared_well ds' -> groups_shown ds' ->
  exists n, forall fuel d ents d' ents', n <= fuel -> dtd_parse fuel text = Ok (Some (d, ents)) -> dtd_parse fuel text' = Ok (Some (d', ents')) ->
    dtd_equal d ents d' ents' = Ok true -> alike ds ds'.
Proof. exact texts_alike. Qed.
Print Assumptions C53_alike_partial.
Example C53_alike_case : dtd_text lay1 lay_decls /\ declared_well lay_decls /\ groups_shown lay_decls /\ dtd_text lay2 lay_decls /\
  (forall ds, alike lay_decls ds -> map fst (elements_of ds) = [str "a"] /\ map ad_name (atts_of ds (str "b")) = [str "k"]).
Proof.
  split; [exact lay1_text|]. split; [apply lay_well|]. split; [apply lay_well|]. split; [exact lay2_text|]. intros ds [H1 _ _ H4]. split.
  - apply (f_equal (map fst)) in H1. rewrite !map_map in H1. cbn [fst] in H1. symmetry. exact H1.
  - specialize (H4 (str "b")). apply (f_equal (map (fun p => fst (fst p)))) in H4. rewrite !map_map in H4. unfold bare in H4. cbn [fst] in H4. symmetry. exact H4.
Qed.
(** what is found equal, exactly, if the contents of the elements have as many members *)
Theorem C53_decides_partial : forall d ents d' ents', grouped_content d -> grouped_content d' -> as_many d d' -> values_given ents ->
  exists b, dtd_equal d ents d' ents' = Ok b /\ (b = true <-> same_outline d ents d' ents').
Proof. exact equal_decides. Qed.
Print Assumptions C53_decides_partial.
Example C53_decides_case : let d := one_dtd (seq_of ["a"; "b"]%string) 2 in let d' := one_dtd (deep ["c"; "d"]%string) 1 in
  grouped_content d /\ grouped_content d' /\ as_many d d' /\ values_given [] /\ dtd_equal d [] d' [] = Ok false.
Proof.
  cbv zeta. split; [intros e [<-|[]]; exact Logic.I|]. split; [intros e [<-|[]]; exact Logic.I|]. split; [repeat constructor|]. split; [intros e []|reflexivity].
Qed.
(** the comparison does not go outside of the lists if no content of the first definition has
    more members than the one in the same place of the second *)
Theorem C53_safe_partial : forall d ents d' ents',
  (forall i e e', nth_error (d_elements d) i = Some e -> nth_error (d_elements d') i = Some e' -> members e <= members e') -> exists b, dtd_equal d ents d' ents' = Ok b.
Proof. exact equal_safe. Qed.
Print Assumptions C53_safe_partial.
Example C53_safe_case : forall i e e', nth_error (d_elements (one_dtd (seq_of ["a"]%string) 1)) i = Some e -> nth_error (d_elements (one_dtd (seq_of ["a"; "b"]%string) 2)) i = Some e' -> members e <= members e'.
Proof. intros [|[|i]] e e' H H'; try discriminate. injection H as <-. injection H' as <-. vm_compute. lia. Qed.

(** <!ELEMENT x (a)> and <!ELEMENT x (b)> are found equal *)
Theorem C53_names_refuted : exists t t' d e d' e', dtd_parse 20 t = Ok (Some (d, e)) /\ dtd_parse 20 t' = Ok (Some (d', e')) /\
  d_elements d = d_elements (one_dtd (seq_of ["a"]%string) 1) /\ d_elements d' = d_elements (one_dtd (seq_of ["b"]%string) 1) /\ dtd_equal d e d' e' = Ok true.
Proof. exists (one "(a)"), (one "(b)"). do 4 eexists. split; [vm_compute; reflexivity|]. split; [vm_compute; reflexivity|]. split; [reflexivity|]. split; vm_compute; reflexivity. Qed.
Print Assumptions C53_names_refuted.
(** so are definitions that differ in a nested group only, or in a default value *)
Theorem C53_nested_refuted : exists t t' d e d' e', dtd_parse 20 t = Ok (Some (d, e)) /\ dtd_parse 20 t' = Ok (Some (d', e')) /\
  d_elements d = d_elements (one_dtd (deep ["b"; "c"]%string) 1) /\ d_elements d' = d_elements (one_dtd (deep ["d"; "e"; "f"]%string) 1) /\ dtd_equal d e d' e' = Ok true.
Proof. exists (one "(a,(b|c))"), (one "(a,(d|e|f))"). do 4 eexists. split; [vm_compute; reflexivity|]. split; [vm_compute; reflexivity|]. split; [reflexivity|]. split; vm_compute; reflexivity. Qed.
Print Assumptions C53_nested_refuted.
Theorem C53_default_refuted : exists t t' d e d' e', dtd_parse 20 t = Ok (Some (d, e)) /\ dtd_parse 20 t' = Ok (Some (d', e')) /\
  d_attrs d = [(str "x", [AtDecl (str "k") ACdata AFixed (Some (str "1"))])] /\ d_attrs d' = [(str "x", [AtDecl (str "k") ACdata AFixed (Some (str "2"))])] /\ dtd_equal d e d' e' = Ok true.
Proof.
  exists (str "<!ATTLIST x k CDATA #FIXED '1'>"), (str "<!ATTLIST x k CDATA #FIXED '2'>"). do 4 eexists. split; [vm_compute; reflexivity|]. split; [vm_compute; reflexivity|].
  split; [reflexivity|]. split; vm_compute; reflexivity.
Qed.
Print Assumptions C53_default_refuted.
(** a content with more members than the other one is followed beyond the end of that one; the
    other way around they are found equal.  <!ELEMENT x (a?,b?)>, <!ELEMENT x (a?)> *)
Theorem C53_fault_refuted : exists t t' d e d' e', dtd_parse 20 t = Ok (Some (d, e)) /\ dtd_parse 20 t' = Ok (Some (d', e')) /\
  dtd_equal d e d' e' = UB /\ dtd_equal d' e' d e = Ok true.
Proof. exists (one "(a?,b?)"), (one "(a?)"). do 4 eexists. split; [vm_compute; reflexivity|]. split; [vm_compute; reflexivity|]. split; vm_compute; reflexivity. Qed.
Print Assumptions C53_fault_refuted.
(** a definition with an entity whose value is not ended is not equal to itself *)
Theorem C53_self_refuted : exists t d e, dtd_parse 20 t = Ok (Some (d, e)) /\ dtd_equal d e d e = Ok false.
Proof. exists no_value. do 2 eexists. split; vm_compute; reflexivity. Qed.
Print Assumptions C53_self_refuted.
