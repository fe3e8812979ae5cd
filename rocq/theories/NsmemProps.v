(** C68: axl_ns_doc_validate and axl_ns_node_cmp on a document that is changed. *)
From Verif Require Import Prelude XmlSpec NsModel NsSpec NsmemModel NsmemSpec NsmemProofs4 NsmemCases.
Open Scope nat_scope.
Open Scope list_scope.

(** A document made and changed in any way in which no namespace declaration is removed,
    and validated any number of times meanwhile, is validated without an invalid access,
    and found valid exactly when every prefix used in it is declared; then each element has
    the name that XML says.  Missing: documents from which declarations have been removed
    (see C68_removed_refuted and C68_stale_refuted), and the names that C39 leaves out. *)
Theorem C68_validated_partial :
  forall l, Forall keeps l -> Forall usual l ->
  exists s s' b, run st0 l = Ok s /\ validate s = Ok (s', b) /\ (b = true <-> valid (edits [] l)) /\
    (b = true -> forall i, i < length (edits [] l) -> forall ns local,
       exists r, node_is s' i ns local = Ok r /\ (r = true <-> is_named (edits [] l) i ns local)).
Proof. exact validated_now. Qed.
Print Assumptions C68_validated_partial.

(** After that elements may be added and attributes set and removed.  As long as no
    declaration is removed, and nothing is removed from an element that has eleven
    attributes, there is no invalid access, and each element, a new one as well, has the
    name that XML says about the document without the declarations set since.  Missing:
    those two cases (C68_removed_refuted, C68_eleven_refuted) and the declarations set since
    (C68_unseen_refuted). *)
Theorem C68_kept_partial :
  forall l, Forall keeps l -> Forall usual l ->
  exists s s' b, run st0 l = Ok s /\ validate s = Ok (s', b) /\ (b = true <-> valid (edits [] l)) /\
    (b = true -> forall after, all_calm (edits [] l) after ->
       exists s2, run s' after = Ok s2 /\
         forall i, i < length (edits [] (l ++ after)) -> forall ns local,
           exists r, node_is s2 i ns local = Ok r /\ (r = true <-> is_named (edits [] (l ++ filter (fun c => negb (declares c)) after)) i ns local)).
Proof. exact validated. Qed.
Print Assumptions C68_kept_partial.

(** A declaration that a program has set is removed after the validation: the next
    comparison, and the next validation, read released memory. *)
Theorem C68_removed_refuted :
  exists l after s s' s2, Forall usual l /\ run st0 l = Ok s /\ validate s = Ok (s', true) /\ run s' after = Ok s2 /\
    node_is s2 0 (str "u") (str "a") = UB /\ validate s2 = UB.
Proof. exact removed_ub. Qed.
Print Assumptions C68_removed_refuted.

(** A declaration of a parsed document is removed: the element still has its namespace, and
    the document, whose prefix is no longer declared, is found valid. *)
Theorem C68_stale_refuted :
  exists l after s s' s2 s3, Forall usual l /\ run st0 l = Ok s /\ validate s = Ok (s', true) /\ run s' after = Ok s2 /\
    node_is s2 0 (str "u") (str "a") = Ok true /\ ~ is_named (edits [] (l ++ after)) 0 (str "u") (str "a") /\
    validate s2 = Ok (s3, true) /\ ~ valid (edits [] (l ++ after)).
Proof. exact removed_stale. Qed.
Print Assumptions C68_stale_refuted.

(** A declaration that is set after the validation is not seen. *)
Theorem C68_unseen_refuted :
  exists l after s s' s2, Forall usual l /\ run st0 l = Ok s /\ validate s = Ok (s', true) /\ run s' after = Ok s2 /\ Forall keeps after /\
    node_is s2 0 (str "w") (str "a") = Ok false /\ is_named (edits [] (l ++ after)) 0 (str "w") (str "a").
Proof. exact added_unseen. Qed.
Print Assumptions C68_unseen_refuted.

(** An attribute that declares nothing is removed from an element with eleven: the next
    comparison reads released memory. *)
Theorem C68_eleven_refuted :
  exists l after s s' s2, Forall usual l /\ run st0 l = Ok s /\ validate s = Ok (s', true) /\ run s' after = Ok s2 /\ Forall keeps after /\
    node_is s2 0 (str "u") (str "a") = UB /\ is_named (edits [] (l ++ after)) 0 (str "u") (str "a").
Proof. exact eleven_ub. Qed.
Print Assumptions C68_eleven_refuted.

(** ** a case meeting the hypotheses *)
Example C68_case : Forall keeps before /\ Forall usual before /\ all_calm (edits [] before) afterwards.
Proof. exact before_fine. Qed.
Example C68_case_answers : answers before afterwards
  [(0, str "u", str "a"); (0, str "v", str "a"); (1, str "d", str "b"); (1, str "w", str "b"); (2, str "v", str "c"); (3, str "v", str "e"); (3, str "u", str "e")] =
  Some (true, [true; false; true; false; true; true; false]).
Proof. exact before_answers. Qed.
