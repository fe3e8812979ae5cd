(** A whole document. *)
From Verif Require Import Prelude StrSpec StrProofs EscProofs AttrModel TreeModel XmlSpec ParseProofs CutSpec.
Open Scope list_scope.

Ltac no_occ := let a := fresh "a" in let b := fresh "b" in let E := fresh "E" in intros (a & b & E); vm_compute in E;
  repeat (destruct a as [|? a]; [discriminate E|cbn [app] in E; try discriminate E; injection E as _ E]).
Ltac case_tac := repeat match goal with
  | H : Fresh = _ |- _ => discriminate H
  | H : AfterText = _ |- _ => discriminate H
  | |- nul_free _ => nf
  | |- ~ occurs _ _ => no_occ
  | |- ~ blank _ => discriminate
  | |- is_name _ => split; [discriminate|reflexivity]
  | |- is_target _ => split; [|intros (? & ? & ? & H & _); discriminate H]
  | |- is_pi_content _ => split; [|split; [|discriminate]]
  | |- is_comment _ => split; [discriminate|]
  | |- is_attr _ => split; [|split; [discriminate|eexists; split; [reflexivity|split]]]
  | |- NoDup _ => constructor; [cbn; intuition discriminate|]
  | |- _ <> _ => discriminate
  | |- _ = false \/ _ => (left; reflexivity) || (right; reflexivity)
  | |- _ -> _ => intro
  | |- _ = _ => reflexivity
  | |- _ => constructor
  end.

Definition letter : bytes := s2b "<?xml version='1.0' encoding='utf-8' ?> <!-- a> --><!DOCTYPE x><?p q>?><x  y='z' > <b/>t>t<c>u</c > <![CDATA[>]]></x>".
Definition letter_tree : xnode :=
  XNode (s2b "x") [(s2b "y", Some (s2b "z"))] [XElem (XNode (s2b "b") [] []); XText (s2b "t>t"); XElem (XNode (s2b "c") [] [XText (s2b "u")]); XCdata (s2b ">")].
Lemma letter_whole : whole letter (Some (s2b "utf-8")) false [Pi (s2b "p") (Some (s2b "q>"))] letter_tree.
Proof.
  apply (whole_decl [] (s2b "<?xml version='1.0' encoding='utf-8' ?>") _ _ (s2b " <!-- a> -->") (s2b "<!DOCTYPE x>") (s2b "<?p q>?>") _
    (s2b "<x  y='z' > <b/>t>t<c>u</c > <![CDATA[>]]></x>") _).
  - left. reflexivity.
  - apply (Decl (s2b " ") [] "'" (s2b " ") (s2b "encoding='utf-8'") (Some (s2b "utf-8")) (s2b " ") [] None []); try reflexivity; try (left; reflexivity); try discriminate.
    + apply (field_some (str "encoding") "'" (s2b "utf-8")); try reflexivity; [left; reflexivity|nf].
  - apply (misc_comment _ (s2b " ") (s2b " a> ") []); [reflexivity|split; [discriminate|no_occ]|constructor; reflexivity].
  - apply (doctype_some (s2b " x")). reflexivity.
  - apply (misc_pi _ [] (s2b "<?p q>?>") _ _ []); [reflexivity|reflexivity| |constructor; reflexivity].
    apply (pi_full (s2b "p") " " (s2b "q>")); [|reflexivity|]; case_tac.
  - apply (elem_full (s2b "x") (s2b "  y='z'") _ (s2b " ") (s2b " <b/>t>t<c>u</c > <![CDATA[>]]>") _ []); try reflexivity.
    + case_tac.
    + apply (attrs_more (s2b "  ") (s2b "y") "'" (s2b "z") [] []); try reflexivity; try discriminate; [case_tac|left; reflexivity|nf|constructor|intros []].
    + apply (content_elem Fresh (s2b " ") (s2b "<b/>") _ (s2b "t>t<c>u</c > <![CDATA[>]]>")); [split; [reflexivity|discriminate]| |].
      * apply (elem_empty (s2b "b") [] [] []); [case_tac|constructor|reflexivity].
      * apply (content_text_fresh (s2b "t>t") (s2b "<c>u</c > <![CDATA[>]]>")); [nf|discriminate|reflexivity|].
        apply (content_elem AfterText [] (s2b "<c>u</c >") _ (s2b " <![CDATA[>]]>")); [split; reflexivity| |].
        -- apply (elem_full (s2b "c") [] [] [] (s2b "u") _ (s2b " ")); try reflexivity; [case_tac|constructor|].
           apply (content_text_fresh (s2b "u") []); [nf|discriminate|reflexivity|]. constructor. split; reflexivity.
        -- apply (content_cdata Fresh (s2b " ") (s2b ">") []); [split; [reflexivity|discriminate]|nf|no_occ|]. constructor. split; [reflexivity|discriminate].
    + cbn; lia.
Qed.
Lemma letter_tame : tame letter_tree.
Proof.
  unfold letter_tree. constructor.
  - constructor; [|constructor]. intros v H. injection H as <-. reflexivity.
  - apply tame_elem; [constructor; constructor|]. apply tame_other; [discriminate|]. apply tame_elem; [|apply tame_other; [discriminate|constructor]].
    constructor; [constructor|]. apply tame_other; [discriminate|constructor].
Qed.
(** A document with a [>] in an attribute *)
Definition angry : bytes := s2b "<a b='/>' />".
Definition angry_tree : xnode := XNode (s2b "a") [(s2b "b", Some (s2b "/>"))] [].
Lemma angry_whole : whole angry None false [] angry_tree.
Proof.
  apply (whole_plain [] [] [] [] angry).
  - left. reflexivity.
  - constructor.
  - constructor. reflexivity.
  - apply (elem_empty (s2b "a") (s2b " b='/>'") [(s2b "b", Some (s2b "/>"))] (s2b " ")); [case_tac| |reflexivity].
    apply (attrs_more (s2b " ") (s2b "b") "'" (s2b "/>") [] []); try reflexivity; try discriminate; [case_tac|left; reflexivity|nf|constructor|intros []].
  - intros _ z. discriminate.
Qed.
