(** Concrete definitions to compare. *)
From Verif Require Import Prelude StrSpec XmlSpec DtdModel DtdSpec DtdDocModel DtdDocSpec LoadModel LoadSpec DtdEqModel DtdEqSpec LoadCases.
Open Scope nat_scope.
Open Scope list_scope.

(** two texts of the same declarations *)
Definition lay1 : bytes :=
  [] ++ (str "<!ELEMENT" ++ str " " ++ str "a" ++ str " " ++
    (str "(" ++ ([] ++ (str "b" ++ str "?") ++ [] ++ [","%char] ++ ([] ++ (str "c" ++ str "*") ++ [])) ++ str ")" ++ []) ++ [] ++ str ">") ++
  [] ++ (str "<!ATTLIST" ++ str " " ++ str "b" ++ ((str " " ++ str "k" ++ str " " ++ str "CDATA" ++ str " " ++ (["'"%char] ++ str "1" ++ ["'"%char])) ++ []) ++ [] ++ str ">") ++ [].
Definition lay2 : bytes :=
  str " " ++ (str "<!ELEMENT" ++ str "  " ++ str "a" ++ str "   " ++
    (str "(" ++ (str " " ++ (str "b" ++ str "?") ++ str " " ++ [","%char] ++ (str " " ++ (str "c" ++ str "*") ++ str " ")) ++ str ")" ++ []) ++ str "  " ++ str ">") ++
  str " " ++ (str "<!ATTLIST" ++ str " " ++ str "b" ++ ((str "  " ++ str "k" ++ str " " ++ str "CDATA" ++ str " " ++ (["034"%char] ++ str "1" ++ ["034"%char])) ++ []) ++ str " " ++ str ">") ++ str " ".
Definition lay_decls : list decl :=
  [DElement (str "a") (CKids (Group Sequence TOne [Leaf (str "b") TOpt; Leaf (str "c") TMany])); DAttlist (str "b") [AtDecl (str "k") ACdata AImplied (Some (str "1"))]].
Lemma lay1_text : dtd_text lay1 lay_decls.
Proof.
  apply dtd_more; [constructor; reflexivity| |apply dtd_more; [constructor; reflexivity| |constructor; constructor; reflexivity]].
  - apply decl_element; [gap|tok|gap| |reflexivity]. apply content_kids. apply (cp_group Sequence ","); [left; auto| |constructor].
    apply items_more; [reflexivity|apply cp_name; [tok|constructor]|reflexivity|]. apply items_last; [reflexivity|apply cp_name; [tok|constructor]|reflexivity].
  - apply decl_attlist; [gap|tok| |reflexivity|discriminate]. apply atts_more; [apply AttText; [gap|tok|gap|constructor|gap|apply default_value; quo]|constructor].
Qed.
Lemma lay2_text : dtd_text lay2 lay_decls.
Proof.
  apply dtd_more; [constructor; reflexivity| |apply dtd_more; [constructor; reflexivity| |constructor; constructor; reflexivity]].
  - apply decl_element; [gap|tok|gap| |reflexivity]. apply content_kids. apply (cp_group Sequence ","); [left; auto| |constructor].
    apply items_more; [reflexivity|apply cp_name; [tok|constructor]|reflexivity|]. apply items_last; [reflexivity|apply cp_name; [tok|constructor]|reflexivity].
  - apply decl_attlist; [gap|tok| |reflexivity|discriminate]. apply atts_more; [apply AttText; [gap|tok|gap|constructor|gap|apply default_value; quo]|constructor].
Qed.
Lemma lay_well : declared_well lay_decls /\ groups_shown lay_decls /\ forall x, ~ In (x, CText) (elements_of lay_decls).
Proof.
  split; [split|split].
  - repeat constructor; intros [].
  - intros x. cbn [atts_of lay_decls flat_map]. rewrite app_nil_r. destruct (bytes_eqb (str "b") x).
    + split; [|split]; [intros a b [<-|[]] [<-|[]]; reflexivity|intros a [<-|[]]; discriminate|intros a vs v [<-|[]]; discriminate].
    + split; [|split]; [intros a b []|intros a []|intros a vs v []].
  - intros (x & l & a & [E|[E|[]]] & I & T); [discriminate|]. injection E as <- <-. destruct I as [<-|[]]. discriminate.
  - exists (fun x => if bytes_eqb x (str "a") then 1 else 0). intros x c y I J. cbn in I. destruct I as [[= <- <-]|[]]. cbn in J. repeat (destruct J as [<-|J]; [vm_compute; lia|]). destruct J.
  - intros x p I. cbn in I. destruct I as [[= <- <-]|[]]. reflexivity.
  - intros x I. cbn in I. destruct I as [E|[]]. discriminate.
Qed.
(** loading and comparing *)
Definition compare (a b : bytes) : res (option bool) :=
  oa <- dtd_parse 20 a ;; ob <- dtd_parse 20 b ;;
  match oa, ob with Some (d, e), Some (d', e') => r <- dtd_equal d e d' e' ;; Ok (Some r) | _, _ => Ok None end.
(** the declarations of two texts with one element that has the specification [p] *)
Definition one (s : string) : bytes := str "<!ELEMENT x " ++ str s ++ str ">".
Definition one_dtd (p : part) (m : nat) : dtd := let e := ElDecl (str "x") TChildren (Some p) m in Dtd [e] [] (Some e) false false.
Definition seq_of (xs : list string) : part := Group Sequence TOne (map (fun x => Leaf (str x) TOne) xs).
Definition deep (xs : list string) : part := Group Sequence TOne [Leaf (str "a") TOne; Group Choice TOne (map (fun x => Leaf (str x) TOne) xs)].
Definition no_value : bytes := str "<!ENTITY x '>".
