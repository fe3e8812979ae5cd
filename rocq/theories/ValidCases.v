(** A DTD and documents. *)
From Verif Require Import Prelude StrSpec AttrModel TreeModel ParseModel XmlSpec GramProofs4 DtdModel DtdSpec DtdDocModel LoadModel LoadSpec LoadCases ValidModel ValidSpec.
Open Scope nat_scope.
Open Scope list_scope.

Definition t_mixed := str "<!ELEMENT" ++ str " " ++ str "item" ++ str " " ++
  (str "(" ++ [] ++ str "#PCDATA" ++ [] ++ str "|" ++ ([] ++ (str "a" ++ []) ++ []) ++ str ")*") ++ [] ++ str ">".
Definition small : bytes := [] ++ t_doc ++ [] ++ t_head ++ [] ++ t_mixed ++ [] ++ t_a ++ [] ++ t_att ++ [].
Definition small_decls : list decl :=
  [DElement (str "doc") (CKids p_doc); DElement (str "head") CText; DElement (str "item") (CMixed [str "a"]); DElement (str "a") CEmpty; DAttlist (str "item") atts_item].
Example small_is : small = str "<!ELEMENT doc (head, item+)><!ELEMENT head (#PCDATA)><!ELEMENT item (#PCDATA|a)*><!ELEMENT a EMPTY><!ATTLIST item id ID #REQUIRED kind (x | y) " ++
  dq ++ str "x" ++ dq ++ str " ref IDREF #IMPLIED v CDATA #FIXED '1' >".
Proof. reflexivity. Qed.
Lemma small_text : dtd_text small small_decls.
Proof.
  unfold small, small_decls. apply dtd_more; [constructor; reflexivity| |].
  { apply decl_element; [gap|tok|gap| |reflexivity]. apply content_kids. apply (cp_group Sequence ","); [left; auto| |constructor].
    apply items_more; [reflexivity|apply cp_name; [tok|constructor]|reflexivity|]. apply items_last; [reflexivity|apply cp_name; [tok|constructor]|reflexivity]. }
  apply dtd_more; [constructor; reflexivity| |].
  { apply decl_element; [gap|tok|gap| |reflexivity]. apply content_pcdata; [reflexivity|reflexivity|left; reflexivity]. }
  apply dtd_more; [constructor; reflexivity| |].
  { apply decl_element; [gap|tok|gap| |reflexivity]. apply content_mixed; [reflexivity|reflexivity|]. apply items_last; [reflexivity|apply cp_name; [tok|constructor]|reflexivity]. }
  apply dtd_more; [constructor; reflexivity| |].
  { apply decl_element; [gap|tok|gap|constructor|reflexivity]. }
  apply dtd_more; [constructor; reflexivity| |constructor; constructor; reflexivity].
  apply decl_attlist; [gap|tok| |reflexivity|discriminate].
  apply atts_more; [apply AttText; [gap|tok|gap|constructor|gap|constructor]|].
  apply atts_more; [apply AttText; [gap|tok|gap| |gap|apply default_value; quo]|].
  { apply type_enum. apply values_more; [reflexivity|tok|reflexivity|]. apply values_last; [reflexivity|tok|reflexivity]. }
  apply atts_more; [apply AttText; [gap|tok|gap|constructor|gap|constructor]|].
  apply atts_more; [apply AttText; [gap|tok|gap|constructor|gap|apply default_fixed; [gap|quo]]|]. constructor.
Qed.
Lemma small_well : declared_well small_decls.
Proof.
  split.
  - cbn. repeat constructor; intros I; cbn in I; repeat (destruct I as [I|I]; [discriminate|]); destruct I.
  - intros x. cbn [atts_of small_decls flat_map]. rewrite !app_nil_r. destruct (bytes_eqb (str "item") x).
    + split; [|split].
      * intros a b [<-|[<-|[<-|[<-|[]]]]] [<-|[<-|[<-|[<-|[]]]]]; try discriminate; reflexivity.
      * intros a [<-|[<-|[<-|[<-|[]]]]]; discriminate.
      * intros a vs v [<-|[<-|[<-|[<-|[]]]]]; try discriminate. intros [= <-] [= <-]. left. reflexivity.
    + split; [|split]; [intros a b []|intros a []|intros a vs v []].
  - intros _. exists (str "item"), atts_item, (AtDecl (str "id") AId ARequired None). split; [do 4 right; left; reflexivity|]. split; [left; reflexivity|reflexivity].
  - exists rank_of. intros x c y I J. cbn in I. repeat (destruct I as [[= <- <-]|I]; [cbn in J; repeat (destruct J as [<-|J]; [vm_compute; lia|]); destruct J|]). destruct I.
Qed.
Lemma small_sound : sound_for small_decls.
Proof.
  split; [discriminate| | |].
  - intros x. cbn [atts_of small_decls flat_map]. rewrite !app_nil_r. destruct (bytes_eqb (str "item") x); [|constructor].
    repeat constructor; intros I; cbn in I; repeat (destruct I as [I|I]; [discriminate|]); destruct I.
  - intros x p I. cbn in I. repeat (destruct I as [E|I]; [try discriminate; injection E as <- <-; split; reflexivity|]). destruct I.
  - intros x I. cbn in I. repeat (destruct I as [I|I]; [discriminate|]). destruct I.
Qed.
Lemma small_complete : complete_for small_decls.
Proof.
  split.
  - intros x p I. cbn in I. repeat (destruct I as [E|I]; [try discriminate; injection E as <- <-; reflexivity|]). destruct I.
  - intros x xs I. cbn in I. repeat (destruct I as [E|I]; [first [discriminate E | injection E as <- <-; constructor; [intros []|constructor]]|]). destruct I.
Qed.
Lemma small_ends : forall x p, In (x, CKids p) (elements_of small_decls) -> ends p = true.
Proof. intros x p I. cbn in I. repeat (destruct I as [E|I]; [try discriminate; injection E as <- <-; reflexivity|]). destruct I. Qed.

(** documents *)
Ltac nul_tac := let I := fresh in intros I; cbn in I; repeat (destruct I as [I|I]; [discriminate I|]); destruct I.
Ltac doc_tac := repeat match goal with
  | H : Fresh = _ |- _ => discriminate H
  | H : AfterText = _ |- _ => discriminate H
  | |- nul_free _ => nul_tac
  | |- ~ blank _ => discriminate
  | |- is_name _ => split; [discriminate|reflexivity]
  | |- is_attr _ => split; [|split; [discriminate|eexists; split; [reflexivity|split]]]
  | |- NoDup _ => constructor; [cbn; intuition discriminate|]
  | |- _ <> _ => discriminate
  | |- _ = false \/ _ => (left; reflexivity) || (right; reflexivity)
  | |- _ -> _ => intro
  | |- _ = _ => reflexivity
  | |- _ => constructor
  end.
Definition at_ (k v : string) : bytes * option bytes := (str k, Some (str v)).
Definition x_a : xnode := XNode (str "a") [] [].
Definition x_head : xnode := XNode (str "head") [] [XText (str "h")].
Definition x_item (ats : list (bytes * option bytes)) : xnode := XNode (str "item") ats [XText (str "t"); XElem x_a; XText (str "u")].
Definition x_doc (l : list xitem) : xnode := XNode (str "doc") [] l.
Definition x_good : xnode := x_doc [XElem x_head; XElem (x_item [at_ "v" "1"; at_ "id" "p"]); XElem (x_item [at_ "id" "q"; at_ "ref" "p"; at_ "kind" "y"; at_ "v" "1"])].
Definition text_of (x : xnode) : bytes := doc_xml None None false x.
Example good_is : text_of x_good =
  str "<?xml version='1.0' ?><doc><head>h</head><item v='1' id='p'>t<a />u</item><item id='q' ref='p' kind='y' v='1'>t<a />u</item></doc>".
Proof. reflexivity. Qed.
Lemma good_text : doc_text (text_of x_good) None false [] x_good.
Proof.
  change (doc_text (text_of x_good) None false [] (pad_tree x_good)). apply doc_written; [|left; reflexivity|intros v E; discriminate]. unfold x_good, x_doc, x_head, x_item, x_a, at_. doc_tac.
Qed.
Lemma good_ids : ids_present small_decls x_good.
Proof. intros e a Ie Ia T. cbn in Ie. repeat (destruct Ie as [<-|Ie]; [cbn in Ia; repeat (destruct Ia as [<-|Ia]; [try discriminate T; vm_compute; tauto|]); destruct Ia|]). destruct Ie. Qed.
Ltac in_tac := vm_compute; repeat (first [left; reflexivity | right]).
Lemma item_fits : forall l, (forall n v, In (n, v) l -> exists a, In a atts_item /\ ad_name a = n /\ forall vs, ad_type a = AEnum vs -> exists w, v = Some w /\ In w vs) ->
  In (str "id") (map fst l) -> In (str "v", Some (str "1")) l -> x_atts_fit atts_item (x_item l).
Proof.
  intros l H1 H2 H3. split; [exact H1|]. split.
  - intros a [<-|[<-|[<-|[<-|[]]]]] D; try discriminate. exact H2.
  - intros a [<-|[<-|[<-|[<-|[]]]]] D; try discriminate. exact H3.
Qed.
Lemma good_valid : valid_doc small_decls x_good.
Proof.
  split; [|split].
  - intros e I. cbn in I. destruct I as [<-|[<-|[<-|[<-|[<-|[<-|[]]]]]]].
    + exists (CKids p_doc). split; [in_tac|]. split; [split; [reflexivity|]|].
      * cbn. exists [str "head"], [str "item"; str "item"]. split; [reflexivity|]. split; [reflexivity|]. exists [str "item"; str "item"], []. split; [reflexivity|]. split; [|reflexivity].
        exists [str "item"], [str "item"]. split; [reflexivity|]. split; [reflexivity|]. apply (star_app _ [str "item"] []); [reflexivity|constructor].
      * split; [intros n v []|split; intros a []].
    + exists CText. split; [in_tac|]. split; [reflexivity|]. split; [intros n v []|split; intros a []].
    + exists (CMixed [str "a"]). split; [in_tac|]. split; [intros k [<-|[]]; in_tac|]. change (x_atts_fit atts_item (x_item [at_ "v" "1"; at_ "id" "p"])).
      apply item_fits; [|in_tac|in_tac]. intros n v I. cbn in I. destruct I as [[= <- <-]|[[= <- <-]|[]]].
      * exists (AtDecl (str "v") ACdata AFixed (Some (str "1"))). split; [in_tac|]. split; [reflexivity|discriminate].
      * exists (AtDecl (str "id") AId ARequired None). split; [in_tac|]. split; [reflexivity|discriminate].
    + exists CEmpty. split; [in_tac|]. split; [reflexivity|]. split; [intros n v []|split; intros a []].
    + exists (CMixed [str "a"]). split; [in_tac|]. split; [intros k [<-|[]]; in_tac|].
      change (x_atts_fit atts_item (x_item [at_ "id" "q"; at_ "ref" "p"; at_ "kind" "y"; at_ "v" "1"])).
      apply item_fits; [|in_tac|in_tac]. intros n v I. cbn in I. destruct I as [[= <- <-]|[[= <- <-]|[[= <- <-]|[[= <- <-]|[]]]]].
      * exists (AtDecl (str "id") AId ARequired None). split; [in_tac|]. split; [reflexivity|discriminate].
      * exists (AtDecl (str "ref") AIdref AImplied None). split; [in_tac|]. split; [reflexivity|discriminate].
      * exists (AtDecl (str "kind") (AEnum [str "x"; str "y"]) AImplied (Some (str "x"))). split; [in_tac|]. split; [reflexivity|]. intros vs [= <-]. exists (str "y"). split; [reflexivity|in_tac].
      * exists (AtDecl (str "v") ACdata AFixed (Some (str "1"))). split; [in_tac|]. split; [reflexivity|discriminate].
    + exists CEmpty. split; [in_tac|]. split; [reflexivity|]. split; [intros n v []|split; intros a []].
  - vm_compute. repeat constructor; intros I; cbn in I; repeat (destruct I as [I|I]; [discriminate|]); destruct I.
  - intros v I. vm_compute in I. destruct I as [<-|[]]. in_tac.
Qed.
(** accepted without being valid *)
Definition x_text : xnode := x_doc [XElem x_head; XText (str "some text"); XElem (x_item [at_ "v" "1"; at_ "id" "p"])].
Lemma text_text : doc_text (text_of x_text) None false [] x_text.
Proof.
  change (doc_text (text_of x_text) None false [] (pad_tree x_text)). apply doc_written; [|left; reflexivity|intros v E; discriminate]. unfold x_text, x_doc, x_head, x_item, x_a, at_. doc_tac.
Qed.
Definition x_b : xnode := XNode (str "a") [at_ "k" "v"] [XComment (str " c ")].
Definition x_comment : xnode := x_doc [XElem x_head; XElem (XNode (str "item") [at_ "v" "1"; at_ "id" "p"] [XElem x_b])].
Lemma comment_text : doc_text (text_of x_comment) None false [] x_comment.
Proof.
  change (doc_text (text_of x_comment) None false [] (pad_tree x_comment)). apply doc_written; [|left; reflexivity|intros v E; discriminate].
  assert (~ occurs (str "-->") (str " c ")).
  { intros (a & b & E). vm_compute in E. repeat (destruct a as [|? a]; [discriminate E|cbn [app] in E; try discriminate E; injection E as _ E]). }
  assert (is_comment (str " c ")) by (split; [discriminate|assumption]).
  unfold x_comment, x_doc, x_head, x_item, x_b, at_. repeat first [assumption | progress doc_tac].
Qed.
