(** Concrete document type definitions. *)
From Verif Require Import Prelude StrSpec StreamModel StreamProofs ParseModel ParseProofs XmlSpec DtdModel DtdSpec DtdDocModel DtdDocSpec LoadModel LoadSpec
  LoadProofs LoadProofs5 LoadProofs6 LoadProofs7 LoadProofs8 LoadProofs9.
Open Scope nat_scope.
Open Scope list_scope.

(** ** a definition with every kind of declaration *)
Definition dq : bytes := ["034"%char].
Definition t_doc := str "<!ELEMENT" ++ str " " ++ str "doc" ++ str " " ++
  (str "(" ++ ([] ++ (str "head" ++ []) ++ [] ++ [","%char] ++ (str " " ++ (str "item" ++ str "+") ++ [])) ++ str ")" ++ []) ++ [] ++ str ">".
Definition p_doc := Group Sequence TOne [Leaf (str "head") TOne; Leaf (str "item") TPlus].
Definition t_head := str "<!ELEMENT" ++ str " " ++ str "head" ++ str " " ++ (str "(" ++ [] ++ str "#PCDATA" ++ [] ++ str ")" ++ []) ++ [] ++ str ">".
Definition t_ab := str "(" ++ ([] ++ (str "a" ++ []) ++ [] ++ ["|"%char] ++ ([] ++ (str "b" ++ []) ++ [])) ++ str ")" ++ str "*".
Definition t_item := str "<!ELEMENT" ++ str " " ++ str "item" ++ str " " ++
  (str "(" ++ ([] ++ t_ab ++ [] ++ [","%char] ++ (str " " ++ (str "c" ++ str "?") ++ [])) ++ str ")" ++ []) ++ [] ++ str ">".
Definition p_item := Group Sequence TOne [Group Choice TMany [Leaf (str "a") TOne; Leaf (str "b") TOne]; Leaf (str "c") TOpt].
Definition t_a := str "<!ELEMENT" ++ str " " ++ str "a" ++ str " " ++ str "EMPTY" ++ [] ++ str ">".
Definition t_b := str "<!ELEMENT" ++ str " " ++ str "b" ++ str " " ++ str "EMPTY" ++ [] ++ str ">".
Definition t_c := str "<!ELEMENT" ++ str " " ++ str "c" ++ str " " ++
  (str "(" ++ [] ++ str "#PCDATA" ++ [] ++ str "|" ++ ([] ++ (str "a" ++ []) ++ []) ++ str ")*") ++ [] ++ str ">".
Definition t_gen := str "<!ENTITY" ++ str " " ++ str "copy" ++ str " " ++ (["'"%char] ++ str "(c)" ++ ["'"%char]) ++ [] ++ str ">".
Definition t_par := str "<!ENTITY" ++ str " " ++ str "%" ++ str " " ++ str "type" ++ str " " ++ (["034"%char] ++ str "CDATA" ++ ["034"%char]) ++ [] ++ str ">".
Definition t_at1 := str " " ++ str "id" ++ str " " ++ str "ID" ++ str " " ++ str "#REQUIRED".
Definition t_at2 := str " " ++ str "kind" ++ str " " ++ (str "(" ++ ([] ++ str "x" ++ str " " ++ str "|" ++ (str " " ++ str "y" ++ [])) ++ str ")") ++ str " " ++ (["034"%char] ++ str "x" ++ ["034"%char]).
Definition t_at3 := str " " ++ str "ref" ++ str " " ++ str "IDREF" ++ str " " ++ str "#IMPLIED".
Definition t_at4 := str " " ++ str "v" ++ str " " ++ str "CDATA" ++ str " " ++ (str "#FIXED" ++ str " " ++ (["'"%char] ++ str "1" ++ ["'"%char])).
Definition t_att := str "<!ATTLIST" ++ str " " ++ str "item" ++ (t_at1 ++ t_at2 ++ t_at3 ++ t_at4 ++ []) ++ str " " ++ str ">".
Definition atts_item := [AtDecl (str "id") AId ARequired None; AtDecl (str "kind") (AEnum [str "x"; str "y"]) AImplied (Some (str "x"));
  AtDecl (str "ref") AIdref AImplied None; AtDecl (str "v") ACdata AFixed (Some (str "1"))].
Definition sample : bytes :=
  ([] ++ str "<!--" ++ str " a document " ++ str "-->" ++ str " ") ++ t_doc ++ [] ++ t_head ++ [] ++ t_item ++ [] ++ t_a ++ [] ++ t_b ++ str " " ++ t_c ++
  [] ++ t_gen ++ [] ++ t_par ++ [] ++ t_att ++ str " ".
Definition sample_decls : list decl :=
  [DElement (str "doc") (CKids p_doc); DElement (str "head") CText; DElement (str "item") (CKids p_item); DElement (str "a") CEmpty; DElement (str "b") CEmpty;
   DElement (str "c") (CMixed [str "a"]); DEntity (Entity (str "copy") EGeneral (Some (str "(c)"))); DEntity (Entity (str "type") EParameter (Some (str "CDATA")));
   DAttlist (str "item") atts_item].
Example sample_is : sample = str "<!-- a document --> <!ELEMENT doc (head, item+)><!ELEMENT head (#PCDATA)><!ELEMENT item ((a|b)*, c?)><!ELEMENT a EMPTY><!ELEMENT b EMPTY> <!ELEMENT c (#PCDATA|a)*><!ENTITY copy '(c)'><!ENTITY % type " ++
  dq ++ str "CDATA" ++ dq ++ str "><!ATTLIST item id ID #REQUIRED kind (x | y) " ++ dq ++ str "x" ++ dq ++ str " ref IDREF #IMPLIED v CDATA #FIXED '1' > ".
Proof. reflexivity. Qed.
Ltac tok := split; [discriminate|reflexivity].
Ltac gap := split; [reflexivity|discriminate].
Lemma quoted_here q v : quote q -> forallb (fun c => negb (Ascii.eqb c NUL)) v = true -> XmlSpec.has q v = false -> quoted ([q] ++ v ++ [q]) v.
Proof.
  intros Q N H. constructor; [exact Q| |exact H]. intros I. rewrite forallb_forall in N. specialize (N _ I). rewrite Ascii.eqb_refl in N. discriminate.
Qed.
Ltac quo := apply quoted_here; [(left; reflexivity) || (right; reflexivity)|reflexivity|reflexivity].
Lemma no_arrow : ~ occurs (str "-->") (str " a document ").
Proof.
  intros (x & y & E). assert (In "-"%char (str " a document ")) as I by (rewrite E; apply in_or_app; right; left; reflexivity).
  cbn in I. repeat (destruct I as [I|I]; [discriminate|]). destruct I.
Qed.
Lemma sample_text : dtd_text sample sample_decls.
Proof.
  unfold sample, sample_decls. apply dtd_more.
  { apply misc_comment; [reflexivity|split; [discriminate|exact no_arrow]|constructor; reflexivity]. }
  { apply decl_element; [gap|tok|gap| |reflexivity]. apply content_kids. apply (cp_group Sequence ","); [left; auto| |constructor].
    apply items_more; [reflexivity|apply cp_name; [tok|constructor]|reflexivity|]. apply items_last; [reflexivity|apply cp_name; [tok|constructor]|reflexivity]. }
  apply dtd_more; [constructor; reflexivity| |].
  { apply decl_element; [gap|tok|gap| |reflexivity]. apply content_pcdata; [reflexivity|reflexivity|left; reflexivity]. }
  apply dtd_more; [constructor; reflexivity| |].
  { apply decl_element; [gap|tok|gap| |reflexivity]. apply content_kids. apply (cp_group Sequence ","); [left; auto| |constructor].
    apply items_more; [reflexivity| |reflexivity|].
    - apply (cp_group Choice "|"); [right; auto| |constructor].
      apply items_more; [reflexivity|apply cp_name; [tok|constructor]|reflexivity|]. apply items_last; [reflexivity|apply cp_name; [tok|constructor]|reflexivity].
    - apply items_last; [reflexivity|apply cp_name; [tok|constructor]|reflexivity]. }
  apply dtd_more; [constructor; reflexivity| |].
  { apply decl_element; [gap|tok|gap|constructor|reflexivity]. }
  apply dtd_more; [constructor; reflexivity| |].
  { apply decl_element; [gap|tok|gap|constructor|reflexivity]. }
  apply dtd_more; [constructor; reflexivity| |].
  { apply decl_element; [gap|tok|gap| |reflexivity]. apply content_mixed; [reflexivity|reflexivity|]. apply items_last; [reflexivity|apply cp_name; [tok|constructor]|reflexivity]. }
  apply dtd_more; [constructor; reflexivity| |].
  { apply decl_general; [gap|tok|gap|quo|reflexivity]. }
  apply dtd_more; [constructor; reflexivity| |].
  { apply decl_parameter; [gap|gap|tok|gap|quo|reflexivity]. }
  apply dtd_more; [constructor; reflexivity| |constructor; constructor; reflexivity].
  apply decl_attlist; [gap|tok| |reflexivity|discriminate].
  apply atts_more; [apply AttText; [gap|tok|gap|constructor|gap|constructor]|].
  apply atts_more; [apply AttText; [gap|tok|gap| |gap|apply default_value; quo]|].
  { apply type_enum. apply values_more; [reflexivity|tok|reflexivity|]. apply values_last; [reflexivity|tok|reflexivity]. }
  apply atts_more; [apply AttText; [gap|tok|gap|constructor|gap|constructor]|].
  apply atts_more; [apply AttText; [gap|tok|gap|constructor|gap|apply default_fixed; [gap|quo]]|]. constructor.
Qed.
Definition rank_of (x : bytes) : nat := if bytes_eqb x (str "doc") then 3 else if bytes_eqb x (str "item") then 2 else if bytes_eqb x (str "c") then 1 else 0.
Lemma sample_well : declared_well sample_decls.
Proof.
  split.
  - cbn. repeat constructor; intros I; cbn in I; repeat (destruct I as [I|I]; [discriminate|]); destruct I.
  - intros x. cbn [atts_of sample_decls flat_map]. rewrite !app_nil_r. destruct (bytes_eqb (str "item") x).
    + split; [|split].
      * intros a b [<-|[<-|[<-|[<-|[]]]]] [<-|[<-|[<-|[<-|[]]]]]; try discriminate; reflexivity.
      * intros a [<-|[<-|[<-|[<-|[]]]]]; discriminate.
      * intros a vs v [<-|[<-|[<-|[<-|[]]]]]; try discriminate. intros [= <-] [= <-]. left. reflexivity.
    + split; [|split]; [intros a b []|intros a []|intros a vs v []].
  - intros _. exists (str "item"), atts_item, (AtDecl (str "id") AId ARequired None). split; [do 8 right; left; reflexivity|]. split; [left; reflexivity|reflexivity].
  - exists rank_of. intros x c y I J. cbn in I. repeat (destruct I as [[= <- <-]|I]; [cbn in J; repeat (destruct J as [<-|J]; [vm_compute; lia|]); destruct J|]). destruct I.
Qed.
Lemma sample_exact : forall x p, In (x, CKids p) (elements_of sample_decls) -> exact p = true /\ safe_top p = true.
Proof. intros x p I. cbn in I. repeat (destruct I as [E|I]; [try discriminate; injection E as <- <-; split; reflexivity|]). destruct I. Qed.
Definition sample_doc (kind : string) (kids : list elem) : elem :=
  Elem (str "doc") [] false [Elem (str "head") [] false []; Elem (str "item") [(str "id", str "i1"); (str "kind", str kind); (str "v", str "1")] false kids].
Definition sample_kids : list elem :=
  [Elem (str "b") [] true []; Elem (str "a") [] true []; Elem (str "c") [] false [Elem (str "a") [] true []; Elem (str "a") [] true []]].
Definition sample_checks (root : elem) : res bool :=
  o <- dtd_parse 20 sample ;; match o with Some (d, _) => validate 20 20 d root | None => Ok false end.

(** ** a choice of groups *)
Definition t_pairs := str "(" ++ ([] ++ (str "(" ++ ([] ++ (str "a" ++ []) ++ [] ++ [","%char] ++ ([] ++ (str "b" ++ []) ++ [])) ++ str ")" ++ []) ++ [] ++ ["|"%char] ++
  ([] ++ (str "(" ++ ([] ++ (str "c" ++ []) ++ [] ++ [","%char] ++ ([] ++ (str "d" ++ []) ++ [])) ++ str ")" ++ []) ++ [])) ++ str ")" ++ [].
Definition p_pairs := Group Choice TOne [Group Sequence TOne [Leaf (str "a") TOne; Leaf (str "b") TOne]; Group Sequence TOne [Leaf (str "c") TOne; Leaf (str "d") TOne]].
Definition pairs : bytes := [] ++ (str "<!ELEMENT" ++ str " " ++ str "x" ++ str " " ++ t_pairs ++ [] ++ str ">") ++ [].
Definition pairs_decls := [DElement (str "x") (CKids p_pairs)].
Lemma pairs_text : dtd_text pairs pairs_decls.
Proof.
  apply dtd_more; [constructor; reflexivity| |constructor; constructor; reflexivity]. apply decl_element; [gap|tok|gap| |reflexivity]. apply content_kids.
  apply (cp_group Choice "|"); [right; auto| |constructor].
  apply items_more; [reflexivity| |reflexivity|apply items_last; [reflexivity| |reflexivity]].
  - apply (cp_group Sequence ","); [left; auto| |constructor].
    apply items_more; [reflexivity|apply cp_name; [tok|constructor]|reflexivity|]. apply items_last; [reflexivity|apply cp_name; [tok|constructor]|reflexivity].
  - apply (cp_group Sequence ","); [left; auto| |constructor].
    apply items_more; [reflexivity|apply cp_name; [tok|constructor]|reflexivity|]. apply items_last; [reflexivity|apply cp_name; [tok|constructor]|reflexivity].
Qed.
Lemma pairs_well : declared_well pairs_decls.
Proof.
  split.
  - repeat constructor. intros [].
  - intros x. split; [|split]; [intros a b []|intros a []|intros a vs v []].
  - intros (x & l & a & [E|[]] & _). discriminate.
  - exists (fun x => if bytes_eqb x (str "x") then 1 else 0). intros x c y [[= <- <-]|[]] J. cbn in J. repeat (destruct J as [<-|J]; [vm_compute; lia|]). destruct J.
Qed.
Definition pairs_el := ElDecl (str "x") TChildren (Some (Group Sequence TOne
  [Group Sequence TOne [Leaf (str "a") TOne; Leaf (str "b") TOne]; Group Sequence TOne [Leaf (str "c") TOne; Leaf (str "d") TOne]])) 0.
Lemma pairs_parse : dtd_parse 20 pairs = Ok (Some (Dtd [pairs_el] [] (Some pairs_el) false false, [])).
Proof. vm_compute. reflexivity. Qed.
Lemma pairs_wrong ents : ~ loaded pairs_decls (Dtd [pairs_el] [] (Some pairs_el) false false) ents.
Proof.
  intros [L _ _ _ _ _ _]. cbn [d_elements elements_of pairs_decls flat_map app] in L. inversion L as [|d e ds es H F]; subst. destruct H as (_ & _ & q & Eq & _ & Lq & _).
  cbn [pairs_el el_list] in Eq. injection Eq as <-.
  assert (lang p_pairs [str "a"; str "b"]) as W.
  { cbn. eexists. split; [left; reflexivity|]. exists [str "a"], [str "b"]. split; [reflexivity|]. split; [reflexivity|]. exists [str "b"], []. auto. }
  apply Lq in W. cbn in W. destruct W as (u & v & E & (a & b & Ea & -> & (b' & z & Eb & -> & ->)) & (c & d & Ec & (a' & r & Ea' & -> & _) & _)).
  subst. cbn in E. discriminate.
Qed.

(** ** texts that are not definitions *)
Lemma dtd_gt t ds : dtd_text t ds -> blank t \/ In ">"%char t.
Proof.
  intros D. destruct D as [m M|m t d u l M T D].
  - destruct M as [w B|w s t l B C M'|w s n c t l H]; [left; exact B|right|discriminate].
    apply in_or_app. right. apply in_or_app. right. apply in_or_app. right. apply in_or_app. left. right. right. left. reflexivity.
  - right. apply in_or_app. right. apply in_or_app. left. destruct T; repeat first [apply in_or_app; right | left; reflexivity].
Qed.
Definition unended : bytes := str "<!ELEMENT x EMPTY".
Lemma unended_not ds : ~ dtd_text unended ds.
Proof. intros D. destruct (dtd_gt _ _ D) as [B|I]; [discriminate|]. cbn in I. repeat (destruct I as [I|I]; [discriminate|]). destruct I. Qed.
Definition unended_el := ElDecl (str "x") TEmpty None 0.
Lemma unended_parse : dtd_parse 20 unended = Ok (Some (Dtd [unended_el] [] (Some unended_el) false false, [])).
Proof. vm_compute. reflexivity. Qed.

(** ** declarations that are not read *)
Lemma external_never t : external_text t -> forall fuel l, 2 <= fuel -> t_dtd fuel t l 0 = Ok None.
Proof.
  intros [w x w1 w2 q v w3 W X W1 W2 Q B] fuel l L. destruct fuel as [|f]; [lia|]. rewrite dtd_t_S by discriminate.
  rewrite GramProofs2.a_comments_plain by (split; reflexivity).
  match goal with |- context [skip (str "<!ENTITY" ++ ?z)] => change (skip (str "<!ENTITY" ++ z)) with (str "<!ENTITY" ++ z);
    change (after (s2b "<!ELEMENT") (str "<!ENTITY" ++ z)) with (@None bytes); change (after (s2b "<!ATTLIST") (str "<!ENTITY" ++ z)) with (@None bytes);
    change (after (s2b "<!ENTITY") (str "<!ENTITY" ++ z)) with (Some z) end. cbv iota.
  replace (t_entity (str "<!ENTITY" ++ w ++ x ++ w1 ++ str "SYSTEM" ++ w2 ++ q ++ w3 ++ str ">") l) with (@None (bytes * load)); [reflexivity|]. symmetry.
  unfold t_entity.
  match goal with |- context [skip (str "<!ENTITY" ++ ?z)] => change (after (s2b "<!ENTITY") (skip (str "<!ENTITY" ++ z))) with (Some z) end. cbv iota.
  destruct (tok_head x X) as (c & y & Ex & Wc & _ & _ & Np).
  rewrite (skip_gap w _ c (y ++ w1 ++ str "SYSTEM" ++ w2 ++ q ++ w3 ++ str ">")); [|apply W|rewrite Ex; reflexivity|exact Wc].
  replace (after (s2b "%") (x ++ w1 ++ str "SYSTEM" ++ w2 ++ q ++ w3 ++ str ">")) with (@None bytes).
  2:{ rewrite Ex. change (s2b "%") with ["%"%char]. cbn [app after]. destruct (Ascii.eqb_spec "%" c); [congruence|reflexivity]. }
  destruct (until_gap x w1 (str "SYSTEM" ++ w2 ++ q ++ w3 ++ str ">") (proj2 (tok_name x X)) W1) as (b & U). rewrite U.
  rewrite (skip_gap w1 _ "S" (str "YSTEM" ++ w2 ++ q ++ w3 ++ str ">")); [|apply W1|reflexivity|reflexivity].
  change (t_which (str "SYSTEM" ++ w2 ++ q ++ w3 ++ str ">") ent_starts None) with (w2 ++ q ++ w3 ++ str ">", Some (@None bytes)). cbv iota beta.
  destruct Q as [q v Hq _ _]. rewrite (skip_gap w2 _ q (v ++ [q] ++ w3 ++ str ">")); [|apply W2|rewrite <- !app_assoc; reflexivity|destruct Hq as [->| ->]; reflexivity].
  destruct Hq as [->| ->]; reflexivity.
Qed.
Definition external : bytes := str "<!ENTITY" ++ str " " ++ str "logo" ++ str " " ++ str "SYSTEM" ++ str " " ++ (["'"%char] ++ str "logo.xml" ++ ["'"%char]) ++ [] ++ str ">".
Lemma external_is : external_text external.
Proof. apply (External (str " ") (str "logo") (str " ") (str " ") _ (str "logo.xml")); [gap|tok|gap|gap|quo|reflexivity]. Qed.

(** ** loading that does not end *)
Definition endless_entity : bytes := str "<!ENTITY % e 'CDATA #IMPLIED b %e;'><!ATTLIST x a %e; >".
Definition endless_load : load := Load [] [] loop_ents false false.
Lemma endless_1 : t_entity endless_entity load_new = Some (str "<!ATTLIST x a %e; >", endless_load).
Proof. reflexivity. Qed.
Lemma endless_ok fuel : dtd_parse fuel endless_entity = NoFuel.
Proof.
  rewrite LoadProofs4.parse_text. replace (t_dtd fuel endless_entity load_new 0) with (@NoFuel (option (bytes * load))); [reflexivity|]. symmetry.
  destruct fuel as [|f]; [reflexivity|]. rewrite dtd_t_S by discriminate. rewrite GramProofs2.a_comments_plain by (split; reflexivity).
  change (skip endless_entity) with endless_entity. change (after (s2b "<!ELEMENT") endless_entity) with (@None bytes). change (after (s2b "<!ATTLIST") endless_entity) with (@None bytes).
  change (after (s2b "<!ENTITY") endless_entity) with (Some (skipn 8 endless_entity)). cbv iota. rewrite endless_1. cbn [bindo].
  destruct f as [|f]; [reflexivity|]. rewrite dtd_t_S by discriminate. rewrite GramProofs2.a_comments_plain by (split; reflexivity).
  change (skip (str "<!ATTLIST x a %e; >")) with (str "<!ATTLIST x a %e; >"). change (after (s2b "<!ELEMENT") (str "<!ATTLIST x a %e; >")) with (@None bytes).
  change (after (s2b "<!ATTLIST") (str "<!ATTLIST x a %e; >")) with (Some (str " x a %e; >")). cbv iota.
  replace (t_attlist f (str " x a %e; >") endless_load) with (@NoFuel (option (bytes * load))); [reflexivity|]. symmetry. unfold t_attlist.
  change (until [s2b " "] (skip (str " x a %e; >"))) with (Some (str "x", 0%Z, str " a %e; >", str "a %e; >")). cbv iota beta.
  destruct f as [|f]; [reflexivity|].
  match goal with |- context [t_atts (S f) ?e ?s ?d ?i ?r] => change (t_atts (S f) e s d i r) with
    (t_atts f loop_ents (s2b "b %e;" ++ s2b "  >") [AtDecl (s2b "a") ACdata AImplied None] false false) end.
  rewrite (t_atts_skip f loop_ents (s2b "b %e;" ++ s2b "  >") (s2b " b %e;" ++ s2b "  >")) by reflexivity. rewrite atts_never. reflexivity.
Qed.
Definition recursive : bytes := str "<!ELEMENT a (a)*>".
Definition recursive_el := ElDecl (str "a") TChildren (Some (Group Sequence TMany [Leaf (str "a") TOne])) 0.
Lemma recursive_ok fuel : dtd_parse fuel recursive = NoFuel.
Proof.
  rewrite LoadProofs4.parse_text. destruct (Nat.le_gt_cases 2 fuel) as [L|L].
  - assert (t_dtd 2 recursive load_new 0 = Ok (Some ([], Load [recursive_el] [] [] false false))) as E by reflexivity. rewrite (dtd_mono 2 fuel _ _ _ _ E L).
    unfold finish. cbn [l_elements new_root]. rewrite DtdDocProofs4.root_stuck; [reflexivity|]. destruct fuel as [|f]; [lia|]. reflexivity.
  - destruct fuel as [|[|f]]; [reflexivity|reflexivity|lia].
Qed.

(** ** declarations that are not well formed *)
Definition t_first := str "<!ELEMENT" ++ str " " ++ str "a" ++ str " " ++ str "EMPTY" ++ [] ++ str ">".
Definition first_decls : list decl := [DElement (str "a") CEmpty].
Lemma first_text : dtd_text ([] ++ t_first ++ []) first_decls.
Proof. apply dtd_more; [constructor; reflexivity|apply decl_element; [gap|tok|gap|constructor|reflexivity]|constructor; constructor; reflexivity]. Qed.
Lemma first_well : NoDup (map fst (elements_of first_decls)) /\ forall x, atts_good (atts_of first_decls x).
Proof. split; [repeat constructor; intros []|]. intros x. repeat split; intros; contradiction. Qed.
Definition leaf_a := Leaf (str "a") TOne.
(** ((a, (a, b* | c *)
Definition clash : bytes := ((str "(" ++ ([] ++ (str "a" ++ []) ++ [] ++ [","%char] ++ []) ++ str " " ++ str "(") ++
  ([] ++ (str "a" ++ []) ++ [] ++ [","%char] ++ []) ++ str " " ++ (str "b" ++ str "*") ++ str " " ++ ["|"%char] ++ str " c)").
Lemma run_a : run_text "," ([] ++ (str "a" ++ []) ++ [] ++ [","%char] ++ []) [leaf_a].
Proof. apply run_more; [reflexivity|apply cp_name; [tok|constructor]|reflexivity|constructor]. Qed.
Lemma clash_is : clash_text [leaf_a] (Leaf (str "b") TMany) clash.
Proof.
  unfold clash. eapply Clash; [|left; reflexivity|right; reflexivity|discriminate|exact run_a|discriminate|reflexivity|apply cp_name; [tok|constructor]|reflexivity].
  eapply open_inner; [constructor|left; reflexivity|exact run_a|reflexivity].
Qed.
(** (a,(b)|c) *)
Definition hidden : bytes := str "(" ++ ([] ++ (str "a" ++ []) ++ [] ++ [","%char] ++ []) ++ [] ++ (str "(" ++ ([] ++ (str "b" ++ []) ++ []) ++ str ")" ++ []) ++ [] ++ ["|"%char] ++ str "c)>".
Lemma hidden_is : clash_text [leaf_a] (Group Sequence TOne [Leaf (str "b") TOne]) hidden.
Proof.
  unfold hidden. eapply Clash; [constructor|left; reflexivity|right; reflexivity|discriminate|exact run_a|discriminate|reflexivity| |reflexivity].
  apply (cp_group Sequence ","); [left; auto| |constructor]. apply items_last; [reflexivity|apply cp_name; [tok|constructor]|reflexivity].
Qed.
