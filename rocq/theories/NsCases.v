(** Witnesses about namespaces. *)
From Coq Require Import Permutation.
From Verif Require Import Prelude StrSpec AttrModel AttrProofs TreeModel ParseModel XmlSpec SoundSpec EqModel EqSpec EqProofs4 NsModel NsExec NsSpec NsProofs NsProofs2.
Open Scope nat_scope.
Open Scope list_scope.

Definition no_node : node := Node [] no_attrs [].
Definition doc_of (s : string) : doc := match doc_parse (str s) with Ok (Some d) => d | _ => Doc None None false [] end.
Definition root_of (s : string) : node := match d_root (doc_of s) with Some n => n | None => no_node end.
Definition validated (s : string) : elem := match ns_doc_validate (Some (elem_of (root_of s))) with Ok (Some e, _) => e | _ => Elem [] no_attrs None [] end.

Ltac show := repeat first [eapply Shows; [vm_compute; reflexivity|apply Permutation_refl|] | apply shows_nil | apply shows_elem | apply shows_text].
Ltac prefix H := apply colon_some in H; vm_compute in H; first [discriminate | injection H as <- <-].
Ltac names := let I := fresh "I" in intros ? I; cbn [xattrs map fst In] in I; repeat (destruct I as [I|I]; [subst|]); try destruct I.

Lemma lookalike_accepted :
  exists d n x e, doc_parse (str "<a xmlnsfoo='u'><oo:b/></a>") = Ok (Some d) /\ d_root d = Some n /\ shows n x /\ ~ ns_valid x /\
    ns_doc_validate (Some (elem_of n)) = Ok (Some e, true) /\
    exists up, chain_at [] e [0] = Some up /\ ns_node_cmp up (str "u") (str "b") = Ok true.
Proof.
  pose (t := "<a xmlnsfoo='u'><oo:b/></a>"%string).
  exists (doc_of t), (root_of t), (XNode (str "a") [(str "xmlnsfoo", Some (str "u"))] [XElem (XNode (str "oo:b") [] [])]), (validated t).
  split; [vm_compute; reflexivity|]. split; [vm_compute; reflexivity|]. split; [vm_compute; show|]. split.
  - intro V. destruct (V [0] (XNode (str "oo:b") [] []) [[]; [(str "xmlnsfoo", Some (str "u"))]]) as [N _].
    + apply (at_below [] _ _ _ 0 (XNode (str "oo:b") [] [])); [reflexivity|constructor].
    + destruct (N (str "oo") (str "b")) as [X|X]; [apply colon_some; reflexivity|discriminate|].
      inversion X as [? ? Y|? ? Y]; subst; [destruct Y|]. inversion Y as [? ? Z|? ? Z]; subst; [destruct Z as [Z|[]]; discriminate|inversion Z].
  - split; [vm_compute; reflexivity|]. exists (match chain_at [] (validated t) [0] with Some u => u | None => [] end).
    split; [vm_compute; reflexivity|vm_compute; reflexivity].
Qed.
Lemma xml_rejected :
  exists d n x e, doc_parse (str "<a xml:lang='en'/>") = Ok (Some d) /\ d_root d = Some n /\ shows n x /\ ns_valid x /\
    ns_doc_validate (Some (elem_of n)) = Ok (Some e, false).
Proof.
  pose (t := "<a xml:lang='en'/>"%string).
  exists (doc_of t), (root_of t), (XNode (str "a") [(str "xml:lang", Some (str "en"))] []), (validated t).
  split; [vm_compute; reflexivity|]. split; [vm_compute; reflexivity|]. split; [vm_compute; show|]. split; [|vm_compute; reflexivity].
  apply (allp_unfold valid_here). split; [|constructor]. split.
  - intros p l H. cbn [xname] in H. prefix H.
  - names. right. intros p l H. prefix H. left. reflexivity.
Qed.
Lemma twice_rejected :
  exists d n x e, doc_parse (str "<a xmlns:p='u' xmlnsXp='v'/>") = Ok (Some d) /\ d_root d = Some n /\ shows n x /\ ns_valid x /\
    ns_doc_validate (Some (elem_of n)) = Ok (Some e, false).
Proof.
  pose (t := "<a xmlns:p='u' xmlnsXp='v'/>"%string).
  exists (doc_of t), (root_of t), (XNode (str "a") [(str "xmlnsXp", Some (str "v")); (str "xmlns:p", Some (str "u"))] []), (validated t).
  split; [vm_compute; reflexivity|]. split; [vm_compute; reflexivity|].
  split; [vm_compute; show|]. split; [|vm_compute; reflexivity].
  apply (allp_unfold valid_here). split; [|constructor]. split.
  - intros p l H. cbn [xname] in H. prefix H.
  - names; [right; intros p l H; prefix H|left; right; exists (str "p"); reflexivity].
Qed.
Lemma escaped_missed :
  exists d n e, doc_parse (str "<a xmlns='u?x&amp;y'/>") = Ok (Some d) /\ d_root d = Some n /\
    ns_doc_validate (Some (elem_of n)) = Ok (Some e, true) /\ ns_node_cmp [e] (str "u?x&y") (str "a") = Ok false.
Proof.
  pose (t := "<a xmlns='u?x&amp;y'/>"%string). exists (doc_of t), (root_of t), (validated t).
  repeat (split; [vm_compute; reflexivity|]). vm_compute. reflexivity.
Qed.

Definition case_string : string := "<p:a xmlns:p='u' xmlns='w' p:k='1'><b xmlns:p='v'>t<p:c/></b><p:d/></p:a>".
Definition case_text : bytes := str case_string.
Definition case_root : node := root_of case_string.
Definition case_cmp (path : list nat) (ns local : string) : res bool :=
  match chain_at [] (validated case_string) path with Some up => ns_node_cmp up (str ns) (str local) | None => UB end.
Definition case_find (ns local : string) : res (option (list nat)) := ns_find_called [] (validated case_string) (str ns) (str local).
Definition case_x : xnode :=
  XNode (str "p:a") [(str "xmlns:p", Some (str "u")); (str "xmlns", Some (str "w")); (str "p:k", Some (str "1"))]
    [XElem (XNode (str "b") [(str "xmlns:p", Some (str "v"))] [XText (str "t"); XElem (XNode (str "p:c") [] [])]);
     XElem (XNode (str "p:d") [] [])].
Fixpoint cqb (s : bytes) : bool :=
  match s with
  | [] => true
  | c :: r => (negb (Ascii.eqb c "=") || match r with q :: v => has q v || negb (Ascii.eqb q "'" || Ascii.eqb q "034") | [] => true end) && cqb r
  end.
Lemma cqb_ok s : cqb s = true -> closed_quotes s.
Proof.
  intros H u q v E Q. subst s. induction u as [|c u IH].
  - cbn in H. apply andb_prop in H. destruct H as [H _]. apply orb_prop in H. destruct H as [H|H]; [exact H|].
    destruct Q as [->| ->]; discriminate.
  - cbn [app cqb] in H. apply andb_prop in H. apply IH. apply H.
Qed.
Lemma not_xml name : match colon name with Some (p, _) => negb (bytes_eqb p (str "xml")) | None => true end = true -> ~ uses_xml name.
Proof. intros H (l & E). apply colon_some in E. rewrite E in H. rewrite bytes_eqb_refl in H. discriminate. Qed.
Lemma name_bound s name : match colon name with Some (p, _) => has_key (decl p) s | None => true end = true -> name_ok s name.
Proof. intros H p l E. apply colon_some in E. rewrite E in H. right. apply has_key_spec. exact H. Qed.
Ltac ordin := split; [apply not_xml; reflexivity|names; (split; [first [intros [[? ?] _]; discriminate | intros [_ X]; apply X; first [left; reflexivity|right; exists (str "p"); reflexivity]]|apply not_xml; reflexivity])].
Ltac valid := split; [apply name_bound; reflexivity|names; first [right; apply name_bound; reflexivity | left; first [left; reflexivity|right; exists (str "p"); reflexivity]]].
Lemma case_ok :
  exists x, shows case_root x /\ regular case_root /\ ordinary x /\ ns_valid x /\
    doc_parse case_text = Ok (Some (Doc (Some case_root) None false [])) /\
    case_cmp [0; 0] "v" "c" = Ok true /\ case_cmp [0; 0] "u" "c" = Ok false /\ case_cmp [1] "u" "d" = Ok true /\ case_cmp [0] "w" "b" = Ok true /\
    case_find "v" "c" = Ok (Some [0; 0]) /\ case_find "u" "d" = Ok (Some [1]) /\ case_find "u" "c" = Ok None.
Proof.
  exists case_x. split.
  { vm_compute. eapply Shows; [vm_compute; reflexivity| |].
    - match goal with |- Permutation ?a ?b => change (Permutation a (rev a)) end. apply Permutation_rev.
    - show. }
  split.
  { eapply (parse_regular case_text); [apply nul_free_bool; vm_compute; reflexivity|apply cqb_ok; vm_compute; reflexivity|vm_compute; reflexivity|vm_compute; reflexivity]. }
  split.
  { repeat first [apply (proj2 (allp_unfold ordinary_here _ _ _ _)); split; [ordin|] | apply Forall_nil | apply Forall_cons]. }
  split.
  { repeat first [apply (proj2 (allp_unfold valid_here _ _ _ _)); split; [valid|] | apply Forall_nil | apply Forall_cons]. }
  repeat (split; [vm_compute; reflexivity|]). vm_compute. reflexivity.
Qed.
