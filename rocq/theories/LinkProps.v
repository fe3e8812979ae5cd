(** Parsed documents have the links that editing, searching and visiting rely on. *)
From Verif Require Import Prelude TreeModel ParseModel XmlSpec LinkModel LinkSpec LinkExec LinkProofs3.
From Verif Require Import ItemModel ItemSpec ItemExec StrModel FindModel FindSpec.
Open Scope nat_scope.
Open Scope list_scope.

(** C56: the parser that makes nodes and links them as it goes accepts exactly what the parser
    of C49 accepts, and following the links of its result shows the tree of C49 *)
Theorem C56_tree : forall text, agree (LinkModel.doc_parse text) (ParseModel.doc_parse text) /\ agree (LinkModel.doc_parse_file text) (ParseModel.doc_parse_file text).
Proof. exact agree_both. Qed.
Print Assumptions C56_tree.
(** every element of the tree is a node, different from the others; its children, their parents and
    their neighbours are those of the tree *)
Theorem C56_around : forall text d t, ParseModel.doc_parse text = Ok (Some d) -> d_root d = Some t -> exists l r, LinkModel.doc_parse text = Ok (Some l) /\ l_root l = Some r /\
  exists ms, Forall2 (is_tree (store_of l)) ms (all_elems t) /\ NoDup ms /\ hd_error ms = Some r /\
  forall m e, In (m, e) (combine ms (all_elems t)) -> exists ks, Forall2 (is_tree (store_of l)) ks (elems_of (TreeModel.n_items e)) /\ incl ks ms /\
    get_childs (l_heap l) m = Ok ks /\ node_first_child (l_heap l) m = Ok (hd_error ks) /\ node_last_child (l_heap l) m = Ok (hd_error (rev ks)) /\
    forall l1 k l2, ks = l1 ++ k :: l2 ->
      node_get_parent (l_heap l) k = Ok (Some m) /\ node_get_next (l_heap l) k = Ok (hd_error l2) /\ node_get_previous (l_heap l) k = Ok (hd_error (rev l1)).
Proof. exact use_around. Qed.
Print Assumptions C56_around.
(** a path finds an element with these names, and every such element when no two children of an
    element have the same name *)
Theorem C56_paths : forall text d t, ParseModel.doc_parse text = Ok (Some d) -> d_root d = Some t -> exists l r, LinkModel.doc_parse text = Ok (Some l) /\ l_root l = Some r /\
  forall p rest, Forall plain p -> p <> [] -> exists o, doc_get (node_name l) (l_heap l) r (path_text p ++ NUL :: rest) = Ok o /\
    (forall m, o = Some m -> exists e, reached t p e /\ is_tree (store_of l) m e) /\
    (names_differ t -> forall e, reached t p e -> exists m, o = Some m /\ is_tree (store_of l) m e).
Proof. exact use_paths. Qed.
Print Assumptions C56_paths.
(** visits in document order and level after level *)
Theorem C56_visits : forall text d t, ParseModel.doc_parse text = Ok (Some d) -> d_root d = Some t -> exists l r, LinkModel.doc_parse text = Ok (Some l) /\ l_root l = Some r /\
  forall fuel, length (all_elems t) <= fuel ->
  (exists h' seen, iterate always fuel (l_heap l) r Deep = Ok (h', seen, true) /\ NoDup (map fst seen) /\ Forall2 (is_tree (store_of l)) (map fst seen) (all_elems t)) /\
  (exists h' seen k, iterate always fuel (l_heap l) r Wide = Ok (h', seen, true) /\ NoDup (map fst seen) /\ length seen = length (all_elems t) /\ Forall2 (is_tree (store_of l)) (map fst seen) (levels_of k [t])).
Proof. exact use_visits. Qed.
Print Assumptions C56_visits.
(** the first element with a name, the children before what is inside them *)
Theorem C56_find : forall text d t, ParseModel.doc_parse text = Ok (Some d) -> d_root d = Some t -> exists l r, LinkModel.doc_parse text = Ok (Some l) /\ l_root l = Some r /\
  forall fuel x, length (all_elems t) <= fuel -> exists o, find_called (node_name l) fuel (l_heap l) x r = Ok o /\
  match o, find (fun e => bytes_eqb (TreeModel.n_name e) x) (inside_of t) with Some m, Some e => is_tree (store_of l) m e | None, None => True | _, _ => False end.
Proof. exact use_find. Qed.
Print Assumptions C56_find.
(** the links could have been made by allowed calls of the editing functions, so that C32, C29, C30,
    C47 and C52 hold of parsed documents, and keep holding after further allowed calls; the root is
    the only node without a parent *)
Theorem C56_edits : forall text l, LinkModel.doc_parse text = Ok (Some l) -> exists ops s, run_fam fam_new ops = Some s /\ fit fam_new ops = true /\ run heap_new ops = Ok (l_heap l) /\
  (exists r, l_root l = Some r /\ alone s r = true /\ forall n, known s n = true -> n <> r -> parent s n <> None) /\
  forall more s', run_fam s more = Some s' -> fit s more = true -> exists h', run (l_heap l) more = Ok h' /\ forall p, known s' p = true -> items_shown h' s' p.
Proof. exact use_edits. Qed.
Print Assumptions C56_edits.
(** for the texts of C49 *)
Theorem C56_text : forall text encoding standalone pis x, doc_text text encoding standalone pis x ->
  exists l r t, LinkModel.doc_parse text = Ok (Some l) /\ l_root l = Some r /\ is_tree (store_of l) r t /\ XmlSpec.shows t x /\
    l_encoding l = encoding /\ l_standalone l = standalone /\ l_pis l = pis.
Proof. exact text_tree. Qed.
Print Assumptions C56_text.

(** <a x='1'>t<b/><!-- c --><d><e/><b/></d></a> *)
Definition C56_source : bytes := s2b "<a x='1'>t<b/><!-- c --><d><e/><b/></d></a>".
Example C56_case : exists l d t, LinkModel.doc_parse C56_source = Ok (Some l) /\ ParseModel.doc_parse C56_source = Ok (Some d) /\ d_root d = Some t /\ l_root l = Some 0 /\
  map TreeModel.n_name (all_elems t) = [s2b "a"; s2b "b"; s2b "d"; s2b "e"; s2b "b"] /\ names_differ t /\
  childs (l_heap l) 0 = Ok [0; 1; 2; 3] /\ childs_back (l_heap l) 0 = Ok [3; 2; 1; 0] /\
  doc_get (node_name l) (l_heap l) 0 (path_text [s2b "a"; s2b "d"; s2b "b"] ++ [NUL]) = Ok (Some 4) /\
  reached t [s2b "a"; s2b "d"; s2b "b"] (Node (s2b "b") AttrModel.no_attrs []) /\
  find_called (node_name l) 5 (l_heap l) (s2b "b") 0 = Ok (Some 1) /\
  (exists h seen, iterate always 5 (l_heap l) 0 Wide = Ok (h, seen, true) /\ map fst seen = [0; 1; 2; 3; 4]).
Proof.
  eexists _, _, _. split; [vm_compute; reflexivity|]. split; [vm_compute; reflexivity|]. split; [reflexivity|]. split; [reflexivity|]. split; [reflexivity|].
  split. { intros n I. cbn in I. repeat (destruct I as [<-|I]; [cbn; repeat constructor; cbn; intuition discriminate|]). destruct I. }
  split; [vm_compute; reflexivity|]. split; [vm_compute; reflexivity|]. split; [vm_compute; reflexivity|].
  split. { split; [reflexivity|]. eapply (reaches_down _ (Node (s2b "d") _ _)); [right; left; reflexivity|]. eapply (reaches_down _ (Node (s2b "b") _ _)); [right; left; reflexivity|]. constructor. }
  split; [vm_compute; reflexivity|]. eexists _, _. split; vm_compute; reflexivity.
Qed.
(** a name that does not fit is refused by both *)
Example C56_refused : LinkModel.doc_parse (s2b "<a><b></a></b>") = Ok None /\ ParseModel.doc_parse (s2b "<a><b></a></b>") = Ok None.
Proof. split; vm_compute; reflexivity. Qed.
