(** Parsed documents: the tree found by following the links. *)
From Verif Require Import Prelude ItemModel ItemSpec ItemExec ItemProofs ItemProofs7 StrModel FindModel FindSpec FindProofs FindProofs2 FindProofs3 FindProofs4.
From Verif Require AttrModel TreeModel ParseModel LinkModel LinkSpec LinkExec LinkProofs LinkProofs2.
Import AttrModel(attrs).
Import TreeModel(item, INode, IContent, ICdata, IPi, IComment, IRef, node, Node, n_name, n_attrs, n_items, doc, Doc, d_root, d_encoding, d_standalone, d_pis).
Import LinkModel(ldoc, l_heap, l_names, l_conts, l_root, l_stack, l_encoding, l_standalone, l_pis, node_name, kind_of).
Import LinkSpec(store, Store, is_tree, Is_tree, are_items, elems_of, all_elems, inside_of, levels_of, reaches, reaches_here, reaches_down, reached, names_differ, s_heap, s_names, s_blocks).
Import LinkProofs(closed, Closed, closed_items, closed_both, okay, leaf, good).
Import LinkExec(store_of, is_document, agree).
Import LinkProofs2(finished, parse_sim, parse_file_sim).
From Coq Require Import Permutation.
Open Scope nat_scope.
Open Scope list_scope.

(** ** the orders of a tree of values *)
Lemma all_elems_eq x a l : all_elems (Node x a l) = Node x a l :: flat_map all_elems (elems_of l).
Proof. cbn [all_elems]. f_equal. induction l as [|[n|b|b|p|b|b] l IH]; cbn [elems_of flat_map]; try exact IH; [reflexivity|]. f_equal. exact IH. Qed.
Lemma inside_of_eq x a l : inside_of (Node x a l) = elems_of l ++ flat_map inside_of (elems_of l).
Proof. cbn [inside_of]. f_equal. induction l as [|[n|b|b|p|b|b] l IH]; cbn [elems_of flat_map]; try exact IH; [reflexivity|]. f_equal. exact IH. Qed.

Section Tied.
Variable l : ldoc.
Variable s : fam.
Variable ok : nat -> Prop.
Notation is := (closed (f_kids s) (l_names l) (l_conts l) ok).
Notation are := (closed_items (f_kids s) (l_names l) (l_conts l) ok).

Lemma are_elements cs its : are cs its -> Forall2 is (elements cs) (elems_of its).
Proof.
  induction 1 as [|n t cs its C _ IH|i d cs its Lf N _ IH]; [constructor|cbn; constructor; assumption|].
  destruct i; try discriminate Lf; cbn; exact IH.
Qed.
Lemma is_inv n x a its : is n (Node x a its) -> ok n /\ nth_error (l_names l) n = Some (x, a) /\ are (f_kids s n) its.
Proof. inversion 1. auto. Qed.
Lemma is_kids n e : is n e -> Forall2 is (elements (f_kids s n)) (elems_of (n_items e)).
Proof. destruct e as [x a its]. intros C. apply is_inv in C. apply are_elements, C. Qed.
Lemma is_name n e : is n e -> node_name l n = n_name e.
Proof. destruct e as [x a its]. intros C. apply is_inv in C. unfold node_name. rewrite (proj1 (proj2 C)). reflexivity. Qed.
Lemma are_names ms es : Forall2 is ms es -> map (node_name l) ms = map n_name es.
Proof. induction 1 as [|m e ms es C _ IH]; [reflexivity|]. cbn [map]. rewrite IH, (is_name _ _ C). reflexivity. Qed.

Inductive tied : tree -> node -> Prop :=
| Tied n ts e : is n e -> elements (f_kids s n) = map label ts -> Forall2 tied ts (elems_of (n_items e)) -> tied (T n ts) e.
Lemma tied_make :
  (forall n e, is n e -> exists t, label t = n /\ tied t e) /\
  (forall cs its, are cs its -> exists ts, elements cs = map label ts /\ Forall2 tied ts (elems_of its)).
Proof.
  apply closed_both.
  - intros n x a its O N A (ts & E & F). exists (T n ts). split; [reflexivity|]. constructor; [constructor; assumption|exact E|exact F].
  - exists []. split; constructor.
  - intros n e cs its _ (t & Lt & Tt) _ (ts & E & F). exists (t :: ts). split; [cbn; rewrite <- E, Lt; reflexivity|]. constructor; assumption.
  - intros i d cs its Lf _ _ (ts & E & F). exists ts. destruct i; try discriminate Lf; split; assumption.
Qed.
Lemma tied_is t e : tied t e -> is (label t) e.
Proof. inversion 1. assumption. Qed.
Lemma tied_inv n ts e : tied (T n ts) e -> is n e /\ elements (f_kids s n) = map label ts /\ Forall2 tied ts (elems_of (n_items e)).
Proof. inversion 1. auto. Qed.
Lemma tied_shows t : forall e, tied t e -> shows (f_kids s) t.
Proof.
  induction t as [n ts IH] using tree_ind2. intros e Te. apply tied_inv in Te as (C & E & F). constructor; [exact E|]. clear C E.
  induction F as [|t c ts cs Tc F IHF]; intros u I; [destruct I|]. destruct I as [<-|I]; [exact (IH t (or_introl eq_refl) c Tc)|]. apply IHF; [|exact I]. intros v J. apply IH. right. exact J.
Qed.
Lemma forall2_flat {A B C D} (R : A -> B -> Prop) (Q : C -> D -> Prop) f g : forall xs ys, Forall2 R xs ys ->
  (forall x y, In x xs -> R x y -> Forall2 Q (f x) (g y)) -> Forall2 Q (flat_map f xs) (flat_map g ys).
Proof. induction 1 as [|x y xs ys H _ IH]; intros K; [constructor|]. cbn [flat_map]. apply Forall2_app; [apply K; [left; reflexivity|exact H]|]. apply IH. intros u v I. apply K. right. exact I. Qed.
Lemma tied_pre t : forall e, tied t e -> Forall2 is (pre t) (all_elems e).
Proof.
  induction t as [n ts IH] using tree_ind2. intros [x a its] Te. apply tied_inv in Te as (C & E & F). rewrite all_elems_eq. cbn [pre n_items] in *. constructor; [exact C|].
  apply (forall2_flat tied is pre all_elems _ _ F). intros u v I. apply IH, I.
Qed.
Lemma tied_labels ts cs : Forall2 tied ts cs -> Forall2 is (map label ts) cs.
Proof. induction 1; cbn; constructor; auto using tied_is. Qed.
Lemma tied_below t : forall e, tied t e -> Forall2 is (below t) (inside_of e).
Proof.
  induction t as [n ts IH] using tree_ind2. intros [x a its] Te. apply tied_inv in Te as (C & E & F). rewrite inside_of_eq. cbn [below n_items] in *. apply Forall2_app; [apply tied_labels, F|].
  apply (forall2_flat tied is below inside_of _ _ F). intros u v I. apply IH, I.
Qed.
Lemma tied_levels k : forall ts es, Forall2 tied ts es -> Forall2 is (levels k ts) (levels_of k es).
Proof.
  induction k as [|k IH]; intros ts es F; [constructor|]. cbn [levels levels_of]. apply Forall2_app; [apply tied_labels, F|]. apply IH. unfold next_level.
  apply (forall2_flat tied tied subs _ _ _ F). intros [n us] v _ Tv. apply tied_inv in Tv as (_ & _ & F'). exact F'.
Qed.
(** the elements of a tree contain the children of its elements *)
Lemma elems_step t : forall e, tied t e -> forall m, In m (all_elems e) -> forall c, In c (elems_of (n_items m)) -> In c (all_elems e).
Proof.
  induction t as [n ts IH] using tree_ind2. intros [x a its] Te m Im c Ic. apply tied_inv in Te as (_ & _ & F). cbn [n_items] in F. rewrite all_elems_eq in Im |- *. destruct Im as [<-|Im].
  - right. cbn [n_items] in Ic. apply in_flat_map. exists c. split; [exact Ic|]. destruct c. left. reflexivity.
  - right. apply in_flat_map in Im as (u & Iu & Im). apply in_flat_map. exists u. split; [exact Iu|].
    assert (exists v, In v ts /\ tied v u) as (v & Iv & Tv) by (clear -F Iu; induction F as [|v w ts ws H F IHF]; [destruct Iu|]; destruct Iu as [<-|I]; [exists v; split; [left; reflexivity|exact H]|]; destruct (IHF I) as (z & Iz & Tz); exists z; split; [right; exact Iz|exact Tz]).
    exact (IH v Iv u Tv m Im c Ic).
Qed.

(** ** paths *)
Lemma in_left (ms : list nat) es m : Forall2 is ms es -> In m ms -> exists e, In e es /\ is m e.
Proof. induction 1 as [|x y xs ys H _ IH]; intros []; [subst; exists y; split; [left; reflexivity|exact H]|]. destruct (IH H0) as (e & I & C). exists e. split; [right; exact I|exact C]. Qed.
Lemma in_right (ms : list nat) es e : Forall2 is ms es -> In e es -> exists m, In m ms /\ is m e.
Proof. induction 1 as [|x y xs ys H _ IH]; intros []; [subst; exists x; split; [left; reflexivity|exact H]|]. destruct (IH H0) as (m & I & C). exists m. split; [right; exact I|exact C]. Qed.
Lemma spells_reaches n p m : spells (node_name l) (f_kids s) n p m -> forall e, is n e -> exists e', reaches e p e' /\ is m e'.
Proof.
  induction 1 as [n|n c x p m Ic Ex _ IH]; intros e C; [exists e; split; [constructor|exact C]|].
  destruct (in_left _ _ _ (is_kids _ _ C) Ic) as (ce & Ie & Cc). destruct (IH ce Cc) as (e' & Re & Cm). exists e'. split; [|exact Cm]. rewrite <- Ex, (is_name _ _ Cc). constructor 2; assumption.
Qed.
Lemma reaches_spells e p e' : reaches e p e' -> forall n, is n e -> exists m, spells (node_name l) (f_kids s) n p m /\ is m e'.
Proof.
  induction 1 as [e|e c p m Ic _ IH]; intros n C; [exists n; split; [constructor|exact C]|].
  destruct (in_right _ _ _ (is_kids _ _ C) Ic) as (k & Ik & Ck). destruct (IH k Ck) as (m' & Sm & Cm). exists m'. split; [|exact Cm]. econstructor; [exact Ik|apply is_name, Ck|exact Sm].
Qed.
(** ** the first one with a name *)
Lemma called_find x ms es : Forall2 is ms es ->
  match called (node_name l) x ms, find (fun e => bytes_eqb (n_name e) x) es with Some m, Some e => is m e | None, None => True | _, _ => False end.
Proof. induction 1 as [|m e ms es C _ IH]; cbn; [exact Logic.I|]. rewrite (is_name _ _ C). destruct (bytes_eqb (n_name e) x); [exact C|exact IH]. Qed.
End Tied.

(** ** the links show the tree *)
Section Shown.
Variable l : ldoc.
Variable s : fam.
Variable ok : nat -> Prop.
Hypothesis Ok_known : forall n, ok n -> known s n = true.
Hypothesis Shown : forall p, known s p = true -> items_shown (l_heap l) s p.
Lemma closed_trees :
  (forall n t, closed (f_kids s) (l_names l) (l_conts l) ok n t -> is_tree (store_of l) n t) /\
  (forall cs its, closed_items (f_kids s) (l_names l) (l_conts l) ok cs its -> forall p L,
    Forall2 (fun i (c : child) => exists it, h_items (l_heap l) i = Some it /\ c = (i_kind it, i_data it) /\ i_parent it = Some p) L cs -> are_items (store_of l) p L its).
Proof.
  apply closed_both.
  - intros n x a its O N A IH. destruct (Shown n (Ok_known n O)) as (L & E1 & E2 & El & H).
    apply Is_tree with (items := L); [exact N|exact E1|exact E2|]. apply IH. clear -El H. revert H El. generalize (f_kids s n) as cs. induction L as [|i L IHL]; intros cs H El.
    + destruct cs; [constructor|discriminate El].
    + destruct cs as [|c cs]; [discriminate El|]. constructor.
      * destruct (H 0 i eq_refl) as (it & A & B & C). injection B as B. exists it. auto.
      * apply IHL; [|injection El as El; exact El]. intros k j E. exact (H (S k) j E).
  - intros p L F. inversion F. constructor.
  - intros n t cs its _ IH1 _ IH2 p L F. inversion F as [|i c L' cs' (it & A & B & C) F' ]; subst. injection B as Bk Bd. econstructor; [exact A|exact C|auto|rewrite <- Bd; exact IH1|apply IH2, F'].
  - intros i d cs its Lf N _ IH p L F. inversion F as [|j c L' cs' (it & A & B & C) F' ]; subst. injection B as Bk Bd.
    destruct i; try discriminate Lf; cbn [kind_of] in Bk; econstructor; try exact A; try exact C; try (symmetry; exact Bk); try (cbn [store_of s_blocks]; rewrite <- Bd; exact N); apply IH, F'.
Qed.
End Shown.

(** ** what a parsed document is *)
Record parsed (l : ldoc) (d : doc) (ops : list op) (s : fam) ch (r : nat) (t : node) : Prop := {
  a_fam : run_fam fam_new ops = Some s;
  a_fit : fit fam_new ops = true;
  a_run : run heap_new ops = Ok (l_heap l);
  a_rep : Rep (l_heap l) s ch;
  a_root : l_root l = Some r;
  a_tree : d_root d = Some t;
  a_is : closed (f_kids s) (l_names l) (l_conts l) (okay l s) r t;
  a_known : forall n, known s n = true <-> n < f_new s;
  a_up : forall p c, In (KNode, c) (f_kids s p) -> p < c < f_new s;
  a_all : forall n, n < f_new s -> r = n \/ exists p, In (KNode, n) (f_kids s p);
  a_fields : l_encoding l = d_encoding d /\ l_standalone l = d_standalone d /\ l_pis l = d_pis d }.
Lemma finished_parsed l d : finished l d -> exists ops s ch r t, parsed l d ops s ch r t.
Proof.
  intros (p & (ops & s & ch & G) & Es & Nr & ->). assert (Rf := LinkProofs.g_root _ _ _ _ _ G). unfold LinkProofs.root_fits in Rf. rewrite Es in Rf.
  destruct (ParseModel.p_root p) as [t|] eqn:Er; [|contradiction]. destruct Rf as (r & Rl & C). exists ops, s, ch, r, t. destruct G. split; try assumption.
  - reflexivity.
  - intros n L. destruct (g_all n L) as [E|E]; [left; congruence|right; exact E].
  - auto.
Qed.

Section Parsed.
Variables (l : ldoc) (d : doc) (ops : list op) (s : fam) (ch : nat -> list entry) (r : nat) (t : node).
Hypothesis P : parsed l d ops s ch r t.
Notation is := (closed (f_kids s) (l_names l) (l_conts l) (okay l s)).
Lemma ok_known n : okay l s n -> known s n = true.
Proof. intros [L _]. apply (a_known _ _ _ _ _ _ _ P), L. Qed.
Lemma parsed_shown p : known s p = true -> items_shown (l_heap l) s p.
Proof. apply (rep_shown _ _ _ (a_rep _ _ _ _ _ _ _ P)). Qed.
Lemma is_is n e : is n e -> is_tree (store_of l) n e.
Proof. apply (closed_trees l s (okay l s) ok_known parsed_shown). Qed.
Lemma are_are ms es : Forall2 is ms es -> Forall2 (is_tree (store_of l)) ms es.
Proof. induction 1; constructor; auto using is_is. Qed.
Lemma is_known n e : is n e -> known s n = true.
Proof. destruct e. intros C. apply is_inv in C. apply ok_known, C. Qed.
Lemma root_tied : exists tr, label tr = r /\ tied l s (okay l s) tr t.
Proof. apply (proj1 (tied_make l s (okay l s))). apply P. Qed.

(** every node is in the tree *)
Lemma all_in n : n < f_new s -> exists e, In e (all_elems t) /\ is n e.
Proof.
  destruct root_tied as (tr & _ & Ti). induction n as [n IH] using lt_wf_ind. intros L. destruct (a_all _ _ _ _ _ _ _ P n L) as [<-|(p & I)].
  - exists t. split; [destruct t; left; reflexivity|apply P].
  - destruct (a_up _ _ _ _ _ _ _ P p n I) as (L1 & L2). destruct (IH p L1 ltac:(lia)) as (e & Ie & C).
    assert (In n (elements (f_kids s p))) as J by (apply elements_in; exact I).
    destruct (in_left l s (okay l s) _ _ _ (is_kids _ _ _ _ _ C) J) as (c & Ic & Cc). exists c. split; [|exact Cc]. exact (elems_step l s (okay l s) tr t Ti e Ie c Ic).
Qed.
Lemma unique : names_differ t -> unique_names (node_name l) s.
Proof.
  intros D p K. apply (a_known _ _ _ _ _ _ _ P) in K. destruct (all_in p K) as (e & Ie & C). rewrite (are_names _ _ _ _ _ (is_kids _ _ _ _ _ C)). exact (D e Ie).
Qed.

(** following a path *)
Lemma path_parsed p rest : Forall plain p -> p <> [] ->
  exists o, doc_get (node_name l) (l_heap l) r (path_text p ++ NUL :: rest) = Ok o /\
    (forall m, o = Some m -> exists e, reached t p e /\ is_tree (store_of l) m e) /\
    (names_differ t -> forall e, reached t p e -> exists m, o = Some m /\ is_tree (store_of l) m e).
Proof.
  intros Fp Np. assert (Cr := a_is _ _ _ _ _ _ _ P).
  destruct (doc_get_ok (node_name l) (l_heap l) s ch (a_rep _ _ _ _ _ _ _ P) r p rest Fp Np (is_known _ _ Cr)) as (o & E & So & Co).
  exists o. split; [exact E|]. split.
  - intros m Em. specialize (So m Em). unfold at_path in So. unfold reached. destruct p as [|x p]; [destruct So|]. destruct So as (Nx & Sp).
    destruct (spells_reaches _ _ _ _ _ _ Sp _ Cr) as (e & Re & Ce). exists e. split; [split; [rewrite <- (is_name _ _ _ _ _ Cr); exact Nx|exact Re]|apply is_is, Ce].
  - intros D e Re. unfold reached in Re. destruct p as [|x p]; [destruct Re|]. destruct Re as (Nx & Re).
    destruct (reaches_spells l s (okay l s) _ _ _ Re _ Cr) as (m & Sm & Cm). exists m. split; [|apply is_is, Cm]. apply (Co (unique D)). split; [rewrite (is_name _ _ _ _ _ Cr); exact Nx|exact Sm].
Qed.
(** visits *)
Lemma visit_parsed fuel : length (all_elems t) <= fuel ->
  (exists h' seen, iterate always fuel (l_heap l) r Deep = Ok (h', seen, true) /\ NoDup (map fst seen) /\ Forall2 (is_tree (store_of l)) (map fst seen) (all_elems t)) /\
  (exists h' seen k, iterate always fuel (l_heap l) r Wide = Ok (h', seen, true) /\ NoDup (map fst seen) /\ length seen = length (all_elems t) /\ Forall2 (is_tree (store_of l)) (map fst seen) (levels_of k [t])).
Proof.
  intros Lf. destruct root_tied as (tr & Lb & Ti). assert (Fp := tied_pre l s (okay l s) tr t Ti).
  assert (Lp : length (pre tr) = length (all_elems t)) by (clear -Fp; induction Fp; cbn; auto).
  destruct (visit_all ops s (a_fam _ _ _ _ _ _ _ P) (a_fit _ _ _ _ _ _ _ P)) as (h & Er & H). rewrite (a_run _ _ _ _ _ _ _ P) in Er. injection Er as <-.
  destruct (H tr fuel) as (ND & (h1 & s1 & E1 & M1) & (h2 & s2 & k & E2 & M2 & Pm)).
  - rewrite Lb. apply is_known with (e := t), P.
  - exact (tied_shows _ _ _ _ _ Ti).
  - lia.
  - rewrite Lb in *. split.
    + exists h1, s1. split; [exact E1|]. rewrite M1. split; [exact ND|apply are_are, Fp].
    + exists h2, s2, k. split; [exact E2|]. split; [eapply Permutation_NoDup; [symmetry; exact Pm|exact ND]|]. split.
      * rewrite <- Lp, <- (Permutation_length Pm), map_length. reflexivity.
      * rewrite M2. apply are_are, tied_levels. constructor; [exact Ti|constructor].
Qed.
Lemma find_parsed fuel x : length (all_elems t) <= fuel ->
  exists o, find_called (node_name l) fuel (l_heap l) x r = Ok o /\
  match o, find (fun e => bytes_eqb (n_name e) x) (inside_of t) with Some m, Some e => is_tree (store_of l) m e | None, None => True | _, _ => False end.
Proof.
  intros Lf. destruct root_tied as (tr & Lb & Ti). assert (Fp := tied_pre l s (okay l s) tr t Ti).
  assert (Lp : length (pre tr) = length (all_elems t)) by (clear -Fp; induction Fp; cbn; auto).
  destruct (finding ops s (a_fam _ _ _ _ _ _ _ P) (a_fit _ _ _ _ _ _ _ P) (node_name l)) as (h & Er & H). rewrite (a_run _ _ _ _ _ _ _ P) in Er. injection Er as <-.
  specialize (H tr x fuel). rewrite Lb in H. rewrite H; [|apply is_known with (e := t), P|exact (tied_shows _ _ _ _ _ Ti)|lia].
  eexists. split; [reflexivity|]. assert (Q := called_find l s (okay l s) x _ _ (tied_below _ _ _ _ _ Ti)).
  destruct (called (node_name l) x (below tr)), (find _ (inside_of t)); auto. apply is_is, Q.
Qed.
(** moving around *)
Lemma split_elements n (l2 : list nat) : forall (cs : list child) l1, elements cs = l1 ++ n :: l2 -> exists c1 c2 : list child, cs = c1 ++ (KNode, n) :: c2 /\ elements c1 = l1 /\ elements c2 = l2.
Proof.
  induction cs as [|[k m] cs IH]; intros l1 E; [destruct l1; discriminate E|]. change (elements ((k, m) :: cs)) with ((match k with KNode => [m] | _ => [] end) ++ elements cs) in E.
  assert (Skip : (match k with KNode => [m] | _ => [] end) = [] -> exists c1 c2 : list child, (k, m) :: cs = c1 ++ (KNode, n) :: c2 /\ elements c1 = l1 /\ elements c2 = l2).
  { intros Q. rewrite Q in E. destruct (IH l1 E) as (c1 & c2 & -> & E1 & E2). exists ((k, m) :: c1), c2. split; [reflexivity|]. split; [|exact E2]. change (elements ((k, m) :: c1)) with ((match k with KNode => [m] | _ => [] end) ++ elements c1). rewrite Q. exact E1. }
  destruct k; try (apply Skip; reflexivity). cbn [app] in E. destruct l1 as [|x l1].
  - injection E as -> E. exists [], cs. auto.
  - injection E as -> E. destruct (IH l1 E) as (c1 & c2 & -> & E1 & E2). exists ((KNode, x) :: c1), c2. split; [reflexivity|]. split; [cbn; rewrite <- E1; reflexivity|exact E2].
Qed.
Lemma around_parsed : exists ms, Forall2 (is_tree (store_of l)) ms (all_elems t) /\ NoDup ms /\ hd_error ms = Some r /\
  forall m e, In (m, e) (combine ms (all_elems t)) -> exists ks, Forall2 (is_tree (store_of l)) ks (elems_of (n_items e)) /\ incl ks ms /\
    get_childs (l_heap l) m = Ok ks /\ node_first_child (l_heap l) m = Ok (hd_error ks) /\ node_last_child (l_heap l) m = Ok (hd_error (rev ks)) /\
    forall l1 k l2, ks = l1 ++ k :: l2 ->
      node_get_parent (l_heap l) k = Ok (Some m) /\ node_get_next (l_heap l) k = Ok (hd_error l2) /\ node_get_previous (l_heap l) k = Ok (hd_error (rev l1)).
Proof.
  destruct root_tied as (tr & Lb & Ti). assert (Fp := tied_pre l s (okay l s) tr t Ti). assert (R := a_rep _ _ _ _ _ _ _ P).
  exists (pre tr). split; [apply are_are, Fp|]. split; [apply (shows_nodup _ _ _ _ R); [rewrite Lb; apply is_known with (e := t), P|exact (tied_shows _ _ _ _ _ Ti)]|]. split; [destruct tr; cbn in *; congruence|].
  intros m e I. assert (C : is m e). { clear -Fp I. induction Fp as [|x y xs ys H _ IH]; [destruct I|]. destruct I as [E|I]; [injection E as <- <-; exact H|exact (IH I)]. }
  assert (K := is_known _ _ C). exists (elements (f_kids s m)). split; [apply are_are, is_kids, C|].
  split.
  { intros k Ik. assert (Ip : In m (pre tr)) by (apply in_combine_l in I; exact I). clear -Ip Ik Ti. revert t Ti. induction tr as [n ts IH] using tree_ind2. intros e Te. apply tied_inv in Te as (_ & E & F). cbn [pre] in *. destruct Ip as [<-|Ip].
    - right. rewrite E in Ik. apply in_map_iff in Ik as (u & <- & Iu). apply in_flat_map. exists u. split; [exact Iu|]. destruct u. left. reflexivity.
    - right. apply in_flat_map in Ip as (u & Iu & Ip). apply in_flat_map. exists u. split; [exact Iu|].
      assert (exists v, tied l s (okay l s) u v) as (v & Tv) by (clear -F Iu; induction F as [|w v ts vs H F IHF]; [destruct Iu|]; destruct Iu as [<-|I]; [exists v; exact H|exact (IHF I)]).
      exact (IH u Iu Ip v Tv). }
  split; [exact (get_childs_ok _ _ _ R m K)|]. split; [rewrite (rep_first _ _ _ R m K), first_node_hd; reflexivity|]. split; [rewrite (rep_last _ _ _ R m K), first_node_hd, elements_rev; reflexivity|].
  intros l1 k l2 E. destruct (split_elements k l2 _ _ E) as (c1 & c2 & Ec & <- & <-).
  split; [|exact (next_ok _ _ _ R m k c1 c2 K Ec)]. apply (rep_around _ _ _ R k m), (kid_parent _ _ _ R m k K). rewrite Ec. apply in_or_app. right. left. reflexivity.
Qed.
(** edits *)
Lemma edits_parsed more s' : run_fam s more = Some s' -> fit s more = true -> exists h', run (l_heap l) more = Ok h' /\ forall p, known s' p = true -> items_shown h' s' p.
Proof. intros E F. destruct (run_ok more (l_heap l) s ch s' (a_rep _ _ _ _ _ _ _ P) E F) as (h' & ch' & Er & R'). exists h'. split; [exact Er|]. apply (rep_shown _ _ _ R'). Qed.
End Parsed.

(** ** the theorems *)
Lemma parsed_document l d ops s ch r t : parsed l d ops s ch r t -> is_document l d.
Proof. intros Pa. exists r, t. split; [apply Pa|]. split; [apply Pa|]. split; [exact (is_is _ _ _ _ _ _ _ Pa r t (a_is _ _ _ _ _ _ _ Pa))|]. destruct (a_fields _ _ _ _ _ _ _ Pa) as (A & B & C). auto. Qed.
Lemma finished_document l d : finished l d -> is_document l d.
Proof. intros F. destruct (finished_parsed l d F) as (ops & s & ch & r & t & Pa). exact (parsed_document _ _ _ _ _ _ _ Pa). Qed.
Lemma agree_both text : agree (LinkModel.doc_parse text) (ParseModel.doc_parse text) /\ agree (LinkModel.doc_parse_file text) (ParseModel.doc_parse_file text).
Proof.
  split; [generalize (parse_sim text); destruct (LinkModel.doc_parse text) as [[l|]| |], (ParseModel.doc_parse text) as [[d|]| |]
         |generalize (parse_file_sim text); destruct (LinkModel.doc_parse_file text) as [[l|]| |], (ParseModel.doc_parse_file text) as [[d|]| |]]; cbn; auto; apply finished_document.
Qed.
Lemma parse_finished text l : LinkModel.doc_parse text = Ok (Some l) -> exists d, ParseModel.doc_parse text = Ok (Some d) /\ finished l d.
Proof. intros E. generalize (parse_sim text). rewrite E. destruct (ParseModel.doc_parse text) as [[d|]| |]; cbn; try tauto. intros F. exists d. auto. Qed.

(** all at once, for a document that has been parsed *)
Lemma usable text d : ParseModel.doc_parse text = Ok (Some d) -> exists l r t ops s ch, LinkModel.doc_parse text = Ok (Some l) /\ parsed l d ops s ch r t.
Proof.
  intros E. generalize (parse_sim text). rewrite E. destruct (LinkModel.doc_parse text) as [[l|]| |]; cbn; try tauto. intros F.
  destruct (finished_parsed l d F) as (ops & s & ch & r & t & Pa). exists l, r, t, ops, s, ch. auto.
Qed.
Lemma use text d t : ParseModel.doc_parse text = Ok (Some d) -> d_root d = Some t -> exists l r ops s ch, LinkModel.doc_parse text = Ok (Some l) /\ parsed l d ops s ch r t.
Proof. intros E R. destruct (usable text d E) as (l & r & t' & ops & s & ch & El & Pa). assert (t' = t) as -> by (rewrite (a_tree _ _ _ _ _ _ _ Pa) in R; congruence). exists l, r, ops, s, ch. auto. Qed.
Lemma use_around text d t : ParseModel.doc_parse text = Ok (Some d) -> d_root d = Some t -> exists l r, LinkModel.doc_parse text = Ok (Some l) /\ l_root l = Some r /\
  exists ms, Forall2 (is_tree (store_of l)) ms (all_elems t) /\ NoDup ms /\ hd_error ms = Some r /\
  forall m e, In (m, e) (combine ms (all_elems t)) -> exists ks, Forall2 (is_tree (store_of l)) ks (elems_of (n_items e)) /\ incl ks ms /\
    get_childs (l_heap l) m = Ok ks /\ node_first_child (l_heap l) m = Ok (hd_error ks) /\ node_last_child (l_heap l) m = Ok (hd_error (rev ks)) /\
    forall l1 k l2, ks = l1 ++ k :: l2 ->
      node_get_parent (l_heap l) k = Ok (Some m) /\ node_get_next (l_heap l) k = Ok (hd_error l2) /\ node_get_previous (l_heap l) k = Ok (hd_error (rev l1)).
Proof. intros E R. destruct (use text d t E R) as (l & r & ops & s & ch & El & Pa). exists l, r. split; [exact El|]. split; [apply Pa|]. exact (around_parsed _ _ _ _ _ _ _ Pa). Qed.
Lemma use_paths text d t : ParseModel.doc_parse text = Ok (Some d) -> d_root d = Some t -> exists l r, LinkModel.doc_parse text = Ok (Some l) /\ l_root l = Some r /\
  forall p rest, Forall plain p -> p <> [] -> exists o, doc_get (node_name l) (l_heap l) r (path_text p ++ NUL :: rest) = Ok o /\
    (forall m, o = Some m -> exists e, reached t p e /\ is_tree (store_of l) m e) /\
    (names_differ t -> forall e, reached t p e -> exists m, o = Some m /\ is_tree (store_of l) m e).
Proof. intros E R. destruct (use text d t E R) as (l & r & ops & s & ch & El & Pa). exists l, r. split; [exact El|]. split; [apply Pa|]. intros p rest. exact (path_parsed _ _ _ _ _ _ _ Pa p rest). Qed.
Lemma use_visits text d t : ParseModel.doc_parse text = Ok (Some d) -> d_root d = Some t -> exists l r, LinkModel.doc_parse text = Ok (Some l) /\ l_root l = Some r /\
  forall fuel, length (all_elems t) <= fuel ->
  (exists h' seen, iterate always fuel (l_heap l) r Deep = Ok (h', seen, true) /\ NoDup (map fst seen) /\ Forall2 (is_tree (store_of l)) (map fst seen) (all_elems t)) /\
  (exists h' seen k, iterate always fuel (l_heap l) r Wide = Ok (h', seen, true) /\ NoDup (map fst seen) /\ length seen = length (all_elems t) /\ Forall2 (is_tree (store_of l)) (map fst seen) (levels_of k [t])).
Proof. intros E R. destruct (use text d t E R) as (l & r & ops & s & ch & El & Pa). exists l, r. split; [exact El|]. split; [apply Pa|]. exact (visit_parsed _ _ _ _ _ _ _ Pa). Qed.
Lemma use_find text d t : ParseModel.doc_parse text = Ok (Some d) -> d_root d = Some t -> exists l r, LinkModel.doc_parse text = Ok (Some l) /\ l_root l = Some r /\
  forall fuel x, length (all_elems t) <= fuel -> exists o, find_called (node_name l) fuel (l_heap l) x r = Ok o /\
  match o, find (fun e => bytes_eqb (n_name e) x) (inside_of t) with Some m, Some e => is_tree (store_of l) m e | None, None => True | _, _ => False end.
Proof. intros E R. destruct (use text d t E R) as (l & r & ops & s & ch & El & Pa). exists l, r. split; [exact El|]. split; [apply Pa|]. exact (find_parsed _ _ _ _ _ _ _ Pa). Qed.
Lemma use_edits text l : LinkModel.doc_parse text = Ok (Some l) -> exists ops s, run_fam fam_new ops = Some s /\ fit fam_new ops = true /\ run heap_new ops = Ok (l_heap l) /\
  (exists r, l_root l = Some r /\ alone s r = true /\ forall n, known s n = true -> n <> r -> parent s n <> None) /\
  forall more s', run_fam s more = Some s' -> fit s more = true -> exists h', run (l_heap l) more = Ok h' /\ forall p, known s' p = true -> items_shown h' s' p.
Proof.
  intros E. destruct (parse_finished text l E) as (d & _ & F). destruct (finished_parsed l d F) as (ops & s & ch & r & t & Pa).
  exists ops, s. split; [apply Pa|]. split; [apply Pa|]. split; [apply Pa|]. split; [|intros more s'; exact (edits_parsed _ _ _ _ _ _ _ Pa more s')].
  assert (R := a_rep _ _ _ _ _ _ _ Pa). assert (Kr := is_known _ _ _ _ _ _ _ Pa r t (a_is _ _ _ _ _ _ _ Pa)).
  exists r. split; [apply Pa|]. split.
  - unfold alone. rewrite Kr. cbn [andb]. destruct (parent s r) as [p|] eqn:Ep; [exfalso|reflexivity].
    destruct (parent_some _ _ _ Ep) as (Ip & (k & Ek)).
    assert (Kp : known s p = true) by (apply rep_known; exact Ip).
    assert (Lp : p < f_new s) by (apply (a_known _ _ _ _ _ _ _ Pa), Kp).
    assert (Up : forall n, n < f_new s -> r <= n).
    { intros n. induction n as [n IH] using lt_wf_ind. intros L. destruct (a_all _ _ _ _ _ _ _ Pa n L) as [<-|(q & I)]; [lia|]. destruct (a_up _ _ _ _ _ _ _ Pa q n I) as (L1 & L2). specialize (IH q L1 ltac:(lia)). lia. }
    assert (I : In (KNode, r) (f_kids s p)) by (destruct (place_split _ _ _ Ek) as (c1 & c2 & Ec & _); rewrite Ec; apply in_or_app; right; left; reflexivity).
    apply (a_up _ _ _ _ _ _ _ Pa) in I. specialize (Up p Lp). lia.
  - intros n K N. apply (a_known _ _ _ _ _ _ _ Pa) in K. destruct (a_all _ _ _ _ _ _ _ Pa n K) as [Q|(p & I)]; [congruence|].
    assert (p < f_new s) by (apply (a_up _ _ _ _ _ _ _ Pa) in I; lia).
    rewrite (kid_parent _ _ _ R p n (proj2 (a_known _ _ _ _ _ _ _ Pa p) H) I). discriminate.
Qed.
From Verif Require XmlSpec GramProofs3.
Lemma text_tree : forall text encoding standalone pis x, XmlSpec.doc_text text encoding standalone pis x ->
  exists l r t, LinkModel.doc_parse text = Ok (Some l) /\ l_root l = Some r /\ is_tree (store_of l) r t /\ XmlSpec.shows t x /\
    l_encoding l = encoding /\ l_standalone l = standalone /\ l_pis l = pis.
Proof.
  intros text encoding standalone pis x H. destruct (GramProofs3.doc_text_ok _ _ _ _ _ H) as (d & n & Ed & Rd & Sh & <- & <- & <-).
  destruct (use text d n Ed Rd) as (l & r & ops & s & ch & El & Pa). exists l, r, n. split; [exact El|]. split; [apply Pa|]. split; [exact (is_is _ _ _ _ _ _ _ Pa r n (a_is _ _ _ _ _ _ _ Pa))|].
  split; [exact Sh|]. apply Pa.
Qed.
