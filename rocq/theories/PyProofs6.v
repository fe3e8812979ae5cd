(** Every action of a program keeps the invariant. *)
From Verif Require Import Prelude PyModel PySpec PyProofs PyProofs2 PyProofs3 PyProofs4 PyProofs5.
From Coq Require Import Lia Permutation.
Open Scope nat_scope.
Open Scope list_scope.

Lemma get_doc_ok w a : winv w -> In a (all_addrs (w_trees w)) -> exists t od s, where_ a w = Some (t, od) /\ In (t, od) (w_trees w) /\ In a (addrs t) /\ sub a t = Some s /\ get_doc a w = Ok (t_doc s) /\
  (t_doc s = None \/ t_doc s = od).
Proof.
  intros W H. destruct (sub_of_ok w a W H) as (t & od & s & E1 & E2 & E3 & E4 & E5). exists t, od, s. unfold get_doc. rewrite (rd_ok w a W H). cbn [bind]. rewrite E5. repeat (split; [assumption|]). split; [reflexivity|].
  pose proof W as (_ & Hv & _). destruct (sub_props _ _ _ E4) as (_ & _ & I). apply (proj2 (h_doc _ _ _ Hv _ _ E2)). apply I. apply tdoc_in.
Qed.
Lemma set_fin_ok w o r a f q : NoDup (map fst (w_objs w)) -> In (o, Obj r (BNode a f q)) (w_objs w) -> set_fin o w = w_objs_ (put o (Obj r (BNode a false q)) (w_objs w)) w.
Proof. intros Nd H. unfold set_fin. rewrite (proj2 (look_in _ _ _ Nd) H). reflexivity. Qed.
Lemma set_null_ok w o r a f q : NoDup (map fst (w_objs w)) -> In (o, Obj r (BNode a f q)) (w_objs w) -> set_null o w = w_objs_ (put o (Obj r (BNode None f q)) (w_objs w)) w.
Proof. intros Nd H. unfold set_null. rewrite (proj2 (look_in _ _ _ Nd) H). reflexivity. Qed.

(** a node whose object hands it over to another tree *)
Lemma handed w trees' c r t q : winv w -> In (c, Obj r (BNode (Some (t_addr t)) true q)) (w_objs w) -> hinv trees' (w_docs w) (w_next w) -> Permutation (all_addrs (w_trees w)) (all_addrs trees') ->
  (forall x, loose trees' x <-> loose (w_trees w) x /\ x <> t_addr t) ->
  winv (w_objs_ (put c (Obj r (BNode (Some (t_addr t)) false q)) (w_objs w)) (w_trees_ trees' w)).
Proof.
  intros W Hc Hv' PA EL. pose proof W as (R & Hv & P & Lv). pose proof (winv_nd _ W) as Nd. unfold winv, w_objs_, w_trees_. cbn [w_trees w_live w_docs w_objs w_held w_next].
  split; [eapply rinv_put; [exact R|exact Hc|reflexivity|auto]|]. split; [exact Hv'|]. split; [etransitivity; eassumption|].
  assert (EA : forall a, In a (all_addrs trees') <-> In a (all_addrs (w_trees w))) by (intro a; split; apply Permutation_in; [apply Permutation_sym|]; exact PA).
  eapply linv_ext; [| exact EA| intro; apply iff_refl| intro; apply iff_refl|intros; apply iff_refl].
  eapply linv_hand; [exact Lv|exists r; exact Hc| |exact EL|].
  - intros o x. apply (bd_put _ _ _ _ _ _ _ _ Nd Hc).
  - intros x Bx. eapply bd_fun; [exact Nd|exact Bx|exists r; exact Hc].
Qed.

Lemma act_ok w c : winv w -> proper w c -> exists w', act c w = Ok w' /\ winv w'.
Proof.
  intros W Pr. pose proof W as (R & Hv & P & Lv). pose proof (winv_nd _ W) as Nd. destruct c as [| |x|o|o k|o v|o|o|o|o m|o c|o c|o dealloc|o|o].
  - (* axl.Node *)
    cbn [act]. eexists. split; [reflexivity|]. unfold make, winv. cbn [w_trees w_live w_docs w_objs w_held w_next]. set (a := w_next w).
    split; [apply rinv_make; [eapply rinv_more; [exact R|lia]|reflexivity]|]. split.
    { eapply hinv_perm; [|apply Permutation_cons_append]. apply hinv_cons.
      - eapply hinv_more; [exact Hv|subst a; lia].
      - cbn. constructor; [intros []|constructor].
      - intros b [<-|[]]. cbn [t_addr]. split; [|subst a; lia]. intro X. apply (h_alt _ _ _ Hv) in X. subst a. lia.
      - discriminate.
      - reflexivity.
      - intros e [<-|[]]. left. reflexivity. }
    split; [rewrite all_app; cbn; rewrite <- Permutation_cons_append; apply perm_skip; exact P|].
    eapply linv_ext; [apply (linv_add _ _ _ _ (fun b => In b (all_addrs (w_trees w ++ [(T a None [], None)]))) (loose (w_trees w ++ [(T a None [], None)])) (fun d => In d (w_docs w)) (S a) (BNode (Some a) true None) Lv)| | | |].
    + intros b X. pose proof (bd_lt _ _ _ _ _ R X). subst a. lia.
    + intros b Hb. rewrite all_app. apply in_or_app. left. exact Hb.
    + intro b. unfold loose. split.
      * intros (t & H & E). apply in_app_or in H. destruct H as [H|[H|[]]]; [left; eauto|]. injection H as <-. cbn in E. subst b. right. eauto.
      * intros [(t & H & E)|(q & E)]; [exists t; split; [apply in_or_app; left; exact H|exact E]|]. injection E as -> _. eexists. split; [apply in_or_app; right; left; reflexivity|reflexivity].
    + intro d. intuition discriminate.
    + intros b f q E. injection E as -> _ _. rewrite all_app. apply in_or_app. right. left. reflexivity.
    + discriminate.
    + intros b q E. injection E as _ <-. reflexivity.
    + intros b q E. injection E as <- _. intros (t & H & E). pose proof (h_alt _ _ _ Hv (t_addr t) (all_in _ _ _ _ H (head_in t))). subst a. lia.
    + discriminate.
    + intro; apply iff_refl.
    + intro; apply iff_refl.
    + intro; apply iff_refl.
    + intros; apply bd_app.
  - (* axl.Doc *)
    cbn [act]. eexists. split; [reflexivity|]. unfold make, winv. cbn [w_trees w_live w_docs w_objs w_held w_next]. set (d := w_next w).
    split; [apply rinv_make; [eapply rinv_more; [exact R|lia]|reflexivity]|]. split; [eapply hinv_more; [apply hinv_doc; exact Hv|subst d; lia]|]. split; [exact P|].
    eapply linv_ext; [apply (linv_add _ _ _ _ (fun b => In b (all_addrs (w_trees w))) (loose (w_trees w)) (fun e => In e (d :: w_docs w)) (S d) (BDoc d true) Lv)|intro; apply iff_refl|intro; apply iff_refl|intro; apply iff_refl|].
    + intros b X. pose proof (bd_lt _ _ _ _ _ R X). subst d. lia.
    + auto.
    + intro b. split; [auto|]. intros [H|(q & E)]; [exact H|discriminate].
    + intro e. cbn [In]. split; [intros [->|H]; auto|]. intros [H|E]; [auto|injection E as ->; auto].
    + discriminate.
    + intros e f E. injection E as -> _. left. reflexivity.
    + discriminate.
    + discriminate.
    + intros e E. injection E as <-. intro X. pose proof (h_dlt _ _ _ Hv _ X). subst d. lia.
    + intros; apply bd_app.
  - (* axl.parse *)
    cbn [act]. destruct (plant (Some (w_next w)) x (S (w_next w))) as [t n] eqn:Ep. destruct (plant_props _ _ _ _ _ Ep) as (T1 & T2 & T3 & T4 & T5).
    eexists. split; [reflexivity|]. unfold make, winv. cbn [w_trees w_live w_docs w_objs w_held w_next]. set (d := w_next w) in *.
    assert (Fr : forall a, In a (addrs t) -> ~ In a (all_addrs (w_trees w)) /\ a < n).
    { intros a Ha. rewrite T2 in Ha. apply in_seq in Ha. split; [|lia]. intro X. pose proof (h_alt _ _ _ Hv _ X). subst d. lia. }
    split; [apply rinv_make; [eapply rinv_more; [exact R|subst d; lia]|reflexivity]|]. split.
    { eapply hinv_perm; [|apply Permutation_cons_append]. apply hinv_cons.
      - eapply hinv_more; [apply hinv_doc; exact Hv|subst d; lia].
      - rewrite T2. apply seq_NoDup.
      - intros a Ha. destruct (Fr a Ha). split; [assumption|lia].
      - intros e E. injection E as <-. split; [left; reflexivity|]. intro X. apply (h_rdocs _ _ _ Hv) in X. pose proof (h_dlt _ _ _ Hv _ X). subst d. lia.
      - exact T5.
      - intros e He. right. apply T4. exact He. }
    split; [rewrite all_app; cbn [all_addrs flat_map fst]; rewrite app_nil_r, Permutation_app_comm; apply Permutation_app_tail; exact P|].
    eapply linv_ext; [apply (linv_add _ _ _ _ (fun b => In b (all_addrs (w_trees w ++ [(t, Some d)]))) (loose (w_trees w ++ [(t, Some d)])) (fun e => In e (d :: w_docs w)) n (BDoc d true) Lv)|intro; apply iff_refl|intro; apply iff_refl|intro; apply iff_refl|].
    + intros b X. pose proof (bd_lt _ _ _ _ _ R X). subst d. lia.
    + intros b Hb. rewrite all_app. apply in_or_app. left. exact Hb.
    + intro b. unfold loose. split.
      * intros (s & H & E). apply in_app_or in H. destruct H as [H|[H|[]]]; [left; eauto|discriminate].
      * intros [(s & H & E)|(q & E)]; [|discriminate]. exists s. split; [apply in_or_app; left; exact H|exact E].
    + intro e. cbn [In]. split; [intros [->|H]; auto|]. intros [H|E]; [auto|injection E as ->; auto].
    + discriminate.
    + intros e f E. injection E as -> _. left. reflexivity.
    + discriminate.
    + discriminate.
    + intros e E. injection E as <-. intro X. pose proof (h_dlt _ _ _ Hv _ X). subst d. lia.
    + intros; apply bd_app.
  - (* doc.root *)
    cbn [act]. destruct (mem_nat o (w_held w)) eqn:M; [|eauto]. destruct (held_in _ _ W M) as (r & b & Lo & Ho & Bo). unfold doc_obj. rewrite Lo. destruct b as [d f|a f q]; [|eauto].
    rewrite (rd_doc_ok w d (l_doc _ _ _ _ Lv _ _ _ Bo)). cbn [bind]. unfold root_addr. destruct (find (is_root_of d) (w_trees w)) as [[t od]|] eqn:E; cbn [option_map fst]; [|eauto].
    eexists. split; [reflexivity|]. apply node_create_ok; [exact W| |].
    + eapply all_in; [apply (find_some _ _ E)|apply head_in].
    + intros z Ez. injection Ez as <-. eauto.
  - (* doc.get *)
    cbn [act]. destruct (mem_nat o (w_held w)) eqn:M; [|eauto]. destruct (held_in _ _ W M) as (r & b & Lo & Ho & Bo). unfold doc_obj. rewrite Lo. destruct b as [d f|a f q]; [|eauto].
    rewrite (rd_doc_ok w d (l_doc _ _ _ _ Lv _ _ _ Bo)). cbn [bind]. destruct (find (is_root_of d) (w_trees w)) as [[t od]|] eqn:E; [|eauto]. destruct (nth_error (addrs t) k) as [a|] eqn:Ek; [|eauto].
    assert (Ha : In a (all_addrs (w_trees w))) by (eapply all_in; [apply (find_some _ _ E)|eapply nth_error_In; exact Ek]).
    rewrite (rd_ok w a W Ha). cbn [bind]. eexists. split; [reflexivity|]. apply node_create_ok; [exact W|exact Ha|]. intros z Ez. injection Ez as <-. eauto.
  - (* moving around *)
    cbn [act]. destruct (mem_nat o (w_held w)) eqn:M; [|eauto]. destruct (held_in _ _ W M) as (r & b & Lo & Ho & Bo). unfold node_obj. rewrite Lo. destruct b as [d f|[a|] f q]; [eauto| |eauto].
    pose proof (l_node _ _ _ _ Lv _ _ _ _ Bo) as Ha. unfold seek. rewrite (rd_ok w a W Ha). cbn [bind]. destruct (sub_of_ok w a W Ha) as (t & od & s & E1 & E2 & E3 & _). rewrite E1.
    destruct (walk v a t) as [b|] eqn:Ew; [|cbn [bind]; eauto]. assert (Hb : In b (all_addrs (w_trees w))) by (eapply all_in; [exact E2|eapply walk_in; exact Ew]).
    rewrite (rd_ok w b W Hb). cbn [bind]. eexists. split; [reflexivity|]. apply node_create_ok; [exact W|exact Hb|]. intros z ->.
    destruct (r_pd _ _ _ R _ _ z Ho eq_refl) as ([r' b'] & Hz & Dz). cbn [o_body] in Dz. destruct b' as [d fd|]; [|contradiction]. exists d, fd, r'. exact Hz.
  - (* node.doc *)
    cbn [act]. destruct (mem_nat o (w_held w)) eqn:M; [|eauto]. destruct (held_in _ _ W M) as (r & b & Lo & Ho & Bo). unfold node_obj. rewrite Lo. destruct b as [d f|[a|] f q]; [eauto| |eauto].
    pose proof (l_node _ _ _ _ Lv _ _ _ _ Bo) as Ha. destruct (get_doc_ok w a W Ha) as (t & od & s & E1 & E2 & E3 & E4 & E5 & E6). rewrite E5. cbn [bind]. destruct (t_doc s) as [d|]; [|eauto].
    eexists. split; [reflexivity|]. apply make_ok; [exact W|]. split; [|reflexivity]. destruct E6 as [E6|E6]; [discriminate|]. subst od. apply (h_rdocs _ _ _ Hv). eapply roots_in. exact E2.
  - (* the cursor *)
    cbn [act]. destruct (mem_nat o (w_held w)) eqn:M; [|eauto]. destruct (held_in _ _ W M) as (r & b & Lo & Ho & Bo). unfold node_obj. rewrite Lo. destruct b as [d f|[a|] f q]; [eauto| |eauto].
    pose proof (l_node _ _ _ _ Lv _ _ _ _ Bo) as Ha. rewrite (rd_ok w a W Ha). cbn [bind]. eexists. split; [reflexivity|]. apply make_ok; [exact W|]. auto.
  - (* reading *)
    cbn [act]. destruct (mem_nat o (w_held w)) eqn:M; [|eauto]. destruct (held_in _ _ W M) as (r & b & Lo & Ho & Bo). rewrite Lo. exists w. destruct b as [d f|[a|] f q]; [| |auto].
    + rewrite (rd_doc_ok w d (l_doc _ _ _ _ Lv _ _ _ Bo)). auto.
    + rewrite (rd_ok w a W (l_node _ _ _ _ Lv _ _ _ _ Bo)). auto.
  - (* doc.root = node *)
    cbn [act]. destruct (mem_nat o (w_held w) && mem_nat m (w_held w)) eqn:M; [|eauto]. apply andb_prop in M. destruct M as [Mo Mm].
    destruct (held_in _ _ W Mo) as (r & b & Lo & Ho & Bo). destruct Pr as [(a & q & Ma) Nr]. destruct b as [d f|]; unfold doc_obj; rewrite Lo; [|eauto].
    assert (Bm : bd (w_objs w) m (BNode (Some a) true q)) by (apply body_bd; assumption). destruct Bm as (rm & Hm). unfold node_obj. rewrite (proj2 (look_in _ _ _ Nd) Hm).
    pose proof (l_doc _ _ _ _ Lv _ _ _ Bo) as Hd. assert (Bm : bd (w_objs w) m (BNode (Some a) true q)) by (exists rm; exact Hm). pose proof (l_node _ _ _ _ Lv _ _ _ _ Bm) as Ha.
    rewrite (rd_doc_ok w d Hd), (rd_ok w a W Ha). cbn [bind]. destruct (l_own _ _ _ _ Lv _ _ _ Bm) as (t & Ht & Ea). subst a.
    assert (Nroot : forall x, In x (w_trees w) -> is_root_of d x = false).
    { specialize (Nr d f). rewrite (proj2 (body_bd w o _ Nd) Bo) in Nr. specialize (Nr eq_refl). unfold root_addr in Nr. destruct (find (is_root_of d) (w_trees w)) eqn:E; [discriminate|]. exact (find_none _ _ E). }
    destruct (in_split _ _ Ht) as (l1 & l2 & E).
    assert (Lx : forall y, In y (l1 ++ l2) -> is_loose_root (t_addr t) y = false) by (intros y Hy; rewrite E in Hv; eapply loose_other; eassumption).
    assert (Lt : is_loose_root (t_addr t) (t, None) = true) by (cbn; apply Nat.eqb_refl).
    assert (Fd : find (is_loose_root (t_addr t)) (w_trees w) = Some (t, None)) by (rewrite E; exact (find_unique _ _ _ _ Lt Lx)).
    assert (Fl : filter (fun x => negb (is_loose_root (t_addr t) x)) (w_trees w) = l1 ++ l2) by (rewrite E; exact (filter_unique _ _ _ _ Lt Lx)).
    unfold pick. rewrite Fd, Fl. unfold w_trees_. cbn [w_trees w_live w_docs w_objs w_held w_next].
    assert (Mold : map (fun x => if is_root_of d x then (fst x, None) else x) (l1 ++ l2) = l1 ++ l2).
    { rewrite <- (map_id (l1 ++ l2)) at 2. apply map_ext_in. intros x Hx. rewrite Nroot; [reflexivity|]. rewrite E. apply in_app_or in Hx. apply in_or_app. cbn [In]. tauto. }
    rewrite Mold.
    eexists. split; [reflexivity|].
    rewrite (set_fin_ok _ m rm (Some (t_addr t)) true q) by assumption. cbn [w_objs].
    assert (PF : Permutation (w_trees w) ((t, None) :: l1 ++ l2)) by (rewrite E; apply Permutation_sym, Permutation_middle).
    pose proof (hinv_perm _ _ _ _ Hv PF) as Hv1. destruct (hinv_head _ _ _ _ _ Hv1) as (T1 & T2 & T3 & T4 & T5).
    assert (Ed : t_addr (set_doc (Some d) t) = t_addr t) by (destruct t; reflexivity).
    apply (handed w ((l1 ++ l2) ++ [(set_doc (Some d) t, Some d)]) m rm t q W Hm).
    + eapply hinv_perm; [|apply Permutation_cons_append]. apply hinv_cons.
      * eapply hinv_tail. exact Hv1.
      * rewrite set_doc_addrs. exact T1.
      * rewrite set_doc_addrs. exact T2.
      * intros e Ee. injection Ee as <-. split; [exact Hd|]. intro X. apply roots_out in X. destruct X as (s & X).
        assert (X' : In (s, Some d) (w_trees w)) by (eapply Permutation_in; [apply Permutation_sym; exact PF|]; right; exact X). apply Nroot in X'. cbn in X'. rewrite Nat.eqb_refl in X'. discriminate.
      * destruct t. reflexivity.
      * intros e He. destruct t as [b dd kk]. cbn [set_doc tdocs] in He. destruct He as [<-|He]; [right; reflexivity|]. left. destruct (T5 e) as [Y|Y]; [right; exact He|exact Y|exact Y].
    + etransitivity; [apply Permutation_flat_map; exact PF|]. rewrite all_app. cbn [all_addrs flat_map fst]. rewrite set_doc_addrs, app_nil_r. apply Permutation_app_comm.
    + intro x. unfold loose. split.
      * intros (s & Hs & Es). apply in_app_or in Hs. destruct Hs as [Hs|[Hs|[]]]; [|discriminate]. split; [exists s; split; [eapply Permutation_in; [apply Permutation_sym; exact PF|]; right; exact Hs|exact Es]|].
        intros ->. pose proof (Lx _ Hs) as X. cbn in X. rewrite Es, Nat.eqb_refl in X. discriminate.
      * intros ((s & Hs & Es) & N). apply (Permutation_in _ PF) in Hs. destruct Hs as [Hs|Hs]; [injection Hs as <-; congruence|]. exists s. split; [apply in_or_app; left; exact Hs|exact Es].
  - (* set_child *)
    cbn [act]. destruct (mem_nat o (w_held w) && mem_nat c (w_held w)) eqn:M; [|eauto]. apply andb_prop in M. destruct M as [Mo Mc].
    destruct (held_in _ _ W Mo) as (r & b & Lo & Ho & Bo). destruct Pr as [(a' & q' & Mc') Pr]. unfold node_obj. rewrite Lo. destruct b as [d f|[a|] f q]; [eauto| |eauto].
    assert (Bc : bd (w_objs w) c (BNode (Some a') true q')) by (apply body_bd; assumption). destruct Bc as (rc & Hc). rewrite (proj2 (look_in _ _ _ Nd) Hc).
    assert (Bc : bd (w_objs w) c (BNode (Some a') true q')) by (exists rc; exact Hc). pose proof (l_node _ _ _ _ Lv _ _ _ _ Bc) as Ha'. pose proof (l_node _ _ _ _ Lv _ _ _ _ Bo) as Ha.
    destruct (Pr a f q a' true q' (proj2 (body_bd w o _ Nd) Bo) Mc') as [Pf Pn]. destruct (l_own _ _ _ _ Lv _ _ _ Bc) as (t & Ht & Ea). subst a'.
    destruct (get_doc_ok w a W Ha) as (s & os & ss & E1 & E2 & E3 & E4 & E5 & E6). rewrite E5. cbn [bind]. rewrite (rd_ok w _ W Ha'). cbn [bind].
    assert (Na : ~ In a (addrs t)). { apply Pn. unfold sub_of, where_. rewrite (where_in _ _ _ _ _ _ Hv Ht (head_in t)). apply sub_root. }
    destruct (attach_ok w (graft a t) t s os a Hv Ht E2 E3 Na) as (F1 & F2 & F3 & F4 & F5).
    + intros y Hy. apply graft_same. exact Hy.
    + apply graft_perm; [|exact E3]. pose proof (h_addrs _ _ _ Hv) as X. destruct (in_split _ _ E2) as (m1 & m2 & Em). rewrite Em in X. rewrite all_app in X. apply NoDup_app3 in X. destruct X as (_ & X & _). cbn [all_addrs flat_map fst] in X. apply NoDup_app3 in X. apply X.
    + apply graft_root.
    + intro e. apply graft_docs.
    + unfold pick. rewrite F1. unfold where_. cbn [w_trees w_trees_]. rewrite F2. eexists. split; [reflexivity|].
      assert (HO : hand_over (t_doc ss) f c (on_trees (graft a t) (w_trees_ (filter (fun x => negb (is_loose_root (t_addr t) x)) (w_trees w)) w)) = set_fin c (on_trees (graft a t) (w_trees_ (filter (fun x => negb (is_loose_root (t_addr t) x)) (w_trees w)) w))).
      { unfold hand_over. destruct (t_doc ss) as [d|] eqn:Ed; [destruct f; reflexivity|]. destruct f; [reflexivity|]. destruct Pf as [Pf|(d & Pf)]; [discriminate|]. rewrite E5 in Pf. discriminate. }
      rewrite HO. unfold on_trees, w_trees_. cbn [w_trees w_live w_docs w_objs w_held w_next]. rewrite (set_fin_ok _ c rc (Some (t_addr t)) true q') by assumption. cbn [w_objs].
      exact (handed w _ c rc t q' W Hc F3 F4 F5).
  - (* set_child_after *)
    cbn [act]. destruct (mem_nat o (w_held w) && mem_nat c (w_held w)) eqn:M; [|eauto]. apply andb_prop in M. destruct M as [Mo Mc].
    destruct (held_in _ _ W Mo) as (r & b & Lo & Ho & Bo). destruct Pr as [(a' & q' & Mc') Pr]. unfold node_obj. rewrite Lo. destruct b as [d f|[a|] f q]; [eauto| |eauto].
    assert (Bc : bd (w_objs w) c (BNode (Some a') true q')) by (apply body_bd; assumption). destruct Bc as (rc & Hc). rewrite (proj2 (look_in _ _ _ Nd) Hc).
    assert (Bc : bd (w_objs w) c (BNode (Some a') true q')) by (exists rc; exact Hc). pose proof (l_node _ _ _ _ Lv _ _ _ _ Bc) as Ha'. pose proof (l_node _ _ _ _ Lv _ _ _ _ Bo) as Ha.
    destruct (Pr a f q a' true q' (proj2 (body_bd w o _ Nd) Bo) Mc') as ((d0 & Pd) & (s' & os' & p & Pw & Pp) & Pn). destruct (l_own _ _ _ _ Lv _ _ _ Bc) as (t & Ht & Ea). subst a'.
    destruct (get_doc_ok w a W Ha) as (s & os & ss & E1 & E2 & E3 & E4 & E5 & E6). rewrite E1 in Pw. injection Pw as <- <-. rewrite E5. cbn [bind]. rewrite (rd_ok w _ W Ha'). cbn [bind].
    assert (Na : ~ In a (addrs t)). { apply Pn. unfold sub_of, where_. rewrite (where_in _ _ _ _ _ _ Hv Ht (head_in t)). apply sub_root. }
    destruct (par_props _ _ _ Pp) as (P1 & _ & _ & P4).
    destruct (attach_ok w (follow a t) t s os a Hv Ht E2 E3 Na) as (F1 & F2 & F3 & F4 & F5).
    + intros y Hy. apply follow_same. intro X. apply Hy. apply kids_incl. exact X.
    + apply follow_perm; [|exact P4]. pose proof (h_addrs _ _ _ Hv) as X. destruct (in_split _ _ E2) as (m1 & m2 & Em). rewrite Em in X. rewrite all_app in X. apply NoDup_app3 in X. destruct X as (_ & X & _). cbn [all_addrs flat_map fst] in X. apply NoDup_app3 in X. apply X.
    + apply follow_root.
    + intro e. apply follow_docs.
    + unfold pick. rewrite F1. unfold where_. cbn [w_trees w_trees_]. rewrite F2, Pp.
      assert (Rp : rd (t_addr p) (w_trees_ (filter (fun x => negb (is_loose_root (t_addr t) x)) (w_trees w)) w) = Ok tt).
      { unfold rd, w_trees_. cbn [w_live]. apply (rd_ok w _ W). eapply all_in; [exact E2|exact P1]. }
      rewrite Rp. cbn [bind]. eexists. split; [reflexivity|]. rewrite E5 in Pd. injection Pd as ->. unfold hand_over.
      assert (HO : forall w', match f with true | _ => set_fin c w' end = set_fin c w') by (intro; destruct f; reflexivity). 
      unfold on_trees, w_trees_. cbn [w_trees w_live w_docs w_objs w_held w_next]. rewrite (set_fin_ok _ c rc (Some (t_addr t)) true q') by assumption. cbn [w_objs].
      exact (handed w _ c rc t q' W Hc F3 F4 F5).
  - (* remove *)
    cbn [act]. destruct (mem_nat o (w_held w)) eqn:M; [|eauto]. destruct (held_in _ _ W M) as (r & b & Lo & Ho & Bo). unfold node_obj. rewrite Lo. destruct b as [d f|[a|] f q]; [eauto| |eauto].
    destruct Pr as [-> Pr]. pose proof (l_node _ _ _ _ Lv _ _ _ _ Bo) as Ha. rewrite (rd_ok w a W Ha). cbn [bind]. destruct (sub_of_ok w a W Ha) as (t0 & od & t & E1 & E2 & E3 & E4 & E5). rewrite E5.
    specialize (Pr a f q t (proj2 (body_bd w o _ Nd) Bo) E5). destruct (sub_props _ _ _ E4) as (Et & _ & _). destruct (without_ok _ _ _ _ _ _ _ Hv E2 E3 E4) as (Hv' & PT & EL). fold (without a (w_trees w)).
    assert (Nl : NoDup (w_live w)) by (eapply Permutation_NoDup; [apply Permutation_sym; exact P|exact (h_addrs _ _ _ Hv)]).
    pose proof (Permutation_NoDup PT (h_addrs _ _ _ Hv)) as NdT. apply NoDup_app3 in NdT. destruct NdT as (_ & _ & Dj).
    subst a. destruct (free_last (without (t_addr t) (w_trees w)) t (w_live w) (w_docs w) (w_objs w) (w_held w) (w_next w)) as (live' & Ef & Pl).
    + intro X. exact (Dj _ (head_in t) X).
    + exact Nl.
    + etransitivity; eassumption.
    + unfold w_trees_. rewrite Ef. cbn [bind]. eexists. split; [reflexivity|]. rewrite (set_null_ok _ o r (Some (t_addr t)) f q) by assumption. unfold w_objs_, winv. cbn [w_trees w_live w_docs w_objs w_held w_next].
      split; [eapply rinv_put; [exact R|exact Ho|reflexivity|auto]|]. split; [exact Hv'|]. split; [exact Pl|].
      eapply linv_null; [exact Lv|exact Bo| | |exact EL|].
      * intros x Bx. eapply bd_fun; [exact Nd|exact Bx|exact Bo].
      * intros o1 x. apply (bd_put _ _ _ _ _ _ _ _ Nd Ho).
      * intros o1 c g z No B1. pose proof (l_node _ _ _ _ Lv _ _ _ _ B1) as Hc. apply (Permutation_in _ PT) in Hc. specialize (Pr o1 _ No (proj2 (body_bd w o1 _ Nd) B1)). cbn [refers_into] in Pr.
        apply in_app_or in Hc. destruct Hc as [Hc|Hc]; [contradiction|]. split; [exact Hc|]. intros ->. apply Pr. apply head_in.
  - (* another reference *)
    cbn [act]. destruct (mem_nat o (w_held w)) eqn:M; [|eauto]. destruct (held_in _ _ W M) as (r & b & Lo & Ho & Bo). eexists. split; [reflexivity|]. unfold incref, w_held_. cbn [w_objs]. rewrite Lo.
    unfold winv, w_objs_. cbn [w_trees w_live w_docs w_objs w_held w_next]. split; [apply rinv_dup; assumption|]. split; [exact Hv|]. split; [exact P|].
    eapply linv_ext; [exact Lv| | | |]; try (intro; apply iff_refl). intros. apply (bd_same _ _ _ _ _ _ _ Nd Ho).
  - (* a reference given up *)
    destruct (mem_nat o (w_held w)) eqn:M; [|cbn [act]; rewrite M; eauto]. destruct (drop_ok w o W M Pr) as (w' & E & D & _). eauto.
Qed.
