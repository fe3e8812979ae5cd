(** New objects, and references that are given up. *)
From Verif Require Import Prelude PyModel PySpec PyProofs PyProofs2 PyProofs3.
From Coq Require Import Lia Permutation.
Open Scope nat_scope.
Open Scope list_scope.

Lemma rd_ok w a : winv w -> In a (all_addrs (w_trees w)) -> rd a w = Ok tt.
Proof. intros (_ & _ & P & _) H. unfold rd. rewrite (proj2 (mem_nat_in _ _)); [reflexivity|]. eapply Permutation_in; [apply Permutation_sym; exact P|exact H]. Qed.
Lemma rd_doc_ok w d : In d (w_docs w) -> rd_doc d w = Ok tt.
Proof. intros H. unfold rd_doc. rewrite (proj2 (mem_nat_in _ _)) by exact H. reflexivity. Qed.
Lemma sub_of_ok w a : winv w -> In a (all_addrs (w_trees w)) -> exists t od s, where_ a w = Some (t, od) /\ In (t, od) (w_trees w) /\ In a (addrs t) /\ sub a t = Some s /\ sub_of a w = Some s.
Proof.
  intros (_ & _ & _ & _) H. destruct (where_some a (w_trees w) H) as (t & od & E & Ht & Ha). destruct (sub_some a t Ha) as (s & Es).
  exists t, od, s. unfold sub_of, where_. rewrite E. auto.
Qed.
Lemma winv_nd w : winv w -> NoDup (map fst (w_objs w)).
Proof. intros (R & _). exact (r_ids _ _ _ R). Qed.
Lemma winv_fresh w b : winv w -> ~ bd (w_objs w) (w_next w) b.
Proof. intros (R & _) X. pose proof (bd_lt _ _ _ _ _ R X). lia. Qed.
Lemma held_in w o : winv w -> mem_nat o (w_held w) = true -> exists r b, look o (w_objs w) = Some (Obj r b) /\ In (o, Obj r b) (w_objs w) /\ bd (w_objs w) o b.
Proof.
  intros W H. apply mem_nat_in in H. pose proof W as (R & _). apply (r_held _ _ _ R) in H. destruct (look_some _ _ H) as ([r b] & E). exists r, b. split; [exact E|].
  apply look_key in E. split; [exact E|]. exists r. exact E.
Qed.
Lemma look_bd w o r b : winv w -> look o (w_objs w) = Some (Obj r b) -> bd (w_objs w) o b.
Proof. intros W E. exists r. apply look_key. exact E. Qed.

(** ** new objects *)
Lemma make_ok w b : winv w -> match b with BDoc d f => In d (w_docs w) /\ f = false | BNode (Some a) f q => In a (all_addrs (w_trees w)) /\ f = false /\ q = None | BNode None f q => f = false /\ q = None end ->
  winv (make b w).
Proof.
  intros W V. pose proof W as (R & Hv & P & Lv). unfold make, winv. cbn [w_trees w_live w_docs w_objs w_held w_next]. split; [|split; [|split]].
  - apply rinv_make; [exact R|]. destruct b as [d f|[a|] f q]; cbn [pd o_body]; [reflexivity| |]; [destruct V as (_ & _ & ->)|destruct V as (_ & ->)]; reflexivity.
  - eapply hinv_more; [exact Hv|lia].
  - exact P.
  - eapply linv_ext; [apply (linv_more _ _ _ _ (w_next w) b Lv)| | | |].
    + intro b'. apply winv_fresh. exact W.
    + destruct b as [d f|[a|] f q]; tauto.
    + tauto.
    + tauto.
    + tauto.
    + intros o b'. apply bd_app.
Qed.
Lemma make_bd w b o b' : bd (w_objs (make b w)) o b' <-> bd (w_objs w) o b' \/ (o = w_next w /\ b' = b).
Proof. apply bd_app. Qed.
Lemma node_create_ok w a q : winv w -> In a (all_addrs (w_trees w)) -> (forall z, q = Some z -> exists d f, bd (w_objs w) z (BDoc d f)) ->
  winv (node_create a q w) /\ w_trees (node_create a q w) = w_trees w /\
  forall o b, bd (w_objs (node_create a q w)) o b <-> bd (w_objs w) o b \/ (o = w_next w /\ b = BNode (Some a) false q).
Proof.
  intros W Ha Hq. destruct q as [z|]; unfold node_create; cbv zeta.
  2: { split; [apply make_ok; auto|]. split; [reflexivity|]. intros. apply make_bd. }
  destruct (Hq z eq_refl) as (d & f & r & Hz). pose proof W as (R & Hv & P & Lv). pose proof (winv_nd _ W) as Nd.
  set (b := BNode (Some a) false (Some z)). unfold incref, make. cbn [w_objs].
  assert (Nd' : NoDup (map fst (w_objs w ++ [(w_next w, Obj 1 b)]))).
  { pose proof (rinv_node _ _ _ (Some a) false z r d f R Hz) as R'. pose proof (r_ids _ _ _ R') as X. rewrite put_keys in X. exact X. }
  assert (Hz' : In (z, Obj r (BDoc d f)) (w_objs w ++ [(w_next w, Obj 1 b)])) by (apply in_or_app; left; exact Hz).
  rewrite (proj2 (look_in _ _ _ Nd') Hz'). unfold w_objs_, winv. cbn [w_trees w_live w_docs w_objs w_held w_next].
  assert (EB : forall o b', bd (put z (Obj (S r) (BDoc d f)) (w_objs w ++ [(w_next w, Obj 1 b)])) o b' <-> bd (w_objs w) o b' \/ (o = w_next w /\ b' = b)).
  { intros o b'. rewrite (bd_same _ _ _ _ _ _ _ Nd' Hz'). apply bd_app. }
  split; [|split; [reflexivity|exact EB]]. split; [|split; [|split]].
  - exact (rinv_node _ _ _ (Some a) false z r d f R Hz).
  - eapply hinv_more; [exact Hv|lia].
  - exact P.
  - eapply linv_ext; [apply (linv_more _ _ _ _ (w_next w) b Lv)| | | |exact EB]; try tauto.
    + intro b'. apply winv_fresh. exact W.
    + split; [exact Ha|reflexivity].
Qed.

(** ** what is released *)
Lemma nil_filter {A} (P : A -> bool) l : (forall x, In x l -> P x = false) -> filter P l = [].
Proof. induction l as [|y l IH]; intro H; [reflexivity|]. cbn [filter]. rewrite (H y (or_introl eq_refl)). apply IH. intros z Hz. apply H. right. exact Hz. Qed.
Lemma all_filter {A} (P : A -> bool) l : (forall x, In x l -> P x = true) -> filter P l = l.
Proof. induction l as [|y l IH]; intro H; [reflexivity|]. cbn [filter]. rewrite (H y (or_introl eq_refl)). f_equal. apply IH. intros z Hz. apply H. right. exact Hz. Qed.
Lemma doc_free_ok w d : hinv (w_trees w) (w_docs w) (w_next w) -> Permutation (w_live w) (all_addrs (w_trees w)) -> In d (w_docs w) ->
  exists live' trees' docs', doc_free d w = Ok (World trees' live' docs' (w_objs w) (w_held w) (w_next w)) /\ hinv trees' docs' (w_next w) /\ Permutation live' (all_addrs trees') /\
    (forall e, In e docs' <-> In e (w_docs w) /\ e <> d) /\ (forall x, In x trees' <-> In x (w_trees w) /\ snd x <> Some d) /\
    (forall a, In a (all_addrs (w_trees w)) -> In a (all_addrs trees') \/ In a (all_addrs (filter (is_root_of d) (w_trees w)))).
Proof.
  intros Hv P Hd. unfold doc_free. rewrite (rd_doc_ok _ _ Hd). cbn [bind]. fold (all_addrs (filter (is_root_of d) (w_trees w))).
  assert (PF : Permutation (w_trees w) (filter (is_root_of d) (w_trees w) ++ filter (fun x => negb (is_root_of d x)) (w_trees w))).
  { clear. induction (w_trees w) as [|x l IH]; [constructor|]. cbn [filter]. destruct (is_root_of d x); cbn [negb app].
    - apply perm_skip. exact IH.
    - rewrite <- Permutation_middle. apply perm_skip. exact IH. }
  assert (PA : Permutation (w_live w) (all_addrs (filter (is_root_of d) (w_trees w)) ++ all_addrs (filter (fun x => negb (is_root_of d x)) (w_trees w)))).
  { rewrite P. rewrite <- all_app. apply Permutation_flat_map. exact PF. }
  assert (Nl : NoDup (w_live w)) by (eapply Permutation_NoDup; [apply Permutation_sym; exact P|exact (h_addrs _ _ _ Hv)]).
  destruct (release_ok _ _ _ Nl PA) as (live' & El & Pl). rewrite El. cbn [bind].
  exists live', (filter (fun x => negb (is_root_of d x)) (w_trees w)), (filter (fun x => negb (Nat.eqb d x)) (w_docs w)).
  assert (ET : forall x, In x (filter (fun x => negb (is_root_of d x)) (w_trees w)) <-> In x (w_trees w) /\ snd x <> Some d).
  { intro x. rewrite filter_In. unfold is_root_of. destruct (snd x) as [e|]; [destruct (Nat.eqb_spec d e) as [->|N]; cbn [negb]|cbn [negb]]; intuition congruence. }
  split; [reflexivity|]. split; [|split; [exact Pl|split; [|split; [exact ET|]]]].
  - apply hinv_undoc.
    + pose proof (hinv_perm _ _ _ _ Hv PF) as X. clear - X. induction (filter (is_root_of d) (w_trees w)) as [|y l IH]; [exact X|]. cbn [app] in X. apply hinv_tail in X. auto.
    + intro X. apply roots_out in X. destruct X as (t & X). apply ET in X. cbn [snd] in X. destruct X. congruence.
  - intro e. rewrite filter_In. destruct (Nat.eqb_spec d e) as [->|N]; cbn [negb]; intuition congruence.
  - intros a Ha. assert (X : In a (all_addrs (filter (is_root_of d) (w_trees w) ++ filter (fun x => negb (is_root_of d x)) (w_trees w)))).
    { eapply Permutation_in; [|exact Ha]. apply Permutation_flat_map. exact PF. }
    rewrite all_app in X. apply in_app_or in X. tauto.
Qed.
Lemma node_free_ok w t : hinv (w_trees w) (w_docs w) (w_next w) -> Permutation (w_live w) (all_addrs (w_trees w)) -> In (t, None) (w_trees w) ->
  exists live' trees', node_free (t_addr t) w = Ok (World trees' live' (w_docs w) (w_objs w) (w_held w) (w_next w)) /\ hinv trees' (w_docs w) (w_next w) /\ Permutation live' (all_addrs trees') /\
    (forall x, In x trees' <-> In x (w_trees w) /\ x <> (t, None)) /\ Permutation (w_trees w) ((t, None) :: trees').
Proof.
  intros Hv P Ht. unfold node_free, sub_of, where_. rewrite (where_in _ _ _ _ _ _ Hv Ht (head_in t)). rewrite sub_root.
  destruct (in_split _ _ Ht) as (l1 & l2 & E). assert (PF : Permutation (w_trees w) ((t, None) :: l1 ++ l2)) by (rewrite E; apply Permutation_sym, Permutation_middle).
  assert (Fl : filter (fun x => negb (is_loose_root (t_addr t) x)) (w_trees w) = l1 ++ l2).
  { rewrite E. apply filter_unique; [cbn; apply Nat.eqb_refl|]. intros y Hy. rewrite E in Hv. eapply loose_other; eassumption. }
  assert (PA : Permutation (w_live w) (addrs t ++ all_addrs (l1 ++ l2))) by (rewrite P; exact (Permutation_flat_map _ PF)).
  assert (Nl : NoDup (w_live w)) by (eapply Permutation_NoDup; [apply Permutation_sym; exact P|exact (h_addrs _ _ _ Hv)]).
  destruct (release_ok _ _ _ Nl PA) as (live' & El & Pl). rewrite El. cbn [bind]. exists live', (l1 ++ l2). unfold w_live_, w_trees_. cbn [w_trees w_live w_docs w_objs w_held w_next].
  rewrite Fl. split; [reflexivity|]. split; [|split; [exact Pl|split; [|exact PF]]].
  - eapply hinv_tail. eapply hinv_perm; [exact Hv|exact PF].
  - intro x. rewrite E. rewrite E in Hv. split.
    + intro H. split; [apply in_app_or in H; apply in_or_app; cbn [In]; tauto|]. intros ->. pose proof (loose_other _ _ _ _ _ _ Hv H) as X. cbn in X. rewrite Nat.eqb_refl in X. discriminate.
    + intros [H N]. apply in_app_or in H. apply in_or_app. cbn [In] in H. destruct H as [H|[H|H]]; [tauto|congruence|tauto].
Qed.

(** ** objects that go *)
Lemma linv_less A L D B (A' L' D' : nat -> Prop) B' (G : nat -> Prop) : linv A L D B -> (forall o b, B' o b <-> B o b /\ ~ G o) ->
  (forall a, L' a <-> L a /\ ~ exists o q, G o /\ B o (BNode (Some a) true q)) ->
  (forall d, D' d <-> D d /\ ~ exists o, G o /\ B o (BDoc d true)) ->
  (forall o a f q, B' o (BNode (Some a) f q) -> A' a) -> (forall o d f, B' o (BDoc d f) -> D' d) -> linv A' L' D' B'.
Proof.
  intros [H1 H2 H3 H4 H5 H6 H7 H8] EB EL ED KA KD. constructor; auto.
  - intros a H. apply EL in H. destruct H as [H N]. destruct (H3 _ H) as (o & q & X). exists o, q. apply EB. split; [exact X|]. intro Go. apply N. eauto.
  - intros o a q H. apply EB in H. destruct H as [H N]. apply EL. split; [eauto|]. intros (o' & q' & Go & X). rewrite (H6 _ _ _ _ _ H X) in N. contradiction.
  - intros o a q H. apply EB in H. eapply H5. apply H.
  - intros o o' a q q' H H'. apply EB in H. apply EB in H'. eapply H6; [apply H|apply H'].
  - intros d H. apply ED in H. destruct H as [H N]. destruct (H7 _ H) as (o & X). exists o. apply EB. split; [exact X|]. intro Go. apply N. eauto.
  - intros o o' d H H'. apply EB in H. apply EB in H'. eapply H8; [apply H|apply H'].
Qed.
Lemma del_del_bd l o q o1 b1 : bd (del o (del q l)) o1 b1 <-> bd l o1 b1 /\ ~ (o1 = o \/ o1 = q).
Proof. rewrite !bd_del. tauto. Qed.

Definition dropped (w w' : world) (o : nat) : Prop :=
  winv w' /\ (forall o' b, bd (w_objs w') o' b <-> bd (w_objs w) o' b /\ ~ In o' (collected o w)) /\
  (forall x, In x (w_trees w') -> In x (w_trees w)) /\
  (forall t d, In (t, Some d) (w_trees w) -> In (t, Some d) (w_trees w') \/ exists q, In q (collected o w) /\ bd (w_objs w) q (BDoc d true)).
(** the memory of a document, when its objects go *)
Lemma doc_part w d fin (G : nat -> Prop) l : winv w -> (exists o, G o /\ bd (w_objs w) o (BDoc d fin)) ->
  (forall o b, bd l o b <-> bd (w_objs w) o b /\ ~ G o) -> (forall o a q, G o -> ~ bd (w_objs w) o (BNode (Some a) true q)) ->
  (forall o e, G o -> bd (w_objs w) o (BDoc e true) -> e = d /\ fin = true) ->
  (fin = true -> forall y b, ~ G y -> bd (w_objs w) y b -> ~ refers_into (all_addrs (filter (is_root_of d) (w_trees w))) b /\ forall f, b <> BDoc d f) ->
  forall objs0 held0, exists w', (if fin then doc_free d (World (w_trees w) (w_live w) (w_docs w) objs0 held0 (w_next w)) else Ok (World (w_trees w) (w_live w) (w_docs w) objs0 held0 (w_next w))) = Ok w' /\
    w_objs w' = objs0 /\ w_held w' = held0 /\ w_next w' = w_next w /\ hinv (w_trees w') (w_docs w') (w_next w') /\ Permutation (w_live w') (all_addrs (w_trees w')) /\
    linv (fun a => In a (all_addrs (w_trees w'))) (loose (w_trees w')) (fun d => In d (w_docs w')) (bd l) /\
    (forall x, In x (w_trees w') -> In x (w_trees w)) /\ (forall t e, In (t, Some e) (w_trees w) -> In (t, Some e) (w_trees w') \/ (e = d /\ fin = true)).
Proof.
  intros W (o & Go & Bo) EB NoN OnlyD Pr objs0 held0. pose proof W as (R & Hv & P & Lv). destruct fin.
  - assert (Hd : In d (w_docs w)) by exact (l_doc _ _ _ _ Lv _ _ _ Bo).
    destruct (doc_free_ok (World (w_trees w) (w_live w) (w_docs w) objs0 held0 (w_next w)) d Hv P Hd) as (live' & trees' & docs' & E & Hv' & P' & ED & ET & EA). cbn [w_trees w_live w_docs w_objs w_held w_next] in *.
    eexists. split; [exact E|]. cbn [w_trees w_live w_docs w_objs w_held w_next]. do 3 (split; [reflexivity|]). split; [exact Hv'|]. split; [exact P'|]. split; [|split].
    + eapply (linv_less _ _ _ _ _ _ _ _ G Lv EB).
      * intro a. unfold loose. split.
        -- intros (t & H & Ea). apply ET in H. split; [exists t; tauto|]. intros (y & q & Gy & By). exact (NoN _ _ _ Gy By).
        -- intros ((t & H & Ea) & _). exists t. split; [|exact Ea]. apply ET. cbn [snd]. split; [exact H|discriminate].
      * intro e. rewrite ED. split.
        -- intros (H & N). split; [exact H|]. intros (y & Gy & By). destruct (OnlyD _ _ Gy By). contradiction.
        -- intros (H & N). split; [exact H|]. intros ->. apply N. eauto.
      * intros y a f q By. apply EB in By. destruct By as [By Ny]. destruct (Pr eq_refl _ _ Ny By) as [N _]. cbn [refers_into] in N.
        destruct (EA a (l_node _ _ _ _ Lv _ _ _ _ By)) as [X|X]; [exact X|contradiction].
      * intros y e f By. apply EB in By. destruct By as [By Ny]. apply ED. split; [exact (l_doc _ _ _ _ Lv _ _ _ By)|]. intros ->. destruct (Pr eq_refl _ _ Ny By) as [_ N]. exact (N f eq_refl).
    + intros x Hx. apply ET in Hx. apply Hx.
    + intros t e Ht. destruct (Nat.eq_dec e d) as [->|N]; [right; split; reflexivity|]. left. apply ET. cbn [snd]. split; [exact Ht|congruence].
  - eexists. split; [reflexivity|]. cbn [w_trees w_live w_docs w_objs w_held w_next]. do 3 (split; [reflexivity|]). split; [exact Hv|]. split; [exact P|]. split; [|split; [auto|intros t e Ht; left; exact Ht]].
    eapply (linv_less _ _ _ _ _ _ _ _ G Lv EB).
    + intro a. split; [|tauto]. intro H. split; [exact H|]. intros (y & q & Gy & By). exact (NoN _ _ _ Gy By).
    + intro e. split; [|tauto]. intro H. split; [exact H|]. intros (y & Gy & By). destruct (OnlyD _ _ Gy By). discriminate.
    + intros y a f q By. apply EB in By. exact (l_node _ _ _ _ Lv _ _ _ _ (proj1 By)).
    + intros y e f By. apply EB in By. exact (l_doc _ _ _ _ Lv _ _ _ (proj1 By)).
Qed.

Lemma drop_ok w o : winv w -> mem_nat o (w_held w) = true -> proper w (ADrop o) -> exists w', act (ADrop o) w = Ok w' /\ dropped w w' o.
Proof.
  intros W M Pr. pose proof W as (R & Hv & P & Lv). pose proof (winv_nd _ W) as Nd. destruct (held_in _ _ W M) as (r & b & Lo & Ho & Bo). assert (Hh := proj1 (mem_nat_in _ _) M).
  cbn [act proper] in *. rewrite M. unfold decref. cbn [w_objs w_held_]. rewrite Lo. unfold collected, last_ref in Pr. unfold dropped, collected, last_ref. unfold body_of in *. rewrite Lo in *. cbn [option_map o_body] in *.
  destruct (r <=? 1) eqn:Lr.
  2: { (* other references are left *)
    apply Nat.leb_gt in Lr. exists (World (w_trees w) (w_live w) (w_docs w) (put o (Obj (r - 1) b) (w_objs w)) (del_one o (w_held w)) (w_next w)). split.
    - destruct b as [d f|a f q]; [|reflexivity]. unfold doc_decref. cbn [w_objs w_held_]. rewrite Lo, (proj2 (Nat.leb_gt r 1) Lr). reflexivity.
    - unfold winv. cbn [w_trees w_live w_docs w_objs w_held w_next]. split; [|split; [|split; [auto|intros; left; assumption]]].
      + split; [apply rinv_less; assumption|]. split; [exact Hv|]. split; [exact P|]. eapply linv_ext; [exact Lv| | | |]; try tauto. intros; eapply bd_same; eassumption.
      + intros o' b'. rewrite (bd_same _ _ _ _ _ _ _ Nd Ho). cbn [In]. tauto. }
  apply Nat.leb_le in Lr. destruct b as [d fin|a fin q].
  - (* a document *)
    unfold doc_decref. cbn [w_objs w_held_]. rewrite Lo, (proj2 (Nat.leb_le r 1) Lr). unfold doc_dealloc, w_held_.
    assert (EB : forall o' b, bd (del o (w_objs w)) o' b <-> bd (w_objs w) o' b /\ ~ o' = o) by (intros; rewrite bd_del; tauto).
    destruct (doc_part w d fin (fun x => x = o) (del o (w_objs w)) W) with (objs0 := w_objs w) (held0 := del_one o (w_held w)) as (w' & E & E1 & E2 & E3 & Hv' & P' & Lv' & T1 & T2).
    + exists o. split; [reflexivity|exact Bo].
    + exact EB.
    + intros y a q -> By. pose proof (bd_fun _ _ _ _ Nd Bo By). discriminate.
    + intros y e -> By. pose proof (bd_fun _ _ _ _ Nd Bo By) as X. injection X as <- <-. split; reflexivity.
    + intros -> y b Ny By. assert (X : body_of y w = Some b) by (apply body_bd; assumption). unfold body_of in X.
      destruct (Pr o (BDoc d true) y b) as [Q1 Q2]; [left; reflexivity|rewrite Lo; reflexivity|cbn [In]; intros [->|[]]; apply Ny; reflexivity|exact X|]. split; [exact Q1|]. intros f. apply (Q2 d f eq_refl).
    + rewrite E. cbn [bind]. eexists. split; [reflexivity|]. unfold winv, w_objs_. cbn [w_trees w_live w_docs w_objs w_held w_next]. rewrite E1, E2. split; [|split; [|split; [exact T1|]]].
      * split; [|split; [exact Hv'|split; [exact P'|exact Lv']]]. rewrite E3. eapply rinv_del; eauto.
      * intros o' b'. rewrite EB. cbn [In]. intuition.
      * intros t e Ht. destruct (T2 _ _ Ht) as [X|[-> ->]]; [left; exact X|right]. exists o. split; [left; reflexivity|exact Bo].
  - (* a node *)
    assert (Cases : (exists a', a = Some a' /\ fin = true /\ q = None) \/ ((fin = false \/ a = None) /\ q = None) \/ ((fin = false \/ a = None) /\ exists z, q = Some z)).
    { destruct fin.
      - pose proof (l_noq _ _ _ _ Lv _ _ _ Bo) as ->. destruct a as [a'|]; [left; eauto|right; left; auto].
      - destruct q as [z|]; [right; right; eauto|right; left; auto]. }
    destruct Cases as [(a' & -> & -> & ->)|[(Hf & ->)|(Hf & z & ->)]].
    + (* that is released *)
      unfold node_dealloc. destruct (l_own _ _ _ _ Lv _ _ _ Bo) as (t & Ht & Ea). subst a'.
      unfold get_doc, rd, sub_of, where_, w_held_. cbn [w_trees w_live]. rewrite (proj2 (mem_nat_in _ _)) by (eapply Permutation_in; [apply Permutation_sym; exact P|]; eapply all_in; [exact Ht|apply head_in]).
      cbn [bind]. rewrite (where_in _ _ _ _ _ _ Hv Ht (head_in t)), sub_root. cbn [bind]. rewrite (proj1 (h_doc _ _ _ Hv _ _ Ht)).
      destruct (node_free_ok (World (w_trees w) (w_live w) (w_docs w) (w_objs w) (del_one o (w_held w)) (w_next w)) t Hv P Ht) as (live' & trees' & E & Hv' & P' & ET & PT). cbn [w_trees w_live w_docs w_objs w_held w_next] in *.
      rewrite E. cbn [bind]. eexists. split; [reflexivity|]. unfold winv, w_objs_. cbn [w_trees w_live w_docs w_objs w_held w_next].
      assert (EB : forall o' b, bd (del o (w_objs w)) o' b <-> bd (w_objs w) o' b /\ ~ o' = o) by (intros; rewrite bd_del; tauto).
      split; [|split; [|split]].
      * split; [eapply rinv_del; eauto|]. split; [exact Hv'|]. split; [exact P'|]. eapply (linv_less _ _ _ _ _ _ _ _ (fun x => x = o) Lv EB).
        -- intro a. unfold loose. split.
           ++ intros (s & H & Es). apply ET in H. destruct H as [H N]. split; [eauto|]. intros (y & q & -> & By). pose proof (bd_fun _ _ _ _ Nd Bo By) as X. injection X as X _.
              apply N. destruct (tree_unique _ _ _ _ _ _ _ (t_addr t) Hv H Ht) as [-> _]; [rewrite X, <- Es; apply head_in|apply head_in|reflexivity].
           ++ intros ((s & H & Es) & N). exists s. split; [|exact Es]. apply ET. split; [exact H|]. intro X. injection X as ->. apply N. exists o, None. split; [reflexivity|]. rewrite <- Es. exact Bo.
        -- intro e. split; [|tauto]. intro H. split; [exact H|]. intros (y & -> & By). pose proof (bd_fun _ _ _ _ Nd Bo By). discriminate.
        -- intros y a f q By. apply EB in By. destruct By as [By Ny]. assert (X : body_of y w = Some (BNode (Some a) f q)) by (apply body_bd; assumption). unfold body_of in X.
           destruct (Pr o (BNode (Some (t_addr t)) true None) y (BNode (Some a) f q)) as [Q _]; [left; reflexivity|rewrite Lo; reflexivity|cbn [In]; intros [->|[]]; apply Ny; reflexivity|exact X|].
           cbn [owned refers_into] in Q. unfold sub_of, where_ in Q. rewrite (where_in _ _ _ _ _ _ Hv Ht (head_in t)), sub_root in Q.
           pose proof (l_node _ _ _ _ Lv _ _ _ _ By) as A. apply (Permutation_in _ (Permutation_flat_map (fun x => addrs (fst x)) PT)) in A. cbn [flat_map fst] in A. apply in_app_or in A. destruct A as [A|A]; [contradiction|exact A].
        -- intros y e f By. apply EB in By. exact (l_doc _ _ _ _ Lv _ _ _ (proj1 By)).
      * intros o' b'. rewrite EB. cbn [In]. intuition.
      * intros x Hx. apply ET in Hx. apply Hx.
      * intros s e Hs. left. apply ET. split; [exact Hs|congruence].
    + (* that is not *)
      exists (World (w_trees w) (w_live w) (w_docs w) (del o (w_objs w)) (del_one o (w_held w)) (w_next w)). split.
      { unfold node_dealloc. destruct a as [a'|]; [destruct Hf as [->|Hf]; [reflexivity|discriminate]|reflexivity]. }
      assert (EB : forall o' b, bd (del o (w_objs w)) o' b <-> bd (w_objs w) o' b /\ ~ o' = o) by (intros; rewrite bd_del; tauto).
      unfold winv. cbn [w_trees w_live w_docs w_objs w_held w_next]. split; [|split; [|split; [auto|intros; left; assumption]]].
      * split; [eapply rinv_del; eauto|]. split; [exact Hv|]. split; [exact P|]. eapply (linv_less _ _ _ _ _ _ _ _ (fun x => x = o) Lv EB).
        -- intro a0. split; [|tauto]. intro H. split; [exact H|]. intros (y & q & -> & By). pose proof (bd_fun _ _ _ _ Nd Bo By) as X. injection X as -> -> _. destruct Hf; discriminate.
        -- intro e. split; [|tauto]. intro H. split; [exact H|]. intros (y & -> & By). pose proof (bd_fun _ _ _ _ Nd Bo By). discriminate.
        -- intros y a0 f q By. apply EB in By. exact (l_node _ _ _ _ Lv _ _ _ _ (proj1 By)).
        -- intros y e f By. apply EB in By. exact (l_doc _ _ _ _ Lv _ _ _ (proj1 By)).
      * intros o' b'. rewrite EB. cbn [In]. intuition.
    + (* that holds its document *)
      destruct (r_pd _ _ _ R _ _ z Ho eq_refl) as ([r' b'] & Hz & Dz). cbn [o_body] in Dz. destruct b' as [d fd|]; [|contradiction].
      assert (Lz : look z (w_objs w) = Some (Obj r' (BDoc d fd))) by (apply look_in; assumption). rewrite Lz in *. cbn [option_map o_body] in *.
      assert (Noz : o <> z) by (intros ->; rewrite Lo in Lz; discriminate).
      assert (Nod : node_dealloc o a fin (Some z) (w_held_ (del_one o (w_held w)) w) = (w0 <- doc_decref z (w_held_ (del_one o (w_held w)) w) ;; Ok (w_objs_ (del o (w_objs w0)) w0))).
      { unfold node_dealloc. destruct a as [a'|]; [destruct Hf as [->|Hf]; [reflexivity|discriminate]|reflexivity]. }
      rewrite Nod. unfold doc_decref. cbn [w_objs w_held_]. rewrite Lz. destruct (r' <=? 1) eqn:Lr'.
      * apply Nat.leb_le in Lr'. unfold doc_dealloc, w_held_.
        destruct (doc_part w d fd (fun x => x = o \/ x = z) (del o (del z (w_objs w))) W) with (objs0 := w_objs w) (held0 := del_one o (w_held w)) as (w' & E & E1 & E2 & E3 & Hv' & P' & Lv' & T1 & T2).
        -- exists z. split; [right; reflexivity|exists r'; exact Hz].
        -- intros. apply del_del_bd.
        -- intros y a0 q [->| ->] By; [pose proof (bd_fun _ _ _ _ Nd Bo By) as X; injection X as -> -> _; destruct Hf; discriminate|].
           assert (Bz : bd (w_objs w) z (BDoc d fd)) by (exists r'; exact Hz). pose proof (bd_fun _ _ _ _ Nd Bz By). discriminate.
        -- intros y e [->| ->] By; [pose proof (bd_fun _ _ _ _ Nd Bo By); discriminate|].
           assert (Bz : bd (w_objs w) z (BDoc d fd)) by (exists r'; exact Hz). pose proof (bd_fun _ _ _ _ Nd Bz By) as X. injection X as <- <-. split; reflexivity.
        -- intros -> y b Ny By. assert (X : body_of y w = Some b) by (apply body_bd; assumption). unfold body_of in X.
           destruct (Pr z (BDoc d true) y b) as [Q1 Q2]; [right; left; reflexivity|rewrite Lz; reflexivity|cbn [In]; intuition|exact X|]. split; [exact Q1|]. intros f. apply (Q2 d f eq_refl).
        -- rewrite E. cbn [bind]. eexists. split; [reflexivity|]. unfold winv, w_objs_. cbn [w_trees w_live w_docs w_objs w_held w_next]. rewrite E1, E2. split; [|split; [|split; [exact T1|]]].
           ++ split; [|split; [exact Hv'|split; [exact P'|exact Lv']]]. rewrite E3. eapply rinv_del_both; eauto.
           ++ intros o' b'. rewrite del_del_bd. cbn [In]. intuition.
           ++ intros t e Ht. destruct (T2 _ _ Ht) as [X|[-> ->]]; [left; exact X|right]. exists z. split; [right; left; reflexivity|exists r'; exact Hz].
      * apply Nat.leb_gt in Lr'. cbn [bind]. eexists. split; [reflexivity|]. unfold winv, w_objs_, w_held_. cbn [w_trees w_live w_docs w_objs w_held w_next].
        assert (EB : forall o' b, bd (del o (put z (Obj (r' - 1) (BDoc d fd)) (w_objs w))) o' b <-> bd (w_objs w) o' b /\ ~ o' = o) by (intros; rewrite bd_del, (bd_same _ _ _ _ _ _ _ Nd Hz); tauto).
        split; [|split; [|split; [auto|intros; left; assumption]]].
        -- split; [eapply rinv_del_less; eauto; exact Logic.I|]. split; [exact Hv|]. split; [exact P|]. eapply (linv_less _ _ _ _ _ _ _ _ (fun x => x = o) Lv EB).
           ++ intro a0. split; [|tauto]. intro H. split; [exact H|]. intros (y & q & -> & By). pose proof (bd_fun _ _ _ _ Nd Bo By) as X. injection X as -> -> _. destruct Hf; discriminate.
           ++ intro e. split; [|tauto]. intro H. split; [exact H|]. intros (y & -> & By). pose proof (bd_fun _ _ _ _ Nd Bo By). discriminate.
           ++ intros y a0 f q By. apply EB in By. exact (l_node _ _ _ _ Lv _ _ _ _ (proj1 By)).
           ++ intros y e f By. apply EB in By. exact (l_doc _ _ _ _ Lv _ _ _ (proj1 By)).
        -- intros o' b'. rewrite EB. cbn [In]. intuition.
Qed.
