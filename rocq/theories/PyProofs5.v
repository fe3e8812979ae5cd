(** Trees that are put together and taken apart. *)
From Verif Require Import Prelude PyModel PySpec PyProofs PyProofs2 PyProofs3 PyProofs4.
From Coq Require Import Lia Permutation.
Open Scope nat_scope.
Open Scope list_scope.

Lemma linv_add A L D B (A' L' D' : nat -> Prop) n b0 : linv A L D B -> (forall b, ~ B n b) -> (forall a, A a -> A' a) ->
  (forall a, L' a <-> L a \/ exists q, b0 = BNode (Some a) true q) -> (forall d, D' d <-> D d \/ b0 = BDoc d true) ->
  (forall a f q, b0 = BNode (Some a) f q -> A' a) -> (forall d f, b0 = BDoc d f -> D' d) ->
  (forall a q, b0 = BNode a true q -> q = None) -> (forall a q, b0 = BNode (Some a) true q -> ~ L a) -> (forall d, b0 = BDoc d true -> ~ D d) ->
  linv A' L' D' (fun o b => B o b \/ (o = n /\ b = b0)).
Proof.
  intros [H1 H2 H3 H4 H5 H6 H7 H8] Fr IA EL ED VA VD VQ NL ND. constructor.
  - intros o a f q [H|[-> <-]]; [eauto|eapply VA; reflexivity].
  - intros o d f [H|[-> <-]]; [apply ED; left; eauto|eapply VD; reflexivity].
  - intros a H. apply EL in H. destruct H as [H|(q & ->)]; [destruct (H3 _ H) as (o & q & X); eauto|]. exists n, q. right. split; reflexivity.
  - intros o a q [H|[-> <-]]; apply EL; [left; eauto|right; eauto].
  - intros o a q [H|[-> <-]]; [eauto|eapply VQ; reflexivity].
  - intros o o' a q q' [H|[-> E]] [H'|[-> E']]; [eauto| | |reflexivity].
    + exfalso. subst b0. eapply NL; [reflexivity|eauto].
    + exfalso. subst b0. eapply NL; [reflexivity|eauto].
  - intros d H. apply ED in H. destruct H as [H| ->]; [destruct (H7 _ H) as (o & X); eauto|]. exists n. right. split; reflexivity.
  - intros o o' d [H|[-> E]] [H'|[-> E']]; [eauto| | |reflexivity].
    + exfalso. subst b0. eapply ND; [reflexivity|eauto].
    + exfalso. subst b0. eapply ND; [reflexivity|eauto].
Qed.
Lemma linv_hand A L D B (L' : nat -> Prop) B' c b q : linv A L D B -> B c (BNode (Some b) true q) ->
  (forall o x, B' o x <-> (o = c /\ x = BNode (Some b) false q) \/ (o <> c /\ B o x)) -> (forall a, L' a <-> L a /\ a <> b) -> (forall x, B c x -> x = BNode (Some b) true q) -> linv A L' D B'.
Proof.
  intros [H1 H2 H3 H4 H5 H6 H7 H8] Bc EB EL Fu. constructor.
  - intros o a f z H. apply EB in H. destruct H as [[-> H]|[_ H]]; [injection H as -> -> ->|]; eauto.
  - intros o d f H. apply EB in H. destruct H as [[-> H]|[_ H]]; [discriminate|eauto].
  - intros a H. apply EL in H. destruct H as [H N]. destruct (H3 _ H) as (o & z & X). exists o, z. apply EB. right. split; [|exact X]. intros ->. apply Fu in X. injection X as -> ->. congruence.
  - intros o a z H. apply EB in H. destruct H as [[-> H]|[N H]]; [discriminate|]. apply EL. split; [eauto|]. intros ->. apply N. eauto.
  - intros o a z H. apply EB in H. destruct H as [[-> H]|[N H]]; [discriminate|eauto].
  - intros o o' a z z' H H'. apply EB in H. apply EB in H'. destruct H as [[-> H]|[N H]]; [discriminate|]. destruct H' as [[-> H']|[N' H']]; [discriminate|eauto].
  - intros d H. destruct (H7 _ H) as (o & X). exists o. apply EB. right. split; [|exact X]. intros ->. apply Fu in X. discriminate.
  - intros o o' d H H'. apply EB in H. apply EB in H'. destruct H as [[-> H]|[N H]]; [discriminate|]. destruct H' as [[-> H']|[N' H']]; [discriminate|eauto].
Qed.
Lemma linv_null A L D B (A' L' : nat -> Prop) B' o a f q : linv A L D B -> B o (BNode (Some a) f q) -> (forall x, B o x -> x = BNode (Some a) f q) ->
  (forall o1 x, B' o1 x <-> (o1 = o /\ x = BNode None f q) \/ (o1 <> o /\ B o1 x)) -> (forall c, L' c <-> L c /\ c <> a) ->
  (forall o1 c g z, o1 <> o -> B o1 (BNode (Some c) g z) -> A' c /\ c <> a) -> linv A' L' D B'.
Proof.
  intros [H1 H2 H3 H4 H5 H6 H7 H8] Bo Fu EB EL K. constructor.
  - intros o1 c g z H. apply EB in H. destruct H as [[-> H]|[N H]]; [discriminate|]. eapply K; eassumption.
  - intros o1 d g H. apply EB in H. destruct H as [[-> H]|[N H]]; [discriminate|eauto].
  - intros c H. apply EL in H. destruct H as [H N]. destruct (H3 _ H) as (o1 & z & X). exists o1, z. apply EB. right. split; [|exact X]. intros ->. apply Fu in X. congruence.
  - intros o1 c z H. apply EB in H. destruct H as [[-> H]|[N H]]; [discriminate|]. apply EL. split; [eauto|]. eapply K; eassumption.
  - intros o1 c z H. apply EB in H. destruct H as [[-> H]|[N H]]; [injection H as -> <- ->|]; eauto.
  - intros o1 o2 c z z' H H'. apply EB in H. apply EB in H'. destruct H as [[-> H]|[N H]]; [discriminate|]. destruct H' as [[-> H']|[N' H']]; [discriminate|eauto].
  - intros d H. destruct (H7 _ H) as (o1 & X). exists o1. apply EB. right. split; [|exact X]. intros ->. apply Fu in X. discriminate.
  - intros o1 o2 d H H'. apply EB in H. apply EB in H'. destruct H as [[-> H]|[N H]]; [discriminate|]. destruct H' as [[-> H']|[N' H']]; [discriminate|eauto].
Qed.

(** ** a tree that is put below another one *)
Lemma map_one (f : tree -> tree) a m1 s os m2 docs n : hinv (m1 ++ (s, os) :: m2) docs n -> In a (addrs s) -> (forall t, ~ In a (addrs t) -> f t = t) ->
  map (fun x => (f (fst x), snd x)) (m1 ++ (s, os) :: m2) = m1 ++ (f s, os) :: m2.
Proof.
  intros Hv Ha F. destruct (nodup_split (fun x => addrs (fst x)) _ _ _ (h_addrs _ _ _ Hv)) as [_ Dj].
  assert (M : forall l, incl l (m1 ++ m2) -> map (fun x => (f (fst x), snd x)) l = l).
  { induction l as [|[t od] l IH]; intro H; [reflexivity|]. cbn [map fst snd]. rewrite F, IH; [reflexivity|intros y Hy; apply H; right; exact Hy|].
    intro X. exact (Dj (t, od) a (H _ (or_introl eq_refl)) Ha X). }
  rewrite map_app. cbn [map fst snd]. rewrite !M; [reflexivity| |]; intros y Hy; apply in_or_app; auto.
Qed.
Lemma attach_ok w (f : tree -> tree) t s os a : hinv (w_trees w) (w_docs w) (w_next w) -> In (t, None) (w_trees w) -> In (s, os) (w_trees w) -> In a (addrs s) -> ~ In a (addrs t) ->
  (forall t, ~ In a (addrs t) -> f t = t) -> Permutation (addrs (f s)) (addrs t ++ addrs s) -> t_addr (f s) = t_addr s /\ t_doc (f s) = t_doc s ->
  (forall e, In e (tdocs (f s)) -> In e (tdocs s) \/ In e (flat_map tdocs (t_kids t))) ->
  let trees' := map (fun x => (f (fst x), snd x)) (filter (fun x => negb (is_loose_root (t_addr t) x)) (w_trees w)) in
  find (is_loose_root (t_addr t)) (w_trees w) = Some (t, None) /\
  find (fun x => has_addr a (fst x)) (filter (fun x => negb (is_loose_root (t_addr t) x)) (w_trees w)) = Some (s, os) /\
  hinv trees' (w_docs w) (w_next w) /\ Permutation (all_addrs (w_trees w)) (all_addrs trees') /\ (forall c, loose trees' c <-> loose (w_trees w) c /\ c <> t_addr t).
Proof.
  intros Hv Ht Hs Ha Na F Pf Rf Df. cbv zeta. destruct (in_split _ _ Ht) as (l1 & l2 & E). rewrite E in *.
  assert (Lx : forall y, In y (l1 ++ l2) -> is_loose_root (t_addr t) y = false) by (intros y Hy; eapply loose_other; eassumption).
  assert (Lt : is_loose_root (t_addr t) (t, None) = true) by (cbn; apply Nat.eqb_refl).
  rewrite (filter_unique _ _ _ _ Lt Lx). split; [apply find_unique; assumption|].
  assert (PF : Permutation (l1 ++ (t, None) :: l2) ((t, None) :: l1 ++ l2)) by (apply Permutation_sym, Permutation_middle).
  pose proof (hinv_perm _ _ _ _ Hv PF) as Hv1. pose proof (hinv_tail _ _ _ _ Hv1) as Hv2.
  assert (Hs' : In (s, os) (l1 ++ l2)). { apply in_app_or in Hs. apply in_or_app. destruct Hs as [Hs|[Hs|Hs]]; [tauto| |tauto]. injection Hs as -> _. contradiction. }
  split; [eapply where_in; eassumption|]. destruct (in_split _ _ Hs') as (m1 & m2 & E'). rewrite E' in *. rewrite (map_one f a _ _ _ _ _ _ Hv2 Ha F).
  assert (PM : Permutation (m1 ++ (s, os) :: m2) ((s, os) :: m1 ++ m2)) by (apply Permutation_sym, Permutation_middle).
  assert (PM' : Permutation (m1 ++ (f s, os) :: m2) ((f s, os) :: m1 ++ m2)) by (apply Permutation_sym, Permutation_middle).
  pose proof (hinv_perm _ _ _ _ Hv2 PM) as Hv3. destruct (hinv_head _ _ _ _ _ Hv1) as (T1 & T2 & T3 & T4 & T5). destruct (hinv_head _ _ _ _ _ Hv3) as (S1 & S2 & S3 & S4 & S5).
  split; [|split].
  - eapply hinv_perm; [|apply Permutation_sym; exact PM']. apply hinv_cons.
    + eapply hinv_tail. exact Hv3.
    + eapply Permutation_NoDup; [apply Permutation_sym; exact Pf|]. assert (X : NoDup (all_addrs ((t, None) :: (s, os) :: m1 ++ m2))).
      { eapply Permutation_NoDup; [|exact (h_addrs _ _ _ Hv1)]. apply Permutation_flat_map. apply perm_skip. exact PM. }
      cbn [all_addrs flat_map fst] in X. rewrite app_assoc in X. apply NoDup_app3 in X. apply X.
    + intros x Hx. apply (Permutation_in _ Pf) in Hx. apply in_app_or in Hx. destruct Hx as [Hx|Hx]; [|apply S2; exact Hx]. destruct (T2 _ Hx) as [N Lx']. split; [|exact Lx'].
      intro X. apply N. eapply Permutation_in; [apply Permutation_sym; apply (Permutation_flat_map (fun x => addrs (fst x)) PM)|]. cbn [flat_map]. apply in_or_app. right. exact X.
    + exact S3.
    + rewrite (proj2 Rf). exact S4.
    + intros e He. destruct (Df e He) as [X|X]; [apply S5; exact X|]. left. destruct (T5 e) as [Y|Y]; [destruct t; right; exact X|exact Y|exact Y].
  - etransitivity; [apply Permutation_flat_map; exact PF|]. etransitivity; [apply Permutation_flat_map; apply perm_skip; exact PM|].
    symmetry. etransitivity; [apply Permutation_flat_map; exact PM'|]. cbn [flat_map fst]. rewrite app_assoc. apply Permutation_app_tail. exact Pf.
  - intro c. unfold loose.
    assert (Ex : forall y o', In (y, o') (m1 ++ (s, os) :: m2) -> t_addr y <> t_addr t).
    { intros y o' Hy Ey. destruct (T2 (t_addr t) (head_in t)) as [N _]. apply N. rewrite <- Ey. eapply all_in; [exact Hy|apply head_in]. }
    split.
    + intros (y & Hy & Ey). apply in_app_or in Hy. destruct Hy as [Hy|[Hy|Hy]].
      * assert (Hy' : In (y, None) (m1 ++ (s, os) :: m2)) by (apply in_or_app; left; exact Hy). split; [|intro X; apply (Ex _ _ Hy'); congruence]. exists y. split; [|exact Ey].
        eapply Permutation_in; [apply Permutation_sym; exact PF|]. right. exact Hy'.
      * injection Hy as <- ->. assert (Hy' : In (s, None) (m1 ++ (s, None) :: m2)) by (apply in_or_app; right; left; reflexivity). destruct Rf as [Rf _]. rewrite Rf in Ey. split; [|intro X; apply (Ex _ _ Hy'); congruence].
        exists s. split; [|exact Ey]. eapply Permutation_in; [apply Permutation_sym; exact PF|]. right. exact Hy'.
      * assert (Hy' : In (y, None) (m1 ++ (s, os) :: m2)) by (apply in_or_app; right; right; exact Hy). split; [|intro X; apply (Ex _ _ Hy'); congruence]. exists y. split; [|exact Ey].
        eapply Permutation_in; [apply Permutation_sym; exact PF|]. right. exact Hy'.
    + intros ((y & Hy & Ey) & N). apply (Permutation_in _ PF) in Hy. destruct Hy as [Hy|Hy]; [injection Hy as <-; congruence|].
      apply in_app_or in Hy. destruct Hy as [Hy|[Hy|Hy]].
      * exists y. split; [apply in_or_app; left; exact Hy|exact Ey].
      * injection Hy as -> ->. exists (f y). split; [apply in_or_app; right; left; reflexivity|]. destruct Rf as [Rf _]. congruence.
      * exists y. split; [apply in_or_app; right; right; exact Hy|exact Ey].
Qed.

(** ** a tree that is taken away *)
Definition without (a : nat) (trees : list (tree * option nat)) : list (tree * option nat) :=
  map (fun x => (cut a (fst x), snd x)) (filter (fun x => negb (Nat.eqb a (t_addr (fst x)))) trees).
Lemma cut_out a t : ~ In a (addrs t) -> cut a t = t.
Proof. intro N. apply cut_same. intro X. apply N. apply kids_incl. exact X. Qed.
Lemma without_ok trees docs n t0 od a t : hinv trees docs n -> In (t0, od) trees -> In a (addrs t0) -> sub a t0 = Some t ->
  hinv (without a trees) docs n /\ Permutation (all_addrs trees) (addrs t ++ all_addrs (without a trees)) /\ (forall c, loose (without a trees) c <-> loose trees c /\ c <> a).
Proof.
  intros Hv H0 Ha Hs. destruct (in_split _ _ H0) as (l1 & l2 & E). unfold without. rewrite E in *. clear H0 E.
  destruct (nodup_split (fun x => addrs (fst x)) _ _ _ (h_addrs _ _ _ Hv)) as [_ Dj].
  assert (PF : Permutation (l1 ++ (t0, od) :: l2) ((t0, od) :: l1 ++ l2)) by (apply Permutation_sym, Permutation_middle).
  pose proof (hinv_perm _ _ _ _ Hv PF) as Hv1. pose proof (hinv_tail _ _ _ _ Hv1) as Hv2. destruct (hinv_head _ _ _ _ _ Hv1) as (T1 & T2 & T3 & T4 & T5).
  assert (Oth : forall y, In y (l1 ++ l2) -> Nat.eqb a (t_addr (fst y)) = false).
  { intros y Hy. apply Nat.eqb_neq. intro X. apply (Dj y a Hy Ha). rewrite X. apply head_in. }
  assert (M : forall l, incl l (l1 ++ l2) -> map (fun x => (cut a (fst x), snd x)) l = l).
  { induction l as [|[y oy] l IH]; intro H; [reflexivity|]. cbn [map fst snd]. rewrite cut_out, IH; [reflexivity|intros z Hz; apply H; right; exact Hz|].
    intro X. exact (Dj (y, oy) a (H _ (or_introl eq_refl)) Ha X). }
  assert (Lo : forall c y, In (y, None) (l1 ++ l2) -> t_addr y = c -> c <> a).
  { intros c y Hy Ey ->. pose proof (Oth _ Hy) as X. cbn [fst] in X. rewrite Ey in X. rewrite Nat.eqb_refl in X. discriminate. }
  destruct (Nat.eqb_spec a (t_addr t0)) as [->|N].
  - rewrite sub_root in Hs. injection Hs as <-. rewrite (filter_unique (fun x => Nat.eqb (t_addr t0) (t_addr (fst x)))) by (try apply Nat.eqb_refl; exact Oth). rewrite M by apply incl_refl.
    split; [exact Hv2|]. split; [exact (Permutation_flat_map _ PF)|]. intro c. unfold loose. split.
    + intros (y & Hy & Ey). split; [|eapply Lo; eassumption]. exists y. split; [|exact Ey]. eapply Permutation_in; [apply Permutation_sym; exact PF|]. right. exact Hy.
    + intros ((y & Hy & Ey) & N). apply (Permutation_in _ PF) in Hy. destruct Hy as [Hy|Hy]; [injection Hy as <- _; congruence|]. exists y. split; assumption.
  - assert (Fi : filter (fun x => negb (Nat.eqb a (t_addr (fst x)))) (l1 ++ (t0, od) :: l2) = l1 ++ (t0, od) :: l2).
    { apply all_filter. intros y Hy. apply in_app_or in Hy. destruct Hy as [Hy|[<-|Hy]].
      - rewrite Oth; [reflexivity|]. apply in_or_app. left. exact Hy.
      - cbn [fst]. destruct (Nat.eqb_spec a (t_addr t0)); [contradiction|reflexivity].
      - rewrite Oth; [reflexivity|]. apply in_or_app. right. exact Hy. }
    rewrite Fi, map_app. cbn [map fst snd]. rewrite !M by (intros y Hy; apply in_or_app; auto).
    assert (Hk : In a (flat_map addrs (t_kids t0))) by (destruct t0 as [b d k]; cbn in *; destruct Ha; [congruence|assumption]).
    pose proof (cut_perm _ _ T1 Hk _ Hs) as PC.
    assert (PM' : Permutation (l1 ++ (cut a t0, od) :: l2) ((cut a t0, od) :: l1 ++ l2)) by (apply Permutation_sym, Permutation_middle).
    split; [|split].
    + eapply hinv_perm; [|apply Permutation_sym; exact PM']. apply hinv_cons.
      * exact Hv2.
      * apply (Permutation_NoDup PC) in T1. apply NoDup_app3 in T1. apply T1.
      * intros x Hx. apply T2. eapply Permutation_in; [apply Permutation_sym; exact PC|]. apply in_or_app. right. exact Hx.
      * exact T3.
      * rewrite (proj2 (cut_root a t0)). exact T4.
      * intros e He. apply T5. eapply cut_docs. exact He.
    + etransitivity; [apply Permutation_flat_map; exact PF|]. symmetry. etransitivity; [apply Permutation_app_head; apply Permutation_flat_map; exact PM'|]. cbn [flat_map fst]. rewrite app_assoc.
      apply Permutation_app_tail. symmetry. exact PC.
    + intro c. unfold loose. split.
      * intros (y & Hy & Ey). apply (Permutation_in _ PM') in Hy. destruct Hy as [Hy|Hy].
        -- injection Hy as <- ->. rewrite (proj1 (cut_root a t0)) in Ey. split; [|congruence]. exists t0. split; [|exact Ey]. apply in_or_app. right. left. reflexivity.
        -- split; [|eapply Lo; eassumption]. exists y. split; [|exact Ey]. eapply Permutation_in; [apply Permutation_sym; exact PF|]. right. exact Hy.
      * intros ((y & Hy & Ey) & Nc). apply (Permutation_in _ PF) in Hy. destruct Hy as [Hy|Hy].
        -- injection Hy as <- ->. exists (cut a t0). split; [apply in_or_app; right; left; reflexivity|]. rewrite (proj1 (cut_root a t0)). exact Ey.
        -- exists y. split; [|exact Ey]. eapply Permutation_in; [apply Permutation_sym; exact PM'|]. right. exact Hy.
Qed.
Lemma free_last T1 t live docs objs held n : ~ In (t_addr t) (all_addrs T1) -> NoDup live -> Permutation live (addrs t ++ all_addrs T1) ->
  exists live', node_free (t_addr t) (World (T1 ++ [(t, None)]) live docs objs held n) = Ok (World T1 live' docs objs held n) /\ Permutation live' (all_addrs T1).
Proof.
  intros N Nd P. unfold node_free, sub_of, where_. cbn [w_trees w_live].
  assert (E : find (fun x => has_addr (t_addr t) (fst x)) (T1 ++ [(t, None)]) = Some (t, None)).
  { clear P Nd. induction T1 as [|[y oy] l IH]; cbn [app find fst].
    - rewrite (proj2 (has_addr_in _ _) (head_in t)). reflexivity.
    - destruct (has_addr (t_addr t) y) eqn:X; [exfalso; apply N; apply has_addr_in in X; cbn [all_addrs flat_map fst]; apply in_or_app; left; exact X|].
      apply IH. intro X'. apply N. cbn [all_addrs flat_map]. apply in_or_app. right. exact X'. }
  rewrite E, sub_root. destruct (release_ok _ _ _ Nd P) as (live' & El & Pl). rewrite El. cbn [bind]. exists live'. split; [|exact Pl].
  unfold w_live_, w_trees_. cbn [w_trees w_live w_docs w_objs w_held w_next]. f_equal. f_equal. rewrite filter_app. cbn [filter is_loose_root snd fst]. rewrite Nat.eqb_refl. cbn [negb].
  rewrite app_nil_r. apply all_filter. intros [y oy] Hy. unfold is_loose_root. cbn [snd fst]. destruct oy as [d|]; [reflexivity|]. destruct (Nat.eqb_spec (t_addr t) (t_addr y)) as [X|_]; [|reflexivity].
  exfalso. apply N. rewrite X. eapply all_in; [exact Hy|apply head_in].
Qed.
