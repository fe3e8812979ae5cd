(** Each call keeps the representation. *)
From Verif Require Import Prelude ItemModel ItemSpec ItemExec ItemProofs.
From Coq Require Import Lia.
Open Scope list_scope.

Lemma is_eq o x : is o x = true <-> o = Some x.
Proof. destruct o; cbn; [|split; discriminate]. rewrite Nat.eqb_eq. split; congruence. Qed.
Lemma is_ne o x : o <> Some x -> is o x = false.
Proof. intros H. destruct (is o x) eqn:E; [apply is_eq in E; contradiction|reflexivity]. Qed.

Lemma rep_splice h s ch h' p l1 mid mid' l2 : Rep h s ch -> In p (f_nodes s) -> ch p = l1 ++ mid ++ l2 ->
  (forall q, h_nodes h' q <> None <-> h_nodes h q <> None) ->
  (forall q n', q <> p -> h_nodes h' q = Some n' -> exists n, h_nodes h q = Some n /\ n_first n' = n_first n /\ n_last n' = n_last n) ->
  (forall n', h_nodes h' p = Some n' -> n_first n' = hd_or (l1 ++ mid' ++ l2) None /\ n_last n' = last_or (l1 ++ mid' ++ l2) None) ->
  (forall x it, In x (map fst l1) -> h_items h x = Some it -> h_items h' x = Some (if is (last_or l1 None) x then w_next (hd_or (mid' ++ l2) None) it else it)) ->
  (forall x it, In x (map fst l2) -> h_items h x = Some it -> h_items h' x = Some (if is (hd_or l2 None) x then w_prev (last_or (l1 ++ mid') None) it else it)) ->
  seg (h_items h') p (last_or l1 None) mid' (hd_or l2 None) ->
  (forall q x, q <> p -> In x (map fst (ch q)) -> h_items h' x = h_items h x) ->
  (forall a it, h_items h' a = Some it -> ~ In a (map fst (l1 ++ mid' ++ l2)) -> (forall q, q <> p -> ~ In a (map fst (ch q))) ->
     i_next it = None /\ i_prev it = None) ->
  NoDup (map fst (l1 ++ mid' ++ l2)) ->
  (forall x q, In x (map fst mid') -> q <> p -> ~ In x (map fst (ch q))) ->
  (forall q a n, In (a, (KNode, n)) (setch ch p (l1 ++ mid' ++ l2) q) -> exists nd, h_nodes h' n = Some nd /\ n_holder nd = Some a) ->
  (forall n nd a, h_nodes h' n = Some nd -> n_holder nd = Some a ->
    exists it, h_items h' a = Some it /\ i_kind it = KNode /\ i_data it = n) ->
  (forall a, h_items h' a <> None -> a < h_ifresh h') ->
  h_nfresh h' = h_nfresh h ->
  Rep h' (Fam (f_new s) (f_nodes s) (set_kids (f_kids s) p (map snd (l1 ++ mid' ++ l2)))) (setch ch p (l1 ++ mid' ++ l2)).
Proof.
  intros R Ip Ech Hd He Hp H1 H2 H3 Ho Hl N D Hh Hk Hf Hn.
  split; cbn [f_nodes f_kids].
  - intros q. rewrite Hd. apply (r_nodes _ _ _ R).
  - intros q Iq. unfold set_kids, setch. destruct (Nat.eqb_spec q p); [reflexivity|]. apply (r_kids _ _ _ R), Iq.
  - intros q Nq. rewrite setch_other; [apply (r_out _ _ _ R), Nq|]. intros ->. contradiction.
  - intros q n E. destruct (Nat.eq_dec q p) as [->|Ne]; [rewrite setch_same; apply Hp, E|]. rewrite setch_other by exact Ne.
    destruct (He q n Ne E) as (n0 & E0 & -> & ->). apply (r_ends _ _ _ R), E0.
  - intros q. destruct (Nat.eq_dec q p) as [->|Ne].
    + rewrite setch_same. pose proof (r_nodup _ _ _ R p) as Np. pose proof (r_seg _ _ _ R p) as Sp. rewrite Ech in Np, Sp. eapply (splice (h_items h) (h_items h') p l1 mid mid' l2); assumption.
    + rewrite setch_other by exact Ne. eapply seg_ext; [|apply (r_seg _ _ _ R)]. intros x I. apply (Ho q); assumption.
  - intros q. destruct (Nat.eq_dec q p) as [->|Ne]; [rewrite setch_same; exact N|]. rewrite setch_other by exact Ne. apply (r_nodup _ _ _ R).
  - assert (X : forall q a, q <> p -> In a (map fst (l1 ++ mid' ++ l2)) -> ~ In a (map fst (ch q))).
    { intros q a Ne I. rewrite !map_app in I. apply in_app_or in I as [I|I]; [|apply in_app_or in I as [I|I]].
      - apply (r_disj _ _ _ R p q a); [auto|]. rewrite Ech, map_app. apply in_or_app; auto.
      - apply D; assumption.
      - apply (r_disj _ _ _ R p q a); [auto|]. rewrite Ech, !map_app. apply in_or_app; right. apply in_or_app; auto. }
    intros q r a Ne I J. destruct (Nat.eq_dec q p) as [->|Nq]; [|destruct (Nat.eq_dec r p) as [->|Nr]].
    + rewrite setch_same in I. rewrite setch_other in J by auto. exact (X r a ltac:(auto) I J).
    + rewrite setch_same in J. rewrite setch_other in I by auto. exact (X q a Nq J I).
    + rewrite setch_other in I, J by auto. exact (r_disj _ _ _ R q r a Ne I J).
  - intros a it E Na. apply (Hl a it E).
    + specialize (Na p). rewrite setch_same in Na. exact Na.
    + intros q Nq. specialize (Na q). rewrite setch_other in Na by exact Nq. exact Na.
  - exact Hh.
  - exact Hk.
  - exact Hf.
  - intros q. rewrite Hn. apply (r_nfresh _ _ _ R).
  - rewrite Hn. apply (r_count _ _ _ R).
Qed.

(** a new node *)
Lemma rep_node_new h s ch : Rep h s ch -> exists s' ch', step_fam s ONode = Some s' /\ Rep (fst (new_node h)) s' ch'.
Proof.
  intros R. eexists _, ch. split; [reflexivity|]. cbn [new_node fst].
  assert (F : f_new s = h_nfresh h) by apply (r_count _ _ _ R). rewrite F.
  assert (Nn : ~ In (h_nfresh h) (f_nodes s)) by (intros I; apply (r_nfresh _ _ _ R) in I; lia).
  assert (Nc : ch (h_nfresh h) = []) by (apply (r_out _ _ _ R), Nn).
  split; cbn [h_items h_nodes h_ifresh h_nfresh f_new f_nodes f_kids In length].
  - intros p. unfold upd. destruct (Nat.eqb_spec p (h_nfresh h)); [subst; split; [discriminate|auto]|].
    rewrite <- (r_nodes _ _ _ R). split; [intros [?|?]; [congruence|assumption]|auto].
  - intros p [<-|I]; unfold set_kids.
    + rewrite Nat.eqb_refl, Nc. reflexivity.
    + destruct (Nat.eqb_spec p (h_nfresh h)); [subst; contradiction|]. apply (r_kids _ _ _ R), I.
  - intros p Np. apply (r_out _ _ _ R). tauto.
  - intros p n. unfold upd. destruct (Nat.eqb_spec p (h_nfresh h)); [|apply (r_ends _ _ _ R)]. intros E. injection E as <-. subst. rewrite Nc. auto.
  - apply (r_seg _ _ _ R).
  - apply (r_nodup _ _ _ R).
  - apply (r_disj _ _ _ R).
  - apply (r_loose _ _ _ R).
  - intros p a n I. destruct (r_holder _ _ _ R p a n I) as (nd & E & Hh). unfold upd. destruct (Nat.eqb_spec n (h_nfresh h)).
    + subst. exfalso. apply Nn, (r_nodes _ _ _ R). congruence.
    + eauto.
  - intros n nd a. unfold upd. destruct (Nat.eqb_spec n (h_nfresh h)); [intros E; injection E as <-; discriminate|apply (r_held _ _ _ R)].
  - apply (r_ifresh _ _ _ R).
  - intros p [<-|I]; [lia|]. apply (r_nfresh _ _ _ R) in I. lia.
  - reflexivity.
Qed.

(** configuring an item: nothing in the chains changes *)
Definition same_chains h h' (ch : chain) : Prop :=
  (forall q x, In x (map fst (ch q)) -> h_items h' x = h_items h x).
Lemma rep_configure h s ch k d : Rep h s ch -> may_hold s (k, d) = true ->
  exists h' i, common_configure h k d = Ok (h', i) /\ Rep h' s ch /\ ready h' ch i (k, d).
Proof.
  intros R M. unfold common_configure.
  assert (Ff : forall p c, ~ In (h_ifresh h, c) (ch p)).
  { intros p c I. destruct (rep_item _ _ _ R _ _ _ I) as (x & y & E). pose proof (r_ifresh _ _ _ R (h_ifresh h)). rewrite E in H. assert (h_ifresh h < h_ifresh h) by (apply H; discriminate). lia. }
  assert (Ff' : forall p, ~ In (h_ifresh h) (map fst (ch p))) by (intros p I; apply fst_in in I as (c & I); exact (Ff p c I)).
  destruct (is_node k) eqn:K.
  - assert (k = KNode) by (destruct k; try discriminate; reflexivity). subst k. unfold may_hold in M. cbn [fst snd] in M.
    destruct (rep_alone _ _ _ R d M) as [Id Na]. destruct (rep_node _ _ _ R d Id) as (nd & End). unfold rd_n. rewrite End. cbn [of_option bind].
    destruct (n_holder nd) as [i|] eqn:Eh.
    + destruct (r_held _ _ _ R d nd i End Eh) as (it & Ei & Ki & Di). pose proof (rep_held _ _ _ R d nd i End Eh) as Hi.
      assert (Ni : forall p, ~ In i (map fst (ch p))). { intros p I. apply fst_in in I as (c & I). apply (Na p i c I). exact (Hi p c I). }
      destruct (r_loose _ _ _ R i it Ei Ni) as [E1 E2].
      rewrite (wr_i_ok h i _ it Ei). cbn [bind]. rewrite (wr_n_ok _ d _ nd) by exact End. cbn [bind].
      eexists _, i. split; [reflexivity|]. split.
      * split; cbn [h_items h_nodes h_ifresh h_nfresh].
        -- intros p. rewrite (r_nodes _ _ _ R p). unfold upd. destruct (Nat.eqb_spec p d); [subst; rewrite End; split; discriminate|tauto].
        -- apply (r_kids _ _ _ R).
        -- apply (r_out _ _ _ R).
        -- intros p n. unfold upd. destruct (Nat.eqb_spec p d); [|apply (r_ends _ _ _ R)]. intros E. injection E as <-. subst p. cbn. apply (r_ends _ _ _ R), End.
        -- intros p. eapply seg_ext; [|apply (r_seg _ _ _ R)]. intros x I. apply upd_other. intros ->. exact (Ni p I).
        -- apply (r_nodup _ _ _ R).
        -- apply (r_disj _ _ _ R).
        -- intros a it'. unfold upd. destruct (Nat.eqb_spec a i); [|apply (r_loose _ _ _ R)]. intros E _. injection E as <-. auto.
        -- intros p a n I. destruct (r_holder _ _ _ R p a n I) as (x & E & Hx). unfold upd. destruct (Nat.eqb_spec n d); [subst; exfalso; exact (Na p a _ I eq_refl)|eauto].
        -- intros n x a. unfold upd. destruct (Nat.eqb_spec n d).
           ++ subst n. intros E. injection E as <-. cbn. intros E. injection E as <-. rewrite Nat.eqb_refl. eexists. split; [reflexivity|auto].
           ++ intros E Hx. destruct (r_held _ _ _ R n x a E Hx) as (it' & L & H1 & H2). destruct (Nat.eqb_spec a i); [subst; congruence|eauto].
        -- intros a. unfold upd. destruct (Nat.eqb_spec a i); [subst; intros _; apply (r_ifresh _ _ _ R); congruence|apply (r_ifresh _ _ _ R)].
        -- apply (r_nfresh _ _ _ R).
        -- apply (r_count _ _ _ R).
      * split; [|split; [exact Ni|]]; cbn [h_items h_nodes fst snd].
        -- exists (i_parent it). rewrite upd_same. unfold w_what. rewrite E1, E2. reflexivity.
        -- intros _. rewrite upd_same. eexists. split; [reflexivity|reflexivity].
    + cbn [new_item]. rewrite (wr_i_ok _ (h_ifresh h) _ (Item KContent 0 None None None)) by apply upd_same. cbn [bind h_items h_nodes h_ifresh h_nfresh].
      rewrite (wr_n_ok _ d _ nd) by exact End. cbn [bind h_items h_nodes h_ifresh h_nfresh w_what i_parent i_next i_prev].
      eexists _, (h_ifresh h). split; [reflexivity|]. split.
      * split; cbn [h_items h_nodes h_ifresh h_nfresh].
        -- intros p. rewrite (r_nodes _ _ _ R p). unfold upd. destruct (Nat.eqb_spec p d); [subst; rewrite End; split; discriminate|tauto].
        -- apply (r_kids _ _ _ R).
        -- apply (r_out _ _ _ R).
        -- intros p n. unfold upd. destruct (Nat.eqb_spec p d); [|apply (r_ends _ _ _ R)]. intros E. injection E as <-. subst p. cbn. apply (r_ends _ _ _ R), End.
        -- intros p. eapply seg_ext; [|apply (r_seg _ _ _ R)]. intros x I. rewrite !upd_other by (intros ->; exact (Ff' p I)). reflexivity.
        -- apply (r_nodup _ _ _ R).
        -- apply (r_disj _ _ _ R).
        -- intros a it'. unfold upd. destruct (Nat.eqb_spec a (h_ifresh h)); [|apply (r_loose _ _ _ R)]. intros E _. injection E as <-. auto.
        -- intros p a n I. destruct (r_holder _ _ _ R p a n I) as (x & E & Hx). unfold upd. destruct (Nat.eqb_spec n d); [subst; exfalso; exact (Na p a _ I eq_refl)|eauto].
        -- intros n x a. unfold upd. destruct (Nat.eqb_spec n d).
           ++ subst n. intros E. injection E as <-. cbn. intros E. injection E as <-. rewrite Nat.eqb_refl. eexists. split; [reflexivity|auto].
           ++ intros E Hx. destruct (r_held _ _ _ R n x a E Hx) as (it' & L & H1 & H2). destruct (Nat.eqb_spec a (h_ifresh h)); [|eauto].
              exfalso. subst. assert (h_ifresh h < h_ifresh h) by (apply (r_ifresh _ _ _ R); congruence). lia.
        -- intros a. unfold upd. destruct (Nat.eqb_spec a (h_ifresh h)); [subst; lia|]. intros L. apply (r_ifresh _ _ _ R) in L. lia.
        -- apply (r_nfresh _ _ _ R).
        -- apply (r_count _ _ _ R).
      * split; [|split; [exact Ff'|]]; cbn [h_items h_nodes fst snd].
        -- exists None. rewrite upd_same. reflexivity.
        -- intros _. rewrite upd_same. eexists. split; reflexivity.
  - cbn [bind new_item]. rewrite (wr_i_ok _ (h_ifresh h) _ (Item KContent 0 None None None)) by apply upd_same. cbn [bind h_items h_nodes h_ifresh h_nfresh w_what i_parent i_next i_prev].
    eexists _, (h_ifresh h). split; [reflexivity|]. split.
    + split; cbn [h_items h_nodes h_ifresh h_nfresh]; try apply R.
      * intros p. eapply seg_ext; [|apply (r_seg _ _ _ R)]. intros x I. rewrite !upd_other by (intros ->; exact (Ff' p I)). reflexivity.
      * intros a it'. unfold upd. destruct (Nat.eqb_spec a (h_ifresh h)); [|apply (r_loose _ _ _ R)]. intros E _. injection E as <-. auto.
      * intros n x a E Hx. destruct (r_held _ _ _ R n x a E Hx) as (it' & L & H1 & H2). unfold upd. destruct (Nat.eqb_spec a (h_ifresh h)); [|eauto].
        exfalso. subst. assert (h_ifresh h < h_ifresh h) by (apply (r_ifresh _ _ _ R); congruence). lia.
      * intros a. unfold upd. destruct (Nat.eqb_spec a (h_ifresh h)); [subst; lia|]. intros L. apply (r_ifresh _ _ _ R) in L. lia.
    + split; [|split; [exact Ff'|]]; cbn [h_items h_nodes fst snd].
      * exists None. rewrite upd_same. reflexivity.
      * intros ->. discriminate.
Qed.
