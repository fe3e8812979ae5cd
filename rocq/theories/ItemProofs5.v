(** Replacing items and moving all the children of a node. *)
From Verif Require Import Prelude ItemModel ItemSpec ItemExec ItemProofs ItemProofs2 ItemProofs3 ItemProofs4.
From Coq Require Import Lia.
Open Scope list_scope.

Lemma rep_new_ref h s ch k d : Rep h s ch -> may_hold s (k, d) = true ->
  exists h' i, item_new_ref h k d = Ok (h', i) /\ Rep h' s ch /\ ready h' ch i (k, d).
Proof.
  intros R M. unfold item_new_ref. cbn [new_item].
  assert (Ff' : forall p, ~ In (h_ifresh h) (map fst (ch p))).
  { intros p I; apply fst_in in I as (c & I). destruct (rep_item _ _ _ R _ _ _ I) as (x & y & E). pose proof (r_ifresh _ _ _ R (h_ifresh h)). rewrite E in H. assert (h_ifresh h < h_ifresh h) by (apply H; discriminate). lia. }
  assert (Sg : forall v p, seg (upd (upd (h_items h) (h_ifresh h) (Item KContent 0 None None None)) (h_ifresh h) v) p None (ch p) None).
  { intros v p. eapply seg_ext; [|apply (r_seg _ _ _ R p)]. intros x I. assert (x <> h_ifresh h) by (intros ->; exact (Ff' p I)). rewrite !upd_other by assumption. reflexivity. }
  assert (Nfr : forall n nd, h_nodes h n = Some nd -> n_holder nd <> Some (h_ifresh h)).
  { intros n nd E Eh. destruct (r_held _ _ _ R n nd _ E Eh) as (it & L & _). assert (h_ifresh h < h_ifresh h) by (apply (r_ifresh _ _ _ R); congruence). lia. }
  erewrite wr_i_ok by (cbn [h_items]; apply upd_same). cbn [bind h_items h_nodes h_ifresh h_nfresh].
  destruct (is_node k) eqn:K.
  - assert (k = KNode) by (destruct k; try discriminate; reflexivity). subst k. unfold may_hold in M. cbn [fst snd] in M.
    destruct (rep_alone _ _ _ R d M) as [Id Ad]. destruct (rep_node _ _ _ R d Id) as (nd & End).
    erewrite wr_n_ok by (cbn [h_nodes]; exact End). cbn [bind h_items h_nodes h_ifresh h_nfresh]. eexists _, _. split; [reflexivity|]. split.
    + split; cbn [h_items h_nodes h_ifresh h_nfresh]; try apply R.
      * intros p. rewrite (r_nodes _ _ _ R). unfold upd. destruct (Nat.eqb_spec p d); [subst; rewrite End; split; discriminate|tauto].
      * intros p n. unfold upd. destruct (Nat.eqb_spec p d) as [->|]; [|apply R]. intros H; injection H as <-. apply (r_ends _ _ _ R d nd End).
      * apply Sg.
      * intros a it. unfold upd. destruct (Nat.eqb_spec a (h_ifresh h)); [intros H; injection H as <-; auto|apply (r_loose _ _ _ R)].
      * intros p a n I. destruct (r_holder _ _ _ R p a n I) as (md & E1 & E2). rewrite upd_other by (intros ->; exact (Ad p a _ I eq_refl)). eauto.
      * intros n md a. unfold upd. destruct (Nat.eqb_spec n d).
        -- subst n. intros H E; injection H as <-. cbn in E. injection E as <-. rewrite Nat.eqb_refl. eexists. split; [reflexivity|auto].
        -- intros E Eh. destruct (Nat.eqb_spec a (h_ifresh h)); [subst; exfalso; exact (Nfr n md E Eh)|]. apply (r_held _ _ _ R n md a E Eh).
      * intros a. unfold upd. destruct (Nat.eqb_spec a (h_ifresh h)); [lia|]. intros H. apply (r_ifresh _ _ _ R) in H. lia.
    + split; [|split]; cbn [h_items h_nodes fst snd].
      * rewrite upd_same. eexists. reflexivity.
      * exact Ff'.
      * intros _. rewrite upd_same. eauto.
  - cbn [bind]. eexists _, _. split; [reflexivity|]. split.
    + split; cbn [h_items h_nodes h_ifresh h_nfresh]; try apply R.
      * apply Sg.
      * intros a it. unfold upd. destruct (Nat.eqb_spec a (h_ifresh h)); [intros H; injection H as <-; auto|apply (r_loose _ _ _ R)].
      * intros n md a E Eh. destruct (Nat.eq_dec a (h_ifresh h)); [subst; exfalso; exact (Nfr n md E Eh)|]. rewrite !upd_other by assumption. apply (r_held _ _ _ R n md a E Eh).
      * intros a. unfold upd. destruct (Nat.eqb_spec a (h_ifresh h)); [lia|]. intros H. apply (r_ifresh _ _ _ R) in H. lia.
    + split; [|split]; cbn [h_items h_nodes fst snd].
      * rewrite upd_same. eexists. reflexivity.
      * exact Ff'.
      * intros ->. discriminate.
Qed.

Lemma rep_item_replace h s ch p a c x d l1 l2 : Rep h s ch -> ready h ch x d -> ch p = l1 ++ (a, c) :: l2 -> (fst c <> KNode -> l1 <> [] /\ l2 <> []) ->
  exists h', item_replace h a x = Ok h' /\ Rep h' (Fam (f_new s) (f_nodes s) (set_kids (f_kids s) p (map snd l1 ++ d :: map snd l2))) (setch ch p (l1 ++ (x, d) :: l2)).
Proof.
  intros R Rd E B. pose proof (r_seg _ _ _ R p) as S. rewrite E in S. pose proof (seg_mid _ _ _ _ _ _ _ _ S) as Ea.
  assert (Ip : In p (f_nodes s)) by (eapply (rep_in _ _ _ R); rewrite E; apply in_or_app; right; left; reflexivity).
  destruct (rep_node _ _ _ R p Ip) as (nd & En). destruct (r_ends _ _ _ R p nd En) as [Ef El]. rewrite E in Ef, El.
  pose proof (r_nodup _ _ _ R p) as N. rewrite E in N. destruct (nodup_mid _ _ _ _ N) as (N1 & N2 & D). pose proof Rd as ((par & Ex) & Hout & Hold).
  assert (Nxc : forall y cy, In (y, cy) (ch p) -> y <> x) by (intros y cy I ->; exact (Hout p (in_fst _ _ _ I))).
  assert (Nxa : x <> a) by (intros ->; eapply Nxc; [rewrite E; apply in_or_app; right; left; reflexivity|reflexivity]).
  assert (Fin : forall m' n', (forall y, m' y = if Nat.eqb y a then option_map (fun it => Item (i_kind it) (i_data it) (i_parent it) None None) (h_items h y)
     else if Nat.eqb y x then Some (Item (fst d) (snd d) (Some p) (hd_or l2 None) (last_or l1 None))
     else if is (last_or l1 None) y then option_map (w_next (Some x)) (h_items h y)
     else if is (hd_or l2 None) y then option_map (w_prev (Some x)) (h_items h y) else h_items h y) ->
    (forall q, n' q = if Nat.eqb q p then option_map (fun n => Nod (hd_or (l1 ++ [(x, d)]) None) (last_or ((x, d) :: l2) None) (n_holder n)) (h_nodes h q) else h_nodes h q) ->
    Rep (Heap m' n' (h_ifresh h) (h_nfresh h)) (Fam (f_new s) (f_nodes s) (set_kids (f_kids s) p (map snd l1 ++ d :: map snd l2))) (setch ch p (l1 ++ (x, d) :: l2))).
  { intros m' n' Hm Hn. replace (map snd l1 ++ d :: map snd l2) with (map snd (l1 ++ (x, d) :: l2)) by (rewrite map_app; reflexivity).
    eapply (rep_swap h s ch _ p a c x d l1 l2); [exact R|exact Rd|exact E|exact Hm|exact Hn|reflexivity|reflexivity]. }
  unfold item_replace, rd_i. rewrite Ea. cbn [of_option bind i_prev i_next].
  destruct (snoc_cases l1) as [->|(r & [u cu] & ->)]; destruct l2 as [|[v cv] t]; cbn [last_or hd_or] in Ea |- *; rewrite ?last_or_snoc in *.
  - assert (Kc : is_node (fst c) = true) by (destruct (fst c); try reflexivity; destruct B as [B1 _]; try discriminate; contradiction).
    cbn [of_option bind i_prev i_next i_parent]. rewrite Ea. cbn [of_option bind i_prev i_next i_parent]. rewrite Ea. cbn [of_option bind i_prev i_next i_parent i_kind]. rewrite Kc.
    cbn [deref of_option bind]. rewrite (wr_n_ok _ _ _ _ En). cbn [bind]. erewrite wr_n_ok by (cbn [h_nodes]; apply upd_same). cbn [bind].
    erewrite wr_i_ok by (cbn [h_items]; exact Ea). cbn [bind]. erewrite wr_i_ok by (cbn [h_items]; apply upd_same). cbn [bind h_items]. rewrite upd_same. cbn [of_option bind].
    erewrite wr_i_ok by (cbn [h_items]; rewrite !upd_other by auto; exact Ex). eexists. split; [reflexivity|]. cbn [h_items h_nodes h_ifresh h_nfresh]. apply Fin.
    + intros y. unfold upd. cbn [last_or hd_or is]. destruct (Nat.eqb_spec y x), (Nat.eqb_spec y a); try (exfalso; congruence); try reflexivity. subst. rewrite Ea. reflexivity.
    + intros q. unfold upd. destruct (Nat.eqb_spec q p); [subst; rewrite En|]; reflexivity.
  - assert (Kc : is_node (fst c) = true) by (destruct (fst c); try reflexivity; destruct B as [B1 _]; try discriminate; contradiction).
    assert (Nv : v <> a) by (intros ->; apply N2; left; reflexivity).
    assert (Iv : In (v, cv) (ch p)) by (rewrite E; right; left; reflexivity). destruct (rep_item _ _ _ R _ _ _ Iv) as (v1 & v2 & Ev). pose proof (Nxc _ _ Iv) as Nvx.
    cbn [of_option bind i_prev i_next i_parent]. rewrite Ea. cbn [of_option bind i_prev i_next i_parent]. rewrite (wr_i_ok _ _ _ _ Ev). cbn [bind h_items].
    erewrite wr_i_ok by (cbn [h_items]; rewrite !upd_other by auto; exact Ex). cbn [bind h_items]. rewrite !upd_other by auto. rewrite Ea.
    cbn [of_option bind i_prev i_next i_parent i_kind]. rewrite Kc. cbn [deref of_option bind]. erewrite wr_n_ok by (cbn [h_nodes]; exact En). cbn [bind].
    erewrite wr_i_ok by (cbn [h_items]; rewrite !upd_other by auto; exact Ea). cbn [bind]. erewrite wr_i_ok by (cbn [h_items]; apply upd_same). cbn [bind h_items]. rewrite upd_same. cbn [of_option bind].
    erewrite wr_i_ok by (cbn [h_items]; rewrite !upd_other by auto; apply upd_same). eexists. split; [reflexivity|]. cbn [h_items h_nodes h_ifresh h_nfresh]. apply Fin.
    + intros y. unfold upd. cbn [last_or hd_or is]. destruct (Nat.eqb_spec y x), (Nat.eqb_spec y a), (Nat.eqb_spec y v); try (exfalso; congruence); try reflexivity; subst; rewrite ?Ea, ?Ev; reflexivity.
    + intros q. unfold upd. destruct (Nat.eqb_spec q p); [subst; rewrite En|reflexivity]. cbn [option_map app hd_or last_or] in *. rewrite <- El. reflexivity.
  - assert (Kc : is_node (fst c) = true) by (destruct (fst c); try reflexivity; destruct B as [_ B1]; try discriminate; contradiction).
    assert (Nu : u <> a) by (intros ->; apply N1; rewrite map_app; apply in_or_app; right; left; reflexivity).
    assert (Iu : In (u, cu) (ch p)) by (rewrite E; apply in_or_app; left; apply in_or_app; right; left; reflexivity). destruct (rep_item _ _ _ R _ _ _ Iu) as (u1 & u2 & Eu). pose proof (Nxc _ _ Iu) as Nux.
    erewrite wr_i_ok by exact Eu. cbn [bind h_items]. erewrite wr_i_ok by (cbn [h_items]; rewrite !upd_other by auto; exact Ex). cbn [bind h_items].
    rewrite !upd_other by auto. rewrite Ea. cbn [of_option bind i_prev i_next i_parent h_items]. rewrite !upd_other by auto. rewrite Ea.
    cbn [of_option bind i_prev i_next i_parent i_kind]. rewrite Kc. cbn [deref of_option bind]. erewrite wr_n_ok by (cbn [h_nodes]; exact En). cbn [bind].
    erewrite wr_i_ok by (cbn [h_items]; rewrite !upd_other by auto; exact Ea). cbn [bind]. erewrite wr_i_ok by (cbn [h_items]; apply upd_same). cbn [bind h_items]. rewrite upd_same. cbn [of_option bind].
    erewrite wr_i_ok by (cbn [h_items]; rewrite !upd_other by auto; apply upd_same). eexists. split; [reflexivity|]. cbn [h_items h_nodes h_ifresh h_nfresh]. apply Fin.
    + intros y. rewrite ?last_or_snoc. unfold upd. cbn [last_or hd_or is]. destruct (Nat.eqb_spec y x), (Nat.eqb_spec y a), (Nat.eqb_spec y u); try (exfalso; congruence); try reflexivity; subst; rewrite ?Ea, ?Eu; reflexivity.
    + intros q. unfold upd. destruct (Nat.eqb_spec q p); [subst; rewrite En|reflexivity]. cbn [option_map]. unfold w_last. cbn [last_or]. rewrite Ef. f_equal. f_equal. rewrite !hd_or_app. destruct r as [|[? ?] ?]; reflexivity.
  - assert (Nu : u <> a) by (intros ->; apply N1; rewrite map_app; apply in_or_app; right; left; reflexivity).
    assert (Iu : In (u, cu) (ch p)) by (rewrite E; apply in_or_app; left; apply in_or_app; right; left; reflexivity). destruct (rep_item _ _ _ R _ _ _ Iu) as (u1 & u2 & Eu). pose proof (Nxc _ _ Iu) as Nux.
    assert (Nv : v <> a) by (intros ->; apply N2; left; reflexivity).
    assert (Iv : In (v, cv) (ch p)) by (rewrite E; apply in_or_app; right; right; left; reflexivity). destruct (rep_item _ _ _ R _ _ _ Iv) as (v1 & v2 & Ev). pose proof (Nxc _ _ Iv) as Nvx.
    assert (Nuv : v <> u) by (intros ->; apply (D u); [rewrite map_app; apply in_or_app; right; left; reflexivity|left; reflexivity]).
    erewrite wr_i_ok by exact Eu. cbn [bind h_items]. erewrite wr_i_ok by (cbn [h_items]; rewrite !upd_other by auto; exact Ex). cbn [bind h_items].
    rewrite !upd_other by auto. rewrite Ea. cbn [of_option bind i_prev i_next i_parent h_items].
    erewrite wr_i_ok by (cbn [h_items]; rewrite !upd_other by auto; exact Ev). cbn [bind h_items].
    erewrite wr_i_ok by (cbn [h_items]; rewrite !upd_other by auto; apply upd_same). cbn [bind h_items]. rewrite !upd_other by auto. rewrite Ea.
    cbn [of_option bind i_prev i_next i_parent i_kind]. match goal with |- context [if is_node (fst c) then ?e else ?f] => replace (if is_node (fst c) then e else f) with f by (destruct (is_node (fst c)); reflexivity) end.
    cbn [bind].
    erewrite wr_i_ok by (cbn [h_items]; rewrite !upd_other by auto; exact Ea). cbn [bind]. erewrite wr_i_ok by (cbn [h_items]; apply upd_same). cbn [bind h_items]. rewrite upd_same. cbn [of_option bind].
    erewrite wr_i_ok by (cbn [h_items]; rewrite !upd_other by auto; apply upd_same). eexists. split; [reflexivity|]. cbn [h_items h_nodes h_ifresh h_nfresh]. apply Fin.
    + intros y. rewrite ?last_or_snoc. unfold upd. cbn [last_or hd_or is]. destruct (Nat.eqb_spec y x), (Nat.eqb_spec y a), (Nat.eqb_spec y u), (Nat.eqb_spec y v); try (exfalso; congruence); try reflexivity; subst; rewrite ?Ea, ?Eu, ?Ev; reflexivity.
    + intros q. destruct (Nat.eqb_spec q p); [subst; rewrite En|reflexivity]. cbn [option_map]. rewrite !last_or_app in *. rewrite !hd_or_app in *. cbn [last_or hd_or] in *. destruct nd; cbn in *. subst. destruct r as [|[? ?] ?]; reflexivity.
Qed.
