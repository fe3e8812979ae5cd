(** The tree functions, one by one: adding, removing and replacing. *)
From Verif Require Import Prelude ItemModel ItemSpec ItemExec ItemProofs ItemProofs2 ItemProofs3.
From Coq Require Import Lia.
Open Scope list_scope.

Lemma app_nil_mid {A} (l : list A) x : l ++ x :: [] = l ++ [x].
Proof. reflexivity. Qed.
Lemma rep_set_child_ref h s ch p i c : Rep h s ch -> In p (f_nodes s) -> ready h ch i c ->
  exists h', set_child_ref h p i = Ok h' /\ Rep h' (Fam (f_new s) (f_nodes s) (set_kids (f_kids s) p (map snd (ch p ++ [(i, c)])))) (setch ch p (ch p ++ [(i, c)])).
Proof.
  intros R Ip Rd. pose proof Rd as ((par & Ei) & Hout & Hold). destruct (rep_node _ _ _ R p Ip) as (nd & En). destruct (r_ends _ _ _ R p nd En) as [Ef El].
  unfold set_child_ref. rewrite (wr_i_ok _ _ _ _ Ei). cbn [bind]. unfold rd_n. cbn [h_nodes]. rewrite En. cbn [of_option bind]. rewrite Ef.
  destruct (snoc_cases (ch p)) as [E|(r & [l d] & E)].
  - rewrite E. cbn [hd_or]. erewrite wr_n_ok by (cbn [h_nodes]; exact En). cbn [bind]. erewrite wr_n_ok by (cbn [h_nodes]; apply upd_same). eexists. split; [reflexivity|].
    cbn [app]. eapply (rep_insert h s ch _ p i c [] []); [exact R|exact Ip|exact Rd|exact E| | |reflexivity|reflexivity]; cbn [h_items h_nodes hd_or last_or app is].
    + intros x. unfold upd. destruct (Nat.eqb x i); reflexivity.
    + intros q. unfold upd. destruct (Nat.eqb_spec q p); [subst; rewrite En|]; reflexivity.
  - assert (Il : In (l, d) (ch p)) by (rewrite E; apply in_or_app; right; left; reflexivity).
    assert (Nl : l <> i) by (intros ->; exact (Hout p (in_fst _ _ _ Il))).
    assert (Hd : exists f, hd_or (ch p) None = Some f). { rewrite E. destruct r as [|[f y] r]; cbn; eauto. }
    destruct Hd as (f & Hf). rewrite Hf. rewrite E, last_or_snoc in El. rewrite El. cbn [deref of_option bind].
    destruct (rep_item _ _ _ R _ _ _ Il) as (xl & yl & Eil).
    erewrite wr_i_ok by (cbn [h_items]; rewrite upd_other by exact Nl; exact Eil). cbn [bind].
    erewrite wr_i_ok by (cbn [h_items]; rewrite upd_other by auto; apply upd_same). cbn [bind].
    erewrite wr_i_ok by (cbn [h_items]; apply upd_same). cbn [bind].
    erewrite wr_n_ok by (cbn [h_nodes]; exact En). eexists. split; [reflexivity|].
    eapply (rep_insert h s ch _ p i c (ch p) []); [exact R|exact Ip|exact Rd|rewrite app_nil_r; reflexivity| | |reflexivity|reflexivity]; cbn [h_items h_nodes].
    + intros x. rewrite E, last_or_snoc. cbn [hd_or is]. unfold upd. destruct (Nat.eqb_spec x i); [reflexivity|]. destruct (Nat.eqb_spec x l); [subst; rewrite Eil|]; reflexivity.
    + intros q. unfold upd. destruct (Nat.eqb_spec q p); [subst; rewrite En|reflexivity]. cbn [option_map]. unfold w_last. rewrite hd_or_app. cbn [hd_or last_or]. rewrite Ef, Hf.
      destruct (ch p) as [|[g y] t]; [discriminate|]. cbn [hd_or] in *. rewrite Hf. reflexivity.
Qed.

Lemma rep_item_set_child h s ch p k d : Rep h s ch -> In p (f_nodes s) -> may_hold s (k, d) = true ->
  exists h' ch', item_set_child h p k d = Ok h' /\ Rep h' (Fam (f_new s) (f_nodes s) (set_kids (f_kids s) p (f_kids s p ++ [(k, d)]))) ch'.
Proof.
  intros R Ip M. destruct (rep_configure h s ch k d R M) as (h1 & i & E & R1 & Rd). unfold item_set_child. rewrite E. cbn [bind].
  destruct (rep_set_child_ref h1 s ch p i (k, d) R1 Ip Rd) as (h2 & E2 & R2). eexists _, _. split; [exact E2|].
  rewrite map_app in R2. cbn [map snd] in R2. rewrite (r_kids _ _ _ R p Ip). exact R2.
Qed.

Lemma configure_keeps h s ch k d : Rep h s ch -> may_hold s (k, d) = true ->
  exists h' i, common_configure h k d = Ok (h', i) /\ Rep h' s ch /\ ready h' ch i (k, d).
Proof. apply rep_configure. Qed.

Lemma seg_mid m p pr l1 a c l2 n : seg m p pr (l1 ++ (a, c) :: l2) n -> m a = Some (Item (fst c) (snd c) (Some p) (hd_or l2 n) (last_or l1 pr)).
Proof. intros S. apply seg_app in S as [_ S]. cbn [seg] in S. tauto. Qed.
Lemma nodup_mid (l1 : list entry) a c l2 : NoDup (map fst (l1 ++ (a, c) :: l2)) ->
  ~ In a (map fst l1) /\ ~ In a (map fst l2) /\ (forall x, In x (map fst l1) -> ~ In x (map fst l2)).
Proof.
  intros N. rewrite map_app in N. cbn [map fst] in N. apply NoDup_app_inv in N as (N1 & N2 & D). inversion N2; subst.
  split; [intros I; exact (D a I (or_introl eq_refl))|]. split; [assumption|]. intros x I J. exact (D x I (or_intror J)).
Qed.

Lemma rep_set_after h s ch p i c0 l1 l2 k d : Rep h s ch -> ch p = l1 ++ (i, c0) :: l2 -> may_hold s (k, d) = true ->
  exists h' ch', item_set_after h i k d = Ok h' /\ Rep h' (Fam (f_new s) (f_nodes s) (set_kids (f_kids s) p (map snd l1 ++ c0 :: (k, d) :: map snd l2))) ch'.
Proof.
  intros R E M. unfold item_set_after, rd_i. pose proof (r_seg _ _ _ R p) as S. rewrite E in S. pose proof (seg_mid _ _ _ _ _ _ _ _ S) as Ei.
  rewrite Ei. cbn [of_option bind i_parent deref]. destruct (rep_configure h s ch k d R M) as (h1 & x & Ec & R1 & Rd). rewrite Ec. cbn [bind].
  clear S Ei. pose proof (r_seg _ _ _ R1 p) as S. rewrite E in S. pose proof (seg_mid _ _ _ _ _ _ _ _ S) as Ei.
  pose proof Rd as ((par & Ex) & Hout & Hold). assert (Ip : In p (f_nodes s)) by (eapply (rep_in _ _ _ R); rewrite E; apply in_or_app; right; left; reflexivity).
  destruct (rep_node _ _ _ R1 p Ip) as (nd & En). destruct (r_ends _ _ _ R1 p nd En) as [Ef El].
  pose proof (r_nodup _ _ _ R1 p) as N. rewrite E in N. destruct (nodup_mid _ _ _ _ N) as (N1 & N2 & D).
  assert (Nx : x <> i) by (intros ->; apply (Hout p); rewrite E, map_app; apply in_or_app; right; left; reflexivity).
  erewrite wr_i_ok by exact Ex. cbn [bind]. erewrite wr_i_ok by (cbn [h_items]; apply upd_same). cbn [bind h_items].
  rewrite !upd_other by auto. rewrite Ei. cbn [of_option bind]. erewrite wr_i_ok by (cbn [h_items]; apply upd_same). cbn [bind h_items].
  rewrite !upd_other by auto. rewrite Ei. cbn [of_option bind i_next].
  assert (Ei' : ch p = (l1 ++ [(i, c0)]) ++ l2) by (rewrite <- app_assoc; exact E).
  assert (Fin : forall m' n', (forall y, m' y = if Nat.eqb y x then Some (Item k d (Some p) (hd_or l2 None) (Some i))
     else if Nat.eqb y i then Some (Item (fst c0) (snd c0) (Some p) (Some x) (last_or l1 None))
     else if is (hd_or l2 None) y then option_map (w_prev (Some x)) (h_items h1 y) else h_items h1 y) ->
     (forall q, n' q = if Nat.eqb q p then option_map (fun n => Nod (n_first n) (last_or ((x, (k, d)) :: l2) None) (n_holder n)) (h_nodes h1 q) else h_nodes h1 q) ->
     Rep (Heap m' n' (h_ifresh h1) (h_nfresh h1)) (Fam (f_new s) (f_nodes s) (set_kids (f_kids s) p (map snd l1 ++ c0 :: (k, d) :: map snd l2)))
       (setch ch p ((l1 ++ [(i, c0)]) ++ (x, (k, d)) :: l2))).
  { intros m' n' Hm Hn. replace (map snd l1 ++ c0 :: (k, d) :: map snd l2) with (map snd ((l1 ++ [(i, c0)]) ++ (x, (k, d)) :: l2)) by (rewrite !map_app, <- app_assoc; reflexivity).
    eapply (rep_insert h1 s ch _ p x (k, d) (l1 ++ [(i, c0)]) l2); [exact R1|exact Ip|exact Rd|exact Ei'| | |reflexivity|reflexivity]; cbn [h_items h_nodes].
    - intros y. rewrite Hm, last_or_snoc. cbn [is fst snd]. destruct (Nat.eqb y x); [reflexivity|]. destruct (Nat.eqb_spec y i); [subst; rewrite Ei; reflexivity|reflexivity].
    - intros q. rewrite Hn. destruct (Nat.eqb_spec q p); [subst; rewrite En|reflexivity]. cbn [option_map]. rewrite Ef, Ei'. f_equal. f_equal. rewrite !hd_or_app. destruct l1 as [|[? ?] ?]; reflexivity. }
  destruct l2 as [|[n cn] l2]; cbn [hd_or].
  - erewrite wr_n_ok by (cbn [h_nodes]; exact En). cbn [bind]. erewrite wr_i_ok by (cbn [h_items]; rewrite !upd_other by auto; exact Ei).
    eexists _, _. split; [reflexivity|]. cbn [h_nodes h_ifresh h_nfresh h_items]. apply Fin.
    + intros y. unfold upd. cbn [hd_or is]. destruct (Nat.eqb_spec y i), (Nat.eqb_spec y x); try (exfalso; congruence); reflexivity.
    + intros q. unfold upd. destruct (Nat.eqb_spec q p); [subst; rewrite En|]; reflexivity.
  - assert (In_n : In (n, cn) (ch p)) by (rewrite E; apply in_or_app; right; right; left; reflexivity). destruct (rep_item _ _ _ R1 _ _ _ In_n) as (a1 & a2 & Ea).
    assert (Nn : n <> x) by (intros ->; exact (Hout p (in_fst _ _ _ In_n))). assert (Nni : n <> i) by (intros ->; apply N2; left; reflexivity).
    erewrite wr_i_ok by (cbn [h_items]; rewrite !upd_other by auto; exact Ea). cbn [bind]. erewrite wr_i_ok by (cbn [h_items]; rewrite !upd_other by auto; exact Ei).
    eexists _, _. split; [reflexivity|]. cbn [h_nodes h_ifresh h_nfresh h_items]. apply Fin.
    + intros y. unfold upd. cbn [hd_or is]. destruct (Nat.eqb_spec y i), (Nat.eqb_spec y x), (Nat.eqb_spec y n); try (exfalso; congruence); try reflexivity. subst. rewrite Ea. reflexivity.
    + intros q. destruct (Nat.eqb_spec q p); [subst; rewrite En|reflexivity]. cbn [option_map]. rewrite E in El. rewrite last_or_app in El. cbn [last_or] in *. rewrite <- El. destruct nd; reflexivity.
Qed.

(** ** taking an item out *)
Lemma rep_unlink h s ch p a c l1 l2 b : Rep h s ch -> ch p = l1 ++ (a, c) :: l2 -> (b = false -> l1 <> [] /\ l2 <> []) ->
  exists h', unlink h a b = Ok h' /\ Rep h' (Fam (f_new s) (f_nodes s) (set_kids (f_kids s) p (map snd l1 ++ map snd l2))) (setch ch p (l1 ++ l2)).
Proof.
  intros R E B. pose proof (r_seg _ _ _ R p) as S. rewrite E in S. pose proof (seg_mid _ _ _ _ _ _ _ _ S) as Ea.
  assert (Ip : In p (f_nodes s)) by (eapply (rep_in _ _ _ R); rewrite E; apply in_or_app; right; left; reflexivity).
  destruct (rep_node _ _ _ R p Ip) as (nd & En). destruct (r_ends _ _ _ R p nd En) as [Ef El]. rewrite E in Ef, El.
  pose proof (r_nodup _ _ _ R p) as N. rewrite E in N. destruct (nodup_mid _ _ _ _ N) as (N1 & N2 & D).
  assert (Fin : forall m' n', (forall x, m' x = if Nat.eqb x a then option_map (fun it => Item (i_kind it) (i_data it) (i_parent it) None None) (h_items h x)
     else if is (last_or l1 None) x then option_map (w_next (hd_or l2 None)) (h_items h x)
     else if is (hd_or l2 None) x then option_map (w_prev (last_or l1 None)) (h_items h x) else h_items h x) ->
    (forall q, n' q = if Nat.eqb q p then option_map (fun n => Nod (hd_or (l1 ++ l2) None) (last_or (l1 ++ l2) None) (n_holder n)) (h_nodes h q) else h_nodes h q) ->
    Rep (Heap m' n' (h_ifresh h) (h_nfresh h)) (Fam (f_new s) (f_nodes s) (set_kids (f_kids s) p (map snd l1 ++ map snd l2))) (setch ch p (l1 ++ l2))).
  { intros m' n' Hm Hn. rewrite <- map_app. eapply (rep_cut h s ch _ p a c l1 l2); [exact R|exact E|exact Hm|exact Hn|reflexivity|reflexivity]. }
  unfold unlink, rd_i. rewrite Ea. cbn [of_option bind i_prev i_next].
  destruct (snoc_cases l1) as [->|(r & [u cu] & ->)]; destruct l2 as [|[v cv] t]; cbn [last_or hd_or] in Ea |- *; rewrite ?last_or_snoc in *.
  - cbn [of_option bind i_prev i_next i_parent]. rewrite Ea. cbn [of_option bind i_prev i_next i_parent]. rewrite Ea. destruct b; [|destruct (B eq_refl) as [B1 _]; contradiction].
    cbn [bind i_prev i_next i_parent deref of_option last_or hd_or]. rewrite (wr_n_ok _ _ _ _ En). cbn [bind]. erewrite wr_n_ok by (cbn [h_nodes]; apply upd_same). cbn [bind].
    erewrite wr_i_ok by (cbn [h_items]; exact Ea). cbn [bind]. erewrite wr_i_ok by (cbn [h_items]; apply upd_same). eexists. split; [reflexivity|]. cbn [h_items h_nodes h_ifresh h_nfresh]. apply Fin.
    + intros x. unfold upd. cbn [last_or hd_or is]. destruct (Nat.eqb_spec x a); [subst; rewrite Ea|]; reflexivity.
    + intros q. unfold upd. destruct (Nat.eqb_spec q p); [subst; rewrite En|]; reflexivity.
  - assert (Nv : v <> a) by (intros ->; apply N2; left; reflexivity).
    assert (Iv : In (v, cv) (ch p)) by (rewrite E; right; left; reflexivity). destruct (rep_item _ _ _ R _ _ _ Iv) as (v1 & v2 & Ev).
    cbn [of_option bind i_prev i_next i_parent]. rewrite Ea. cbn [of_option bind i_prev i_next i_parent]. rewrite (wr_i_ok _ _ _ _ Ev). cbn [bind h_items]. rewrite upd_other by auto. rewrite Ea.
    destruct b; [|destruct (B eq_refl) as [B1 _]; contradiction].
    cbn [bind i_prev i_next i_parent deref of_option last_or hd_or]. erewrite wr_n_ok by exact En. cbn [bind].
    erewrite wr_i_ok by (cbn [h_items]; rewrite upd_other by auto; exact Ea). cbn [bind]. erewrite wr_i_ok by (cbn [h_items]; apply upd_same). eexists. split; [reflexivity|]. cbn [h_items h_nodes h_ifresh h_nfresh]. apply Fin.
    + intros x. unfold upd. cbn [last_or hd_or is]. destruct (Nat.eqb_spec x a); [subst; rewrite Ea|]; [reflexivity|]. destruct (Nat.eqb_spec x v); [subst; rewrite Ev|]; reflexivity.
    + intros q. unfold upd. destruct (Nat.eqb_spec q p); [subst; rewrite En|reflexivity]. cbn [option_map app hd_or last_or] in *. rewrite <- El. reflexivity.
  - assert (Nu : u <> a) by (intros ->; apply N1; rewrite map_app; apply in_or_app; right; left; reflexivity).
    assert (Iu : In (u, cu) (ch p)) by (rewrite E; apply in_or_app; left; apply in_or_app; right; left; reflexivity). destruct (rep_item _ _ _ R _ _ _ Iu) as (u1 & u2 & Eu).
    erewrite wr_i_ok by exact Eu. cbn [bind h_items]. rewrite upd_other by auto. rewrite Ea. cbn [of_option bind i_prev i_next i_parent h_items]. rewrite upd_other by auto. rewrite Ea.
    destruct b; [|destruct (B eq_refl) as [_ B1]; contradiction].
    cbn [bind i_prev i_next i_parent deref of_option hd_or]. rewrite ?last_or_snoc. cbn [bind]. erewrite wr_n_ok by exact En. cbn [bind].
    erewrite wr_i_ok by (cbn [h_items]; rewrite upd_other by auto; exact Ea). cbn [bind]. erewrite wr_i_ok by (cbn [h_items]; apply upd_same). eexists. split; [reflexivity|]. cbn [h_items h_nodes h_ifresh h_nfresh]. apply Fin.
    + intros x. rewrite ?last_or_snoc. unfold upd. cbn [last_or hd_or is]. destruct (Nat.eqb_spec x a); [subst; rewrite Ea; cbn; rewrite ?last_or_snoc|]; [reflexivity|]. destruct (Nat.eqb_spec x u); [subst; rewrite Eu|]; reflexivity.
    + intros q. unfold upd. destruct (Nat.eqb_spec q p); [subst; rewrite En|reflexivity]. cbn [option_map]. unfold w_last. rewrite app_nil_r, last_or_snoc, Ef. f_equal. f_equal. rewrite !hd_or_app. destruct r as [|[? ?] ?]; reflexivity.
  - assert (Nu : u <> a) by (intros ->; apply N1; rewrite map_app; apply in_or_app; right; left; reflexivity).
    assert (Iu : In (u, cu) (ch p)) by (rewrite E; apply in_or_app; left; apply in_or_app; right; left; reflexivity). destruct (rep_item _ _ _ R _ _ _ Iu) as (u1 & u2 & Eu).
    assert (Nv : v <> a) by (intros ->; apply N2; left; reflexivity).
    assert (Iv : In (v, cv) (ch p)) by (rewrite E; apply in_or_app; right; right; left; reflexivity). destruct (rep_item _ _ _ R _ _ _ Iv) as (v1 & v2 & Ev).
    assert (Nuv : v <> u) by (intros ->; apply (D u); [rewrite map_app; apply in_or_app; right; left; reflexivity|left; reflexivity]).
    erewrite wr_i_ok by exact Eu. cbn [bind h_items]. rewrite upd_other by auto. rewrite Ea. cbn [of_option bind i_prev i_next i_parent h_items].
    erewrite wr_i_ok by (cbn [h_items]; rewrite upd_other by auto; exact Ev). cbn [bind h_items]. rewrite !upd_other by auto. rewrite Ea.
    cbn [of_option bind i_prev i_next i_parent hd_or]. rewrite ?last_or_snoc. cbn [bind]. match goal with |- context [if b then ?e else ?f] => replace (if b then e else f) with f by (destruct b; reflexivity) end. cbn [bind].
    erewrite wr_i_ok by (cbn [h_items]; rewrite !upd_other by auto; exact Ea). cbn [bind]. erewrite wr_i_ok by (cbn [h_items]; apply upd_same). eexists. split; [reflexivity|]. cbn [h_items h_nodes h_ifresh h_nfresh]. apply Fin.
    + intros x. rewrite ?last_or_snoc. unfold upd. cbn [last_or hd_or is]. destruct (Nat.eqb_spec x a); [subst; rewrite Ea; cbn; rewrite ?last_or_snoc|]; [reflexivity|].
      destruct (Nat.eqb_spec x v); [destruct (Nat.eqb_spec x u); [congruence|subst; rewrite Ev; reflexivity]|]. destruct (Nat.eqb_spec x u); [subst; rewrite Eu|]; reflexivity.
    + intros q. destruct (Nat.eqb_spec q p); [subst; rewrite En|reflexivity]. cbn [option_map]. rewrite !last_or_app in *. rewrite !hd_or_app in *. cbn [last_or hd_or] in *. destruct nd; cbn in *. subst. destruct r as [|[? ?] ?]; reflexivity.
Qed.
Lemma cut_mid (l1 : list child) c l2 k : length l1 = k -> cut k (l1 ++ c :: l2) = l1 ++ l2.
Proof.
  intros <-. unfold cut. rewrite firstn_app, Nat.sub_diag, firstn_all, firstn_O, app_nil_r. rewrite skipn_app, skipn_all2 by lia. replace (S (length l1) - length l1) with 1 by lia. reflexivity.
Qed.
Lemma put_at (l1 c l2 : list child) k : length l1 = k -> put k c (l1 ++ l2) = l1 ++ c ++ l2.
Proof.
  intros <-. unfold put. rewrite firstn_app, Nat.sub_diag, firstn_all, firstn_O, app_nil_r. rewrite skipn_app, skipn_all, Nat.sub_diag. reflexivity.
Qed.
Lemma put_mid (l1 : list child) c d l2 k : length l1 = k -> put (S k) d (l1 ++ c :: l2) = l1 ++ c :: d ++ l2.
Proof.
  intros <-. change (c :: l2) with ([c] ++ l2). rewrite app_assoc. rewrite put_at by (rewrite app_length; cbn; lia). rewrite <- app_assoc. reflexivity.
Qed.
Lemma rep_node_remove h s ch n p k : Rep h s ch -> parent s n = Some p -> place n (f_kids s p) = Some k ->
  exists h' ch', node_remove h n = Ok h' /\ Rep h' (Fam (f_new s) (f_nodes s) (set_kids (f_kids s) p (cut k (f_kids s p)))) ch'.
Proof.
  intros R P K. destruct (rep_place _ _ _ R n p k P K) as (e1 & a & e2 & nd & E & L & Ip & _ & En & Eh).
  assert (Ia : In (a, (KNode, n)) (ch p)) by (rewrite E; apply in_or_app; right; left; reflexivity). destruct (rep_item _ _ _ R _ _ _ Ia) as (x & y & Ea).
  unfold node_remove, rd_n. rewrite En. cbn [of_option bind]. rewrite Eh. unfold holder_parent, rd_i. rewrite Ea. cbn [of_option bind i_parent].
  destruct (rep_unlink h s ch p a (KNode, n) e1 e2 true R E ltac:(discriminate)) as (h' & E' & R'). exists h', (setch ch p (e1 ++ e2)). split; [exact E'|].
  rewrite (r_kids _ _ _ R p Ip), E, map_app. cbn [map snd]. rewrite cut_mid by (rewrite map_length; exact L). exact R'.
Qed.
Lemma rep_node_set_after h s ch r p k n : Rep h s ch -> parent s r = Some p -> place r (f_kids s p) = Some k -> alone s n = true ->
  exists h' ch', node_set_child_after h r n = Ok h' /\ Rep h' (Fam (f_new s) (f_nodes s) (set_kids (f_kids s) p (put (S k) [(KNode, n)] (f_kids s p)))) ch'.
Proof.
  intros R P K A. destruct (rep_place _ _ _ R r p k P K) as (e1 & a & e2 & nd & E & L & Ip & _ & En & Eh).
  unfold node_set_child_after, rd_n. rewrite En. cbn [of_option bind]. rewrite Eh. cbn [deref of_option bind].
  destruct (rep_set_after h s ch p a (KNode, r) e1 e2 KNode n R E) as (h' & ch' & E' & R'); [exact A|]. exists h', ch'. split; [exact E'|].
  rewrite (r_kids _ _ _ R p Ip), E, map_app. cbn [map snd]. rewrite put_mid by (rewrite map_length; exact L). exact R'.
Qed.

(** ** replacing *)
Lemma rep_node_replace h s ch n p k x : Rep h s ch -> parent s n = Some p -> place n (f_kids s p) = Some k -> alone s x = true ->
  exists h' ch', node_replace h n x = Ok h' /\ Rep h' (Fam (f_new s) (f_nodes s) (set_kids (f_kids s) p (put k [(KNode, x)] (cut k (f_kids s p))))) ch'.
Proof.
  intros R P K A. destruct (rep_place _ _ _ R n p k P K) as (e1 & a & e2 & nd & E & L & Ip & In_n & En & Eh).
  destruct (rep_alone _ _ _ R x A) as [Ix Ax]. destruct (rep_node _ _ _ R x Ix) as (xd & Ex).
  assert (Ia : In (a, (KNode, n)) (ch p)) by (rewrite E; apply in_or_app; right; left; reflexivity).
  assert (Nx : x <> n) by (intros ->; exact (Ax p a _ Ia eq_refl)).
  pose proof (r_seg _ _ _ R p) as S. rewrite E in S. pose proof (seg_mid _ _ _ _ _ _ _ _ S) as Ea. cbn [fst snd] in Ea.
  pose proof (r_nodup _ _ _ R p) as N. rewrite E in N. destruct (nodup_mid _ _ _ _ N) as (N1 & N2 & D).
  unfold node_replace, rd_n. rewrite En. cbn [of_option bind]. rewrite Eh. unfold holder_parent, rd_i. rewrite Ea. cbn [of_option bind i_parent].
  rewrite (wr_i_ok _ _ _ _ Ea). cbn [bind]. erewrite wr_n_ok by (cbn [h_nodes]; exact En). cbn [bind].
  erewrite wr_n_ok by (cbn [h_nodes]; rewrite upd_other by auto; exact Ex). eexists _, (setch ch p (e1 ++ [(a, (KNode, x))] ++ e2)). split; [reflexivity|].
  rewrite (r_kids _ _ _ R p Ip), E, map_app. cbn [map snd]. rewrite cut_mid by (rewrite map_length; exact L). rewrite put_at by (rewrite map_length; exact L).
  change (map snd e1 ++ [(KNode, x)] ++ map snd e2) with (map snd e1 ++ map snd ([(a, (KNode, x))] ++ e2)). rewrite <- map_app.
  apply (rep_splice h s ch _ p e1 [(a, (KNode, n))] [(a, (KNode, x))] e2); [exact R|exact Ip|exact E| | | | | | | | | | | | | |reflexivity]; cbn [h_items h_nodes h_ifresh].
  - intros q. unfold upd. destruct (Nat.eqb_spec q x); [subst; rewrite Ex; split; discriminate|]. destruct (Nat.eqb_spec q n); [subst; rewrite En; split; discriminate|tauto].
  - intros q n' Nq. unfold upd. destruct (Nat.eqb_spec q x); [subst; intros H; injection H as <-; eauto|]. destruct (Nat.eqb_spec q n); [subst; intros H; injection H as <-; eauto|eauto].
  - intros n'. assert (X : forall o, h_nodes h p = Some o -> n_first o = hd_or (e1 ++ [(a, (KNode, x))] ++ e2) None /\ n_last o = last_or (e1 ++ [(a, (KNode, x))] ++ e2) None).
    { intros o Eo. destruct (r_ends _ _ _ R p o Eo) as [X1 X2]. rewrite E in X1, X2. rewrite hd_or_app in *. rewrite last_or_app in *. auto. }
    unfold upd. destruct (Nat.eqb_spec p x) as [e|]; [rewrite <- e in Ex; intros H; injection H as <-; exact (X _ Ex)|].
    destruct (Nat.eqb_spec p n) as [e|]; [rewrite <- e in En; intros H; injection H as <-; exact (X _ En)|apply X].
  - intros y it I Ey. assert (y <> a) by (intros ->; contradiction). rewrite upd_other by assumption. rewrite Ey. f_equal. destruct (is (last_or e1 None) y) eqn:El; [|reflexivity].
    apply is_eq in El. apply fst_in in I as (cy & I). destruct (snoc_cases e1) as [->|(r & [u cu] & ->)]; [discriminate|]. rewrite last_or_snoc in El. injection El as <-.
    rewrite <- app_assoc in S. cbn [app] in S. pose proof (seg_mid _ _ _ _ _ _ _ _ S) as Eu. rewrite Ey in Eu. injection Eu as ->. reflexivity.
  - intros y it I Ey. assert (y <> a) by (intros ->; contradiction). rewrite upd_other by assumption. rewrite Ey. f_equal. destruct (is (hd_or e2 None) y) eqn:El; [|reflexivity].
    apply is_eq in El. destruct e2 as [|[u cu] e2]; [discriminate|]. cbn [hd_or] in El. injection El as <-.
    change ((a, (KNode, n)) :: (u, cu) :: e2) with ([(a, (KNode, n))] ++ (u, cu) :: e2) in S. rewrite app_assoc in S. pose proof (seg_mid _ _ _ _ _ _ _ _ S) as Eu. rewrite Ey in Eu. injection Eu as ->.
    rewrite !last_or_snoc. reflexivity.
  - cbn [seg]. rewrite upd_same. auto.
  - intros q y Nq I. apply upd_other. intros ->. apply (r_disj _ _ _ R q p a Nq I). eapply in_fst, Ia.
  - intros b it Eb Nb Nq. rewrite upd_other in Eb by (intros ->; apply Nb; rewrite map_app; apply in_or_app; right; left; reflexivity).
    apply (r_loose _ _ _ R b it Eb). intros q. destruct (Nat.eq_dec q p) as [->|Ne]; [|auto]. rewrite E. rewrite map_app in *. exact Nb.
  - rewrite map_app in *. exact N.
  - intros y q [<-|[]] Nq I. apply (r_disj _ _ _ R q p a Nq I). eapply in_fst, Ia.
  - intros q b m I. assert (X : (b = a /\ m = x /\ q = p) \/ (In (b, (KNode, m)) (ch q) /\ b <> a)).
    { destruct (Nat.eq_dec q p) as [->|Nq].
      - rewrite setch_same in I. rewrite E. apply in_app_or in I as [I|[I|I]].
        + right. split; [apply in_or_app; auto|]. intros ->. apply N1. eapply in_fst, I.
        + injection I as <- <-. auto.
        + right. split; [apply in_or_app; right; right; auto|]. intros ->. apply N2. eapply in_fst, I.
      - rewrite setch_other in I by exact Nq. right. split; [exact I|]. intros ->. apply (r_disj _ _ _ R q p a Nq); eapply in_fst; eassumption. }
    destruct X as [(-> & -> & ->)|(I' & Nb)]; [rewrite upd_same; eauto|]. destruct (r_holder _ _ _ R q b m I') as (md & Em & Hm).
    assert (m <> x) by (intros ->; exact (Ax q b _ I' eq_refl)). assert (m <> n) by (intros ->; congruence). rewrite !upd_other by assumption. eauto.
  - intros m md b. unfold upd. destruct (Nat.eqb_spec m x).
    + subst m. intros H Hb. injection H as <-. cbn in Hb. injection Hb as <-. rewrite Nat.eqb_refl. eexists. split; [reflexivity|auto].
    + destruct (Nat.eqb_spec m n); [intros H Hb; injection H as <-; discriminate|]. intros Em Hb. destruct (r_held _ _ _ R m md b Em Hb) as (it & Eb & Kb & Db).
      destruct (Nat.eqb_spec b a); [|eauto]. exfalso. subst b. rewrite Ea in Eb. injection Eb as <-. cbn in Db. congruence.
  - intros b Hb. apply (r_ifresh _ _ _ R). unfold upd in Hb. destruct (Nat.eqb_spec b a); [subst; congruence|exact Hb].
Qed.

