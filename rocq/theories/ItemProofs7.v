(** Looking at the tree, and all the calls together. *)
From Verif Require Import Prelude ItemModel ItemSpec ItemExec ItemProofs ItemProofs2 ItemProofs3 ItemProofs4 ItemProofs5 ItemProofs6.
From Coq Require Import Lia.
Open Scope list_scope.

Lemma walk_next_seg h p n : forall l pr fuel, n = None -> seg (h_items h) p pr l n -> length l <= fuel -> walk_next fuel h (hd_or l None) = Ok (map fst l).
Proof.
  intros l. induction l as [|[a c] l IH]; intros pr fuel -> S L; [destruct fuel; reflexivity|]. cbn [length] in L. destruct fuel as [|fuel]; [lia|].
  cbn [seg] in S. destruct S as [S1 S2]. cbn [hd_or walk_next map fst]. unfold rd_i. rewrite S1. cbn [of_option bind i_next]. rewrite (IH (Some a) fuel eq_refl S2) by lia. reflexivity.
Qed.
Lemma walk_prev_seg h p : forall l n fuel, seg (h_items h) p None l n -> length l <= fuel -> walk_prev fuel h (last_or l None) = Ok (rev (map fst l)).
Proof.
  intros l. induction l as [|[a c] l IH] using rev_ind; intros n fuel S L; [destruct fuel; reflexivity|]. rewrite app_length in L. cbn [length] in L. destruct fuel as [|fuel]; [lia|].
  rewrite last_or_snoc. cbn [walk_prev]. unfold rd_i. rewrite (seg_last _ _ _ _ _ _ _ S). cbn [of_option bind i_prev]. apply seg_app in S as [S _].
  rewrite (IH _ fuel S) by lia. cbn [bind]. rewrite map_app, rev_app_distr. reflexivity.
Qed.
Lemma seek_next_seg h p : forall l pr fuel, seg (h_items h) p pr l None -> length l <= fuel -> seek fuel h i_next (hd_or l None) = Ok (first_node (map snd l)).
Proof.
  intros l. induction l as [|[a [k d]] l IH]; intros pr fuel S L; [destruct fuel; reflexivity|]. cbn [length] in L. destruct fuel as [|fuel]; [lia|].
  cbn [seg fst snd] in S. destruct S as [S1 S2]. cbn [hd_or seek map snd]. unfold rd_i. rewrite S1. cbn [of_option bind i_kind i_data i_next]. destruct k; cbn [is_node first_node]; try reflexivity; eapply IH; try eassumption; lia.
Qed.
Lemma seek_prev_seg h p : forall l n fuel, seg (h_items h) p None l n -> length l <= fuel -> seek fuel h i_prev (last_or l None) = Ok (first_node (rev (map snd l))).
Proof.
  intros l. induction l as [|[a [k d]] l IH] using rev_ind; intros n fuel S L; [destruct fuel; reflexivity|]. rewrite app_length in L. cbn [length] in L. destruct fuel as [|fuel]; [lia|].
  rewrite last_or_snoc. cbn [seek]. unfold rd_i. rewrite (seg_last _ _ _ _ _ _ _ S). cbn [of_option bind i_kind i_data i_prev fst snd]. rewrite map_app, rev_app_distr. cbn [map snd rev app].
  apply seg_app in S as [S _]. destruct k; cbn [is_node first_node]; try reflexivity; eapply IH; try eassumption; lia.
Qed.

Lemma skip_mid (l1 : list child) c l2 k : length l1 = k -> skipn (S k) (l1 ++ c :: l2) = l2.
Proof. intros <-. rewrite skipn_app, skipn_all2 by lia. replace (S (length l1) - length l1) with 1 by lia. reflexivity. Qed.
Lemma first_mid (l1 l2 : list child) k : length l1 = k -> firstn k (l1 ++ l2) = l1.
Proof. intros <-. rewrite firstn_app, Nat.sub_diag, firstn_all, firstn_O, app_nil_r. reflexivity. Qed.

Lemma inside_mid (l1 : list child) c l2 k : length l1 = k -> inside (l1 ++ c :: l2) k = true -> fst c <> KNode -> l1 <> [] /\ l2 <> [].
Proof.
  intros <- F K. unfold inside in F. rewrite nth_error_app2, Nat.sub_diag in F by lia. cbn [nth_error] in F. destruct c as [kc dc]. cbn [fst] in K.
  assert (F' : (0 <? length l1) && (S (length l1) <? length (l1 ++ (kc, dc) :: l2)) = true) by (destruct kc; [contradiction|exact F..]).
  apply andb_prop in F' as [F1 F2]. apply Nat.ltb_lt in F1, F2. rewrite app_length in F2. cbn [length] in F2. split; intros ->; cbn [length] in *; lia.
Qed.

Section See.
Variable h : heap.
Variable s : fam.
Variable ch : chain.
Hypothesis R : Rep h s ch.

Lemma rep_childs p : In p (f_nodes s) -> childs h p = Ok (map fst (ch p)).
Proof.
  intros Ip. destruct (rep_node _ _ _ R p Ip) as (nd & E). unfold childs, rd_n. rewrite E. cbn [of_option bind]. rewrite (proj1 (r_ends _ _ _ R p nd E)).
  eapply walk_next_seg; [reflexivity|apply R|eapply chain_length, R].
Qed.
Lemma rep_childs_back p : In p (f_nodes s) -> childs_back h p = Ok (rev (map fst (ch p))).
Proof.
  intros Ip. destruct (rep_node _ _ _ R p Ip) as (nd & E). unfold childs_back, rd_n. rewrite E. cbn [of_option bind]. rewrite (proj2 (r_ends _ _ _ R p nd E)).
  eapply walk_prev_seg; [apply R|eapply chain_length, R].
Qed.
Lemma rep_shown p : known s p = true -> items_shown h s p.
Proof.
  intros K. apply rep_known in K. exists (map fst (ch p)). split; [apply rep_childs, K|]. split; [apply rep_childs_back, K|]. rewrite (r_kids _ _ _ R p K). split; [rewrite !map_length; reflexivity|].
  intros k i E. rewrite nth_error_map in E. destruct (@nth_error (nat * child) (ch p) k) as [[a c]|] eqn:Ek; [|discriminate]. injection E as <-.
  destruct (rep_item _ _ _ R p a c (nth_error_In _ _ Ek)) as (x & y & Ea). eexists. split; [exact Ea|]. split; [|reflexivity]. rewrite nth_error_map, Ek. destruct c. reflexivity.
Qed.
Lemma rep_apart : items_apart h s.
Proof.
  intros p q l1 l2 Kp Kq E1 E2. apply rep_known in Kp. apply rep_known in Kq. rewrite rep_childs in E1, E2 by assumption. injection E1 as <-. injection E2 as <-. split; [apply R|].
  intros N x I. exact (r_disj _ _ _ R p q x N I).
Qed.
Lemma rep_first p : known s p = true -> node_first_child h p = Ok (first_node (f_kids s p)).
Proof.
  intros K. apply rep_known in K. destruct (rep_node _ _ _ R p K) as (nd & E). unfold node_first_child, rd_n. rewrite E. cbn [of_option bind]. rewrite (proj1 (r_ends _ _ _ R p nd E)), (r_kids _ _ _ R p K).
  eapply seek_next_seg; [apply R|eapply chain_length, R].
Qed.
Lemma rep_last p : known s p = true -> node_last_child h p = Ok (first_node (rev (f_kids s p))).
Proof.
  intros K. apply rep_known in K. destruct (rep_node _ _ _ R p K) as (nd & E). unfold node_last_child, rd_n. rewrite E. cbn [of_option bind]. rewrite (proj2 (r_ends _ _ _ R p nd E)), (r_kids _ _ _ R p K).
  eapply seek_prev_seg; [apply R|eapply chain_length, R].
Qed.
Lemma rep_around n p : parent s n = Some p ->
  node_get_parent h n = Ok (Some p) /\ node_get_next h n = Ok (after_node n (f_kids s p)) /\ node_get_previous h n = Ok (before_node n (f_kids s p)).
Proof.
  intros P. destruct (parent_some _ _ _ P) as [Ip (k & K)]. destruct (rep_place _ _ _ R n p k P K) as (e1 & a & e2 & nd & E & L & _ & _ & En & Eh).
  pose proof (r_seg _ _ _ R p) as S. rewrite E in S. pose proof (seg_mid _ _ _ _ _ _ _ _ S) as Ea. pose proof (chain_length _ _ _ p R) as Lc. rewrite E in Lc.
  assert (Lc2 : length e1 + Datatypes.S (length e2) <= h_ifresh h) by (pose proof (app_length e1 ((a, (KNode, n)) :: e2)) as X; cbn [length] in X; rewrite <- X; exact Lc). clear Lc.
  apply seg_app in S as [S1 S2]. cbn [seg] in S2. destruct S2 as [_ S2].
  unfold node_get_parent, node_get_next, node_get_previous, rd_n. rewrite En. cbn [of_option bind]. rewrite Eh. unfold holder_parent, rd_i. rewrite Ea. cbn [of_option bind i_parent i_next i_prev].
  split; [reflexivity|]. unfold after_node, before_node. rewrite K, (r_kids _ _ _ R p Ip), E, map_app. cbn [map snd].
  assert (Lm : length (map snd e1) = k) by (rewrite map_length; exact L). split.
  - assert (B2 : length e2 <= h_ifresh h) by lia. rewrite (seek_next_seg h p e2 (Some a) _ S2 B2). f_equal. f_equal. symmetry. apply skip_mid. exact Lm.
  - assert (B1 : length e1 <= h_ifresh h) by lia. rewrite (seek_prev_seg h p e1 _ _ S1 B1). f_equal. f_equal. f_equal. symmetry. apply first_mid. exact Lm.
Qed.
Lemma rep_nowhere n : alone s n = true -> node_get_next h n = Ok None /\ node_get_previous h n = Ok None.
Proof.
  intros A. destruct (rep_alone _ _ _ R n A) as [I Na]. destruct (rep_node _ _ _ R n I) as (nd & E). unfold node_get_next, node_get_previous, rd_n. rewrite E. cbn [of_option bind].
  destruct (n_holder nd) as [a|] eqn:Eh; [|auto]. destruct (r_held _ _ _ R n nd a E Eh) as (it & Ea & Ka & Da). unfold rd_i. rewrite Ea. cbn [of_option bind].
  destruct (r_loose _ _ _ R a it Ea) as [-> ->].
  - intros p J. apply fst_in in J as (c & J). apply (Na p a c J). eapply rep_held; eassumption.
  - destruct (h_ifresh h); auto.
Qed.
Lemma rep_nth p k : In p (f_nodes s) -> k < length (f_kids s p) -> exists e1 a c e2, ch p = e1 ++ (a, c) :: e2 /\ length e1 = k /\ nth_item h p k = Ok a /\ nth_error (f_kids s p) k = Some c.
Proof.
  intros Ip L. rewrite (r_kids _ _ _ R p Ip) in *. rewrite map_length in L. unfold nth_item. rewrite (rep_childs p Ip). cbn [bind].
  destruct (@nth_error (nat * child) (ch p) k) as [[a c]|] eqn:E; [|apply nth_error_None in E; unfold entry in *; lia].
  destruct (nth_error_split _ _ E) as (e1 & e2 & Es & El). exists e1, a, c, e2. split; [exact Es|]. split; [exact El|]. rewrite !nth_error_map, E. auto.
Qed.
End See.

Lemma exec_step h s ch o s' : Rep h s ch -> step_fam s o = Some s' -> fits s o = true -> exists h' ch', exec h o = Ok h' /\ Rep h' s' ch'.
Proof.
  intros R E F. destruct o as [|p [k d]|p k c|r n|n|n x|p k|p k c|p q|p q k]; cbn [step_fam exec fits] in *.
  - destruct (rep_node_new h s ch R) as (s2 & ch' & E2 & R'). cbn [step_fam] in E2. rewrite E in E2. injection E2 as <-. eauto.
  - unfold guard in E. destruct (known s p && may_hold s (k, d)) eqn:G; [|discriminate]. apply andb_prop in G as [G1 G2]. injection E as <-. apply rep_known in G1.
    destruct (rep_item_set_child h s ch p k d R G1 G2) as (h' & ch' & E' & R'). exists h', ch'. split; [|exact R']. destruct k; exact E'.
  - unfold guard in E. destruct (known s p && (k <? length (f_kids s p)) && may_hold s c) eqn:G; [|discriminate]. apply andb_prop in G as [G G3]. apply andb_prop in G as [G1 G2]. injection E as <-. apply rep_known in G1. apply Nat.ltb_lt in G2.
    destruct (rep_nth h s ch R p k G1 G2) as (e1 & a & c0 & e2 & Ec & L & En & _). rewrite En. cbn [bind]. destruct c as [kd d]. destruct (rep_set_after h s ch p a c0 e1 e2 kd d R Ec G3) as (h' & ch' & E' & R'). exists h', ch'. split; [exact E'|].
    rewrite (r_kids _ _ _ R p G1), Ec, map_app. cbn [map snd]. rewrite put_mid by (rewrite map_length; exact L). exact R'.
  - destruct (parent s r) as [p|] eqn:P; [|discriminate]. destruct (place r (f_kids s p)) as [k|] eqn:K; [|discriminate]. unfold guard in E. destruct (alone s n) eqn:A; [|discriminate]. injection E as <-.
    eapply rep_node_set_after; eassumption.
  - destruct (parent s n) as [p|] eqn:P; [|discriminate]. destruct (place n (f_kids s p)) as [k|] eqn:K; [|discriminate]. injection E as <-. eapply rep_node_remove; eassumption.
  - destruct (parent s n) as [p|] eqn:P; [|discriminate]. destruct (place n (f_kids s p)) as [k|] eqn:K; [|discriminate]. unfold guard in E. destruct (alone s x) eqn:A; [|discriminate]. injection E as <-. eapply rep_node_replace; eassumption.
  - unfold guard in E. destruct (known s p && (k <? length (f_kids s p))) eqn:G; [|discriminate]. apply andb_prop in G as [G1 G2]. injection E as <-. apply rep_known in G1. apply Nat.ltb_lt in G2.
    destruct (rep_nth h s ch R p k G1 G2) as (e1 & a & c0 & e2 & Ec & L & En & Ek). rewrite En. cbn [bind].
    assert (Ia : In (a, c0) (ch p)) by (rewrite Ec; apply in_or_app; right; left; reflexivity). destruct (rep_item _ _ _ R _ _ _ Ia) as (x & y & Ea).
    unfold item_remove, rd_i. rewrite Ea. cbn [of_option bind i_kind].
    destruct (rep_unlink h s ch p a c0 e1 e2 (is_node (fst c0)) R Ec) as (h' & E' & R').
    + intros Kn. rewrite (r_kids _ _ _ R p G1), Ec, map_app in F. apply inside_mid in F as [F1 F2]; [|rewrite map_length; exact L|intros X; cbn in X; rewrite X in Kn; discriminate].
      split; intros ->; contradiction.
    + exists h', (setch ch p (e1 ++ e2)). split; [exact E'|]. rewrite (r_kids _ _ _ R p G1), Ec, map_app. cbn [map snd]. rewrite cut_mid by (rewrite map_length; exact L). exact R'.
  - unfold guard in E. destruct (known s p && (k <? length (f_kids s p)) && may_hold s c) eqn:G; [|discriminate]. apply andb_prop in G as [G G3]. apply andb_prop in G as [G1 G2]. injection E as <-. apply rep_known in G1. apply Nat.ltb_lt in G2.
    destruct (rep_nth h s ch R p k G1 G2) as (e1 & a & c0 & e2 & Ec & L & En & Ek). rewrite En. cbn [bind]. destruct c as [kd d]. cbn [fst snd].
    destruct (rep_new_ref h s ch kd d R G3) as (h1 & x & E1 & R1 & Rd). rewrite E1. cbn [bind].
    destruct (rep_item_replace h1 s ch p a c0 x (kd, d) e1 e2 R1 Rd Ec) as (h' & E' & R').
    + intros Kn. rewrite (r_kids _ _ _ R p G1), Ec, map_app in F. apply inside_mid in F as [F1 F2]; [|rewrite map_length; exact L|exact Kn].
      split; intros ->; contradiction.
    + exists h', (setch ch p (e1 ++ (x, (kd, d)) :: e2)). split; [exact E'|]. rewrite (r_kids _ _ _ R p G1), Ec, map_app. cbn [map snd]. rewrite cut_mid by (rewrite map_length; exact L). rewrite put_at by (rewrite map_length; exact L). exact R'.
  - unfold guard in E. destruct (known s p && known s q && negb (Nat.eqb p q)) eqn:G; [|discriminate]. apply andb_prop in G as [G G3]. apply andb_prop in G as [G1 G2]. injection E as <-. apply rep_known in G1. apply rep_known in G2.
    apply negb_true_iff, Nat.eqb_neq in G3. apply (rep_transfer h s ch p q R G1 G2 G3).
  - unfold guard in E. destruct (known s p && known s q && negb (Nat.eqb p q) && (k <? length (f_kids s q))) eqn:G; [|discriminate]. apply andb_prop in G as [G G4]. apply andb_prop in G as [G G3]. apply andb_prop in G as [G1 G2]. injection E as <-. apply rep_known in G1. apply rep_known in G2.
    apply negb_true_iff, Nat.eqb_neq in G3. apply Nat.ltb_lt in G4.
    destruct (rep_nth h s ch R q k G2 G4) as (e1 & a & c0 & e2 & Ec & L & En & _). rewrite En. cbn [bind]. destruct (rep_transfer_after h s ch p q a c0 e1 e2 R G1 G3 Ec) as (h' & ch' & E' & R'). exists h', ch'. split; [exact E'|].
    assert (X : put (S k) (f_kids s p) (f_kids s q) = map snd e1 ++ c0 :: f_kids s p ++ map snd e2) by (rewrite (r_kids _ _ _ R q G2), Ec, map_app; cbn [map snd]; apply put_mid; rewrite map_length; exact L).
    rewrite X. exact R'.
Qed.
Lemma run_ok ops : forall h s ch s', Rep h s ch -> run_fam s ops = Some s' -> fit s ops = true -> exists h' ch', run h ops = Ok h' /\ Rep h' s' ch'.
Proof.
  induction ops as [|o ops IH]; intros h s ch s' R E F; cbn [run_fam fit run] in *; [injection E as <-; eauto|].
  destruct (step_fam s o) as [s1|] eqn:Eo; [|discriminate]. apply andb_prop in F as [F1 F2]. destruct (exec_step h s ch o s1 R Eo F1) as (h1 & ch1 & E1 & R1). rewrite E1. cbn [bind]. eapply IH; eassumption.
Qed.

Theorem links ops s : run_fam fam_new ops = Some s -> fit fam_new ops = true ->
  exists h, run heap_new ops = Ok h /\
    (forall p, known s p = true -> items_shown h s p) /\ items_apart h s /\
    (forall p, known s p = true -> node_first_child h p = Ok (first_node (f_kids s p)) /\ node_last_child h p = Ok (first_node (rev (f_kids s p)))) /\
    (forall n p, parent s n = Some p ->
       node_get_parent h n = Ok (Some p) /\ node_get_next h n = Ok (after_node n (f_kids s p)) /\ node_get_previous h n = Ok (before_node n (f_kids s p))) /\
    (forall n, alone s n = true -> node_get_next h n = Ok None /\ node_get_previous h n = Ok None).
Proof.
  intros E F. destruct (run_ok ops heap_new fam_new (fun _ => []) s rep_new E F) as (h & ch & Er & R). exists h. split; [exact Er|].
  split; [apply (rep_shown h s ch R)|]. split; [apply (rep_apart h s ch R)|]. split; [intros p K; split; [apply (rep_first h s ch R p K)|apply (rep_last h s ch R p K)]|].
  split; [apply (rep_around h s ch R)|apply (rep_nowhere h s ch R)].
Qed.
