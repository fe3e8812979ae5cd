(** Each call, and all of them. *)
From Verif Require Import Prelude ItemModel ItemSpec ItemExec ItemProofs ItemProofs2 ItemProofs3 ItemProofs4 ItemProofs5 ItemProofs7 FindSpec FindProofs FindProofs3 FreeModel FreeSpec FreeExec FreeProofs FreeProofs2 FreeProofs3.
Open Scope nat_scope.
Open Scope list_scope.

Lemma rep_room h s ch : Rep h s ch -> h_items h (h_ifresh h) = None.
Proof. intros R. destruct (h_items h (h_ifresh h)) as [it|] eqn:E; [|reflexivity]. exfalso. pose proof (r_ifresh _ _ _ R (h_ifresh h) ltac:(congruence)). lia. Qed.
Lemma hold_in n m l : In m (hold n l) <-> m = n \/ In m l.
Proof. unfold hold. destruct (mem n l) eqn:M; [apply mem_in in M|cbn [In]; split; [intros [->|]; auto|intros [->|]; auto]]. split; [auto|intros [->|]; auto]. Qed.
Lemma hold_nodup n l : NoDup l -> NoDup (hold n l).
Proof. intros N. unfold hold. destruct (mem n l) eqn:M; [exact N|]. constructor; [apply mem_out, M|exact N]. Qed.
Lemma hold_length n l : length (hold n l) + one (mem n l) = S (length l).
Proof. unfold hold. destruct (mem n l); cbn [one length]; lia. Qed.

Section Op.
Variables (h h' : heap) (w : world) (ch ch' : chain) (s' : fam).
Hypothesis H : W h w ch.
Hypothesis R' : Rep h' s' ch'.
Hypothesis Nd : f_nodes s' = f_nodes (w_fam w).

Lemma w_still taken lost : still h h' -> texts s' + taken + lost = texts (w_fam w) + w_taken w + w_lost w -> W h' (World s' (w_held w) taken lost) ch'.
Proof.
  intros S E. destruct H as [R N1 N2 Ho L]. split; cbn [w_fam w_held w_taken w_lost]; auto.
  - rewrite Nd. exact N1.
  - intros n. rewrite (still_held _ _ S n). apply Ho.
  - rewrite (count_same _ _ (still_dom _ _ S)), L. lia.
Qed.
Lemma w_placed c : placed_child h h' c -> texts s' = texts (w_fam w) + one (negb (is_node (fst c))) -> W h' (World s' (hold_child c (w_held w)) (w_taken w) (w_lost w)) ch'.
Proof.
  intros P E. destruct H as [R N1 N2 Ho L]. pose proof (rep_room _ _ _ R) as Rm. destruct c as [k d].
  assert (T : is_node k = false -> one_more h h' /\ same_held h h' -> W h' (World s' (w_held w) (w_taken w) (w_lost w)) ch').
  { intros Ek [M S]. cbn [fst] in E. rewrite Ek in E. cbn [negb one] in E. split; cbn [w_fam w_held w_taken w_lost]; auto.
    - rewrite Nd. exact N1.
    - intros n. rewrite (S n). apply Ho.
    - rewrite (count_more _ _ Rm M), L. lia. }
  destruct k; try exact (T eq_refl P). clear T. cbn [fst is_node negb one] in E. destruct P as [Dm (a & G)]. unfold hold_child. split; cbn [w_fam w_held w_taken w_lost]; auto.
  - rewrite Nd. exact N1.
  - apply hold_nodup, N2.
  - intros n. rewrite hold_in, G, Ho. destruct (Nat.eqb_spec n d) as [->|Nn]; split; try congruence; auto. intros [|]; [congruence|assumption].
  - pose proof (hold_length d (w_held w)) as Hl. destruct (mem d (w_held w)) eqn:M; cbn [one] in Hl.
    + apply mem_in in M. apply Ho in M. destruct (holder h d); [|congruence]. rewrite (count_same _ _ Dm), L. lia.
    + apply mem_out in M. rewrite Ho in M. destruct (holder h d); [exfalso; apply M; discriminate|]. rewrite (count_more _ _ Rm Dm), L. lia.
Qed.
End Op.

Lemma split_at {A} (l : list A) k : k < length l -> exists l1 c l2, l = l1 ++ c :: l2 /\ length l1 = k /\ nth_error l k = Some c.
Proof.
  intros L. destruct (nth_error l k) as [c|] eqn:E; [|apply nth_error_None in E; lia]. destruct (nth_error_split l k E) as (l1 & l2 & -> & L1). eauto 6.
Qed.
Lemma text_one s p k c : nth_error (f_kids s p) k = Some c -> one (text_at s p k) = one (negb (is_node (fst c))).
Proof. unfold text_at. intros ->. destruct c as [[] d]; reflexivity. Qed.
Lemma tx_cut k l c : nth_error l k = Some c -> tx (cut k l) + one (negb (is_node (fst c))) = tx l.
Proof. intros E. destruct (nth_error_split l k E) as (l1 & l2 & -> & L1). rewrite (cut_mid l1 c l2 k L1), !tx_app, tx_cons. lia. Qed.
Lemma tx_put k d l : tx (put k d l) = tx l + tx d.
Proof. unfold put. rewrite !tx_app. pose proof (f_equal tx (firstn_skipn k l)) as E. rewrite tx_app in E. lia. Qed.
Lemma tx_one c : tx [c] = one (negb (is_node (fst c))).
Proof. rewrite tx_cons. cbn. lia. Qed.
Lemma guard_some {A} b (x y : A) : guard b x = Some y -> b = true /\ x = y.
Proof. destruct b; [|discriminate]. intros E. injection E as ->. auto. Qed.
Lemma place_nth n l k : place n l = Some k -> nth_error l k = Some (KNode, n).
Proof. intros P. destruct (place_split _ _ _ P) as (l1 & l2 & -> & L & _). rewrite nth_error_app2 by lia. replace (k - length l1) with 0 by lia. reflexivity. Qed.
Ltac step_out Hs :=
  repeat match type of Hs with
  | guard _ _ = Some _ => apply guard_some in Hs as [?G Hs]
  | match ?x with _ => _ end = Some _ => let E := fresh "E" in destruct x eqn:E; [|discriminate Hs]
  | Some _ = Some _ => injection Hs as Hs
  end.
Ltac split_guard := repeat match goal with G : _ && _ = true |- _ => apply andb_prop in G as [? ?] end.

Lemma op_effect h w ch o w' h' ch' : W h w ch -> step_op w o = Some w' -> fits (w_fam w) o = true -> exec h o = Ok h' -> Rep h' (w_fam w') ch' -> W h' w' ch'.
Proof.
  intros H Es F E R'. pose proof (w_rep _ _ _ H) as R. pose proof (w_nodup _ _ _ H) as N. unfold step_op in Es. destruct (step_fam (w_fam w) o) as [s'|] eqn:Ef; [|discriminate]. cbv zeta in Es. injection Es as <-.
  pose proof (fun p => proj1 (rep_known (w_fam w) p)) as Kn. pose proof (fun p l => texts_set (w_fam w) p l N) as Ts.
  destruct o as [|p c|p k c|r n|n|n x|p k|p k c|p q|p q k]; cbn [w_fam] in R'; cbn [step_fam] in Ef.
  - injection Ef as <-. cbn [exec new_node fst] in E. injection E as <-. destruct H as [_ _ N2 Ho L]. split; cbn [w_fam w_held w_taken w_lost f_nodes]; auto.
    + constructor; [|exact N]. intros J. pose proof (r_nfresh _ _ _ R _ J) as X. rewrite (r_count _ _ _ R) in X. lia.
    + intros n. rewrite Ho. unfold holder. cbn [h_nodes]. unfold upd. destruct (Nat.eqb_spec n (h_nfresh h)) as [->|]; [|reflexivity]. cbn [n_holder].
      destruct (h_nodes h (h_nfresh h)) as [nd|] eqn:En; [|tauto]. exfalso. assert (J : In (h_nfresh h) (f_nodes (w_fam w))) by (apply (r_nodes _ _ _ R); congruence). pose proof (r_nfresh _ _ _ R _ J). lia.
    + change (live_items (Heap (h_items h) (upd (h_nodes h) (h_nfresh h) (Nod None None None)) (h_ifresh h) (S (h_nfresh h)))) with (live_items h). rewrite L. f_equal. f_equal. f_equal. rewrite !texts_tx. cbn [f_nodes f_kids map]. rewrite list_sum_cons.
      assert (Nn : ~ In (f_new (w_fam w)) (f_nodes (w_fam w))) by (intros J; pose proof (r_nfresh _ _ _ R _ J) as X; rewrite (r_count _ _ _ R) in X; lia).
      unfold set_kids at 1. rewrite Nat.eqb_refl. cbn [tx filter length Nat.add]. f_equal. apply map_ext_in. intros q Iq. unfold set_kids. destruct (Nat.eqb_spec q (f_new (w_fam w))) as [->|]; [contradiction|reflexivity].
  - apply guard_some in Ef as [G <-]. split_guard. assert (P : placed_child h h' c) by (destruct c as [[] d]; cbn [exec] in E; eapply set_child_placed, E). apply (w_placed h h' w ch ch' _ H R' eq_refl c P).
    pose proof (Ts p (f_kids (w_fam w) p ++ [c]) ltac:(auto)) as X. rewrite tx_app, tx_one in X. lia.
  - apply guard_some in Ef as [G <-]. split_guard. cbn [exec] in E. apply bind_ok in E as (i & _ & E). destruct c as [kd d]. cbn [fst snd] in E. apply (w_placed h h' w ch ch' _ H R' eq_refl (kd, d) (set_after_placed _ _ _ _ _ E)).
    pose proof (Ts p (put (S k) [(kd, d)] (f_kids (w_fam w) p)) ltac:(auto)) as X. rewrite tx_put, tx_one in X. cbn [fst] in X |- *. unfold child in *. lia.
  - step_out Ef. subst s'. cbn [exec] in E. apply (w_placed h h' w ch ch' _ H R' eq_refl (KNode, n) (node_after_placed _ _ _ _ E)).
    destruct (parent_some _ _ _ E0) as [Ip _]. match type of R' with Rep _ (Fam _ _ (set_kids _ ?p ?l)) _ => pose proof (Ts p l Ip) as X end. rewrite tx_put, tx_one in X. cbn [fst is_node negb one] in *. lia.
  - step_out Ef. subst s'. cbn [exec] in E. apply (w_still h h' w ch ch' _ H R' eq_refl _ _ (remove_still _ _ _ E)).
    destruct (parent_some _ _ _ E0) as [Ip _]. match type of R' with Rep _ (Fam _ _ (set_kids _ ?p ?l)) _ => pose proof (Ts p l Ip) as X end. pose proof (tx_cut _ _ _ (place_nth _ _ _ E1)) as Y. cbn [fst is_node negb one] in Y. lia.
  - step_out Ef. subst s'. cbn [exec] in E. destruct (parent_some _ _ _ E0) as [Ip _]. destruct (rep_place _ _ _ R n n0 n1 E0 E1) as (e1 & a & e2 & nd & _ & _ & _ & _ & En & Eh).
    destruct (rep_around _ _ _ R n n0 E0) as (Gp & _ & _). assert (Nx : n <> x) by (intros ->; unfold alone in G; rewrite E0 in G; rewrite andb_false_r in G; discriminate).
    assert (Hn : holder h n = Some a) by (unfold holder; rewrite En; exact Eh). destruct (replace_effect h n x h' a n0 Hn Gp Nx E) as [D Hh]. destruct H as [_ _ N2 Ho L]. split; cbn [w_fam w_held w_taken w_lost f_nodes]; auto.
    + apply hold_nodup, NoDup_filter, N2.
    + intros m. rewrite hold_in, outside_filter, Hh, Ho. destruct (Nat.eqb_spec m x) as [->|Mx]; [split; [discriminate|auto]|]. destruct (Nat.eqb_spec m n) as [->|Mn]; cbn [In].
      * split; [intros [|[_ X]]; [congruence|exfalso; apply X; auto]|congruence].
      * split; [intros [|[]]; [congruence|assumption]|]. intros X. right. split; [exact X|]. intros [|[]]. congruence.
    + rewrite (count_same _ _ D), L. match type of R' with Rep _ (Fam _ _ (set_kids _ ?p ?l)) _ => pose proof (Ts p l Ip) as X end. rewrite tx_put, tx_one in X. pose proof (tx_cut _ _ _ (place_nth _ _ _ E1)) as Y. cbn [fst is_node negb one] in X, Y.
      pose proof (hold_length x (filter (outside [n]) (w_held w))) as Hl. pose proof (length_filter (outside [n]) (w_held w)) as Lf.
      assert (L1 : length (filter (fun y => negb (outside [n] y)) (w_held w)) = 1).
      { change 1 with (length [n]). apply same_length; [apply NoDup_filter, N2|constructor; [intros []|constructor]|]. intros y. rewrite filter_In. unfold outside. rewrite negb_involutive, mem_in. split; [tauto|]. intros [<-|[]]. split; [apply Ho; congruence|left; reflexivity]. }
      assert (Em : mem x (filter (outside [n]) (w_held w)) = mem x (w_held w)).
      { apply Bool.eq_true_iff_eq. rewrite !mem_in, outside_filter. split; [tauto|]. intros J. split; [exact J|]. intros [|[]]. congruence. }
      rewrite Em in Hl. lia.
  - apply guard_some in Ef as [G <-]. split_guard. cbn [exec] in E. apply bind_ok in E as (i & _ & E). apply (w_still h h' w ch ch' _ H R' eq_refl _ _ (item_remove_still _ _ _ E)).
    match goal with L : (k <? _) = true |- _ => apply Nat.ltb_lt in L; destruct (split_at _ _ L) as (l1 & c & l2 & _ & _ & En) end.
    pose proof (Ts p (cut k (f_kids (w_fam w) p)) ltac:(auto)) as X. pose proof (tx_cut _ _ _ En) as Y. rewrite (text_one _ _ _ _ En). lia.
  - apply guard_some in Ef as [G <-]. split_guard. cbn [exec] in E. apply bind_ok in E as (i & _ & E). destruct c as [kd d]. cbn [fst snd] in E. apply bind_ok in E as ([h1 x] & E1 & E). destruct (new_ref_effect _ _ _ _ _ E1) as (M & Hd & _ & _). apply item_replace_still in E.
    match goal with L : (k <? _) = true |- _ => apply Nat.ltb_lt in L; destruct (split_at _ _ L) as (l1 & c & l2 & _ & _ & En) end.
    pose proof (Ts p (put k [(kd, d)] (cut k (f_kids (w_fam w) p))) ltac:(auto)) as X. rewrite tx_put, tx_one in X. pose proof (tx_cut _ _ _ En) as Y. rewrite (text_one _ _ _ _ En).
    pose proof (rep_room _ _ _ R) as Rm. destruct H as [_ _ N2 Ho L]. pose proof (count_more _ _ Rm (more_dom _ _ _ M (still_dom _ _ E))) as Cm. cbn [fst] in X.
    assert (T : is_node kd = false -> same_held h h1 -> W h' (World (Fam (f_new (w_fam w)) (f_nodes (w_fam w)) (set_kids (f_kids (w_fam w)) p (put k [(kd, d)] (cut k (f_kids (w_fam w) p))))) (w_held w) (w_taken w + one (negb (is_node (fst c)))) (w_lost w + 0)) ch').
    { intros Ek Sh. rewrite Ek in X. cbn [negb one] in X. split; cbn [w_fam w_held w_taken w_lost f_nodes]; auto.
      - intros n. rewrite (still_held _ _ E n), (Sh n). apply Ho.
      - rewrite Cm, L. lia. }
    destruct kd; try exact (T eq_refl Hd). clear T. cbn [hold_child held_child is_node negb one] in *. split; cbn [w_fam w_held w_taken w_lost f_nodes]; auto.
    + apply hold_nodup, N2.
    + intros n. rewrite (still_held _ _ E n), (Hd n), hold_in, Ho. destruct (Nat.eqb_spec n d) as [->|]; split; try congruence; auto. intros [|]; [congruence|assumption].
    + rewrite Cm, L. pose proof (hold_length d (w_held w)). unfold child in *. lia.
  - apply guard_some in Ef as [G <-]. split_guard. cbn [exec] in E. apply (w_still h h' w ch ch' _ H R' eq_refl _ _ (transfer_still _ _ _ _ E)).
    assert (Ip : In p (f_nodes (w_fam w))) by auto. assert (Iq : In q (f_nodes (w_fam w))) by auto. assert (Npq : p <> q) by (intros ->; rewrite Nat.eqb_refl in *; discriminate).
    pose proof (Ts q (f_kids (w_fam w) q ++ f_kids (w_fam w) p) Iq) as X.
    pose proof (texts_set (Fam (f_new (w_fam w)) (f_nodes (w_fam w)) (set_kids (f_kids (w_fam w)) q (f_kids (w_fam w) q ++ f_kids (w_fam w) p))) p [] N Ip) as Y. cbn [f_new f_nodes f_kids] in Y.
    unfold set_kids at 3 in Y. destruct (Nat.eqb_spec p q) as [|_]; [congruence|]. rewrite tx_app in X. cbn [tx filter length] in Y. lia.
  - apply guard_some in Ef as [G <-]. split_guard. cbn [exec] in E. apply bind_ok in E as (r & _ & E). apply (w_still h h' w ch ch' _ H R' eq_refl _ _ (transfer_after_still _ _ _ _ E)).
    assert (Ip : In p (f_nodes (w_fam w))) by auto. assert (Iq : In q (f_nodes (w_fam w))) by auto. assert (Npq : p <> q) by (intros ->; rewrite Nat.eqb_refl in *; discriminate).
    pose proof (Ts q (put (S k) (f_kids (w_fam w) p) (f_kids (w_fam w) q)) Iq) as X.
    pose proof (texts_set (Fam (f_new (w_fam w)) (f_nodes (w_fam w)) (set_kids (f_kids (w_fam w)) q (put (S k) (f_kids (w_fam w) p) (f_kids (w_fam w) q)))) p [] N Ip) as Y. cbn [f_new f_nodes f_kids] in Y.
    unfold set_kids at 3 in Y. destruct (Nat.eqb_spec p q) as [|_]; [congruence|]. rewrite tx_put in X. cbn [tx filter length] in Y. lia.
Qed.
