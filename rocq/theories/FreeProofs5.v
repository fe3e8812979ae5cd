(** The calls that release, and whole histories. *)
From Verif Require Import Prelude ItemModel ItemSpec ItemExec ItemProofs ItemProofs2 ItemProofs3 ItemProofs4 ItemProofs5 ItemProofs7 FindSpec FindProofs FindProofs3 FreeModel FreeSpec FreeExec FreeProofs FreeProofs2 FreeProofs3 FreeProofs4.
Open Scope nat_scope.
Open Scope list_scope.

Lemma step_op_fam w o w' : step_op w o = Some w' -> step_fam (w_fam w) o = Some (w_fam w').
Proof. unfold step_op. destruct (step_fam (w_fam w) o) as [s|]; [|discriminate]. cbv zeta. intros E. injection E as <-. destruct o; reflexivity. Qed.
Lemma op_world h w ch o w' : W h w ch -> step_op w o = Some w' -> fits (w_fam w) o = true -> exists h' ch', exec h o = Ok h' /\ W h' w' ch'.
Proof.
  intros H E F. destruct (exec_step h (w_fam w) ch o (w_fam w') (w_rep _ _ _ H) (step_op_fam _ _ _ E) F) as (h' & ch' & Ex & R'). exists h', ch'. split; [exact Ex|]. eapply op_effect; eassumption.
Qed.
Lemma alone_after h s ch s' n p : Rep h s ch -> In p (f_nodes s) -> In (KNode, n) (f_kids s p) -> f_nodes s' = f_nodes s -> (forall q, q <> p -> f_kids s' q = f_kids s q) -> ~ In (KNode, n) (f_kids s' p) -> alone s' n = true.
Proof.
  intros R Ip I En Ek No. assert (Kp : known s p = true) by (apply rep_known, Ip). unfold alone. apply andb_true_intro. split.
  - unfold known. rewrite En. exact (kid_known h s ch R p n Kp I).
  - destruct (parent s' n) as [q|] eqn:P; [|reflexivity]. exfalso. destruct (parent_some _ _ _ P) as [Iq (k & Pk)]. rewrite En in Iq. apply place_nth, nth_error_In in Pk. destruct (Nat.eq_dec q p) as [->|Nq]; [contradiction|].
    rewrite (Ek q Nq) in Pk. pose proof (kid_parent h s ch R q n (proj2 (rep_known s q) Iq) Pk) as P1. pose proof (kid_parent h s ch R p n Kp I) as P2. congruence.
Qed.
Lemma set_same f p l : set_kids f p l p = l.
Proof. unfold set_kids. rewrite Nat.eqb_refl. reflexivity. Qed.
Lemma set_other f p l q : q <> p -> set_kids f p l q = f q.
Proof. intros N. unfold set_kids. destruct (Nat.eqb_spec q p); [contradiction|reflexivity]. Qed.

(** an item that is nowhere *)
Lemma free_item_world h w ch a c : W h w ch -> what h a = Some c -> fst c <> KNode -> (forall q, ~ In a (map fst (ch q))) -> 0 < w_taken w ->
  exists h', item_dealloc h a = Ok h' /\ W h' (World (w_fam w) (w_held w) (pred (w_taken w)) (w_lost w)) ch.
Proof.
  intros H Wa Nk Out T. unfold what in Wa. destruct (h_items h a) as [it|] eqn:Ea; [|discriminate]. injection Wa as <-. cbn [fst] in Nk. unfold item_dealloc, rd_i. rewrite Ea. cbn [of_option bind].
  assert (Ek : is_node (i_kind it) = false) by (destruct (i_kind it); [congruence|reflexivity..]). rewrite Ek. unfold free_i, rd_i. rewrite Ea. cbn [of_option bind]. eexists. split; [reflexivity|].
  destruct H as [R N1 N2 Ho L].
  assert (Ot : forall x, x <> a -> del (h_items h) a x = h_items h x) by (intros x Nx; unfold del; destruct (Nat.eqb_spec x a); [contradiction|reflexivity]).
  assert (Da : del (h_items h) a a = None) by (unfold del; rewrite Nat.eqb_refl; reflexivity).
  split; cbn [w_fam w_held w_taken w_lost]; auto.
  - split; cbn [h_items h_nodes h_ifresh h_nfresh]; try apply R.
    + intros p. eapply seg_ext; [|apply (r_seg _ _ _ R p)]. intros x Ix. apply Ot. intros ->. exact (Out p Ix).
    + intros x i E. assert (Nx : x <> a) by (intros ->; congruence). rewrite Ot in E by exact Nx. apply (r_loose _ _ _ R x i E).
    + intros n nd x E Hx. destruct (r_held _ _ _ R n nd x E Hx) as (i & Ei & K & D). exists i. split; [|auto]. rewrite Ot; [exact Ei|]. intros ->. rewrite Ea in Ei. injection Ei as <-. congruence.
    + intros x E. apply (r_ifresh _ _ _ R). intros E0. apply E. unfold del. destruct (Nat.eqb x a); [reflexivity|exact E0].
  - pose proof (count_less h (Heap (del (h_items h) a) (h_nodes h) (h_ifresh h) (h_nfresh h)) [a] []) as C. cbn [length] in C. rewrite L in C.
    assert (X : live_items (Heap (del (h_items h) a) (h_nodes h) (h_ifresh h) (h_nfresh h)) + 1 = texts (w_fam w) + length (w_held w) + w_taken w + w_lost w); [|lia]. apply C.
    + split; [reflexivity|]. split; [reflexivity|]. split; [intros x [<-|[]]; exact Da|]. split; [intros x Nx; apply Ot; intros ->; apply Nx; left; reflexivity|]. split; [intros x []|reflexivity].
    + constructor; [intros []|constructor].
    + intros x [<-|[]]. split; [congruence|]. apply (r_ifresh _ _ _ R). congruence.
Qed.
(** an item that holds a node without parent *)
Lemma free_held_world h w ch a n : W h w ch -> what h a = Some (KNode, n) -> alone (w_fam w) n = true -> exists h' ch', item_dealloc h a = Ok h' /\ W h' (drop w n) ch'.
Proof.
  intros H Wa A. unfold what in Wa. unfold item_dealloc, rd_i. destruct (h_items h a) as [it|]; [|discriminate]. injection Wa as Ek Ed. cbn [of_option bind]. rewrite Ek, Ed. cbn [is_node]. eapply free_world; eassumption.
Qed.

Lemma d_step h w ch o w' : W h w ch -> step_w w o = Some w' -> w_fits w o = true -> exists h' ch', d_exec h o = Ok h' /\ W h' w' ch'.
Proof.
  intros H E F. pose proof (w_rep _ _ _ H) as R. destruct o as [o|n|n|n x|p k|p k c]; cbn [step_w d_exec w_fits] in *; cbv zeta in E.
  - eapply op_world; eassumption.
  - apply guard_some in E as [A <-]. eapply free_world; eassumption.
  - unfold then_release in E. destruct (step_op w (ORemove n)) as [w1|] eqn:E1; [|discriminate]. injection E as <-. cbn [release].
    destruct (op_world h w ch (ORemove n) w1 H E1 eq_refl) as (h1 & ch1 & X1 & H1). cbn [exec] in X1. unfold node_remove_d. rewrite X1. cbn [bind]. apply (free_world h1 w1 ch1 H1).
    apply step_op_fam in E1. cbn [step_fam] in E1. destruct (parent (w_fam w) n) as [p|] eqn:P; [|discriminate]. destruct (place n (f_kids (w_fam w) p)) as [k|] eqn:K; [|discriminate]. injection E1 as <-.
    destruct (parent_some _ _ _ P) as [Ip _]. destruct (place_split _ _ _ K) as (l1 & l2 & El & L & _). destruct (kid_once h (w_fam w) ch R p n l1 l2 (proj2 (rep_known _ p) Ip) El) as [O1 O2].
    apply (alone_after h (w_fam w) ch _ n p R Ip); cbn [f_nodes f_kids]; [rewrite El; apply in_or_app; right; left; reflexivity|reflexivity|intros q Nq; apply set_other, Nq|].
    rewrite set_same, El, (cut_mid l1 _ l2 k L). intros J. apply in_app_or in J as [J|J]; contradiction.
  - unfold then_release in E. destruct (step_op w (OReplace n x)) as [w1|] eqn:E1; [|discriminate]. injection E as <-. cbn [release].
    destruct (op_world h w ch (OReplace n x) w1 H E1 eq_refl) as (h1 & ch1 & X1 & H1). cbn [exec] in X1. unfold node_replace_d. rewrite X1. cbn [bind]. apply (free_world h1 w1 ch1 H1).
    apply step_op_fam in E1. cbn [step_fam] in E1. destruct (parent (w_fam w) n) as [p|] eqn:P; [|discriminate]. destruct (place n (f_kids (w_fam w) p)) as [k|] eqn:K; [|discriminate]. apply guard_some in E1 as [Ax <-].
    destruct (parent_some _ _ _ P) as [Ip _]. destruct (place_split _ _ _ K) as (l1 & l2 & El & L & _). destruct (kid_once h (w_fam w) ch R p n l1 l2 (proj2 (rep_known _ p) Ip) El) as [O1 O2].
    apply (alone_after h (w_fam w) ch _ n p R Ip); cbn [f_nodes f_kids]; [rewrite El; apply in_or_app; right; left; reflexivity|reflexivity|intros q Nq; apply set_other, Nq|].
    rewrite set_same, El, (cut_mid l1 _ l2 k L), put_at by exact L. cbn [app]. intros J. apply in_app_or in J as [J|[J|J]]; [contradiction| |contradiction]. injection J as ->. unfold alone in Ax. rewrite P, andb_false_r in Ax. discriminate.
  - unfold then_release in E. destruct (step_op w (OItemRemove p k)) as [w1|] eqn:E1; [|discriminate]. injection E as <-.
    pose proof (step_op_fam _ _ _ E1) as Ef. cbn [step_fam] in Ef. apply guard_some in Ef as [G Ef]. split_guard. assert (Ip : In p (f_nodes (w_fam w))) by (apply rep_known; assumption).
    match goal with L : (k <? _) = true |- _ => apply Nat.ltb_lt in L; rename L into Lk end.
    destruct (rep_nth h (w_fam w) ch R p k Ip Lk) as (e1 & a & c & e2 & Ec & L1 & Ea & En). rewrite En. rewrite Ea. cbn [bind].
    pose proof (r_kids _ _ _ R p Ip) as Kp. rewrite Ec, map_app in Kp. cbn [map snd] in Kp. assert (L1' : length (map snd e1) = k) by (rewrite map_length; exact L1).
    assert (Wa : what h a = Some c) by (destruct (rep_item _ _ _ R p a c) as (y & z & X); [rewrite Ec; apply in_or_app; right; left; reflexivity|]; unfold what; rewrite X; destruct c; reflexivity).
    pose proof Wa as Wa'. unfold what in Wa'. destruct (h_items h a) as [it|] eqn:Eit; [|discriminate]. injection Wa' as Wc.
    destruct (rep_unlink h (w_fam w) ch p a c e1 e2 (is_node (fst c)) R Ec) as (h1 & Eu & R1).
    { intros Nk. cbn [fits] in F. rewrite Kp in F. apply (inside_mid (map snd e1) c (map snd e2) k) in F; [|exact L1'|]. destruct F as [F1 F2]. split; intros ->; [apply F1|apply F2]; reflexivity. destruct c as [[] d]; cbn in Nk |- *; congruence. }
    assert (Er : item_remove h a = Ok h1) by (unfold item_remove, rd_i; rewrite Eit; cbn [of_option bind]; rewrite <- Wc in Eu; exact Eu).
    unfold item_remove_d. rewrite Er. cbn [bind].
    assert (Ef' : w_fam w1 = Fam (f_new (w_fam w)) (f_nodes (w_fam w)) (set_kids (f_kids (w_fam w)) p (map snd e1 ++ map snd e2))) by (rewrite <- Ef, Kp, (cut_mid (map snd e1) c (map snd e2) k L1'); reflexivity).
    assert (H1 : W h1 w1 (setch ch p (e1 ++ e2))).
    { eapply (op_effect h w ch (OItemRemove p k)); [exact H|exact E1|exact F|cbn [exec]; rewrite Ea; cbn [bind]; exact Er|rewrite Ef'; exact R1]. }
    assert (Wa1 : what h1 a = Some c) by (destruct (item_remove_still _ _ _ Er) as (_ & S2 & _); rewrite S2; exact Wa).
    assert (Tx : fst c <> KNode -> exists h' ch', item_dealloc h1 a = Ok h' /\ W h' (World (w_fam w1) (w_held w1) (pred (w_taken w1)) (w_lost w1)) ch').
    { intros Nk. destruct (free_item_world h1 w1 _ a c H1 Wa1 Nk) as (h2 & X & H2); [| |exists h2; eauto].
      - intros q J. pose proof (r_nodup _ _ _ R p) as ND. rewrite Ec in ND. destruct (nodup_mid _ _ _ _ ND) as (D1 & D2 & _). destruct (Nat.eq_dec q p) as [->|Nq].
        + rewrite setch_same in J. rewrite map_app in J. apply in_app_or in J as [J|J]; contradiction.
        + rewrite setch_other in J by exact Nq. apply (r_disj _ _ _ R q p a Nq J). rewrite Ec, map_app. apply in_or_app. right. left. reflexivity.
      - unfold step_op in E1. cbn [step_fam] in E1. destruct (guard _ _); [|discriminate]. injection E1 as <-. cbn [w_taken]. rewrite (text_one _ _ _ _ En). destruct c as [[] d]; cbn in *; [congruence|lia..]. }
    destruct c as [kc n]. destruct kc; try (apply Tx; discriminate). clear Tx. cbn [release]. apply (free_held_world h1 w1 _ a n H1 Wa1). rewrite Ef'.
    destruct (kid_once h (w_fam w) ch R p n _ _ (proj2 (rep_known _ p) Ip) Kp) as [O1 O2].
    apply (alone_after h (w_fam w) ch _ n p R Ip); cbn [f_nodes f_kids]; [rewrite Kp; apply in_or_app; right; left; reflexivity|reflexivity|intros q Nq; apply set_other, Nq|].
    rewrite set_same. intros J. apply in_app_or in J as [J|J]; contradiction.
  - unfold then_release in E. destruct (step_op w (OItemReplace p k c)) as [w1|] eqn:E1; [|discriminate]. injection E as <-.
    pose proof (step_op_fam _ _ _ E1) as Ef. cbn [step_fam] in Ef. apply guard_some in Ef as [G Ef]. split_guard. assert (Ip : In p (f_nodes (w_fam w))) by (apply rep_known; assumption).
    match goal with L : (k <? _) = true |- _ => apply Nat.ltb_lt in L; rename L into Lk end. match goal with M : may_hold _ _ = true |- _ => rename M into Mh end.
    destruct (rep_nth h (w_fam w) ch R p k Ip Lk) as (e1 & a & c0 & e2 & Ec & L1 & Ea & En). rewrite En. rewrite Ea. cbn [bind].
    pose proof (r_kids _ _ _ R p Ip) as Kp. rewrite Ec, map_app in Kp. cbn [map snd] in Kp. assert (L1' : length (map snd e1) = k) by (rewrite map_length; exact L1).
    assert (Wa : what h a = Some c0) by (destruct (rep_item _ _ _ R p a c0) as (y & z & X); [rewrite Ec; apply in_or_app; right; left; reflexivity|]; unfold what; rewrite X; destruct c0; reflexivity).
    assert (La : a < h_ifresh h) by (apply (r_ifresh _ _ _ R); rewrite what_dom, Wa; discriminate).
    destruct c as [kc d]. destruct (rep_new_ref h (w_fam w) ch kc d R Mh) as (h1 & x & En1 & R1 & Rd). cbn [fst snd]. rewrite En1. cbn [bind]. destruct (new_ref_effect _ _ _ _ _ En1) as (_ & _ & Wx & Ex).
    destruct (rep_item_replace h1 (w_fam w) ch p a c0 x (kc, d) e1 e2 R1 Rd Ec) as (h2 & Er & R2).
    { intros Nk. cbn [fits] in F. rewrite Kp in F. apply (inside_mid (map snd e1) c0 (map snd e2) k) in F; [|exact L1'|exact Nk]. destruct F as [F1 F2]. split; intros ->; [apply F1|apply F2]; reflexivity. }
    unfold item_replace_d. rewrite Er. cbn [bind].
    assert (Ef' : w_fam w1 = Fam (f_new (w_fam w)) (f_nodes (w_fam w)) (set_kids (f_kids (w_fam w)) p (map snd e1 ++ (kc, d) :: map snd e2))) by (rewrite <- Ef, Kp, (cut_mid (map snd e1) c0 (map snd e2) k L1'), put_at by exact L1'; reflexivity).
    assert (H1 : W h2 w1 (setch ch p (e1 ++ (x, (kc, d)) :: e2))).
    { eapply (op_effect h w ch (OItemReplace p k (kc, d))); [exact H|exact E1|exact F|cbn [exec]; rewrite Ea; cbn [bind fst snd]; rewrite En1; cbn [bind]; exact Er|rewrite Ef'; exact R2]. }
    assert (Wa1 : what h2 a = Some c0) by (destruct (item_replace_still _ _ _ _ Er) as (_ & S2 & _); rewrite S2, Wx by lia; exact Wa).
    assert (Tx : fst c0 <> KNode -> exists h' ch', item_dealloc h2 a = Ok h' /\ W h' (World (w_fam w1) (w_held w1) (pred (w_taken w1)) (w_lost w1)) ch').
    { intros Nk. destruct (free_item_world h2 w1 _ a c0 H1 Wa1 Nk) as (h3 & X & H2); [| |exists h3; eauto].
      - intros q J. pose proof (r_nodup _ _ _ R p) as ND. rewrite Ec in ND. destruct (nodup_mid _ _ _ _ ND) as (D1 & D2 & _). destruct (Nat.eq_dec q p) as [->|Nq].
        + rewrite setch_same in J. rewrite map_app in J. apply in_app_or in J as [J|[J|J]]; [contradiction|cbn [fst] in J; lia|contradiction].
        + rewrite setch_other in J by exact Nq. apply (r_disj _ _ _ R q p a Nq J). rewrite Ec, map_app. apply in_or_app. right. left. reflexivity.
      - unfold step_op in E1. cbn [step_fam] in E1. destruct (guard _ _); [|discriminate]. injection E1 as <-. cbn [w_taken]. rewrite (text_one _ _ _ _ En). destruct c0 as [[] d0]; cbn in *; [congruence|lia..]. }
    destruct c0 as [k0 n]. destruct k0; try (apply Tx; discriminate). clear Tx. cbn [release]. apply (free_held_world h2 w1 _ a n H1 Wa1). rewrite Ef'.
    destruct (kid_once h (w_fam w) ch R p n _ _ (proj2 (rep_known _ p) Ip) Kp) as [O1 O2].
    assert (Inn : In (KNode, n) (f_kids (w_fam w) p)) by (rewrite Kp; apply in_or_app; right; left; reflexivity).
    apply (alone_after h (w_fam w) ch _ n p R Ip Inn); cbn [f_nodes f_kids]; [reflexivity|intros q Nq; apply set_other, Nq|].
    rewrite set_same. intros J. apply in_app_or in J as [J|[J|J]]; [contradiction| |contradiction]. injection J as -> ->. unfold may_hold, alone in Mh. cbn [fst snd] in Mh.
    rewrite (kid_parent h (w_fam w) ch R p n (proj2 (rep_known _ p) Ip) Inn), andb_false_r in Mh. discriminate.
Qed.
Lemma d_run_ok ops : forall h w ch w', W h w ch -> run_w w ops = Some w' -> w_fit w ops = true -> exists h' ch', d_run h ops = Ok h' /\ W h' w' ch'.
Proof.
  induction ops as [|o ops IH]; intros h w ch w' H E F; cbn [run_w w_fit d_run] in *; [injection E as <-; eauto|].
  destruct (step_w w o) as [w1|] eqn:E1; [|discriminate]. apply andb_prop in F as [F1 F2]. destruct (d_step h w ch o w1 H E1 F1) as (h1 & ch1 & X1 & H1). rewrite X1. cbn [bind]. eapply IH; eassumption.
Qed.

Lemma live_nodes_ok h w ch : W h w ch -> live_nodes h = length (f_nodes (w_fam w)).
Proof.
  intros H. pose proof (w_rep _ _ _ H) as R. unfold live_nodes. apply same_length; [apply NoDup_filter, seq_NoDup|apply H|]. intros n. rewrite filter_In, (r_nodes _ _ _ R n), in_seq. split.
  - intros [_ X]. destruct (h_nodes h n); [discriminate|discriminate X].
  - intros X. split; [|destruct (h_nodes h n); [reflexivity|congruence]]. assert (J : In n (f_nodes (w_fam w))) by (apply (r_nodes _ _ _ R), X). pose proof (r_nfresh _ _ _ R n J). lia.
Qed.
Theorem free_all ops w : run_w w_new ops = Some w -> w_fit w_new ops = true ->
  exists h, d_run heap_new ops = Ok h /\
    (forall n, h_nodes h n <> None <-> In n (f_nodes (w_fam w))) /\
    (forall p, In p (f_nodes (w_fam w)) -> items_shown h (w_fam w) p) /\ items_apart h (w_fam w) /\
    live_nodes h = length (f_nodes (w_fam w)) /\
    live_items h = texts (w_fam w) + length (w_held w) + w_taken w + w_lost w /\
    incl (w_held w) (f_nodes (w_fam w)).
Proof.
  intros E F. destruct (d_run_ok ops heap_new w_new _ w w_start E F) as (h & ch & X & H). pose proof (w_rep _ _ _ H) as R. exists h. split; [exact X|]. split; [intros n; symmetry; apply R|].
  split; [intros p Ip; eapply rep_shown; [exact R|apply rep_known, Ip]|]. split; [eapply rep_apart, R|]. split; [eapply live_nodes_ok, H|]. split; [apply H|].
  intros n J. apply (w_holds _ _ _ H) in J. apply (r_nodes _ _ _ R). unfold holder in J. destruct (h_nodes h n); congruence.
Qed.
(** when every node has been released *)
Theorem free_nothing_left ops w : run_w w_new ops = Some w -> w_fit w_new ops = true -> f_nodes (w_fam w) = [] ->
  exists h, d_run heap_new ops = Ok h /\ live_nodes h = 0 /\ live_items h = w_taken w + w_lost w.
Proof.
  intros E F Z. destruct (free_all ops w E F) as (h & X & _ & _ & _ & L1 & L2 & Inc). exists h. split; [exact X|]. rewrite L1, L2, Z. split; [reflexivity|]. rewrite Z in Inc. destruct (w_held w) as [|n l] eqn:Eh; [|destruct (Inc n (or_introl eq_refl))].
  rewrite texts_tx, Z. reflexivity.
Qed.
