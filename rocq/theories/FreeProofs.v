(** What the calls do to the number of items and to the nodes that have one. *)
From Verif Require Import Prelude ItemModel ItemSpec ItemExec ItemProofs FreeModel FreeSpec FreeExec.
Open Scope nat_scope.
Open Scope list_scope.

Lemma bind_ok {A B} (x : res A) (f : A -> res B) y : bind x f = Ok y -> exists a, x = Ok a /\ f a = Ok y.
Proof. destruct x; cbn; try discriminate. eauto. Qed.
Definition holder (h : heap) (n : nat) : option nat := match h_nodes h n with Some nd => n_holder nd | None => None end.
Definition what (h : heap) (a : nat) : option child := match h_items h a with Some it => Some (i_kind it, i_data it) | None => None end.
Definition still (h h' : heap) : Prop := h_ifresh h' = h_ifresh h /\ (forall a, what h' a = what h a) /\ (forall n, holder h' n = holder h n).
(** the same but for [n] *)
Definition given (n : nat) (x : option nat) (h h' : heap) : Prop := forall m, holder h' m = if Nat.eqb m n then x else holder h m.
Definition same_dom (h h' : heap) : Prop := h_ifresh h' = h_ifresh h /\ (forall a, h_items h' a <> None <-> h_items h a <> None).
Definition one_more (h h' : heap) : Prop := h_ifresh h' = S (h_ifresh h) /\ (forall a, h_items h' a <> None <-> h_items h a <> None \/ a = h_ifresh h).
Definition same_held (h h' : heap) : Prop := forall n, holder h' n = holder h n.

Lemma still_refl h : still h h.
Proof. repeat split. Qed.
Lemma still_trans h1 h2 h3 : still h1 h2 -> still h2 h3 -> still h1 h3.
Proof. intros (A1 & A2 & A3) (B1 & B2 & B3). split; [congruence|]. split; intros x; [rewrite B2; apply A2|rewrite B3; apply A3]. Qed.
Lemma what_dom h a : h_items h a <> None <-> what h a <> None.
Proof. unfold what. destruct (h_items h a); split; congruence. Qed.
Lemma still_dom h h' : still h h' -> same_dom h h'.
Proof. intros (A1 & A2 & _). split; [exact A1|]. intros a. rewrite !what_dom, A2. tauto. Qed.
Lemma still_held h h' : still h h' -> same_held h h'.
Proof. intros (_ & _ & A). exact A. Qed.
Lemma dom_trans h1 h2 h3 : same_dom h1 h2 -> same_dom h2 h3 -> same_dom h1 h3.
Proof. intros (A1 & A2) (B1 & B2). split; [congruence|]. intros a. rewrite B2. apply A2. Qed.
Lemma more_dom h1 h2 h3 : one_more h1 h2 -> same_dom h2 h3 -> one_more h1 h3.
Proof. intros (A1 & A2) (B1 & B2). split; [congruence|]. intros a. rewrite B2. apply A2. Qed.

Lemma wr_i_still h a f h' : (forall i, i_kind (f i) = i_kind i /\ i_data (f i) = i_data i) -> wr_i h a f = Ok h' -> still h h'.
Proof.
  intros F E. unfold wr_i, rd_i in E. apply bind_ok in E as (i & Ei & E). injection E as <-. destruct (h_items h a) as [j|] eqn:Ea; [|discriminate]. injection Ei as ->.
  split; [reflexivity|]. split; [|reflexivity]. intros x. unfold what. cbn [h_items]. unfold upd. destruct (Nat.eqb_spec x a) as [->|]; [|reflexivity]. rewrite Ea. destruct (F i) as [-> ->]. reflexivity.
Qed.
Lemma wr_n_still h a f h' : (forall i, n_holder (f i) = n_holder i) -> wr_n h a f = Ok h' -> still h h'.
Proof.
  intros F E. unfold wr_n, rd_n in E. apply bind_ok in E as (i & Ei & E). injection E as <-. destruct (h_nodes h a) as [j|] eqn:Ea; [|discriminate]. injection Ei as ->.
  split; [reflexivity|]. split; [reflexivity|]. intros x. unfold holder. cbn [h_nodes]. unfold upd. destruct (Nat.eqb_spec x a) as [->|]; [|reflexivity]. rewrite Ea, F. reflexivity.
Qed.
Ltac still_steps :=
  repeat match goal with
  | H : Ok _ = Ok _ |- _ => injection H as <-
  | H : UB = Ok _ |- _ => discriminate H
  | H : NoFuel = Ok _ |- _ => discriminate H
  | H : bind _ _ = Ok _ |- _ => let x := fresh "x" in let E := fresh "E" in apply bind_ok in H as (x & E & H)
  | H : wr_i ?h _ _ = Ok ?h' |- _ => apply wr_i_still in H; [|solve [intros; split; reflexivity]]
  | H : wr_n ?h _ _ = Ok ?h' |- _ => apply wr_n_still in H; [|solve [intros; reflexivity]]
  | H : match ?x with _ => _ end = Ok _ |- _ => destruct x
  end.
Ltac still_close :=
  solve [exact (still_refl _) | assumption |
    repeat match goal with H : still ?a ?b |- still ?a ?c => eapply still_trans; [exact H|clear H] end; first [exact (still_refl _)|assumption]].
Lemma unlink_still h i b h' : unlink h i b = Ok h' -> still h h'.
Proof. unfold unlink. intros H. still_steps; still_close. Qed.
Lemma set_child_ref_still h p i h' : set_child_ref h p i = Ok h' -> still h h'.
Proof. unfold set_child_ref. intros H. still_steps; still_close. Qed.
Lemma item_replace_still h i x h' : item_replace h i x = Ok h' -> still h h'.
Proof. unfold item_replace. intros H. still_steps; still_close. Qed.
Lemma transfer_loop_still fuel : forall h q i h', transfer_loop fuel h q i = Ok h' -> still h h'.
Proof.
  induction fuel as [|fuel IH]; intros h q [i|] h' H; cbn [transfer_loop] in H; try discriminate; try (injection H as <-; apply still_refl).
  still_steps. apply set_child_ref_still in E0. apply IH in H. still_close.
Qed.
Lemma transfer_still h p q h' : transfer_childs h p q = Ok h' -> still h h'.
Proof. unfold transfer_childs. intros H. apply bind_ok in H as (n & _ & H). apply bind_ok in H as (h1 & E & H). apply transfer_loop_still in E. still_steps; still_close. Qed.
Lemma transfer_after_loop_still fuel : forall h q aux i h' l, transfer_after_loop fuel h q aux i = Ok (h', l) -> still h h'.
Proof.
  induction fuel as [|fuel IH]; intros h q aux i h' l H; cbn [transfer_after_loop] in H; [discriminate|].
  apply bind_ok in H as (h1 & E1 & H). apply bind_ok in H as (it & _ & H). apply wr_i_still in E1; [|intros; split; reflexivity].
  destruct (i_next it) as [n|]; [apply IH in H; still_close|]. apply bind_ok in H as (h2 & E2 & H). apply bind_ok in H as (h3 & E3 & H). injection H as <- _. still_steps; still_close.
Qed.
Lemma transfer_after_still h p r h' : transfer_childs_after h p r = Ok h' -> still h h'.
Proof.
  unfold transfer_childs_after. intros H. apply bind_ok in H as (n & _ & H). destruct (n_first n) as [i|]; [|injection H as <-; apply still_refl].
  apply bind_ok in H as (ref & _ & H). cbv zeta in H. apply bind_ok in H as (h1 & E1 & H). apply bind_ok in H as (h2 & E2 & H). apply bind_ok in H as ([h3 i3] & E3 & H). apply transfer_after_loop_still in E3.
  still_steps; still_close.
Qed.

(** giving a node an item *)
Lemma wr_n_given h n x h' : wr_n h n (w_holder x) = Ok h' -> (forall a, h_items h' a = h_items h a) /\ h_ifresh h' = h_ifresh h /\ given n x h h'.
Proof.
  unfold wr_n, rd_n. intros H. apply bind_ok in H as (i & Ei & H). injection H as <-. cbn [h_items h_ifresh]. split; [reflexivity|]. split; [reflexivity|].
  intros m. unfold holder. cbn [h_nodes]. unfold upd. destruct (Nat.eqb m n); reflexivity.
Qed.
Lemma wr_i_dom h a f h' : wr_i h a f = Ok h' -> same_dom h h' /\ same_held h h'.
Proof.
  unfold wr_i, rd_i. intros H. apply bind_ok in H as (i & Ei & H). injection H as <-. split; [|intros n; reflexivity]. split; [reflexivity|]. intros x. cbn [h_items]. unfold upd.
  destruct (Nat.eqb_spec x a) as [->|]; [|tauto]. destruct (h_items h a); [split; congruence|discriminate].
Qed.
Lemma new_item_more h h' i : new_item h = (h', i) -> one_more h h' /\ same_held h h' /\ i = h_ifresh h.
Proof.
  unfold new_item. intros H. injection H as <- <-. split; [|split; [intros n; reflexivity|reflexivity]]. split; [reflexivity|]. intros x. cbn [h_items]. unfold upd.
  destruct (Nat.eqb_spec x (h_ifresh h)) as [->|]; [split; [auto|congruence]|tauto].
Qed.
Definition placed_child (h h' : heap) (c : child) : Prop :=
  match c with
  | (KNode, n) => (match holder h n with Some _ => same_dom h h' | None => one_more h h' end) /\ exists a, given n (Some a) h h'
  | _ => one_more h h' /\ same_held h h'
  end.
Lemma placed_still h h1 h2 c : placed_child h h1 c -> still h1 h2 -> placed_child h h2 c.
Proof.
  intros P (S1 & S2 & S3). assert (D : same_dom h1 h2) by (apply still_dom; repeat split; assumption). destruct c as [k d].
  assert (T : one_more h h1 /\ same_held h h1 -> one_more h h2 /\ same_held h h2) by (intros [A B]; split; [eapply more_dom; eassumption|intros n; rewrite S3; apply B]).
  destruct k; try exact (T P). clear T. destruct P as [A (a & G)]. split; [|exists a; intros m; rewrite S3; apply G].
  destruct (holder h d); [eapply dom_trans|eapply more_dom]; eassumption.
Qed.
Lemma configure_placed h k d h' i : common_configure h k d = Ok (h', i) -> placed_child h h' (k, d).
Proof.
  unfold common_configure. intros H. apply bind_ok in H as (ho & E & H).
  assert (T : is_node k = false -> one_more h h' /\ same_held h h').
  { intros K. rewrite K in *. injection E as <-. destruct (new_item h) as [h1 j] eqn:En. apply bind_ok in H as (h2 & E2 & H). cbn [bind] in H. injection H as <- <-.
    apply new_item_more in En as (A & B & _). apply wr_i_dom in E2 as (C & D). split; [eapply more_dom; eassumption|]. intros n. rewrite D. apply B. }
  destruct k; try (apply T; reflexivity). clear T. cbn [is_node] in *. apply bind_ok in E as (nd & E & E'). injection E' as <-. unfold placed_child, holder. unfold rd_n in E. destruct (h_nodes h d) as [nd'|]; [|discriminate]. injection E as ->.
  destruct (n_holder nd) as [j|].
  - apply bind_ok in H as (h2 & E2 & H). apply bind_ok in H as (h3 & E3 & H). injection H as <- <-. apply wr_i_dom in E2 as (C & D). apply wr_n_given in E3 as (A & B & G). split.
    + split; [rewrite B; apply C|]. intros a. rewrite A. apply C.
    + exists j. intros m. rewrite G. destruct (Nat.eqb m d); [reflexivity|apply D].
  - destruct (new_item h) as [h1 j] eqn:En. apply new_item_more in En as (A0 & B0 & _). apply bind_ok in H as (h2 & E2 & H). apply bind_ok in H as (h3 & E3 & H). injection H as <- <-. apply wr_i_dom in E2 as (C & D). apply wr_n_given in E3 as (A & B & G). split.
    + eapply more_dom; [exact A0|]. split; [rewrite B; apply C|]. intros a. rewrite A. apply C.
    + exists j. intros m. rewrite G. destruct (Nat.eqb m d); [reflexivity|]. rewrite D. apply B0.
Qed.
Lemma set_child_placed h p k d h' : item_set_child h p k d = Ok h' -> placed_child h h' (k, d).
Proof. unfold item_set_child. intros H. apply bind_ok in H as ([h1 i] & E & H). eapply placed_still; [exact (configure_placed _ _ _ _ _ E)|eapply set_child_ref_still, H]. Qed.
Lemma set_after_placed h i k d h' : item_set_after h i k d = Ok h' -> placed_child h h' (k, d).
Proof.
  unfold item_set_after. intros H. apply bind_ok in H as (it & _ & H). apply bind_ok in H as (p & _ & H). apply bind_ok in H as ([h1 x] & E & H). apply configure_placed in E.
  eapply placed_still; [exact E|]. clear E. still_steps; still_close.
Qed.
Lemma node_after_placed h r n h' : node_set_child_after h r n = Ok h' -> placed_child h h' (KNode, n).
Proof. unfold node_set_child_after. intros H. apply bind_ok in H as (nd & _ & H). apply bind_ok in H as (i & _ & H). eapply set_after_placed, H. Qed.
Lemma remove_still h n h' : node_remove h n = Ok h' -> still h h'.
Proof.
  unfold node_remove. intros H. apply bind_ok in H as (nd & _ & H). apply bind_ok in H as (p & _ & H). destruct p; [|injection H as <-; apply still_refl]. destruct (n_holder nd); [|injection H as <-; apply still_refl]. eapply unlink_still, H.
Qed.
Lemma item_remove_still h i h' : item_remove h i = Ok h' -> still h h'.
Proof. unfold item_remove. intros H. apply bind_ok in H as (nd & _ & H). eapply unlink_still, H. Qed.
Lemma new_ref_effect h k d h' i : item_new_ref h k d = Ok (h', i) -> one_more h h' /\ (match k with KNode => given d (Some i) h h' | _ => same_held h h' end) /\ (forall a, a <> i -> what h' a = what h a) /\ i = h_ifresh h.
Proof.
  unfold item_new_ref. intros H. destruct (new_item h) as [h1 j] eqn:En. assert (W1 : forall a, a <> j -> what h1 a = what h a) by (intros a Na; injection En as <- <-; unfold what; cbn [h_items]; rewrite upd_other by exact Na; reflexivity).
  apply new_item_more in En as (A0 & B0 & Ej).
  apply bind_ok in H as (h2 & E2 & H). assert (W2 : forall a, a <> j -> what h2 a = what h1 a).
  { intros a Na. unfold wr_i in E2. apply bind_ok in E2 as (it & _ & E2). injection E2 as <-. unfold what. cbn [h_items]. rewrite upd_other by exact Na. reflexivity. }
  apply wr_i_dom in E2 as (C & D). apply bind_ok in H as (h3 & E3 & H). injection H as <- <-.
  assert (Q : one_more h h2 /\ same_held h h2) by (split; [eapply more_dom; eassumption|intros n; rewrite D; apply B0]).
  assert (X : is_node k = false -> h3 = h2) by (intros K; rewrite K in E3; injection E3 as <-; reflexivity).
  destruct k; try (rewrite (X eq_refl); destruct Q as [Q1 Q2]; split; [exact Q1|]; split; [exact Q2|]; split; [|exact Ej]; intros a Na; rewrite W2 by exact Na; apply W1; exact Na).
  clear X. cbn [is_node] in E3. apply wr_n_given in E3 as (A & B & G). destruct Q as [Q1 Q2]. split; [eapply more_dom; [exact Q1|]; split; [exact B|intros a; rewrite A; tauto]|]. split.
  - intros m. rewrite G. destruct (Nat.eqb m d); [reflexivity|apply Q2].
  - split; [|exact Ej]. intros a Na. unfold what. rewrite A. fold (what h2 a). rewrite W2 by exact Na. apply W1, Na.
Qed.
Lemma replace_effect h n x h' a p : holder h n = Some a -> node_get_parent h n = Ok (Some p) -> n <> x -> node_replace h n x = Ok h' ->
  same_dom h h' /\ (forall m, holder h' m = if Nat.eqb m x then Some a else if Nat.eqb m n then None else holder h m).
Proof.
  intros Ho P N H. unfold node_replace, node_get_parent, rd_n, holder in *. destruct (h_nodes h n) as [nd|] eqn:En; [|discriminate]. cbn [of_option bind] in *. rewrite P in H. cbn [bind] in H. rewrite Ho in H.
  apply bind_ok in H as (h1 & E1 & H). apply bind_ok in H as (h2 & E2 & H). apply wr_i_dom in E1 as (A & B). apply wr_n_given in E2 as (C1 & C2 & C3). apply wr_n_given in H as (D1 & D2 & D3). split.
  - split; [rewrite D2, C2; apply A|]. intros b. rewrite D1, C1. apply A.
  - intros m. change (holder h' m = if Nat.eqb m x then Some a else if Nat.eqb m n then None else holder h m). rewrite D3. destruct (Nat.eqb m x); [reflexivity|]. rewrite C3. destruct (Nat.eqb m n); [reflexivity|]. apply B.
Qed.

(** counting *)
Definition is_live (h : heap) (a : nat) : bool := match h_items h a with Some _ => true | None => false end.
Lemma live_spec h a : is_live h a = true <-> h_items h a <> None.
Proof. unfold is_live. destruct (h_items h a); split; congruence. Qed.
Lemma count_same h h' : same_dom h h' -> live_items h' = live_items h.
Proof.
  intros [E D]. unfold live_items. rewrite E. f_equal. apply filter_ext. intros a. fold (is_live h' a) (is_live h a). apply Bool.eq_true_iff_eq. rewrite !live_spec. apply D.
Qed.
Lemma count_more h h' : h_items h (h_ifresh h) = None -> one_more h h' -> live_items h' = S (live_items h).
Proof.
  intros F [E D]. unfold live_items. rewrite E, seq_S, filter_app, app_length. cbn [Nat.add filter]. fold (is_live h' (h_ifresh h)).
  assert (X : is_live h' (h_ifresh h) = true) by (apply live_spec, D; auto). rewrite X. cbn [length]. rewrite Nat.add_1_r. f_equal. f_equal.
  apply filter_ext_in. intros a I. fold (is_live h' a) (is_live h a). apply Bool.eq_true_iff_eq. rewrite !live_spec, D. apply in_seq in I. split; [intros [|]; [assumption|lia]|auto].
Qed.
