From Verif Require Import Prelude HashModel OwnModel OwnExec OwnSpec OwnProofs OwnProofs2 OwnProofs3 OwnProofs4 OwnProofs5 OwnProofs6 OwnProofs7 KeepModel KeepSpec KeepProofs.
Open Scope nat_scope.

(** ** the nodes stay where they are, or are handed out *)
Definition iids (l : list item) : list nat := flat_map (fun i => match i with INode c => ids c | _ => [] end) l.
Lemma ids_iids n : ids n = addr n :: iids (n_items n). Proof. apply ids_eq. Qed.
Lemma ids_w_items l n : ids (w_items l n) = addr n :: iids l. Proof. rewrite ids_iids. destruct n; reflexivity. Qed.
Lemma ids_w_name s f n : ids (w_name s f n) = ids n. Proof. destruct n; reflexivity. Qed.
Lemma ids_w_attrs a k n : ids (w_attrs a k n) = ids n. Proof. destruct n; reflexivity. Qed.
Lemma ids_w_holder h n : ids (w_holder h n) = ids n. Proof. destruct n; reflexivity. Qed.
Lemma iids_app l1 l2 : iids (l1 ++ l2) = iids l1 ++ iids l2. Proof. apply flat_map_app. Qed.
Lemma ids_push i n : ids (push i n) = ids n ++ iids [i].
Proof. unfold push. rewrite ids_w_items, ids_iids, iids_app. reflexivity. Qed.

Definition like (g : node -> mem -> res (node * mem)) : Prop :=
  forall n m n' m', g n m = Ok (n', m') -> n_holder n' = n_holder n /\ ids n' = ids n.
Definition carries (ex : list nat) (f : node -> mem -> res (node * mem * list node)) : Prop :=
  forall n m n' m' out, f n m = Ok (n', m', out) ->
    n_holder n' = n_holder n /\ incl (ids n ++ ex) (ids n' ++ flat_map ids out).
Lemma like_carries g : like g -> carries [] (simple g).
Proof.
  intros H n m n' m' out E. unfold simple in E. destruct (g n m) as [[n1 m1]| |] eqn:Eg; cbn [bind] in E; try discriminate.
  inversion E; subst. destruct (H _ _ _ _ Eg) as [A B]. split; [exact A|]. rewrite B. apply incl_refl.
Qed.
Lemma like_trans n1 n2 n3 : n_holder n2 = n_holder n1 /\ ids n2 = ids n1 -> n_holder n3 = n_holder n2 /\ ids n3 = ids n2 ->
  n_holder n3 = n_holder n1 /\ ids n3 = ids n1.
Proof. intros [A B] [C D]. split; congruence. Qed.

(** take a run apart *)
Ltac ib H :=
  match type of H with
  | bind ?x _ = Ok _ => let E := fresh "E" in destruct x eqn:E; cbn [bind] in H; [|discriminate H|discriminate H]
  | (let '(_, _) := ?x in _) = Ok _ => destruct x eqn:?
  | match ?x with _ => _ end = Ok _ => destruct x eqn:?; try discriminate H
  end.
Ltac ibs H := repeat (ib H; try discriminate H).

Lemma set_name_like s : like (set_name s).
Proof.
  intros n m n' m' E. unfold set_name in E. ib E. ib E. inversion E; subst. rewrite ids_w_name. destruct n; auto.
Qed.
Lemma set_name_ref_like s : like (set_name_ref s).
Proof.
  intros n m n' m' E. unfold set_name_ref in E. cbn [malloc] in E. ib E. ib E. inversion E; subst. rewrite ids_w_name. destruct n; auto.
Qed.
Lemma core_like d a b n m n' m' r : set_attribute_core d a b n m = Ok (n', m', r) -> n_holder n' = n_holder n /\ ids n' = ids n.
Proof.
  unfold set_attribute_core. intro E. cbv zeta in E.
  assert (Q : forall x k, n_holder (w_attrs x k n) = n_holder n /\ ids (w_attrs x k n) = ids n).
  { intros x k. rewrite ids_w_attrs. destruct n; auto. }
  destruct (is_null (n_attrs n)).
  - ib E. destruct a0 as [b1 m1]. inversion E; subst. apply Q.
  - destruct (Nat.ltb (n_num n) 10).
    + ib E. destruct a0; [inversion E; subst; auto|]. ib E. destruct a0 as [b1 m1]. destruct (n_attrs n); [|discriminate]. inversion E; subst. apply Q.
    + ib E. destruct a0; [inversion E; subst; auto|]. ib E. destruct a0 as [[b1 h1] m1]. ib E. destruct a0 as [h2 m2]. inversion E; subst. apply Q.
Qed.
Lemma set_attribute_like esc s v : like (set_attribute esc s v).
Proof.
  intros n m n' m' E. unfold set_attribute in E. destruct s; [inversion E; subst; auto|].
  cbn [malloc] in E. ib E. ib E. destruct a1 as [[n1 m1] d]. apply core_like in E1.
  destruct d; [inversion E; subst; exact E1|]. ib E. ib E. inversion E; subst. exact E1.
Qed.
Lemma set_attribute_ref_like s v : like (set_attribute_ref s v).
Proof.
  intros n m n' m' E. unfold set_attribute_ref in E.
  cbn [malloc] in E. ib E. ib E. destruct a0 as [[n1 m1] d]. apply core_like in E1.
  destruct d; [inversion E; subst; exact E1|]. ib E. ib E. inversion E; subst. exact E1.
Qed.
Lemma set_attribute_fac_like d s v : like (set_attribute_fac d s v).
Proof.
  intros n m n' m' E. unfold set_attribute_fac in E. ib E. destruct a as [b1 m1]. ib E. destruct a as [b2 m2]. ib E. ib E.
  destruct a0 as [[n1 m3] dn]. apply core_like in E3. inversion E; subst. exact E3.
Qed.
Lemma reinsert_like esc l : like (reinsert esc l).
Proof.
  induction l as [|x l IH]; intros n m n' m' E; cbn [reinsert] in E; [inversion E; subst; auto|].
  ib E. ib E. ib E. destruct a1 as [n1 m1]. apply (like_trans n n1 n').
  - apply (set_attribute_like esc _ _ _ _ _ _ E2).
  - apply (IH _ _ _ _ E).
Qed.
Lemma remove_attribute_like esc s : like (remove_attribute esc s).
Proof.
  intros n m n' m' E. unfold remove_attribute in E.
  assert (Q : forall x k, n_holder (w_attrs x k n) = n_holder n /\ ids (w_attrs x k n) = ids n).
  { intros x k. rewrite ids_w_attrs. destruct n; auto. }
  ib E. destruct (is_null (n_attrs n)); [inversion E; subst; auto|].
  destruct (Nat.leb (n_num n) 10).
  - destruct (n_attrs n) as [l|b h]; [|discriminate]. ib E. destruct a0 as [[x r]|]; [|inversion E; subst; auto].
    ib E. inversion E; subst. apply Q.
  - destruct (n_attrs n) as [l|b h]; [discriminate|]. ib E. ib E. ib E. destruct a2 as [h' o]. ib E.
    destruct (Nat.eqb (Z.to_nat (hash_items blk blk unit (clear_trace h'))) 10).
    + ib E. destruct a3 as [n1 m1]. ib E. inversion E; subst. apply reinsert_like in E5.
      apply (like_trans n (w_attrs (AList []) 0 n) n'); [apply Q|exact E5].
    + inversion E; subst. apply Q.
Qed.
Lemma push_leaf i n : (forall c, i <> INode c) -> n_holder (push i n) = n_holder n /\ ids (push i n) = ids n.
Proof.
  intro H. rewrite ids_push. split; [apply holder_push|]. destruct i as [c| |]; [destruct (H c eq_refl)| |]; apply app_nil_r.
Qed.
Lemma set_text_like k s : like (set_text k s).
Proof.
  intros n m n' m' E. unfold set_text in E. cbn [malloc] in E. ib E. ib E. ib E. destruct a1 as [h m1]. inversion E; subst. apply push_leaf. discriminate.
Qed.
Lemma set_text_fac_like d k s : like (set_text_fac d k s).
Proof.
  intros n m n' m' E. unfold set_text_fac in E. ib E. destruct a as [c m1]. ib E. ib E. ib E. destruct a1 as [b m2]. ib E. destruct a1 as [h m3].
  inversion E; subst. apply push_leaf. discriminate.
Qed.
Lemma add_pi_like s c : like (add_pi s c).
Proof.
  intros n m n' m' E. unfold add_pi in E. cbn [malloc] in E. ib E. ib E. destruct c as [t|]; cbn [malloc] in E; ib E; destruct a1 as [h m1];
    inversion E; subst; apply push_leaf; discriminate.
Qed.
Lemma set_child_carries x : carries (ids x) (simple (set_child x)).
Proof.
  intros n m n' m' out E. unfold simple in E. ib E. destruct a as [n1 m1]. inversion E; subst. clear E. unfold set_child in E0.
  ib E0. ib E0. ib E0. ib E0. destruct a2 as [h m2]. inversion E0; subst. split; [apply holder_push|].
  rewrite ids_push. cbn [iids flat_map]. rewrite ids_w_holder, !app_nil_r. apply incl_refl.
Qed.
Lemma items_split k (l : list item) i : nth_error l k = Some i -> iids l = iids (firstn k l) ++ iids [i] ++ iids (skipn (S k) l).
Proof. intro E. rewrite (split_items k l i E) at 1. rewrite iids_app. cbn [iids flat_map]. rewrite app_nil_r. reflexivity. Qed.
Lemma do_after_carries k x : carries (ids x) (do_after k x).
Proof.
  intros n m n' m' out E. unfold do_after in E. destruct (is_node (nth_error (n_items n) k)) eqn:En.
  - ib E. destruct a as [n1 m1]. inversion E; subst. clear E. unfold set_after in E0. ib E0. ib E0. ib E0. ib E0. destruct a2 as [h m2].
    assert (Hn : n' = w_items (firstn (S k) (n_items n) ++ INode (w_holder (Some h) x) :: skipn (S k) (n_items n)) n) by congruence.
    clear E0. subst n'. split; [apply holder_w_items|]. rewrite ids_w_items. cbn [flat_map]. rewrite app_nil_r.
    rewrite ids_iids. intros y Hy. rewrite iids_app.
    destruct (nth_error (n_items n) k) as [i|] eqn:Ek; [|discriminate].
    rewrite <- (firstn_skipn (S k) (n_items n)), iids_app in Hy. cbn [iids flat_map app In] in *. rewrite ids_w_holder.
    unfold iids in *. rewrite !in_app_iff in *. tauto.
  - inversion E; subst. split; [reflexivity|]. cbn [flat_map]. rewrite app_nil_r. apply incl_refl.
Qed.
Lemma do_remove_carries k : carries [] (do_remove k false).
Proof.
  intros n m n' m' out E. unfold do_remove in E. destruct (is_node (nth_error (n_items n) k)) eqn:En.
  - ib E. destruct a as [c m1]. unfold take_out in E0. ib E0. destruct (nth_error (n_items n) k) as [[c'| |]|] eqn:Ek; try discriminate.
    ib E0. ib E0. inversion E0; subst. clear E0. ib E. inversion E; subst. split; [apply holder_w_items|].
    rewrite ids_w_items, ids_iids, (items_split _ _ _ Ek). unfold cut. rewrite iids_app. cbn [flat_map iids]. rewrite !app_nil_r.
    intros y Hy. cbn [app In] in *. rewrite !in_app_iff in *. tauto.
  - inversion E; subst. split; [reflexivity|]. apply incl_refl.
Qed.
Lemma do_replace_carries k x : carries (ids x) (do_replace k false x).
Proof.
  intros n m n' m' out E. unfold do_replace in E. destruct (is_node (nth_error (n_items n) k)) eqn:En.
  - ib E. destruct a as [[n1 c] m1]. unfold swap in E0. ib E0. ib E0. destruct a0 as [c0 m2]. inversion E0; subst. clear E0.
    unfold take_out in E2. ib E2. destruct (nth_error (n_items n) k) as [[c'| |]|] eqn:Ek; try discriminate.
    ib E2. ib E2. inversion E2; subst. clear E2. inversion E; subst. split; [apply holder_w_items|].
    rewrite ids_w_items, ids_iids, (items_split _ _ _ Ek), iids_app. cbn [flat_map iids]. rewrite !app_nil_r, !ids_w_holder.
    intros y Hy. cbn [app In] in *. rewrite !in_app_iff in *. tauto.
  - inversion E; subst. split; [reflexivity|]. cbn [flat_map]. rewrite app_nil_r. apply incl_refl.
Qed.
Lemma do_copy_carries : carries [] do_copy.
Proof.
  intros n m n' m' out E. unfold do_copy in E. ib E. destruct a as [c m1]. inversion E; subst. split; [reflexivity|].
  rewrite app_nil_r. apply incl_appl, incl_refl.
Qed.
Lemma at_path_carries p f ex : carries ex f -> carries ex (at_path p f).
Proof.
  intro H. induction p as [|k p IH]; intros n m n' m' out E; cbn [at_path] in E; [apply (H _ _ _ _ _ E)|].
  destruct (nth_error (n_items n) k) as [[c| |]|] eqn:Ek; try discriminate.
  ib E. destruct a as [[c1 m1] o]. inversion E; subst. destruct (IH _ _ _ _ _ E0) as [_ B]. split; [apply holder_w_items|].
  rewrite ids_w_items, ids_iids, (items_split _ _ _ Ek). unfold set_nth. rewrite iids_app. cbn [iids flat_map]. rewrite app_nil_r.
  intros y Hy. specialize (B y). cbn [app In] in *. rewrite !in_app_iff in *. cbn [In] in *. tauto.
Qed.

(** ** all trees *)
Definition tracks (s s' : st) : Prop :=
  incl (all_ids (s_roots s)) (all_ids (s_roots s')) /\
  forall n' d, In (n', Some d) (s_roots s') -> exists n, In (n, Some d) (s_roots s) /\ n_holder n' = n_holder n.
Lemma tracks_refl s : tracks s s.
Proof. split; [apply incl_refl|]. intros n d H. eauto. Qed.
Lemma all_ids_app r r' : all_ids (r ++ r') = all_ids r ++ all_ids r'. Proof. apply flat_map_app. Qed.
Lemma all_ids_add l r : all_ids (add_trees l r) = all_ids r ++ flat_map ids l.
Proof. unfold add_trees. rewrite all_ids_app. f_equal. induction l as [|n l IH]; [reflexivity|]. cbn [map all_ids flat_map fst]. f_equal. exact IH. Qed.
Lemma in_add n d l r : In (n, Some d) (add_trees l r) -> In (n, Some d) r.
Proof.
  unfold add_trees. intro H. apply in_app_or in H. destruct H as [H|H]; [exact H|]. apply in_map_iff in H. destruct H as (x & E & _). discriminate.
Qed.
Lemma all_ids_split k (r : forest) n o : nth_error r k = Some (n, o) ->
  all_ids r = all_ids (firstn k r) ++ ids n ++ all_ids (skipn (S k) r).
Proof. intro E. rewrite (split_nth k r _ E) at 1. rewrite all_ids_app. reflexivity. Qed.
Lemma in_del {A} k (l : list A) x : In x (del_nth k l) -> In x l.
Proof.
  unfold del_nth. intro H. apply in_app_or in H. rewrite <- (firstn_skipn k l). apply in_or_app. destruct H as [H|H]; [left; exact H|right].
  revert k H. induction l as [|b l IH]; intros [|k] H; cbn [skipn] in *; try (destruct H; fail).
  - right. exact H.
  - apply IH. exact H.
Qed.
Lemma in_set {A} k (l : list A) a x : In x (set_nth k a l) -> x = a \/ In x l.
Proof.
  unfold set_nth. intro H. apply in_app_or in H. destruct H as [H|[H|H]]; [|left; auto|]; right; apply (in_del k); unfold del_nth; apply in_or_app; auto.
Qed.

Lemma on_tracks p f s s' : carries [] f -> on p f s = Ok s' -> tracks s s'.
Proof.
  intros H E. unfold on in E. destruct (nth_error (s_roots s) (fst p)) as [[n d]|] eqn:En; [|inversion E; apply tracks_refl].
  destruct (get (snd p) n); [|inversion E; apply tracks_refl].
  ib E. destruct a as [[n1 m1] l]. inversion E; subst. destruct (at_path_carries _ _ _ H _ _ _ _ _ E0) as [A B]. split.
  - cbn [s_roots]. rewrite all_ids_add, (all_ids_split _ _ _ _ En). unfold set_nth. rewrite all_ids_app. cbn [all_ids flat_map fst].
    intros y Hy. specialize (B y). rewrite !app_nil_r in B. rewrite !in_app_iff in *. unfold all_ids in *. tauto.
  - cbn [s_roots]. intros n' e Hin. apply in_add in Hin. apply in_set in Hin. destruct Hin as [X|X]; [|eauto].
    inversion X; subst. exists n. split; [eapply nth_error_In; exact En|exact A].
Qed.
Lemma on2_tracks p j f s s' : (forall x, carries (ids x) (f x)) -> on2 p j f s = Ok s' -> tracks s s'.
Proof.
  intros H E. unfold on2 in E. destruct (loose j s) as [x|] eqn:Ej; [|inversion E; apply tracks_refl].
  destruct (Nat.eqb_spec (fst p) j) as [_|Nj]; [inversion E; apply tracks_refl|].
  destruct (nth_error (s_roots s) (fst p)) as [[n d]|] eqn:En; [|inversion E; apply tracks_refl].
  destruct (get (snd p) n); [|inversion E; apply tracks_refl].
  ib E. destruct a as [[n1 m1] l]. inversion E; subst. destruct (at_path_carries _ _ _ (H x) _ _ _ _ _ E0) as [A B].
  apply loose_nth in Ej.
  assert (Two : nth_error (set_nth (fst p) (n1, d) (s_roots s)) j = Some (x, None)).
  { destruct (set_nth_other (fst p) j (n1, d) (s_roots s) Nj) as [->|L]; [exact Ej|]. apply nth_error_None in L. congruence. }
  split.
  - cbn [s_roots]. rewrite all_ids_add. intros y Hy.
    assert (Q : In y (ids n1 ++ flat_map ids l) \/ In y (ids x) \/ In y (all_ids (del_nth j (set_nth (fst p) (n1, d) (s_roots s))))).
    { assert (Q : In y (ids n) \/ In y (all_ids (set_nth (fst p) (n1, d) (s_roots s)))).
      { rewrite (all_ids_split _ _ _ _ En) in Hy. unfold set_nth. rewrite all_ids_app. cbn [all_ids flat_map fst]. rewrite !in_app_iff in *. unfold all_ids in *. tauto. }
      destruct Q as [Q|Q]; [left; apply B; apply in_or_app; left; exact Q|]. right.
      rewrite (all_ids_split _ _ _ _ Two) in Q. unfold del_nth. rewrite all_ids_app. rewrite !in_app_iff in *. tauto. }
    assert (Q1 : incl (ids n1) (all_ids (del_nth j (set_nth (fst p) (n1, d) (s_roots s))))).
    { assert (Hin : In (n1, d) (del_nth j (set_nth (fst p) (n1, d) (s_roots s)))).
      { clear - En Nj. revert j Nj. generalize (fst p) En. clear En. unfold del_nth, set_nth. generalize (s_roots s) as l.
        induction l as [|b l IH]; intros k E j Nj; destruct k as [|k]; try discriminate; cbn [nth_error] in E.
        - destruct j as [|j]; [congruence|]. left. reflexivity.
        - destruct j as [|j]; cbn [firstn skipn app].
          + apply in_or_app. right. left. reflexivity.
          + right. apply (IH k E j). congruence. }
      intros z Hz. unfold all_ids. apply in_flat_map. eexists. split; [exact Hin|exact Hz]. }
    destruct Q as [Q|[Q|Q]].
    + apply in_app_or in Q. apply in_or_app. destruct Q as [Q|Q]; [left; apply Q1; exact Q|right; exact Q].
    + assert (Q2 : In y (ids n1 ++ flat_map ids l)) by (apply B; apply in_or_app; right; exact Q).
      apply in_app_or in Q2. apply in_or_app. destruct Q2 as [Q2|Q2]; [left; apply Q1; exact Q2|right; exact Q2].
    + apply in_or_app. left. exact Q.
  - cbn [s_roots]. intros n' e Hin. apply in_add, in_del, in_set in Hin. destruct Hin as [X|X]; [|eauto].
    inversion X; subst. exists n. split; [eapply nth_error_In; exact En|exact A].
Qed.
