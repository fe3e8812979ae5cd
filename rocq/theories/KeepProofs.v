From Verif Require Import Prelude HashModel OwnModel OwnExec OwnSpec OwnProofs OwnProofs2 OwnProofs3 OwnProofs4 OwnProofs5 OwnProofs7 KeepModel KeepSpec.
Open Scope nat_scope.

(** ** documents released while something else is being released *)
Definition kills (l : list nat) (m : mem) : mem := Mem (m_live m) (m_next m) (l ++ m_dead m).
Definition rk (l : list nat) (r : res mem) : res mem := m <- r ;; Ok (kills l m).
(** none of the blocks is of one of the documents *)
Definition away (l : list nat) (bs : list blk) : Prop := forall b d, In b bs -> b_org b = Some d -> ~ In d l.
Lemma away_app l b1 b2 : away l (b1 ++ b2) <-> away l b1 /\ away l b2.
Proof.
  split.
  - intro H. split; intros b d Hb; apply H; apply in_or_app; auto.
  - intros [H1 H2] b d Hb. apply in_app_or in Hb. destruct Hb; eauto.
Qed.
Lemma away_cons l b bs : away l (b :: bs) <-> away l [b] /\ away l bs.
Proof. apply (away_app l [b] bs). Qed.

Lemma rd_kills l b m : away l [b] -> rd b (kills l m) = rd b m.
Proof.
  intro H. unfold rd, alive, live. cbn [kills m_live m_dead]. destruct (b_org b) as [d|] eqn:E; [|reflexivity].
  rewrite existsb_app. destruct (existsb (Nat.eqb d) l) eqn:Ex; [|reflexivity].
  exfalso. apply existsb_in in Ex. apply (H b d (or_introl eq_refl) E Ex).
Qed.
Lemma rd_hold_kills l o m : away l (hold_blk o) -> rd_hold o (kills l m) = rd_hold o m.
Proof. destruct o as [h|]; [|reflexivity]. cbn [rd_hold hold_blk]. apply rd_kills. Qed.
Lemma free_kills l b m : free b (kills l m) = rk l (free b m).
Proof.
  unfold free, rk, live. cbn [kills m_live]. destruct (b_org b); [reflexivity|].
  destruct (existsb (Nat.eqb (b_id b)) (m_live m)); reflexivity.
Qed.
Lemma rk_bind l (r : res mem) (f : mem -> res mem) :
  (forall m, f (kills l m) = rk l (f m)) -> bind (rk l r) f = rk l (bind r f).
Proof. intro H. destruct r as [m| |]; cbn [rk bind]; [apply H|reflexivity|reflexivity]. Qed.
Lemma free_opt_kills l o m : free_opt o (kills l m) = rk l (free_opt o m).
Proof. destruct o; [apply free_kills|reflexivity]. Qed.
Lemma free_unless_kills l f b m : free_unless f b (kills l m) = rk l (free_unless f b m).
Proof. destruct f; [reflexivity|apply free_kills]. Qed.
Lemma run_events_kills l es : forall m, run_events es (kills l m) = rk l (run_events es m).
Proof.
  induction es as [|[b0 b|b0 b] es IH]; intro m; cbn [run_events]; [reflexivity| |];
    (rewrite free_kills; apply rk_bind; exact IH).
Qed.
Lemma ah_free_kills l b h m : away l [b] -> ah_free b h (kills l m) = rk l (ah_free b h m).
Proof.
  intro H. unfold ah_free. rewrite (rd_kills l b m H). destruct (rd b m); cbn [bind]; [|reflexivity|reflexivity].
  rewrite run_events_kills. apply rk_bind. intro m'. apply free_kills.
Qed.
Lemma free_attr_kills l a m : free_attr a (kills l m) = rk l (free_attr a m).
Proof.
  unfold free_attr. destruct (at_fac a); [reflexivity|]. rewrite free_kills. apply rk_bind. intro m1.
  rewrite free_kills. apply rk_bind. intro m2. apply free_kills.
Qed.
Lemma free_attrs_kills l as_ : forall m, away l (flat_map ablk as_) -> free_attrs as_ (kills l m) = rk l (free_attrs as_ m).
Proof.
  induction as_ as [|a r IH]; intros m H; cbn [free_attrs]; [reflexivity|]. cbn [flat_map] in H. apply away_app in H. destruct H as [H1 H2].
  rewrite rd_kills by (apply away_cons in H1; apply H1). destruct (rd (at_blk a) m); cbn [bind]; [|reflexivity|reflexivity].
  rewrite free_attr_kills. apply rk_bind. intro m'. apply IH. exact H2.
Qed.
Lemma free_name_attrs_kills l n m : away l (store_blocks (n_attrs n)) ->
  free_name_attrs n (kills l m) = rk l (free_name_attrs n m).
Proof.
  intro H. unfold free_name_attrs.
  assert (E : (if n_name_fac n then Ok (kills l m) else free_opt (n_name n) (kills l m)) =
              rk l (if n_name_fac n then Ok m else free_opt (n_name n) m)).
  { destruct (n_name_fac n); [reflexivity|apply free_opt_kills]. }
  rewrite E. apply rk_bind. intro m'. destruct (is_null (n_attrs n)); [reflexivity|].
  destruct (Nat.leb (n_num n) 10); destruct (n_attrs n) as [as_|b h]; cbn [store_blocks] in H; try reflexivity.
  - apply free_attrs_kills. exact H.
  - apply ah_free_kills. apply away_cons in H. apply H.
Qed.
Lemma free_holder_self_kills l n m : away l (hold_blk (n_holder n)) -> away l [n_self n] ->
  free_holder_self n (kills l m) = rk l (free_holder_self n m).
Proof.
  intros H1 H2. unfold free_holder_self. rewrite (rd_hold_kills l _ m H1).
  destruct (rd_hold (n_holder n) m); cbn [bind]; [|reflexivity|reflexivity].
  assert (E : match n_holder n with Some h => free_unless (hd_fac h) (hd_blk h) (kills l m) | None => Ok (kills l m) end =
              rk l match n_holder n with Some h => free_unless (hd_fac h) (hd_blk h) m | None => Ok m end).
  { destruct (n_holder n); [apply free_unless_kills|reflexivity]. }
  rewrite E. apply rk_bind. intro m'. rewrite (rd_kills l _ m' H2).
  destruct (rd (n_self n) m'); cbn [bind]; [|reflexivity|reflexivity]. apply free_unless_kills.
Qed.
Lemma leaf_free_kills l i m : away l (iblocks i) -> leaf_free i (kills l m) = rk l (leaf_free i m).
Proof.
  destruct i as [c|k h a c f|h pi s c]; cbn [leaf_free iblocks]; intro H.
  - reflexivity.
  - apply away_cons in H. destruct H as [H1 H]. apply away_cons in H. destruct H as [H2 H].
    rewrite (rd_kills l _ m H1). destruct (rd (hd_blk h) m); cbn [bind]; [|reflexivity|reflexivity].
    assert (E : (if f then Ok (kills l m) else (_ <- rd a (kills l m) ;; m <- free c (kills l m) ;; free a m)) =
                rk l (if f then Ok m else (_ <- rd a m ;; m <- free c m ;; free a m))).
    { destruct f; [reflexivity|]. rewrite (rd_kills l _ m H2). destruct (rd a m); cbn [bind]; [|reflexivity|reflexivity].
      rewrite free_kills. apply rk_bind. intro m'. apply free_kills. }
    rewrite E. apply rk_bind. intro m'. apply free_unless_kills.
  - apply away_cons in H. destruct H as [H1 H]. apply away_cons in H. destruct H as [H2 H].
    rewrite (rd_kills l _ m H1). destruct (rd (hd_blk h) m); cbn [bind]; [|reflexivity|reflexivity].
    assert (E : pi_free pi s c (kills l m) = rk l (pi_free pi s c m)).
    { unfold pi_free. rewrite (rd_kills l _ m H2). destruct (rd pi m); cbn [bind]; [|reflexivity|reflexivity].
      rewrite free_kills. apply rk_bind. intro m'. rewrite free_opt_kills. apply rk_bind. intro m2. apply free_kills. }
    rewrite E. apply rk_bind. intro m'. apply free_unless_kills.
Qed.
Lemma away_blocks l n : away l (blocks n) -> away l [n_self n] /\ away l (opt_blk (n_name n)) /\ away l (store_blocks (n_attrs n)) /\
  away l (hold_blk (n_holder n)) /\ away l (flat_map iblocks (n_items n)).
Proof.
  intro H. rewrite blocks_eq in H. apply away_cons in H. destruct H as [H1 H]. apply away_app in H. destruct H as [H2 H].
  apply away_app in H. destruct H as [H3 H]. apply away_app in H. destruct H as [H4 H5]. auto.
Qed.
Lemma node_free_kills l n : forall m, away l (blocks n) -> node_free n (kills l m) = rk l (node_free n m).
Proof.
  induction n as [n IH] using node_rect'. intros m H. rewrite !node_free_eq.
  apply away_blocks in H. destruct H as (H1 & H2 & H3 & H4 & H5).
  rewrite (rd_kills l _ m H1). destruct (rd (n_self n) m); cbn [bind]; [|reflexivity|reflexivity].
  rewrite (free_name_attrs_kills l n m H3). apply rk_bind. intro m1.
  assert (X : forall is_ m, (forall c, In (INode c) is_ -> In (INode c) (n_items n)) -> away l (flat_map iblocks is_) ->
     free_items is_ (kills l m) = rk l (free_items is_ m)).
  { clear - IH. induction is_ as [|i r IHr]; intros m Sub H; [reflexivity|]. cbn [flat_map] in H. apply away_app in H. destruct H as [Ha Hb].
    destruct i as [c|k h a c f|h pi s c]; cbn [free_items].
    - cbn [iblocks] in Ha. rewrite rd_hold_kills.
      2:{ apply away_blocks in Ha. apply Ha. }
      destruct (rd_hold (n_holder c) m); cbn [bind]; [|reflexivity|reflexivity].
      rewrite (IH c (Sub c (or_introl eq_refl)) m Ha). apply rk_bind. intro m'. apply IHr; [|exact Hb]. intros x Hx. apply Sub. right. exact Hx.
    - rewrite (leaf_free_kills l (IText k h a c f) m Ha). apply rk_bind. intro m'. apply IHr; [|exact Hb]. intros x Hx. apply Sub. right. exact Hx.
    - rewrite (leaf_free_kills l (IPi h pi s c) m Ha). apply rk_bind. intro m'. apply IHr; [|exact Hb]. intros x Hx. apply Sub. right. exact Hx. }
  rewrite (X (n_items n) m1 (fun c Hc => Hc) H5). apply rk_bind. intro m2. apply free_holder_self_kills; assumption.
Qed.
Lemma free_items_kills l is_ : forall m, away l (flat_map iblocks is_) -> free_items is_ (kills l m) = rk l (free_items is_ m).
Proof.
  induction is_ as [|i r IHr]; intros m H; [reflexivity|]. cbn [flat_map] in H. apply away_app in H. destruct H as [Ha Hb].
  destruct i as [c|k h a c f|h pi s c]; cbn [free_items].
  - cbn [iblocks] in Ha. rewrite rd_hold_kills.
    2:{ apply away_blocks in Ha. apply Ha. }
    destruct (rd_hold (n_holder c) m); cbn [bind]; [|reflexivity|reflexivity].
    rewrite (node_free_kills l c m Ha). apply rk_bind. intro m'. apply IHr; exact Hb.
  - rewrite (leaf_free_kills l (IText k h a c f) m Ha). apply rk_bind. intro m'. apply IHr; exact Hb.
  - rewrite (leaf_free_kills l (IPi h pi s c) m Ha). apply rk_bind. intro m'. apply IHr; exact Hb.
Qed.

(** ** no document goes by releasing blocks *)
Definition still (r : res mem) (m : mem) : Prop := forall m', r = Ok m' -> m_dead m' = m_dead m.
Lemma still_bind r (f : mem -> res mem) m : still r m -> (forall m', still (f m') m') -> still (bind r f) m.
Proof.
  intros H1 H2 m' E. destruct r as [m1| |]; cbn [bind] in E; try discriminate.
  rewrite (H2 m1 m' E). apply H1. reflexivity.
Qed.
Lemma still_rd (r : res unit) (f : mem -> res mem) m : still (f m) m -> still (_ <- r ;; f m) m.
Proof. intros H m' E. destruct r; cbn [bind] in E; try discriminate. apply H. exact E. Qed.
Lemma still_free b m : still (free b m) m.
Proof.
  intros m' E. unfold free in E. destruct (b_org b); [discriminate|]. destruct (live (b_id b) m); [|discriminate]. inversion E. reflexivity.
Qed.
Lemma still_ok m : still (Ok m) m. Proof. intros m' E. inversion E. reflexivity. Qed.
Lemma still_free_opt b m : still (free_opt b m) m.
Proof. destruct b; [apply still_free|apply still_ok]. Qed.
Lemma still_free_unless f b m : still (free_unless f b m) m.
Proof. destruct f; [apply still_ok|apply still_free]. Qed.
Lemma still_events es : forall m, still (run_events es m) m.
Proof. induction es as [|[b0 b|b0 b] es IH]; intro m; cbn [run_events]; [apply still_ok| |]; (apply still_bind; [apply still_free|exact IH]). Qed.
Lemma still_ub m : still UB m. Proof. intros m' E. discriminate. Qed.
Lemma still_name_attrs n m : still (free_name_attrs n m) m.
Proof.
  unfold free_name_attrs. apply still_bind. { destruct (n_name_fac n); [apply still_ok|apply still_free_opt]. }
  intro m'. destruct (is_null (n_attrs n)); [apply still_ok|].
  destruct (Nat.leb (n_num n) 10); destruct (n_attrs n) as [as_|b h]; try apply still_ub.
  - revert m'. induction as_ as [|a r IH]; intro m'; cbn [free_attrs]; [apply still_ok|].
    apply (still_rd _ (fun m => m0 <- free_attr a m ;; free_attrs r m0)). apply still_bind; [|exact IH].
    unfold free_attr. destruct (at_fac a); [apply still_ok|]. apply still_bind; [apply still_free|]. intro m2.
    apply still_bind; [apply still_free|]. intro m3. apply still_free.
  - unfold ah_free. apply (still_rd _ (fun m => m0 <- run_events _ m ;; free b m0)). apply still_bind; [apply still_events|]. intro. apply still_free.
Qed.
Lemma still_holder_self n m : still (free_holder_self n m) m.
Proof.
  unfold free_holder_self.
  apply (still_rd _ (fun m => m0 <- match n_holder n with Some h => free_unless (hd_fac h) (hd_blk h) m | None => Ok m end ;;
                               _ <- rd (n_self n) m0 ;; free_unless (n_fac n) (n_self n) m0)).
  apply still_bind. { destruct (n_holder n); [apply still_free_unless|apply still_ok]. }
  intro m'. apply (still_rd _ (fun m => free_unless (n_fac n) (n_self n) m)). apply still_free_unless.
Qed.
Lemma still_leaf i m : still (leaf_free i m) m.
Proof.
  destruct i as [c|k h a c f|h pi s c]; cbn [leaf_free]; [apply still_ok| |].
  - intros m' E. destruct (rd (hd_blk h) m); cbn [bind] in E; try discriminate. revert m' E.
    apply still_bind. { destruct f; [apply still_ok|]. apply (still_rd _ (fun m => m0 <- free c m ;; free a m0)).
      apply still_bind; [apply still_free|]. intro. apply still_free. }
    intro. apply still_free_unless.
  - intros m' E. destruct (rd (hd_blk h) m); cbn [bind] in E; try discriminate. revert m' E.
    apply still_bind; [|intro; apply still_free_unless]. unfold pi_free.
    apply (still_rd _ (fun m => m0 <- free s m ;; m1 <- free_opt c m0 ;; free pi m1)).
    apply still_bind; [apply still_free|]. intro. apply still_bind; [apply still_free_opt|]. intro. apply still_free.
Qed.
Lemma still_node n : forall m, still (node_free n m) m.
Proof.
  induction n as [n IH] using node_rect'. intros m. rewrite node_free_eq.
  apply (still_rd _ (fun m => m0 <- free_name_attrs n m ;; m1 <- free_items (n_items n) m0 ;; free_holder_self n m1)).
  apply still_bind; [apply still_name_attrs|]. intro m1. apply still_bind; [|intro; apply still_holder_self].
  assert (X : forall l m, (forall c, In (INode c) l -> In (INode c) (n_items n)) -> still (free_items l m) m).
  { clear - IH. induction l as [|i r IHr]; intros m Sub; [apply still_ok|].
    assert (Sub' : forall c, In (INode c) r -> In (INode c) (n_items n)) by (intros c Hc; apply Sub; right; exact Hc).
    destruct i as [c|k h a c f|h pi s c]; cbn [free_items].
    - apply (still_rd _ (fun m => m0 <- node_free c m ;; free_items r m0)).
      apply still_bind; [apply (IH c (Sub c (or_introl eq_refl)))|]. intro. apply IHr, Sub'.
    - apply still_bind; [apply (still_leaf (IText k h a c f))|]. intro. apply IHr, Sub'.
    - apply still_bind; [apply (still_leaf (IPi h pi s c))|]. intro. apply IHr, Sub'. }
  apply X. auto.
Qed.

(** ** the parts of a tree outside a node *)
Lemma w_items_parts l n : n_self (w_items l n) = n_self n /\ n_name (w_items l n) = n_name n /\ n_attrs (w_items l n) = n_attrs n /\
  n_holder (w_items l n) = n_holder n /\ n_items (w_items l n) = l.
Proof. destruct n; cbn; auto. Qed.
Lemma prune_parts i q n x : get (i :: q) n = Some x ->
  exists l, prune i q n = w_items l n /\ incl (firstn i (n_items n) ++ skipn (S i) (n_items n)) l.
Proof.
  cbn [get]. destruct (nth_error (n_items n) i) as [[c| |]|] eqn:E; try discriminate. intro G.
  destruct q as [|i' q]; cbn [prune].
  - eexists. split; [reflexivity|]. apply incl_refl.
  - rewrite E. eexists. split; [reflexivity|]. intros y Hy. unfold set_nth. apply in_app_or in Hy. apply in_or_app. cbn [In]. tauto.
Qed.
Lemma ids_eq n : ids n = addr n :: flat_map (fun i => match i with INode c => ids c | _ => [] end) (n_items n).
Proof.
  destruct n as [b f s sf a k l h]. cbn [ids addr n_self n_items]. f_equal.
  induction l as [|[c| |] l IH]; cbn [flat_map app]; [reflexivity|f_equal; exact IH|exact IH|exact IH].
Qed.
Lemma ids_get n : forall a, In a (ids n) -> exists q x, get q n = Some x /\ addr x = a.
Proof.
  induction n as [n IH] using node_rect'. intros a H. rewrite ids_eq in H. destruct H as [<-|H].
  - exists [], n. auto.
  - apply in_flat_map in H. destruct H as (i & Hi & H). destruct i as [c| |]; [|destruct H|destruct H].
    destruct (IH c Hi a H) as (q & x & E & A). apply In_nth_error in Hi. destruct Hi as (j & Hj).
    exists (j :: q), x. cbn [get]. rewrite Hj. auto.
Qed.
Lemma in_blocks_part b n : In b (blocks n) <-> b = n_self n \/ In b (opt_blk (n_name n)) \/ In b (store_blocks (n_attrs n)) \/
  In b (hold_blk (n_holder n)) \/ In b (flat_map iblocks (n_items n)).
Proof. rewrite blocks_eq. cbn [In]. rewrite !in_app_iff. intuition. Qed.
Lemma in_docs_part d n : In d (docs n) <-> In d (match n_holder n with Some h => hold_doc h | None => [] end) \/
  In d (flat_map idocs (n_items n)).
Proof. rewrite docs_eq. apply in_app_iff. Qed.

Lemma closed_child k n i c : closed k n -> nth_error (n_items n) i = Some (INode c) -> closed k c.
Proof.
  intros H E i' p x d G K D. apply (H i (i' :: p) x d).
  - cbn [get]. rewrite E. exact G.
  - exact K.
  - cbn [prune]. rewrite E. destruct (w_items_parts (set_nth i (INode (prune i' p c)) (n_items n)) n) as (_ & _ & _ & _ & Ei).
    assert (Hin : In (INode (prune i' p c)) (set_nth i (INode (prune i' p c)) (n_items n))).
    { unfold set_nth. apply in_or_app. right. left. reflexivity. }
    destruct D as [(b & Hb & Eb)|D].
    + left. exists b. split; [|exact Eb]. apply in_blocks_part. rewrite Ei. do 4 right. apply in_flat_map. eexists. split; [exact Hin|]. exact Hb.
    + right. apply in_docs_part. rewrite Ei. right. apply in_flat_map. eexists. split; [exact Hin|]. exact D.
Qed.
Lemma closed_rest k n i c a d : closed k n -> nth_error (n_items n) i = Some (INode c) -> In a (ids c) -> In (a, d) k ->
  away [d] [n_self n] /\ away [d] (hold_blk (n_holder n)) /\
  away [d] (flat_map iblocks (firstn i (n_items n) ++ skipn (S i) (n_items n))).
Proof.
  intros H E A K. destruct (ids_get c a A) as (q & x & G & Ax).
  assert (G' : get (i :: q) n = Some x) by (cbn [get]; rewrite E; exact G).
  subst a. pose proof (H i q x d G' K) as N. destruct (prune_parts i q n x G') as (l & Ep & Sub). rewrite Ep in N.
  destruct (w_items_parts l n) as (P1 & P2 & P3 & P4 & P5).
  assert (Q : forall b, In b (blocks (w_items l n)) -> forall e, b_org b = Some e -> ~ In e [d]).
  { intros b Hb e Eb [X|[]]. subst e. apply N. left. eauto. }
  assert (R : forall b, In b (blocks (w_items l n)) <-> b = n_self n \/ In b (opt_blk (n_name n)) \/ In b (store_blocks (n_attrs n)) \/
    In b (hold_blk (n_holder n)) \/ In b (flat_map iblocks l)).
  { intro b. rewrite in_blocks_part, P1, P2, P3, P4, P5. reflexivity. }
  split; [|split]; intros b e Hb Eb; refine (Q b _ e Eb); apply R.
  - left. destruct Hb as [<-|[]]. reflexivity.
  - do 3 right. left. exact Hb.
  - do 4 right. apply in_flat_map in Hb. destruct Hb as (y & Hy & Hb). apply in_flat_map. exists y. split; [apply Sub; exact Hy|exact Hb].
Qed.
Lemma away_each ds bs : (forall d, In d ds -> away [d] bs) -> away ds bs.
Proof. intros H b d Hb Eb Hd. apply (H d Hd b d Hb Eb). left. reflexivity. Qed.

(** ** what is kept *)
Definition drops (l : list nat) (k : keep) : keep := filter (fun x => negb (existsb (Nat.eqb (fst x)) l)) k.
Definition keep_ok (k : keep) (m : mem) : Prop := NoDup (map snd k) /\ forall a d, In (a, d) k -> ~ In d (m_dead m).
Lemma drops_in l k a d : In (a, d) (drops l k) <-> In (a, d) k /\ ~ In a l.
Proof.
  unfold drops. rewrite filter_In. cbn [fst]. split.
  - intros [H1 H2]. split; [exact H1|]. intro X. apply existsb_in in X. rewrite X in H2. discriminate.
  - intros [H1 H2]. split; [exact H1|]. destruct (existsb (Nat.eqb a) l) eqn:E; [|reflexivity]. apply existsb_in in E. contradiction.
Qed.
Lemma drops_app l1 l2 k : drops l2 (drops l1 k) = drops (l1 ++ l2) k.
Proof.
  unfold drops. induction k as [|[a d] k IH]; [reflexivity|]. cbn [filter fst]. rewrite existsb_app.
  destruct (existsb (Nat.eqb a) l1); cbn [orb negb filter fst]; [exact IH|].
  destruct (existsb (Nat.eqb a) l2); cbn [negb]; [exact IH|f_equal; exact IH].
Qed.
Lemma drop_drops a k : drop a k = drops [a] k.
Proof. unfold drop, drops. apply filter_ext. intros [x d]. cbn [fst existsb]. rewrite orb_false_r. reflexivity. Qed.
Lemma drops_nil k : drops [] k = k.
Proof. unfold drops. induction k as [|x k IH]; [reflexivity|]. cbn [filter existsb negb]. f_equal. exact IH. Qed.
Lemma filter_NoDup_snd (f : nat * nat -> bool) k : NoDup (map snd k) -> NoDup (map snd (filter f k)).
Proof.
  induction k as [|x k IH]; intro H; [constructor|]. inversion H as [|? ? H1 H2]; subst. cbn [filter].
  destruct (f x); [|apply IH; exact H2]. cbn [map]. constructor; [|apply IH; exact H2].
  intro X. apply H1. apply in_map_iff in X. destruct X as (y & E & Hy). apply filter_In in Hy. rewrite <- E. apply in_map. apply Hy.
Qed.
Lemma snd_inj (k : keep) a a' d : NoDup (map snd k) -> In (a, d) k -> In (a', d) k -> a = a'.
Proof.
  induction k as [|[b e] k IH]; intros H H1 H2; [destruct H1|]. inversion H as [|? ? N1 N2]; subst. cbn [snd] in N1.
  destruct H1 as [E1|H1]; destruct H2 as [E2|H2].
  - congruence.
  - inversion E1; subst. exfalso. apply N1. apply (in_map snd) in H2. exact H2.
  - inversion E2; subst. exfalso. apply N1. apply (in_map snd) in H1. exact H1.
  - apply IH; assumption.
Qed.
Lemma keep_ok_drops k m l ds : keep_ok k m -> (forall d, In d ds -> exists a, In a l /\ In (a, d) k) -> keep_ok (drops l k) (kills ds m).
Proof.
  intros [H1 H2] H3. split; [apply filter_NoDup_snd; exact H1|]. intros a d K X. apply drops_in in K. destruct K as [K N].
  cbn [kills m_dead] in X. apply in_app_or in X. destruct X as [X|X].
  - destruct (H3 d X) as (a' & Ha & Ka). rewrite (snd_inj k a a' d H1 K Ka) in N. contradiction.
  - apply (H2 a d K X).
Qed.
Lemma kills_app l1 l2 m : kills l2 (kills l1 m) = kills (l2 ++ l1) m.
Proof. unfold kills. cbn [m_live m_next m_dead]. rewrite app_assoc. reflexivity. Qed.
Lemma release_ok l : forall m, NoDup l -> (forall d, In d l -> ~ In d (m_dead m)) -> release l m = Ok (kills (rev l) m).
Proof.
  induction l as [|d l IH]; intros m N H; cbn [release rev].
  - destruct m; reflexivity.
  - inversion N as [|? ? N1 N2]; subst. unfold alive. destruct (existsb (Nat.eqb d) (m_dead m)) eqn:E.
    { apply existsb_in in E. exfalso. apply (H d (or_introl eq_refl) E). }
    cbn [negb]. rewrite (IH (kill d m) N2).
    + f_equal. change (kill d m) with (kills [d] m). apply kills_app.
    + intros e He [X|X]; [subst; contradiction|]. apply (H e (or_intror He) X).
Qed.
Lemma free_notes_ok a k m : keep_ok k m -> exists ds, free_notes a k m = Ok (drops [a] k, kills ds m) /\
  (forall d, In d ds <-> In (a, d) k).
Proof.
  intros [H1 H2]. exists (rev (kept a k)). unfold free_notes.
  assert (Q : forall d, In d (kept a k) <-> In (a, d) k).
  { intro d. unfold kept. rewrite in_map_iff. split.
    - intros ([x e] & E & H). apply filter_In in H. cbn [fst snd] in *. destruct H as [H E2]. apply Nat.eqb_eq in E2. subst. exact H.
    - intro H. exists (a, d). split; [reflexivity|]. apply filter_In. split; [exact H|]. apply Nat.eqb_refl. }
  rewrite release_ok.
  - cbn [bind]. rewrite drop_drops. split; [reflexivity|]. intro d. rewrite <- in_rev. apply Q.
  - apply filter_NoDup_snd. exact H1.
  - intros d Hd. apply (H2 a d). apply Q. exact Hd.
Qed.

(** ** axl_node_free *)
Fixpoint kfree_items (l : list item) (k : keep) (m : mem) : res (keep * mem) :=
  match l with
  | [] => Ok (k, m)
  | INode c :: r => _ <- rd_hold (n_holder c) m ;; '(k, m) <- kfree c k m ;; kfree_items r k m
  | i :: r => m <- leaf_free i m ;; kfree_items r k m
  end.
Lemma kfree_eq n k m : kfree n k m =
  (_ <- rd (n_self n) m ;; m <- free_name_attrs n m ;; '(k, m) <- kfree_items (n_items n) k m ;;
   m <- free_holder_self n m ;; free_notes (addr n) k m).
Proof. destruct n. reflexivity. Qed.

Lemma closed_sub k k' n : (forall x, In x k' -> In x k) -> closed k n -> closed k' n.
Proof. intros S0 H i p c d G K. apply (H i p c d G). apply S0. exact K. Qed.

Lemma kfree_ok n : forall k m m', node_free n m = Ok m' -> closed k n -> keep_ok k m ->
  exists ds, kfree n k m = Ok (drops (ids n) k, kills ds m') /\ (forall d, In d ds <-> exists a, In a (ids n) /\ In (a, d) k).
Proof.
  induction n as [n IH] using node_rect'. intros k m m' E C K. rewrite node_free_eq in E. rewrite kfree_eq.
  destruct (rd (n_self n) m) as [[]| |]; cbn [bind] in *; try discriminate.
  pose proof (still_name_attrs n m) as S1. destruct (free_name_attrs n m) as [m1| |]; cbn [bind] in *; try discriminate.
  specialize (S1 m1 eq_refl).
  destruct (free_items (n_items n) m1) as [m2| |] eqn:E2; cbn [bind] in E; try discriminate.
  set (iids := fun l => flat_map (fun i => match i with INode c => ids c | _ => [] end) l).
  assert (X : forall l1 l2 k2 m1 m2, n_items n = l1 ++ l2 -> (forall x, In x k2 -> In x k) -> keep_ok k2 m1 -> free_items l2 m1 = Ok m2 ->
    exists ds, kfree_items l2 k2 m1 = Ok (drops (iids l2) k2, kills ds m2) /\ (forall d, In d ds <-> exists a, In a (iids l2) /\ In (a, d) k2) /\
      m_dead m2 = m_dead m1).
  { clear E2 S1 E K m1 m2 m m'. intros l1 l2. revert l1.
    induction l2 as [|i l2 IHl]; intros l1 k2 m1 m2 El Sub K E; cbn [free_items kfree_items iids flat_map] in *.
    - inversion E; subst. exists []. rewrite drops_nil. split; [destruct m2; reflexivity|]. split; [|reflexivity].
      intro d. split; [intros []|intros (a & [] & _)].
    - assert (El' : n_items n = (l1 ++ [i]) ++ l2) by (rewrite <- app_assoc; exact El).
      assert (Leaf : (forall c, i <> INode c) -> (bind (leaf_free i m1) (free_items l2) = Ok m2) ->
         exists ds, (m0 <- leaf_free i m1 ;; kfree_items l2 k2 m0) = Ok (drops (iids l2) k2, kills ds m2) /\
           (forall d, In d ds <-> exists a, In a (iids l2) /\ In (a, d) k2) /\ m_dead m2 = m_dead m1).
      { intros _ E'. pose proof (still_leaf i m1) as S2. destruct (leaf_free i m1) as [m0| |]; cbn [bind] in *; try discriminate.
        specialize (S2 m0 eq_refl). destruct (IHl _ k2 m0 m2 El' Sub) as (ds & A & B & D).
        { destruct K as [K1 K2]. split; [exact K1|]. rewrite S2. exact K2. } { exact E'. }
        exists ds. split; [exact A|]. split; [exact B|]. congruence. }
      destruct i as [c|kd h a c f|h pi s c]; cbn [app].
      2:{ apply Leaf; [discriminate|exact E]. } 2:{ apply Leaf; [discriminate|exact E]. }
      clear Leaf. destruct (rd_hold (n_holder c) m1) as [[]| |]; cbn [bind] in *; try discriminate.
      destruct (node_free c m1) as [mc| |] eqn:Ec; cbn [bind] in E; try discriminate.
      assert (Nth : nth_error (n_items n) (length l1) = Some (INode c)) by (rewrite El, nth_error_app2, Nat.sub_diag by lia; reflexivity).
      assert (Hin : In (INode c) (n_items n)) by (eapply nth_error_In; exact Nth).
      destruct (IH c Hin k2 m1 mc Ec (closed_sub k k2 c Sub (closed_child k n _ c C Nth)) K) as (ds1 & A1 & B1).
      rewrite A1. cbn [bind].
      assert (Aw : away ds1 (flat_map iblocks l2)).
      { apply away_each. intros d Hd. apply B1 in Hd. destruct Hd as (a & Ha & Ka).
        destruct (closed_rest k n (length l1) c a d C Nth Ha (Sub _ Ka)) as (_ & _ & Q).
        rewrite flat_map_app in Q. apply away_app in Q. destruct Q as [_ Q].
        rewrite El in Q. rewrite skipn_app, skipn_all2 in Q by lia. replace (S (length l1) - length l1) with 1 in Q by lia.
        cbn [skipn app] in Q. exact Q. }
      pose proof (free_items_kills ds1 l2 mc Aw) as Ek. rewrite E in Ek. cbn [rk bind] in Ek.
      destruct (IHl _ (drops (ids c) k2) (kills ds1 mc) (kills ds1 m2) El') as (ds2 & A2 & B2 & D2).
      { intros [x d] Hx. apply drops_in in Hx. apply Sub. apply Hx. }
      { apply keep_ok_drops.
        - destruct K as [K1 K2]. split; [exact K1|]. rewrite (still_node c m1 mc Ec). exact K2.
        - intros d Hd. apply B1. exact Hd. }
      { exact Ek. }
      rewrite A2. exists (ds2 ++ ds1). rewrite drops_app, kills_app. split; [reflexivity|]. split.
      + intro d. rewrite in_app_iff, B1, B2. split.
        * intros [(a & Ha & Ka)|(a & Ha & Ka)].
          -- apply drops_in in Ka. exists a. split; [apply in_or_app; right; exact Ha|apply Ka].
          -- exists a. split; [apply in_or_app; left; exact Ha|exact Ka].
        * intros (a & Ha & Ka). destruct (in_dec Nat.eq_dec a (ids c)) as [Y|N]; [right; eauto|]. left.
          apply in_app_or in Ha. destruct Ha as [Ha|Ha]; [contradiction|]. exists a. split; [exact Ha|]. apply drops_in. auto.
      + cbn [kills m_dead] in D2. apply app_inv_head in D2. rewrite D2. apply (still_node c m1 mc Ec). }
  assert (K1 : keep_ok k m1). { destruct K as [K1 K2]. split; [exact K1|]. rewrite S1. exact K2. }
  destruct (X [] (n_items n) k m1 m2 eq_refl (fun x Hx => Hx) K1 E2) as (ds & A & B & D).
  rewrite A. cbn [bind].
  assert (Rest : forall d, In d ds -> away [d] [n_self n] /\ away [d] (hold_blk (n_holder n))).
  { intros d Hd. apply B in Hd. destruct Hd as (a & Ha & Ka). unfold iids in Ha. apply in_flat_map in Ha.
    destruct Ha as (i & Hi & Ha). destruct i as [c| |]; [|destruct Ha|destruct Ha].
    apply In_nth_error in Hi. destruct Hi as (j & Hj). destruct (closed_rest k n j c a d C Hj Ha Ka) as (Q1 & Q2 & _). auto. }
  rewrite free_holder_self_kills; [|apply away_each; intros d Hd; apply (Rest d Hd)|apply away_each; intros d Hd; apply (Rest d Hd)].
  pose proof (still_holder_self n m2 m' E) as S3. rewrite E. cbn [rk bind].
  assert (K2 : keep_ok (drops (iids (n_items n)) k) (kills ds m')).
  { apply keep_ok_drops.
    - destruct K1 as [Ka Kb]. split; [exact Ka|]. rewrite S3, D. exact Kb.
    - intros d Hd. apply B. exact Hd. }
  destruct (free_notes_ok (addr n) _ _ K2) as (ds2 & A2 & B2). rewrite A2. exists (ds2 ++ ds).
  rewrite drops_app, kills_app. rewrite ids_eq. fold iids. split.
  - f_equal. f_equal. unfold drops. apply filter_ext. intros [x d]. cbn [fst]. rewrite existsb_app. cbn [existsb]. rewrite orb_false_r, orb_comm. reflexivity.
  - intro d. rewrite in_app_iff, B, B2. cbn [In]. split.
    + intros [H|(a & Ha & Ka)].
      * apply drops_in in H. exists (addr n). split; [left; reflexivity|apply H].
      * exists a. split; [right; exact Ha|exact Ka].
    + intros (a & Ha & Ka). destruct (in_dec Nat.eq_dec a (iids (n_items n))) as [Y|N]; [right; eauto|]. left.
      destruct Ha as [<-|Ha]; [|contradiction]. apply drops_in. auto.
Qed.
