From Coq Require Import Permutation.
From Verif Require Import Prelude HashModel HashSpec HashExec HashProofs HashProofs2 HashStrProofs OwnModel OwnExec OwnSpec OwnProofs OwnProofs2 OwnProofs3 OwnProofs4 OwnProofs5 OwnProofs6.
Open Scope nat_scope.

(** ** a function at the end of a path *)
Lemma at_path_keeps p f ex m : forall n c, get p n = Some c -> pre2 ex n m ->
  (pre2 ex c m -> keeps2 ex f c m) -> keeps2 ex (at_path p f) n m.
Proof.
  induction p as [|k p IH]; intros n c E P Hf; cbn [get] in E.
  - inversion E; subst c. cbn [at_path]. exact (Hf P).
  - destruct (nth_error (n_items n) k) as [[b| |]|] eqn:Ek; try discriminate.
    destruct P as (M & Wf & H). pose proof (items_of _ _ Wf) as F. rewrite (split_items _ _ _ Ek) in F.
    apply Forall_app in F. destruct F as [F1 F2]. pose proof (Forall_inv F2) as [F3 F4]. pose proof (Forall_inv_tail F2) as F5.
    pose proof (fun x => f_equal (fun l => W (flat_map iblocks l) x) (split_items _ _ _ Ek)) as Q. cbv beta in Q.
    assert (Pb : pre2 ex b m).
    { split; [exact M|]. split; [exact F3|]. intro x. specialize (H x). specialize (Q x). rewrite W_blocks in H.
      rewrite flat_map_app in Q. cbn [flat_map iblocks] in Q. rewrite !W_app in Q. lia. }
    destruct (IH b c E Pb Hf) as (b' & m' & out & E' & M' & D' & Wb & Hb & Fo & G).
    unfold keeps2. cbn [at_path]. rewrite Ek, E'. cbn [bind]. eexists _, _, _. split; [reflexivity|].
    split; [exact M'|]. split; [exact D'|]. split.
    { apply wf_w_items; [exact Wf|]. unfold set_nth. apply Forall_app. split; [exact F1|]. constructor; [split; auto|exact F5]. }
    split; [rewrite holder_w_items; auto|]. split; [exact Fo|].
    intro x. specialize (G x). specialize (Q x). pose proof (W_w_items n (set_nth k (INode b') (n_items n)) x) as Q2.
    unfold set_nth in *. rewrite flat_map_app in Q, Q2. cbn [flat_map iblocks] in Q, Q2. rewrite !W_app in Q, Q2. lia.
Qed.

(** ** all trees *)
Definition fblocks (r : forest) : list blk := flat_map (fun x => blocks (fst x)) r.
Definition fwf (D : list nat) (r : forest) : Prop := Forall (fun x => wf D (fst x)) r.
Definition inv (s : st) : Prop :=
  mem_ok (s_mem s) /\ fwf (m_dead (s_mem s)) (s_roots s) /\ forall x, held (s_mem s) x = W (fblocks (s_roots s)) x.

Lemma split_nth {A} k (l : list A) a : nth_error l k = Some a -> l = firstn k l ++ a :: skipn (S k) l.
Proof.
  revert k. induction l as [|b l IH]; intros [|k] E; try discriminate; cbn [nth_error] in E.
  - inversion E; reflexivity.
  - cbn [firstn skipn app]. f_equal. apply IH. exact E.
Qed.
Lemma fblocks_app r r' : fblocks (r ++ r') = fblocks r ++ fblocks r'. Proof. apply flat_map_app. Qed.
Lemma W_fcons n o r x : W (fblocks ((n, o) :: r)) x = W (blocks n) x + W (fblocks r) x.
Proof. unfold fblocks. cbn [flat_map fst]. apply W_app. Qed.
Lemma W_split k (r : forest) n o x : nth_error r k = Some (n, o) ->
  W (fblocks r) x = W (blocks n) x + W (fblocks (del_nth k r)) x.
Proof.
  intro E. unfold del_nth. rewrite (split_nth _ _ _ E) at 1. rewrite !fblocks_app, !W_app, W_fcons. lia.
Qed.
Lemma W_set k (r : forest) n o n' o' x : nth_error r k = Some (n, o) ->
  W (fblocks (set_nth k (n', o') r)) x + W (blocks n) x = W (fblocks r) x + W (blocks n') x.
Proof.
  intro E. rewrite (W_split k r n o x E). unfold del_nth, set_nth. rewrite !fblocks_app, !W_app, W_fcons. lia.
Qed.
Lemma fwf_del D k r : fwf D r -> fwf D (del_nth k r).
Proof.
  intro F. apply Forall_app. rewrite <- (firstn_skipn k r) in F. apply Forall_app in F. destruct F as [F1 F2].
  split; [exact F1|]. clear F1. revert r F2. induction k as [|k IH]; intros [|a r] F2; cbn [skipn] in *; auto.
  apply (Forall_inv_tail F2).
Qed.
Lemma fwf_set D k r n o : fwf D r -> wf D n -> fwf D (set_nth k (n, o) r).
Proof.
  intros F Wn. pose proof (fwf_del D k r F) as G. apply Forall_app in G. apply Forall_app. split; [apply G|].
  constructor; [exact Wn|apply G].
Qed.
Lemma fwf_nth D k r n o : fwf D r -> nth_error r k = Some (n, o) -> wf D n.
Proof. intros F E. apply nth_error_In in E. unfold fwf in F. rewrite Forall_forall in F. apply (F _ E). Qed.
Lemma fwf_add D l r : fwf D r -> Forall (wf D) l -> fwf D (add_trees l r).
Proof.
  intros F G. unfold add_trees. apply Forall_app. split; [exact F|]. induction G; cbn [map]; constructor; auto.
Qed.
Lemma W_add l r x : W (fblocks (add_trees l r)) x = W (fblocks r) x + W (flat_map blocks l) x.
Proof.
  unfold add_trees. rewrite fblocks_app, W_app. f_equal. induction l as [|n l IH]; [reflexivity|].
  cbn [map flat_map]. rewrite W_fcons, W_app, IH. reflexivity.
Qed.
Lemma pre_nth s k n o : inv s -> nth_error (s_roots s) k = Some (n, o) -> pre n (s_mem s).
Proof.
  intros (M & F & G) E. split; [exact M|]. split; [apply (fwf_nth _ _ _ _ _ F E)|].
  intro x. rewrite G, (W_split _ _ _ _ x E). lia.
Qed.

Lemma on_ok_dead p f s : inv s ->
  (forall c, node_at p s = Some c -> pre c (s_mem s) -> keeps2 [] f c (s_mem s)) ->
  exists s', on p f s = Ok s' /\ inv s' /\ m_dead (s_mem s') = m_dead (s_mem s).
Proof.
  intros V Hf. unfold on, node_at in *. destruct (nth_error (s_roots s) (fst p)) as [[n d]|] eqn:E; [|eauto].
  destruct (get (snd p) n) as [c|] eqn:Eg; [|eauto]. specialize (Hf c eq_refl).
  pose proof (pre_nth _ _ _ _ V E) as P.
  destruct (at_path_keeps (snd p) f [] (s_mem s) n c Eg) as (n' & m' & out & E' & M' & D' & Wn & _ & Fo & G).
  { destruct P as (A & B & C). split; [exact A|]. split; [exact B|]. intro x. specialize (C x). cn. lia. }
  { intro Q. apply Hf. apply (pre2_pre _ _ _ Q). }
  rewrite E'. cbn [bind]. eexists. split; [reflexivity|]. split; [|exact D']. destruct V as (M & F & V).
  split; [exact M'|]. cbn [s_mem s_roots]. rewrite D'. split.
  - apply fwf_add; [|exact Fo]. apply fwf_set; [exact F|exact Wn].
  - intro x. rewrite W_add. pose proof (W_set _ _ _ _ n' d x E). specialize (G x). specialize (V x). rewrite W_nil in G. lia.
Qed.

Lemma on_ok p f s : inv s ->
  (forall c, node_at p s = Some c -> pre c (s_mem s) -> keeps2 [] f c (s_mem s)) ->
  exists s', on p f s = Ok s' /\ inv s'.
Proof. intros V H. destruct (on_ok_dead p f s V H) as (s' & E & V' & _). eauto. Qed.

Lemma set_nth_other {A} k j (a : A) l : k <> j -> nth_error (set_nth k a l) j = nth_error l j \/ length l <= k.
Proof.
  intro N. destruct (Nat.le_gt_cases (length l) k) as [L|L]; [right; exact L|left]. revert k j N L.
  unfold set_nth. induction l as [|b l IH]; intros k j N L; cbn [length] in L; [lia|].
  destruct k as [|k]; destruct j as [|j]; try lia; cbn [firstn skipn app nth_error]; auto. apply IH; lia.
Qed.
Lemma on2_ok_dead p j f s : inv s ->
  (forall y c, loose j s = Some y -> node_at p s = Some c -> wf (m_dead (s_mem s)) y -> pre2 (blocks y) c (s_mem s) ->
     keeps2 (blocks y) (f y) c (s_mem s)) ->
  exists s', on2 p j f s = Ok s' /\ inv s' /\ m_dead (s_mem s') = m_dead (s_mem s).
Proof.
  intros V Hf. unfold on2, node_at in *. destruct (loose j s) as [y|] eqn:Ej; [|eauto].
  destruct (Nat.eqb_spec (fst p) j) as [_|Nj]; [eauto|].
  destruct (nth_error (s_roots s) (fst p)) as [[n d]|] eqn:E; [|eauto].
  destruct (get (snd p) n) as [c|] eqn:Eg; [|eauto]. specialize (Hf y c eq_refl eq_refl).
  assert (Ey : nth_error (s_roots s) j = Some (y, None)).
  { unfold loose in Ej. destruct (nth_error (s_roots s) j) as [[y' [o|]]|]; try discriminate. congruence. }
  pose proof (pre_nth _ _ _ _ V E) as P. pose proof (pre_nth _ _ _ _ V Ey) as Py.
  assert (Two : forall n', nth_error (set_nth (fst p) (n', d) (s_roots s)) j = Some (y, None)).
  { intro n'. destruct (set_nth_other (fst p) j (n', d) (s_roots s) Nj) as [->|L]; [exact Ey|].
    apply nth_error_None in L. congruence. }
  assert (Sum : forall x, W (blocks n) x + W (blocks y) x <= held (s_mem s) x).
  { intro x. destruct V as (_ & _ & V). rewrite V.
    pose proof (W_set _ _ _ _ n d x E) as Q1. pose proof (W_split _ _ _ _ x (Two n)) as Q2.
    assert (Q3 : W (blocks n) x <= W (fblocks (del_nth j (set_nth (fst p) (n, d) (s_roots s)))) x).
    { assert (In (n, d) (del_nth j (set_nth (fst p) (n, d) (s_roots s)))).
      { clear - E Nj. revert j Nj. generalize (fst p) E. clear E. unfold del_nth, set_nth. generalize (s_roots s) as l.
        induction l as [|b l IH]; intros k E j Nj; destruct k as [|k]; try discriminate; cbn [nth_error] in E.
        - inversion E; subst. destruct j as [|j]; [congruence|]. left. reflexivity.
        - destruct j as [|j]; cbn [firstn skipn app].
          + apply nth_error_In in E. apply in_or_app. right. left. reflexivity.
          + right. apply (IH k E j). congruence. }
      revert H. generalize (del_nth j (set_nth (fst p) (n, d) (s_roots s))) as l. clear.
      induction l as [|[a o] l IH]; intros []; rewrite W_fcons.
      - inversion H; subst. lia. - specialize (IH H). lia. }
    lia. }
  destruct (at_path_keeps (snd p) (f y) (blocks y) (s_mem s) n c Eg) as (n' & m' & out & E' & M' & D' & Wn & _ & Fo & G).
  { destruct P as (A & B & C). split; [exact A|]. split; [exact B|]. exact Sum. }
  { apply Hf. apply Py. }
  rewrite E'. cbn [bind]. eexists. split; [reflexivity|]. split; [|exact D']. destruct V as (M & F & V).
  split; [exact M'|]. cbn [s_mem s_roots]. rewrite D'. split.
  - apply fwf_add; [|exact Fo]. apply fwf_del. apply fwf_set; [exact F|exact Wn].
  - intro x. rewrite W_add. pose proof (W_set _ _ _ _ n' d x E). pose proof (W_split _ _ _ _ x (Two n')).
    specialize (G x). specialize (V x). lia.
Qed.

Lemma on2_ok p j f s : inv s ->
  (forall y c, loose j s = Some y -> node_at p s = Some c -> wf (m_dead (s_mem s)) y -> pre2 (blocks y) c (s_mem s) ->
     keeps2 (blocks y) (f y) c (s_mem s)) ->
  exists s', on2 p j f s = Ok s' /\ inv s'.
Proof. intros V H. destruct (on2_ok_dead p j f s V H) as (s' & E & V' & _). eauto. Qed.

Lemma alive_alv d m : alive d m = true <-> alv (m_dead m) d.
Proof. unfold alive, alv. destruct (existsb (Nat.eqb d) (m_dead m)); cbn; split; congruence. Qed.

(** ** a document goes *)
Lemma pok_kill D d b : pok D b -> b_org b <> Some d -> pok (d :: D) b.
Proof.
  unfold pok. destruct (b_org b) as [e|]; [|auto]. intros A N. unfold alv in *. cbn [existsb].
  destruct (Nat.eqb_spec e d) as [->|]; [congruence|exact A].
Qed.
Lemma hold_kill D d h : wf_hold D h -> b_org (hd_blk h) <> Some d -> hd_doc h <> Some d -> wf_hold (d :: D) h.
Proof.
  intros (O & P & Q) N1 N2. split; [exact O|]. split; [apply pok_kill; assumption|].
  intros e E. specialize (Q e E). unfold alv in *. cbn [existsb]. destruct (Nat.eqb_spec e d) as [->|]; [congruence|exact Q].
Qed.
Lemma wf_kill D d n : wf D n -> ~ depends d n -> wf (d :: D) n.
Proof.
  induction n as [n IH] using node_rect'. rewrite !wf_eq. intros [(A & B & (C & C') & E & F) G] N.
  assert (NB : forall b, In b (blocks n) -> b_org b <> Some d) by (intros b Hb Eb; apply N; left; eauto).
  assert (ND : ~ In d (docs n)) by (intro H; apply N; right; exact H). clear N.
  rewrite blocks_eq in NB. rewrite docs_eq in ND.
  assert (NB' : forall b, In b (store_blocks (n_attrs n)) -> b_org b <> Some d).
  { intros b Hb. apply NB. right. apply in_or_app. right. apply in_or_app. left. exact Hb. }
  split.
  - split; [exact A|]. split; [apply pok_kill; [exact B|apply NB; left; reflexivity]|]. split.
    { split; [|exact C']. intros b Eb. destruct (C b Eb) as [C1 C2]. split; [exact C1|]. apply pok_kill; [exact C2|].
      apply NB. right. apply in_or_app. left. rewrite Eb. left. reflexivity. }
    split.
    + destruct (n_attrs n) as [l|b h]; cbn [wf_store store_blocks] in *.
      * destruct E as (E1 & E2 & E3). split; [|split; assumption]. rewrite Forall_forall in *. intros a Ha.
        destruct (E1 a Ha) as (O1 & O2 & O3 & P1 & P2 & P3).
        assert (forall b, In b (ablk a) -> b_org b <> Some d).
        { intros b Hb. apply NB'. apply in_flat_map. exists a. split; [exact Ha|exact Hb]. }
        repeat split; auto; apply pok_kill; auto; apply H; unfold ablk; cbn [In]; auto.
      * destruct E as (E0 & (E1 & E2 & E3) & E4). split; [exact E0|]. split; [|exact E4]. split; [exact E1|]. split; [exact E2|].
        rewrite Forall_forall in *. intros e He. destruct (E3 e He) as (P1 & P2 & P3 & P4).
        apply in_map_iff in He. destruct He as (a & <- & Ha).
        assert (forall b, In b (pblk a) -> b_org b <> Some d).
        { intros c Hc. apply NB'. right. apply in_flat_map. exists a. split; [exact Ha|exact Hc]. }
        split; [exact P1|]. split; [exact P2|]. cbn [e_key e_data ent] in *.
        split; apply pok_kill; auto; apply H; unfold pblk; cbn [In]; auto.
    + intros h Eh. apply hold_kill; [apply (F h Eh)| |].
      * apply NB. right. apply in_or_app. right. apply in_or_app. right. rewrite Eh. left. reflexivity.
      * intro X. apply ND. apply in_or_app. left. rewrite Eh. unfold hold_doc. rewrite X. left. reflexivity.
  - rewrite Forall_forall in *. intros i Hi. specialize (G i Hi).
    assert (NI : forall b, In b (iblocks i) -> b_org b <> Some d).
    { intros b Hb. apply NB. right. do 3 (apply in_or_app; right). apply in_flat_map. eauto. }
    assert (NJ : ~ In d (idocs i)).
    { intro H. apply ND. apply in_or_app. right. apply in_flat_map. eauto. }
    destruct i as [c|k h a c f|h pi s c]; cbn [iwf iblocks idocs] in *.
    + destruct G as [G1 G2]. split; [|exact G2]. apply (IH c Hi G1). intros [(b & Hb & Eb)|H]; [apply (NI b Hb Eb)|apply (NJ H)].
    + destruct G as (G1 & G2 & G3 & G4 & G5). split; [|split; [exact G2|split; [exact G3|split; apply pok_kill; auto; apply NI; cbn [In]; auto]]].
      apply hold_kill; [exact G1|apply NI; left; reflexivity|]. intro X. apply NJ. unfold hold_doc. rewrite X. left. reflexivity.
    + destruct G as (G1 & G2). split; [|exact G2].
      apply hold_kill; [exact G1|apply NI; left; reflexivity|]. intro X. apply NJ. unfold hold_doc. rewrite X. left. reflexivity.
Qed.
Lemma free_all_ok l : forall m, mem_ok m -> fwf (m_dead m) l -> (forall x, W (fblocks l) x <= held m x) ->
  exists m', free_all l m = Ok m' /\ mem_ok m' /\ m_dead m' = m_dead m /\
    (forall x, held m x = held m' x + W (fblocks l) x).
Proof.
  induction l as [|[n o] l IH]; intros m M F H.
  - exists m. repeat split; auto; try apply M. 
  - pose proof (Forall_inv F) as F1. pose proof (Forall_inv_tail F) as F2. cbn [fst] in F1. cbn [free_all fst].
    assert (H' : forall x, W (blocks n) x + W (fblocks l) x <= held m x). { intro x. specialize (H x). rewrite W_fcons in H. exact H. }
    destruct (node_free_ok n m) as (m1 & E1 & M1 & D1 & G1).
    { split; [exact M|]. split; [exact F1|]. intro x. specialize (H' x). lia. }
    rewrite E1. cbn [bind]. destruct (IH m1 M1) as (m2 & E2 & M2 & D2 & G2).
    { unfold fwf. rewrite D1. exact F2. } { intro x. specialize (H' x). specialize (G1 x). lia. }
    exists m2. split; [exact E2|]. split; [exact M2|]. split; [congruence|]. intro x. specialize (G1 x). specialize (G2 x).
    rewrite W_fcons. lia.
Qed.
Lemma unroot_blocks d r x : W (fblocks (unroot d r)) x = W (fblocks r) x.
Proof.
  unfold unroot. induction r as [|[n o] r IH]; [reflexivity|]. cbn [map].
  destruct (is_root d (n, o)); cbn [fst]; rewrite !W_fcons, IH; reflexivity.
Qed.
Lemma unroot_fwf D d r : fwf D r -> fwf D (unroot d r).
Proof.
  unfold unroot. intro F. induction F as [|[n o] r F1 F2 IH]; cbn [map]; constructor; auto.
  destruct (is_root d (n, o)); exact F1.
Qed.
Lemma unroot_nth d r k n : nth_error r k = Some (n, None) -> nth_error (unroot d r) k = Some (n, None).
Proof. intro E. unfold unroot. rewrite nth_error_map, E. reflexivity. Qed.

Lemma loose_nth j s y : loose j s = Some y -> nth_error (s_roots s) j = Some (y, None).
Proof. unfold loose. destruct (nth_error (s_roots s) j) as [[y' [o|]]|]; intro; try discriminate; congruence. Qed.

Lemma inv0 : inv st0.
Proof.
  split; [|split].
  - split; intros; cbn; auto.
  - constructor.
  - reflexivity.
Qed.
Lemma exec_ok esc s c : inv s -> legal s c -> exists s', exec esc s c = Ok s' /\ inv s'.
Proof.
  intros V L. pose proof V as (M & F & G).
  destruct c; cbn [exec legal] in *; cbv zeta.
  - (* create *) unfold node_create.
    destruct (malloc_ok s0 _ M) as (b1 & m1 & E1 & M1 & G1 & O1 & D1). rewrite E1.
    destruct (malloc_ok [] m1 M1) as (b2 & m2 & E2 & M2 & G2 & O2 & D2). rewrite E2.
    eexists. split; [reflexivity|]. split; [exact M2|]. cbn [s_mem s_roots]. rewrite D2, D1. split.
    + apply fwf_add; [exact F|]. constructor; [|constructor]. apply wf_eq. split; [|constructor].
      split; [apply malloc_org; exact O2|]. split; [apply malloc_pok; exact O2|]. cbn [n_name n_name_fac n_attrs n_num n_holder].
      split; [|split; [|discriminate]].
      * split; [|discriminate]. intros b Eb. inversion Eb; subst b. split; [apply malloc_org; exact O1|apply malloc_pok; exact O1].
      * cbn [wf_store length map]. repeat split; try constructor. lia.
    + intro x. rewrite W_add, G2, G1, G. cbn [flat_map]. rewrite W_app, W_nil, W_blocks.
      cbn [n_self n_name n_attrs n_holder n_items opt_blk store_blocks hold_blk flat_map]. cn. lia.
  - (* parsed *) destruct (alive d (s_mem s)) eqn:Ed; [|eauto]. apply alive_alv in Ed. unfold node_parsed.
    destruct (pool_ok d s0 _ M Ed) as (b1 & m1 & E1 & M1 & G1 & O1 & D1). rewrite E1. cbn [bind].
    destruct (pool_ok d [] m1 M1) as (b2 & m2 & E2 & M2 & G2 & O2 & D2). { rewrite D1. exact Ed. } rewrite E2. cbn [bind].
    eexists. split; [reflexivity|]. split; [exact M2|]. cbn [s_mem s_roots]. rewrite D2, D1. split.
    + apply fwf_add; [exact F|]. constructor; [|constructor]. apply wf_eq. split; [|constructor].
      split; [apply (pool_org _ _ O2)|]. split; [apply (pool_pok _ _ _ O2 Ed)|]. cbn [n_name n_name_fac n_attrs n_num n_holder].
      split; [|split; [|discriminate]].
      * split; [|discriminate]. intros b Eb. inversion Eb; subst b. split; [apply (pool_org _ _ O1)|apply (pool_pok _ _ _ O1 Ed)].
      * cbn [wf_store length map]. repeat split; try constructor. lia.
    + intro x. rewrite W_add, G2, G1, G. cbn [flat_map]. rewrite W_app, W_nil, W_blocks.
      cbn [n_self n_name n_attrs n_holder n_items opt_blk store_blocks hold_blk flat_map]. cn.
      rewrite (w_pool _ _ x O1), (w_pool _ _ x O2). lia.
  - apply on_ok; [exact V|]. intros c _ P. apply keeps_keeps2, set_name_keeps, P.
  - apply on_ok; [exact V|]. intros c Ec P. apply keeps_keeps2, set_name_ref_keeps; [exact P|]. intros b Eb. apply (L c b Ec Eb).
  - apply on_ok; [exact V|]. intros c _ P. apply keeps_keeps2, set_attribute_keeps, P.
  - apply on_ok; [exact V|]. intros c _ P. apply keeps_keeps2, set_attribute_ref_keeps, P.
  - destruct (alive d (s_mem s)) eqn:Ed; [|eauto]. apply alive_alv in Ed.
    apply on_ok; [exact V|]. intros c _ P. apply keeps_keeps2, set_attribute_fac_keeps; assumption.
  - apply on_ok; [exact V|]. intros c _ P. apply keeps_keeps2, remove_attribute_keeps, P.
  - apply on_ok; [exact V|]. intros c _ P. apply keeps_keeps2, set_text_keeps, P.
  - destruct (alive d (s_mem s)) eqn:Ed; [|eauto]. apply alive_alv in Ed.
    apply on_ok; [exact V|]. intros c _ P. apply keeps_keeps2, set_text_fac_keeps; assumption.
  - apply on_ok; [exact V|]. intros c' _ P. apply keeps_keeps2, add_pi_keeps, P.
  - apply on2_ok; [exact V|]. intros y c _ _ Wy P. apply set_child_keeps; assumption.
  - apply on2_ok; [exact V|]. intros y c _ _ Wy P. apply do_after_keeps; assumption.
  - apply on_ok; [exact V|]. intros c _ P. apply do_remove_keeps, P.
  - apply on2_ok; [exact V|]. intros y c Ey _ Wy P. apply do_replace_keeps; [assumption|assumption|]. intros h Eh. apply (L y h Ey Eh).
  - apply on_ok; [exact V|]. intros c _ P. apply do_copy_keeps, P.
  - destruct (loose j s) as [n|] eqn:Ej; [|eauto]. apply loose_nth in Ej.
    destruct (node_free_ok n _ (pre_nth _ _ _ _ V Ej)) as (m' & E' & M' & D' & G'). rewrite E'. cbn [bind].
    eexists. split; [reflexivity|]. split; [exact M'|]. cbn [s_mem s_roots]. rewrite D'. split; [apply fwf_del; exact F|].
    intro x. pose proof (W_split _ _ _ _ x Ej). specialize (G x). specialize (G' x). lia.
  - destruct (loose j s) as [n|] eqn:Ej; [|eauto]. pose proof (L n eq_refl) as Ln. apply loose_nth in Ej.
    destruct (free_full_ok also_childs n _ (pre_nth _ _ _ _ V Ej) Ln) as (m' & E' & M' & D' & G'). rewrite E'. cbn [bind].
    eexists. split; [reflexivity|]. split; [exact M'|]. cbn [s_mem s_roots]. rewrite D'. split; [apply fwf_del; exact F|].
    intro x. pose proof (W_split _ _ _ _ x Ej). specialize (G x). specialize (G' x). lia.
  - destruct (loose j s) as [n|] eqn:Ej; [|eauto]. apply loose_nth in Ej.
    destruct (alive d (s_mem s)) eqn:Ed; [|eauto]. apply alive_alv in Ed.
    destruct (set_doc_ok d n _ (pre_nth _ _ _ _ V Ej) Ed) as (n' & m' & E' & M' & D' & Wn & G'). rewrite E'. cbn [bind].
    eexists. split; [reflexivity|]. split; [exact M'|]. cbn [s_mem s_roots]. rewrite D'. split.
    + apply fwf_set; [apply unroot_fwf; exact F|exact Wn].
    + intro x. pose proof (W_set _ _ _ _ n' (Some d) x (unroot_nth d _ _ _ Ej)) as Q. rewrite unroot_blocks in Q.
      specialize (G x). specialize (G' x). lia.
  - destruct (nth_error (s_roots s) j) as [[n o]|] eqn:Ej; [|eauto].
    eexists. split; [reflexivity|]. split; [exact M|]. cbn [s_mem s_roots]. split.
    + apply fwf_set; [exact F|apply (fwf_nth _ _ _ _ _ F Ej)].
    + intro x. pose proof (W_set _ _ _ _ n None x Ej) as Q. rewrite G. lia.
  - destruct (alive d (s_mem s)) eqn:Ed; [|eauto].
    set (l := filter (is_root d) (s_roots s)). set (r := filter (fun x => negb (is_root d x)) (s_roots s)).
    assert (S0 : forall x, W (fblocks (s_roots s)) x = W (fblocks l) x + W (fblocks r) x).
    { intro x. unfold l, r. clear. induction (s_roots s) as [|[n o] q IH]; [reflexivity|]. cbn [filter].
      destruct (is_root d (n, o)); cbn [negb]; rewrite !W_fcons, IH; lia. }
    assert (Fl : fwf (m_dead (s_mem s)) l).
    { unfold fwf in *. rewrite Forall_forall in *. intros y Hy. apply F. apply filter_In in Hy. apply Hy. }
    destruct (free_all_ok l _ M Fl) as (m' & E' & M' & D' & G').
    { intro x. rewrite G, S0. lia. }
    rewrite E'. cbn [bind]. eexists. split; [reflexivity|]. cbn [s_mem s_roots kill m_dead]. split; [exact M'|]. split.
    + unfold fwf in *. rewrite Forall_forall in *. intros [n o] Hy. apply filter_In in Hy. destruct Hy as [Hy1 Hy2].
      cbn [fst s_mem kill m_dead]. rewrite D'. apply wf_kill; [apply (F _ Hy1)|]. apply (L n o Hy1).
      intros ->. unfold is_root in Hy2. cbn [snd] in Hy2. rewrite Nat.eqb_refl in Hy2. discriminate.
    + intro x. cbn [s_mem s_roots]. change (held (kill d m') x) with (held m' x). specialize (G' x). specialize (G x). specialize (S0 x). lia.
Qed.
Lemma exec_all_ok esc l : forall s, inv s -> legal_all esc s l -> exists s', exec_all esc s l = Ok s' /\ inv s'.
Proof.
  induction l as [|c l IH]; intros s V L; cbn [exec_all].
  - eauto.
  - cbn [legal_all] in L. destruct L as [L1 L2]. destruct (exec_ok esc s c V L1) as (s1 & E1 & V1).
    rewrite E1. cbn [bind]. apply IH; [exact V1|exact (L2 s1 E1)].
Qed.
Lemma inv_memory s : inv s -> NoDup (m_live (s_mem s)) /\ Permutation (m_live (s_mem s)) (in_hand s).
Proof.
  intros ((M1 & M2) & F & G). split.
  - apply (NoDup_count_occ Nat.eq_dec). exact M1.
  - apply (Permutation_count_occ Nat.eq_dec). exact G.
Qed.

Lemma owned esc calls : legal_all esc st0 calls -> exists s, exec_all esc st0 calls = Ok s /\
    NoDup (m_live (s_mem s)) /\ Permutation (m_live (s_mem s)) (in_hand s).
Proof.
  intro L. destruct (exec_all_ok esc calls st0 inv0 L) as (s & E & V). exists s. split; [exact E|apply inv_memory; exact V].
Qed.
Lemma released esc calls s : legal_all esc st0 calls -> exec_all esc st0 calls = Ok s ->
  s_roots s = [] -> m_live (s_mem s) = [].
Proof.
  intros L E R. destruct (owned esc calls L) as (s' & E' & _ & P). rewrite E in E'. inversion E'; subst s'.
  unfold in_hand in P. rewrite R in P. apply Permutation_nil. symmetry. exact P.
Qed.
Lemma del_last {A} (l : list A) x : del_nth (length l) (l ++ [x]) = l.
Proof.
  unfold del_nth. rewrite firstn_app, firstn_all, Nat.sub_diag. cbn [firstn]. rewrite skipn_all2 by (rewrite app_length; cbn; lia).
  rewrite !app_nil_r. reflexivity.
Qed.
Lemma at_path_same p f (m m' : mem) (out : list node) : forall n c, get p n = Some c -> f c m = Ok (c, m', out) ->
  at_path p f n m = Ok (n, m', out).
Proof.
  induction p as [|k p IH]; intros n c E Ef; cbn [get at_path] in *.
  - inversion E; subst. exact Ef.
  - destruct (nth_error (n_items n) k) as [[b| |]|] eqn:Ek; try discriminate. rewrite (IH b c E Ef). cbn [bind].
    unfold set_nth. rewrite <- (split_nth _ _ _ Ek). destruct n; reflexivity.
Qed.
Lemma copy_free esc calls s p k n : legal_all esc st0 calls -> exec_all esc st0 calls = Ok s ->
  node_at p s = Some n -> k = length (s_roots s) ->
  exists s1 s2, exec esc s (CCopy p) = Ok s1 /\ exec esc s1 (CFree k) = Ok s2 /\
    s_roots s2 = s_roots s /\ Permutation (m_live (s_mem s2)) (m_live (s_mem s)).
Proof.
  intros L E En ->. destruct (exec_all_ok esc calls st0 inv0 L) as (s' & E' & V). rewrite E in E'. inversion E'; subst s'. clear E'.
  destruct (exec_ok esc s (CCopy p) V I) as (s1 & E1 & V1). exists s1.
  destruct (exec_ok esc s1 (CFree (length (s_roots s))) V1 I) as (s2 & E2 & V2). exists s2.
  split; [exact E1|]. split; [exact E2|].
  assert (R : s_roots s2 = s_roots s).
  { cbn [exec] in E1. unfold on in E1. unfold node_at in En.
    destruct (nth_error (s_roots s) (fst p)) as [[r d]|] eqn:Er; [|discriminate]. rewrite En in E1.
    destruct (node_copy n (s_mem s)) as [[c m']| |] eqn:Ec.
    - rewrite (at_path_same (snd p) do_copy (s_mem s) m' [c] r n En) in E1 by (unfold do_copy; rewrite Ec; reflexivity).
      cbn [bind] in E1. inversion E1; subst s1. clear E1. unfold set_nth in E2. rewrite <- (split_nth _ _ _ Er) in E2.
      cbn [exec s_mem s_roots] in E2. cbv zeta in E2. unfold loose, add_trees in E2. cbn [s_roots map] in E2.
      rewrite nth_error_app2, Nat.sub_diag in E2 by lia. cbn [nth_error] in E2.
      destruct (node_free c m'); cbn [bind] in E2; try discriminate. inversion E2; subst s2. cbn [s_roots]. apply del_last.
    - exfalso. clear - E1 Ec En. revert E1. assert (X : forall q r, get q r = Some n -> at_path q do_copy r (s_mem s) = UB).
      { induction q as [|k q IH]; intros r' Eq; cbn [get at_path] in *; [inversion Eq; subst; unfold do_copy; rewrite Ec; reflexivity|].
        destruct (nth_error (n_items r') k) as [[b| |]|]; try discriminate. rewrite (IH b Eq). reflexivity. }
      rewrite (X _ _ En). discriminate.
    - exfalso. clear - E1 Ec En. revert E1. assert (X : forall q r, get q r = Some n -> at_path q do_copy r (s_mem s) = NoFuel).
      { induction q as [|k q IH]; intros r' Eq; cbn [get at_path] in *; [inversion Eq; subst; unfold do_copy; rewrite Ec; reflexivity|].
        destruct (nth_error (n_items r') k) as [[b| |]|]; try discriminate. rewrite (IH b Eq). reflexivity. }
      rewrite (X _ _ En). discriminate. }
  split; [exact R|]. apply inv_memory in V2. apply inv_memory in V. destruct V2 as [_ V2]. destruct V as [_ V].
  unfold in_hand in V2. rewrite R in V2. fold (in_hand s) in V2. rewrite V2. symmetry. exact V.
Qed.
