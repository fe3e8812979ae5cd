From Coq Require Import Permutation.
From Verif Require Import Prelude HashModel OwnModel OwnExec OwnSpec OwnProofs OwnProofs2 OwnProofs3 OwnProofs4 OwnProofs5 OwnProofs6 OwnProofs7 KeepModel KeepSpec KeepProofs KeepProofs2.
Open Scope nat_scope.

(** ** calls that release nothing *)
Definition gentle (c : call) : bool :=
  match c with CFree _ | CFreeFull _ _ | CDocFree _ | CRemove _ _ true | CReplace _ _ _ true => false | _ => true end.
Lemma exec_dead esc s c s' : inv s -> legal s c -> gentle c = true -> exec esc s c = Ok s' -> m_dead (s_mem s') = m_dead (s_mem s).
Proof.
  intros V L Gc E. pose proof V as (M & F & G).
  assert (One : forall p f, (forall x, node_at p s = Some x -> pre x (s_mem s) -> keeps2 [] f x (s_mem s)) -> on p f s = Ok s' ->
     m_dead (s_mem s') = m_dead (s_mem s)).
  { intros p f H E'. destruct (on_ok_dead p f s V H) as (s2 & E2 & _ & D). congruence. }
  assert (Two : forall p j f, (forall y x, loose j s = Some y -> node_at p s = Some x -> wf (m_dead (s_mem s)) y -> pre2 (blocks y) x (s_mem s) ->
     keeps2 (blocks y) (f y) x (s_mem s)) -> on2 p j f s = Ok s' -> m_dead (s_mem s') = m_dead (s_mem s)).
  { intros p j f H E'. destruct (on2_ok_dead p j f s V H) as (s2 & E2 & _ & D). congruence. }
  destruct c; cbn [gentle] in Gc; try discriminate; cbn [exec legal] in *; cbv zeta in E.
  - unfold node_create in E. cbn [malloc] in E. inversion E; subst. reflexivity.
  - destruct (alive d (s_mem s)) eqn:Ed; [|inversion E; reflexivity]. unfold node_parsed, pool in E. rewrite Ed in E. cbn [bind] in E.
    unfold alive in *. cbn [m_dead m_live m_next] in E. rewrite Ed in E. cbn [bind] in E. inversion E; subst. reflexivity.
  - revert E. apply One. intros x _ P. apply keeps_keeps2, set_name_keeps, P.
  - revert E. apply One. intros x Ex P. apply keeps_keeps2, set_name_ref_keeps; [exact P|]. intros b Eb. apply (L x b Ex Eb).
  - revert E. apply One. intros x _ P. apply keeps_keeps2, set_attribute_keeps, P.
  - revert E. apply One. intros x _ P. apply keeps_keeps2, set_attribute_ref_keeps, P.
  - destruct (alive d (s_mem s)) eqn:Ed; [|inversion E; reflexivity]. apply alive_alv in Ed.
    revert E. apply One. intros x _ P. apply keeps_keeps2, set_attribute_fac_keeps; assumption.
  - revert E. apply One. intros x _ P. apply keeps_keeps2, remove_attribute_keeps, P.
  - revert E. apply One. intros x _ P. apply keeps_keeps2, set_text_keeps, P.
  - destruct (alive d (s_mem s)) eqn:Ed; [|inversion E; reflexivity]. apply alive_alv in Ed.
    revert E. apply One. intros x _ P. apply keeps_keeps2, set_text_fac_keeps; assumption.
  - revert E. apply One. intros x _ P. apply keeps_keeps2, add_pi_keeps, P.
  - revert E. apply Two. intros y x _ _ Wy P. apply set_child_keeps; assumption.
  - revert E. apply Two. intros y x _ _ Wy P. apply do_after_keeps; assumption.
  - revert E. apply One. intros x _ P. apply do_remove_keeps, P.
  - revert E. apply Two. intros y x Ey _ Wy P. apply do_replace_keeps; [assumption|assumption|]. intros h Eh. apply (L y h Ey Eh).
  - revert E. apply One. intros x _ P. apply do_copy_keeps, P.
  - destruct (loose j s) as [n|] eqn:Ej; [|inversion E; reflexivity]. apply loose_nth in Ej.
    destruct (alive d (s_mem s)) eqn:Ed; [|inversion E; reflexivity]. apply alive_alv in Ed.
    destruct (set_doc_ok d n _ (pre_nth _ _ _ _ V Ej) Ed) as (n' & m' & E' & M' & D' & Wn & G'). rewrite E' in E. cbn [bind] in E.
    inversion E; subst. exact D'.
  - destruct (nth_error (s_roots s) j) as [[n o]|]; inversion E; reflexivity.
Qed.

(** the trees after such a call; only axl_doc_set_root makes a root *)
Definition tracks_or (c : call) (s s' : st) : Prop :=
  incl (all_ids (s_roots s)) (all_ids (s_roots s')) /\
  forall n' d, In (n', Some d) (s_roots s') ->
    (exists n, In (n, Some d) (s_roots s) /\ n_holder n' = n_holder n) \/ (exists j, c = CSetRoot j d) /\ n_doc n' = Some d.
Lemma tracks_weaken c s s' : tracks s s' -> tracks_or c s s'.
Proof. intros [A B]. split; [exact A|]. intros n' d H. left. apply B. exact H. Qed.
Lemma all_ids_unroot d r : all_ids (unroot d r) = all_ids r.
Proof. unfold unroot, all_ids. induction r as [|[n o] r IH]; [reflexivity|]. cbn [map flat_map]. destruct (is_root d (n, o)); cbn [fst]; f_equal; exact IH. Qed.
Lemma in_unroot d r n e : In (n, Some e) (unroot d r) -> In (n, Some e) r /\ e <> d.
Proof.
  unfold unroot. intro H. apply in_map_iff in H. destruct H as ([x o] & E & H). unfold is_root in E. cbn [snd fst] in E.
  destruct o as [f|]; [|discriminate]. destruct (Nat.eqb_spec f d) as [X|X]; [discriminate|]. inversion E; subst. auto.
Qed.
Lemma set_nth_ids k (r : forest) n o n' o' : nth_error r k = Some (n, o) -> ids n' = ids n -> all_ids (set_nth k (n', o') r) = all_ids r.
Proof. intros E H. rewrite (all_ids_split _ _ _ _ E). unfold set_nth. rewrite all_ids_app. cbn [all_ids flat_map fst]. rewrite H. reflexivity. Qed.
Lemma exec_tracks esc s c s' : inv s -> gentle c = true -> exec esc s c = Ok s' -> tracks_or c s s'.
Proof.
  intros V Gc E. destruct c; cbn [gentle] in Gc; try discriminate; cbn [exec] in *; cbv zeta in E.
  - unfold node_create in E. cbn [malloc] in E. inversion E; subst. apply tracks_weaken. split.
    + cbn [s_roots]. rewrite all_ids_add. apply incl_appl, incl_refl.
    + cbn [s_roots]. intros n' d H. apply in_add in H. eauto.
  - destruct (alive d (s_mem s)); [|inversion E; apply tracks_weaken, tracks_refl]. ib E. destruct a as [n m]. inversion E; subst.
    apply tracks_weaken. split.
    + cbn [s_roots]. rewrite all_ids_add. apply incl_appl, incl_refl.
    + cbn [s_roots]. intros n' d' H. apply in_add in H. eauto.
  - apply tracks_weaken. revert E. apply on_tracks, like_carries, set_name_like.
  - apply tracks_weaken. revert E. apply on_tracks, like_carries, set_name_ref_like.
  - apply tracks_weaken. revert E. apply on_tracks, like_carries, set_attribute_like.
  - apply tracks_weaken. revert E. apply on_tracks, like_carries, set_attribute_ref_like.
  - apply tracks_weaken. destruct (alive d (s_mem s)); [|inversion E; apply tracks_refl]. revert E. apply on_tracks, like_carries, set_attribute_fac_like.
  - apply tracks_weaken. revert E. apply on_tracks, like_carries, remove_attribute_like.
  - apply tracks_weaken. revert E. apply on_tracks, like_carries, set_text_like.
  - apply tracks_weaken. destruct (alive d (s_mem s)); [|inversion E; apply tracks_refl]. revert E. apply on_tracks, like_carries, set_text_fac_like.
  - apply tracks_weaken. revert E. apply on_tracks, like_carries, add_pi_like.
  - apply tracks_weaken. revert E. apply on2_tracks. intro x. apply set_child_carries.
  - apply tracks_weaken. revert E. apply on2_tracks. intro x. apply do_after_carries.
  - destruct dealloc; [discriminate|]. apply tracks_weaken. revert E. apply on_tracks, do_remove_carries.
  - destruct dealloc; [discriminate|]. apply tracks_weaken. revert E. apply on2_tracks. intro x. apply do_replace_carries.
  - apply tracks_weaken. revert E. apply on_tracks, do_copy_carries.
  - destruct (loose j s) as [n|] eqn:Ej; [|inversion E; apply tracks_weaken, tracks_refl]. apply loose_nth in Ej.
    destruct (alive d (s_mem s)) eqn:Ed; [|inversion E; apply tracks_weaken, tracks_refl].
    ib E. destruct a as [n1 m1]. inversion E; subst. unfold set_doc in E0. ib E0.
    assert (Q : n_doc n1 = Some d /\ ids n1 = ids n).
    { destruct (n_holder n) as [h|]; ib E0; [|destruct a0 as [b m2]]; inversion E0; subst; rewrite ids_w_holder; (split; [|reflexivity]);
        unfold n_doc; rewrite holder_w_holder; reflexivity. }
    destruct Q as [Q1 Q2]. split; cbn [s_roots].
    + rewrite (set_nth_ids _ _ _ _ _ _ (unroot_nth d _ _ _ Ej) Q2), all_ids_unroot. apply incl_refl.
    + intros n' e H. apply in_set in H. destruct H as [H|H].
      * inversion H; subst. right. split; [eauto|exact Q1].
      * apply in_unroot in H. left. exists n'. split; [apply H|reflexivity].
  - destruct (nth_error (s_roots s) j) as [[n o]|] eqn:Ej; [|inversion E; apply tracks_weaken, tracks_refl]. inversion E; subst.
    apply tracks_weaken. split; cbn [s_roots].
    + rewrite (set_nth_ids _ _ _ _ n None Ej eq_refl). apply incl_refl.
    + intros n' d H. apply in_set in H. destruct H as [H|H]; [discriminate|eauto].
Qed.

(** ** the invariant *)
Definition kinv (s : kst) : Prop :=
  inv (k_st s) /\ keep_ok (k_keep s) (s_mem (k_st s)) /\ incl (map fst (k_keep s)) (all_ids (s_roots (k_st s))) /\
  forall n d, In (n, Some d) (s_roots (k_st s)) -> n_doc n = Some d /\ ~ In d (map snd (k_keep s)).
(** what was kept is kept, or gone *)
Definition goes (s s' : kst) : Prop :=
  (forall a d, In (a, d) (k_keep s) -> In (a, d) (k_keep s') \/ In d (m_dead (s_mem (k_st s')))) /\
  incl (m_dead (s_mem (k_st s))) (m_dead (s_mem (k_st s'))).
Lemma goes_refl s : goes s s. Proof. split; [auto|apply incl_refl]. Qed.
Lemma goes_trans s1 s2 s3 : goes s1 s2 -> goes s2 s3 -> goes s1 s3.
Proof.
  intros [A B] [C D]. split; [|eapply incl_tran; eassumption]. intros a d H. destruct (A a d H) as [H1|H1]; [apply C; exact H1|right; apply D; exact H1].
Qed.
Definition fine (r : res kst) (s : kst) : Prop := exists s', r = Ok s' /\ kinv s' /\ goes s s'.
Lemma fine_same s : kinv s -> fine (Ok s) s. Proof. intro H. exists s. split; [reflexivity|]. split; [exact H|apply goes_refl]. Qed.

Lemma kinv0 : kinv kst0.
Proof.
  split; [exact inv0|]. split; [split; [constructor|intros a d []]|]. split; [intros a []|]. intros n d [].
Qed.
Lemma plain_fine esc s c : kinv s -> legal (k_st s) c -> gentle c = true -> (forall j d, c = CSetRoot j d -> ~ In d (map snd (k_keep s))) ->
  fine (plain esc s c) s.
Proof.
  intros (V & K & Inc & R) L Gc Nd. destruct (exec_ok esc (k_st s) c V L) as (s1 & E1 & V1). unfold plain. rewrite E1. cbn [bind].
  pose proof (exec_dead esc _ c s1 V L Gc E1) as D. destruct (exec_tracks esc _ c s1 V Gc E1) as [T1 T2].
  eexists. split; [reflexivity|]. split.
  - split; [exact V1|]. cbn [k_st k_keep]. split; [|split].
    + destruct K as [K1 K2]. split; [exact K1|]. rewrite D. exact K2.
    + eapply incl_tran; eassumption.
    + intros n d H. destruct (T2 n d H) as [(n0 & H0 & Eh)|[(j & Ec) Ed]].
      * destruct (R n0 d H0) as [R1 R2]. split; [|exact R2]. unfold n_doc in *. rewrite Eh. exact R1.
      * split; [exact Ed|]. apply (Nd j d Ec).
  - split; cbn [k_keep k_st]; [auto|]. rewrite D. apply incl_refl.
Qed.

Lemma wf_kills D ds n : wf D n -> (forall d, In d ds -> ~ depends d n) -> wf (ds ++ D) n.
Proof.
  induction ds as [|d ds IH]; intros H N; [exact H|]. cbn [app]. apply wf_kill; [apply IH; [exact H|]|apply N; left; reflexivity].
  intros e He. apply N. right. exact He.
Qed.
Lemma drops_fst l (k : keep) : forall x, In x (drops l k) -> In x k.
Proof. intros [a d] H. apply drops_in in H. apply H. Qed.
Lemma drops_snd l (k : keep) d : In d (map snd (drops l k)) -> In d (map snd k).
Proof. intro H. apply in_map_iff in H. destruct H as (x & E & Hx). rewrite <- E. apply in_map. apply (drops_fst l k x Hx). Qed.

(** the state after trees with the addresses [l] have gone, and with them the documents [ds] *)
Lemma after_release s r m l ds :
  kinv s -> inv (St r m) -> m_dead m = m_dead (s_mem (k_st s)) ->
  (forall d, In d ds <-> exists a, In a l /\ In (a, d) (k_keep s)) ->
  (forall d n o, In d ds -> In (n, o) r -> ~ depends d n) ->
  (forall a, In a (all_ids (s_roots (k_st s))) -> In a l \/ In a (all_ids r)) ->
  (forall n d, In (n, Some d) r -> In (n, Some d) (s_roots (k_st s))) ->
  kinv (KSt (St r (kills ds m)) (drops l (k_keep s))) /\ goes s (KSt (St r (kills ds m)) (drops l (k_keep s))).
Proof.
  intros (V & K & Inc & R) (M & F & G) D B N Al Sub. split.
  - split; [|split; [|split]]; cbn [k_st k_keep s_mem s_roots].
    + split; [exact M|]. split; [|exact G]. cbn [s_mem s_roots kills m_dead] in *. unfold fwf in *. rewrite Forall_forall in *.
      intros [n o] Hn. apply wf_kills; [apply (F _ Hn)|]. intros d Hd. apply (N d n o Hd Hn).
    + apply keep_ok_drops.
      * destruct K as [K1 K2]. split; [exact K1|]. rewrite D. exact K2.
      * intros d Hd. apply B. exact Hd.
    + intros a Ha. apply in_map_iff in Ha. destruct Ha as ([x d] & E & Hx). cbn [fst] in E. subst x. apply drops_in in Hx. destruct Hx as [Hx Nx].
      destruct (Al a) as [Y|Y]; [apply Inc; apply (in_map fst) in Hx; exact Hx|contradiction|exact Y].
    + intros n d Hn. destruct (R n d (Sub n d Hn)) as [R1 R2]. split; [exact R1|]. intro X. apply R2. apply (drops_snd l). exact X.
  - split; cbn [k_st k_keep s_mem].
    + intros a d H. destruct (in_dec Nat.eq_dec a l) as [Y|Y].
      * right. cbn [kills m_dead]. apply in_or_app. left. apply B. eauto.
      * left. apply drops_in. auto.
    + cbn [kills m_dead]. rewrite D. apply incl_appr, incl_refl.
Qed.
Lemma in_del_ids j (r : forest) n o a : nth_error r j = Some (n, o) -> In a (all_ids r) -> In a (ids n) \/ In a (all_ids (del_nth j r)).
Proof. intros E H. rewrite (all_ids_split _ _ _ _ E) in H. unfold del_nth. rewrite all_ids_app. rewrite !in_app_iff in *. tauto. Qed.

Lemma free_one j n s : kinv s -> nth_error (s_roots (k_st s)) j = Some (n, None) ->
  releasable (k_keep s) n (del_nth j (s_roots (k_st s))) ->
  exists k' m', kfree n (k_keep s) (s_mem (k_st s)) = Ok (k', m') /\
    kinv (KSt (St (del_nth j (s_roots (k_st s))) m') k') /\ goes s (KSt (St (del_nth j (s_roots (k_st s))) m') k').
Proof.
  intros KV Ej [Cl Oth]. pose proof KV as (V & K & Inc & R). pose proof V as (M & F & G).
  destruct (node_free_ok n _ (pre_nth _ _ _ _ V Ej)) as (m1 & E1 & M1 & D1 & G1).
  destruct (kfree_ok n _ _ _ E1 Cl K) as (ds & E2 & B). eexists _, _. split; [exact E2|].
  apply after_release; [exact KV| |exact D1|exact B| | |].
  - split; [exact M1|]. cbn [s_mem s_roots]. rewrite D1. split; [apply fwf_del; exact F|].
    intro x. pose proof (W_split _ _ _ _ x Ej). specialize (G x). specialize (G1 x). lia.
  - intros d x o Hd Hx. apply B in Hd. destruct Hd as (a & Ha & Ka). apply (Oth a d x o Ha Ka Hx).
  - intros a Ha. apply (in_del_ids _ _ _ _ _ Ej Ha).
  - intros x d Hx. apply (in_del _ _ _ Hx).
Qed.
Lemma free_tree_fine j s : kinv s -> releasable_at j s -> fine (free_tree j s) s.
Proof.
  intros KV L. unfold free_tree, releasable_at in *. destruct (loose j (k_st s)) as [n|] eqn:Ej; [|apply fine_same; exact KV].
  destruct (free_one j n s KV (loose_nth _ _ _ Ej) (L n eq_refl)) as (k' & m' & E & A & B). rewrite E. cbn [bind].
  eexists. split; [reflexivity|]. auto.
Qed.
Lemma kfree_full_eq a n k m : n_items n = [] -> kfree_full a n k m = kfree n k m.
Proof.
  intro E. rewrite kfree_eq, E. cbn [kfree_items]. unfold kfree_full, node_free_full.
  destruct (rd (n_self n) m); cbn [bind]; [|reflexivity|reflexivity].
  destruct (free_name_attrs n m); cbn [bind]; [|reflexivity|reflexivity]. reflexivity.
Qed.

(** ** axl_doc_free *)
Lemma free_all_kills l (r : forest) : forall m, away l (fblocks r) -> free_all r (kills l m) = rk l (free_all r m).
Proof.
  induction r as [|[n o] r IH]; intros m H; [reflexivity|]. unfold fblocks in H. cbn [flat_map fst] in H. apply away_app in H. destruct H as [H1 H2].
  cbn [free_all fst]. rewrite (node_free_kills l n m H1). apply rk_bind. intro m'. apply IH. exact H2.
Qed.
Lemma kfree_all_ok (l : forest) : forall k m m', free_all l m = Ok m' -> keep_ok k m ->
  (forall l1 n o l2, l = l1 ++ (n, o) :: l2 -> releasable k n l2) ->
  exists ds, kfree_all l k m = Ok (drops (all_ids l) k, kills ds m') /\ (forall d, In d ds <-> exists a, In a (all_ids l) /\ In (a, d) k).
Proof.
  induction l as [|[n o] l IH]; intros k m m' E K C; cbn [free_all kfree_all fst] in *.
  - inversion E; subst. exists []. cbn [all_ids flat_map]. rewrite drops_nil. split; [destruct m'; reflexivity|].
    intro d. split; [intros []|intros (a & [] & _)].
  - destruct (node_free n m) as [m1| |] eqn:E1; cbn [bind] in E; try discriminate.
    destruct (C [] n o l eq_refl) as [Cl Oth].
    destruct (kfree_ok n k m m1 E1 Cl K) as (ds1 & A1 & B1). rewrite A1. cbn [bind].
    assert (Aw : away ds1 (fblocks l)).
    { apply away_each. intros d Hd b e Hb Eb [X|[]]. subst e. apply B1 in Hd. destruct Hd as (a & Ha & Ka).
      unfold fblocks in Hb. apply in_flat_map in Hb. destruct Hb as ([x o'] & Hx & Hb). apply (Oth a d x o' Ha Ka Hx). left. exists b. split; [exact Hb|exact Eb]. }
    pose proof (free_all_kills ds1 l m1 Aw) as Ek. rewrite E in Ek. cbn [rk bind] in Ek.
    destruct (IH (drops (ids n) k) (kills ds1 m1) (kills ds1 m') Ek) as (ds2 & A2 & B2).
    + apply keep_ok_drops.
      * destruct K as [K1 K2]. split; [exact K1|]. rewrite (still_node n m m1 E1). exact K2.
      * intros d Hd. apply B1. exact Hd.
    + intros l1 x o' l2 El. destruct (C ((n, o) :: l1) x o' l2) as [C1 C2]. { rewrite El. reflexivity. } split.
      * apply (closed_sub k); [apply drops_fst|exact C1].
      * intros a d y oy Ha Ka Hy. apply (C2 a d y oy Ha); [apply (drops_fst (ids n)); exact Ka|exact Hy].
    + rewrite A2. exists (ds2 ++ ds1). rewrite drops_app, kills_app. cbn [all_ids flat_map fst]. split; [reflexivity|].
      intro d. rewrite in_app_iff, B1, B2. split.
      * intros [(a & Ha & Ka)|(a & Ha & Ka)].
        -- apply drops_in in Ka. exists a. split; [apply in_or_app; right; exact Ha|apply Ka].
        -- exists a. split; [apply in_or_app; left; exact Ha|exact Ka].
      * intros (a & Ha & Ka). destruct (in_dec Nat.eq_dec a (ids n)) as [Y|N]; [right; eauto|]. left.
        apply in_app_or in Ha. destruct Ha as [Ha|Ha]; [contradiction|]. exists a. split; [exact Ha|]. apply drops_in. auto.
Qed.
Lemma filter_split {A} (f : A -> bool) l : forall a x b, filter f l = a ++ x :: b ->
  exists l1 l2, l = l1 ++ x :: l2 /\ a = filter f l1 /\ b = filter f l2 /\ f x = true.
Proof.
  induction l as [|y l IH]; intros a x b E; cbn [filter] in E.
  - destruct a; discriminate.
  - destruct (f y) eqn:Ey.
    + destruct a as [|z a]; cbn [app] in E.
      * inversion E; subst. exists [], l. auto.
      * inversion E; subst. destruct (IH _ _ _ H1) as (l1 & l2 & E1 & E2 & E3 & E4). exists (z :: l1), l2.
        split; [rewrite E1; reflexivity|]. split; [cbn [filter]; rewrite Ey, E2; reflexivity|]. auto.
    + destruct (IH _ _ _ E) as (l1 & l2 & E1 & E2 & E3 & E4). exists (y :: l1), l2.
      split; [rewrite E1; reflexivity|]. split; [cbn [filter]; rewrite Ey; exact E2|]. auto.
Qed.
Lemma is_root_some d n o : is_root d (n, o) = true -> o = Some d.
Proof. unfold is_root. cbn [snd]. destruct o as [e|]; [|discriminate]. intro H. apply Nat.eqb_eq in H. congruence. Qed.

Lemma doc_free_fine esc d s : kinv s -> klegal esc s (KCall (CDocFree d)) -> fine (kexec esc s (KCall (CDocFree d))) s.
Proof.
  intros KV (L & Nd & Rel). pose proof KV as (V & K & Inc & R). cbn [kexec].
  destruct (alive d (s_mem (k_st s))) eqn:Ed; [|apply fine_same; exact KV].
  destruct (exec_ok esc (k_st s) (CDocFree d) V L) as (s1 & E1 & V1). cbn [exec] in E1. cbv zeta in E1. rewrite Ed in E1.
  set (l := filter (is_root d) (s_roots (k_st s))) in *. set (r := filter (fun x => negb (is_root d x)) (s_roots (k_st s))) in *.
  destruct (free_all l (s_mem (k_st s))) as [m1| |] eqn:E2; cbn [bind] in E1; try discriminate. inversion E1; subst s1. clear E1.
  assert (D1 : m_dead m1 = m_dead (s_mem (k_st s))).
  { clear - E2. revert E2. generalize (s_mem (k_st s)) as m. induction l as [|[n o] l IH]; intros m E; cbn [free_all fst] in E; [congruence|].
    destruct (node_free n m) as [m2| |] eqn:En; cbn [bind] in E; try discriminate. rewrite (IH m2 E). apply (still_node n m m2 En). }
  destruct (kfree_all_ok l (k_keep s) _ m1 E2 K) as (ds & A & B).
  { intros l1 n o l2 El. unfold l in El. apply filter_split in El. destruct El as (r1 & r2 & Er & _ & -> & Eo).
    apply is_root_some in Eo. subst o. destruct (Rel r1 n r2 Er) as [C1 C2]. split; [exact C1|].
    intros a e x o Ha Ka Hx. apply (C2 a e x o Ha Ka). apply in_or_app. right. apply filter_In in Hx. apply Hx. }
  rewrite A. cbn [bind]. eexists. split; [reflexivity|].
  assert (Sub : forall x, In x r -> In x (s_roots (k_st s))) by (intros x Hx; apply filter_In in Hx; apply Hx).
  destruct (after_release s r m1 (all_ids l) ds KV) as [Q1 Q2].
  - destruct V1 as (M1 & F1 & G1). split; [exact M1|]. split; [|exact G1]. cbn [s_mem s_roots]. rewrite D1.
    destruct V as (_ & F & _). unfold fwf in *. rewrite Forall_forall in *. intros x Hx. apply F. apply Sub. exact Hx.
  - exact D1.
  - exact B.
  - intros e n o He Hn. apply B in He. destruct He as (a & Ha & Ka). unfold all_ids, l in Ha. apply in_flat_map in Ha.
    destruct Ha as ([y oy] & Hy & Ha). apply filter_In in Hy. destruct Hy as [Hy Ey]. apply is_root_some in Ey. subst oy.
    apply in_split in Hy. destruct Hy as (r1 & r2 & Er). destruct (Rel r1 y r2 Er) as [_ C2].
    apply (C2 a e n o Ha Ka). unfold r in Hn. apply filter_In in Hn. destruct Hn as [Hn En]. rewrite Er in Hn. apply in_app_or in Hn.
    apply in_or_app. destruct Hn as [Hn|[Hn|Hn]]; auto. inversion Hn; subst. unfold is_root in En. cbn [snd] in En. rewrite Nat.eqb_refl in En. discriminate.
  - intros a Ha. unfold all_ids in *. apply in_flat_map in Ha. destruct Ha as (x & Hx & Ha).
    destruct (is_root d x) eqn:Ex; [left|right]; apply in_flat_map; exists x; (split; [|exact Ha]); unfold l, r; apply filter_In; rewrite ?Ex; auto.
  - intros n e Hn. apply Sub. exact Hn.
  - destruct Q1 as (V2 & K2 & I2 & R2). split.
    + split; [|split; [|split; [exact I2|exact R2]]]; cbn [k_st k_keep s_mem s_roots] in *.
      * destruct V2 as (M2 & F2 & G2). split; [exact M2|]. split; [|exact G2]. cbn [s_mem s_roots kill m_dead] in *.
        unfold fwf in *. rewrite Forall_forall in *. intros [n o] Hn. apply wf_kill; [apply (F2 _ Hn)|].
        apply (L n o (Sub _ Hn)). intros ->. unfold r in Hn. apply filter_In in Hn. destruct Hn as [_ Hn].
        unfold is_root in Hn. cbn [snd] in Hn. rewrite Nat.eqb_refl in Hn. discriminate.
      * destruct K2 as [Ka Kb]. split; [exact Ka|]. intros a e He [X|X]; [|apply (Kb a e He X)]. subst e.
        apply Nd. apply (drops_snd (all_ids l)). apply (in_map snd) in He. exact He.
    + destruct Q2 as [Qa Qb]. split; cbn [k_st k_keep s_mem kill m_dead] in *.
      * intros a e He. destruct (Qa a e He) as [H|H]; [left; exact H|right; right; exact H].
      * intros x Hx. right. apply Qb. exact Hx.
Qed.

(** ** the end of axl_node_parse *)
Lemma keep_doc_fine j s : kinv s -> fine (keep_doc j s) s.
Proof.
  intros KV. pose proof KV as (V & K & Inc & R). unfold keep_doc.
  destruct (nth_error (s_roots (k_st s)) j) as [[n [d|]]|] eqn:Ej; [|apply fine_same; exact KV|apply fine_same; exact KV].
  pose proof (pre_nth _ _ _ _ V Ej) as P. rewrite (self_rd n _ P). cbn [bind]. rewrite (hold_rd n _ P). cbn [bind].
  pose proof (nth_error_In _ _ Ej) as Hin. destruct (R n d Hin) as [Dn Nk].
  assert (Al : alv (m_dead (s_mem (k_st s))) d) by (destruct P as (_ & Wn & _); apply (doc_alv _ n d Wn Dn)).
  assert (Rd : rd_doc (n_holder n) (s_mem (k_st s)) = Ok tt).
  { unfold rd_doc, n_doc in *. destruct (n_holder n) as [h|]; [|discriminate]. rewrite Dn. unfold alive. unfold alv in Al. rewrite Al. reflexivity. }
  rewrite Rd. cbn [bind]. rewrite Dn. cbn [eq_opt]. rewrite Nat.eqb_refl. eexists. split; [reflexivity|]. split.
  - split; [|split; [|split]]; cbn [k_st k_keep s_mem s_roots].
    + destruct V as (M & F & G). split; [exact M|]. cbn [s_mem s_roots]. split; [apply unroot_fwf; exact F|]. intro x. rewrite unroot_blocks. apply G.
    + destruct K as [K1 K2]. split; [constructor; [exact Nk|exact K1]|]. intros a e [X|X]; [|apply (K2 a e X)].
      inversion X; subst. intro Y. apply existsb_in in Y. unfold alv in Al. congruence.
    + rewrite all_ids_unroot. intros a [<-|Ha]; [|apply Inc; exact Ha]. cbn [fst]. unfold all_ids. apply in_flat_map. exists (n, Some d).
      split; [exact Hin|]. cbn [fst]. rewrite ids_iids. left. reflexivity.
    + intros x e Hx. apply in_unroot in Hx. destruct Hx as [Hx Ne]. destruct (R x e Hx) as [R1 R2]. split; [exact R1|].
      cbn [map snd]. intros [X|X]; [congruence|]. apply R2. exact X.
  - split; cbn [k_st k_keep s_mem]; [|apply incl_refl]. intros a e H. left. right. exact H.
Qed.

Lemma kexec_fine esc s c : kinv s -> klegal esc s c -> fine (kexec esc s c) s.
Proof.
  intros KV L. destruct c as [c|j]; [|apply keep_doc_fine; exact KV].
  assert (Two : forall s1, fine s1 s -> forall g, (forall s', s1 = Ok s' -> kinv s' -> fine (g s') s') -> fine (bind s1 g) s).
  { intros s1 (s' & E & A & B) g H. rewrite E. cbn [bind]. destruct (H s' E A) as (s2 & E2 & A2 & B2). exists s2. split; [exact E2|]. split; [exact A2|].
    eapply goes_trans; eassumption. }
  destruct c; try (destruct L as [L1 L2]; cbn [kexec]; apply plain_fine; [exact KV|exact L1|reflexivity|discriminate]).
  - (* remove *) destruct L as [L1 L2]. destruct dealloc; cbn [kexec].
    + apply Two; [apply plain_fine; [exact KV|exact I|reflexivity|discriminate]|]. intros s' E A.
      destruct (node_there p k (k_st s)); [|apply fine_same; exact A]. apply free_tree_fine; [exact A|]. apply (L2 s' E).
    + apply plain_fine; [exact KV|exact L1|reflexivity|discriminate].
  - (* replace *) destruct L as [L1 L2]. destruct dealloc; cbn [kexec].
    + apply Two; [apply plain_fine; [exact KV|exact L1|reflexivity|discriminate]|]. intros s' E A.
      match goal with |- fine (if ?b then _ else _) _ => destruct b end; [|apply fine_same; exact A]. apply free_tree_fine; [exact A|]. apply (L2 s' E).
    + apply plain_fine; [exact KV|exact L1|reflexivity|discriminate].
  - (* free *) destruct L as [L1 L2]. cbn [kexec]. apply free_tree_fine; assumption.
  - (* free_full *) destruct L as [L1 L2]. cbn [kexec]. unfold releasable_at in L2. cbn [legal] in L1.
    destruct (loose j (k_st s)) as [n|] eqn:Ej; [|apply fine_same; exact KV].
    destruct (free_one j n s KV (loose_nth _ _ _ Ej) (L2 n eq_refl)) as (k' & m' & E & A & B).
    rewrite (kfree_full_eq _ n _ _ (L1 n eq_refl)), E. cbn [bind]. eexists. split; [reflexivity|]. auto.
  - (* set_root *) destruct L as [L1 L2]. cbn [kexec]. apply plain_fine; [exact KV|exact L1|reflexivity|]. intros j' d' X. inversion X; subst. exact L2.
  - (* doc_free *) apply doc_free_fine; assumption.
Qed.
Lemma kexec_all_fine esc l : forall s, kinv s -> klegal_all esc s l -> fine (kexec_all esc s l) s.
Proof.
  induction l as [|c l IH]; intros s KV L; cbn [kexec_all]; [apply fine_same; exact KV|].
  cbn [klegal_all] in L. destruct L as [L1 L2]. destruct (kexec_fine esc s c KV L1) as (s1 & E1 & A1 & B1). rewrite E1. cbn [bind].
  destruct (IH s1 A1 (L2 s1 E1)) as (s2 & E2 & A2 & B2). exists s2. split; [exact E2|]. split; [exact A2|]. eapply goes_trans; eassumption.
Qed.

Lemma kowned esc calls : klegal_all esc kst0 calls -> exists s, kexec_all esc kst0 calls = Ok s /\
  NoDup (m_live (s_mem (k_st s))) /\ Permutation (m_live (s_mem (k_st s))) (in_hand (k_st s)) /\
  NoDup (map snd (k_keep s)) /\
  forall a d, In (a, d) (k_keep s) -> In a (all_ids (s_roots (k_st s))) /\ ~ In d (m_dead (s_mem (k_st s))) /\
    forall n, ~ In (n, Some d) (s_roots (k_st s)).
Proof.
  intro L. destruct (kexec_all_fine esc calls kst0 kinv0 L) as (s & E & (V & (K1 & K2) & Inc & R) & _). exists s. split; [exact E|].
  destruct (inv_memory _ V) as [A B]. split; [exact A|]. split; [exact B|]. split; [exact K1|]. intros a d H. split; [|split].
  - apply Inc. apply (in_map fst) in H. exact H.
  - apply (K2 a d H).
  - intros n Hn. destruct (R n d Hn) as [_ N]. apply N. apply (in_map snd) in H. exact H.
Qed.
Lemma klegal_app esc l1 l2 : forall s s', klegal_all esc s (l1 ++ l2) -> kexec_all esc s l1 = Ok s' -> klegal_all esc s l1 /\ klegal_all esc s' l2.
Proof.
  induction l1 as [|c l1 IH]; intros s s' L E; cbn [app klegal_all kexec_all] in *.
  - inversion E; subst. auto.
  - destruct L as [L1 L2]. destruct (kexec esc s c) as [s1| |] eqn:E1; cbn [bind] in E; try discriminate.
    destruct (IH s1 s' (L2 s1 eq_refl) E) as [A B]. split; [|exact B]. split; [exact L1|]. intros s2 E2. inversion E2; subst. exact A.
Qed.
Lemma kreleased esc calls1 calls2 s1 s2 : klegal_all esc kst0 (calls1 ++ calls2) -> kexec_all esc kst0 calls1 = Ok s1 -> kexec_all esc s1 calls2 = Ok s2 ->
  s_roots (k_st s2) = [] -> m_live (s_mem (k_st s2)) = [] /\ k_keep s2 = [] /\
  forall a d, In (a, d) (k_keep s1) -> In d (m_dead (s_mem (k_st s2))).
Proof.
  intros L E1 E2 Z0. destruct (klegal_app esc _ _ _ _ L E1) as [L1 L2].
  destruct (kexec_all_fine esc calls1 kst0 kinv0 L1) as (s1' & E1' & A1 & _). rewrite E1 in E1'. inversion E1'; subst s1'.
  destruct (kexec_all_fine esc calls2 s1 A1 L2) as (s2' & E2' & (V & K & Inc & R) & Go & _). rewrite E2 in E2'. inversion E2'; subst s2'.
  assert (Ek : k_keep s2 = []).
  { rewrite Z0 in Inc. destruct (k_keep s2) as [|[a d] k]; [reflexivity|]. destruct (Inc a (or_introl eq_refl)). }
  split; [|split; [exact Ek|]].
  - destruct (inv_memory _ V) as [_ B]. unfold in_hand in B. rewrite Z0 in B. apply Permutation_nil. symmetry. exact B.
  - intros a d H. destruct (Go a d H) as [X|X]; [|exact X]. rewrite Ek in X. destruct X.
Qed.
