From Coq Require Import Permutation.
From Verif Require Import Prelude HashModel HashSpec HashExec HashProofs HashProofs2 HashStrProofs OwnModel OwnExec OwnSpec OwnProofs OwnProofs2 OwnProofs3.
Open Scope nat_scope.

(** ** items *)
Lemma wf_w_items D n l : wf D n -> Forall (iwf D) l -> wf D (w_items l n).
Proof. rewrite !wf_eq. destruct n as [sb sf nm nf a k l0 h]. intros [A _] F. split; [exact A|exact F]. Qed.
Lemma W_w_items n l x :
  W (blocks (w_items l n)) x + W (flat_map iblocks (n_items n)) x = W (blocks n) x + W (flat_map iblocks l) x.
Proof. rewrite !W_blocks. destruct n as [sb sf nm nf a k l0 h]. cbn [w_items n_items n_self n_name n_attrs n_holder]. lia. Qed.
Lemma holder_w_items l n : n_holder (w_items l n) = n_holder n. Proof. destruct n; reflexivity. Qed.
Lemma items_of D n : wf D n -> Forall (iwf D) (n_items n).
Proof. rewrite wf_eq. tauto. Qed.
Lemma wf_push D n i : wf D n -> iwf D i -> wf D (push i n).
Proof. intros A B. apply wf_w_items; [exact A|]. apply Forall_app. split; [apply items_of; exact A|repeat constructor; exact B]. Qed.
Lemma W_push n i x : W (blocks (push i n)) x = W (blocks n) x + W (iblocks i) x.
Proof.
  pose proof (W_w_items n (n_items n ++ [i]) x) as H. fold (push i n) in H. rewrite flat_map_app in H.
  cbn [flat_map] in H. cn. lia.
Qed.
Lemma holder_push i n : n_holder (push i n) = n_holder n. Proof. apply holder_w_items. Qed.

Lemma wf_w_holder D n o : wf D n -> (forall h, o = Some h -> wf_hold D h) -> wf D (w_holder o n).
Proof.
  rewrite !wf_eq. destruct n as [sb sf nm nf a k l h]. intros [(A & B & C & E & F) G] H. split; [|exact G].
  split; [exact A|]. split; [exact B|]. split; [exact C|]. split; [exact E|exact H].
Qed.
Lemma W_w_holder n o x :
  W (blocks (w_holder o n)) x + W (hold_blk (n_holder n)) x = W (blocks n) x + W (hold_blk o) x.
Proof. rewrite !W_blocks. destruct n as [sb sf nm nf a k l0 h]. cbn [w_holder n_items n_self n_name n_attrs n_holder]. lia. Qed.
Lemma holder_w_holder o n : n_holder (w_holder o n) = o. Proof. destruct n; reflexivity. Qed.
Lemma holder_wf D n h : wf D n -> n_holder n = Some h -> wf_hold D h.
Proof. rewrite wf_eq. intros [(_ & _ & _ & _ & F) _]. apply F. Qed.
Lemma doc_alv D n d : wf D n -> n_doc n = Some d -> alv D d.
Proof.
  intros Wf E. unfold n_doc in E. destruct (n_holder n) as [h|] eqn:Eh; [|discriminate].
  destruct (holder_wf D n h Wf Eh) as (_ & _ & G). apply G, E.
Qed.

Lemma new_item_ok n m : mem_ok m -> wf (m_dead m) n ->
  exists h m', new_item n m = Ok (h, m') /\ mem_ok m' /\ m_dead m' = m_dead m /\ wf_hold (m_dead m) h /\
    (forall x, held m' x = held m x + w (hd_blk h) x).
Proof.
  intros M Wf. unfold new_item. destruct (n_doc n) as [d|] eqn:Ed.
  - pose proof (doc_alv _ _ _ Wf Ed) as A.
    destruct (pool_ok d [] m M A) as (b & m' & E & M' & G & O & D). rewrite E. cbn [bind].
    eexists _, _. split; [reflexivity|]. split; [exact M'|]. split; [exact D|]. split.
    + split; [apply (pool_org b d O)|]. split; [apply (pool_pok _ b d O A)|]. cbn [hd_doc]. intros e Ee. congruence.
    + intro x. cbn [hd_blk]. rewrite (w_pool b d x O), G. lia.
  - destruct (malloc_ok [] m M) as (b & m' & E & M' & G & O & D). rewrite E.
    eexists _, _. split; [reflexivity|]. split; [exact M'|]. split; [exact D|]. split; [|exact G].
    split; [apply malloc_org; exact O|]. split; [apply malloc_pok; exact O|]. discriminate.
Qed.

Lemma set_text_keeps k s n m : pre n m -> keeps (set_text k s) n m.
Proof.
  intro P. unfold keeps, set_text. rewrite (self_rd n m P), (hold_rd n m P). cbn [bind]. destruct P as (M & Wf & H).
  destruct (malloc_ok [] m M) as (a & m1 & E1 & M1 & G1 & O1 & D1). rewrite E1.
  destruct (malloc_ok s m1 M1) as (b & m2 & E2 & M2 & G2 & O2 & D2). rewrite E2. rewrite D1 in D2.
  destruct (new_item_ok n m2 M2) as (h & m3 & E3 & M3 & D3 & W3 & G3); [rewrite D2; exact Wf|].
  rewrite E3. cbn [bind]. rewrite D2 in *.
  eexists _, _. split; [reflexivity|]. split; [exact M3|]. split; [exact D3|]. split; [|split].
  - apply wf_push; [exact Wf|]. repeat split; try apply W3; try apply malloc_org; try apply malloc_pok; assumption.
  - rewrite holder_push. auto.
  - intro x. rewrite W_push. specialize (G1 x). specialize (G2 x). specialize (G3 x). cbn [iblocks]. cn. lia.
Qed.
Lemma set_text_fac_keeps d k s n m : pre n m -> alv (m_dead m) d -> keeps (set_text_fac d k s) n m.
Proof.
  intros P A. unfold keeps, set_text_fac. pose proof P as (M & Wf & H).
  destruct (pool_ok d s m M A) as (c & m1 & E1 & M1 & G1 & O1 & D1). rewrite E1. cbn [bind].
  assert (P1 : pre n m1).
  { split; [exact M1|]. split; [rewrite D1; exact Wf|]. intro x. rewrite G1. apply H. }
  rewrite (self_rd n m1 P1), (hold_rd n m1 P1). cbn [bind].
  destruct (pool_ok d [] m1 M1) as (a & m2 & E2 & M2 & G2 & O2 & D2); [rewrite D1; exact A|]. rewrite E2. cbn [bind]. rewrite D1 in D2.
  destruct (new_item_ok n m2 M2) as (h & m3 & E3 & M3 & D3 & W3 & G3); [rewrite D2; exact Wf|].
  rewrite E3. cbn [bind]. rewrite D2 in *.
  eexists _, _. split; [reflexivity|]. split; [exact M3|]. split; [exact D3|]. split; [|split].
  - apply wf_push; [exact Wf|]. repeat split; try apply W3.
    + apply (pool_org a d O2). + apply (pool_org c d O1). + apply (pool_pok _ a d O2 A). + apply (pool_pok _ c d O1 A).
  - rewrite holder_push. auto.
  - intro x. rewrite W_push. specialize (G1 x). specialize (G2 x). specialize (G3 x). cbn [iblocks]. cn.
    rewrite (w_pool a d x O2), (w_pool c d x O1). lia.
Qed.
Lemma opt_malloc c m : mem_ok m ->
  exists o m', (match c with Some t => let '(b, m) := malloc t m in (Some b, m) | None => (None, m) end) = (o, m') /\
    mem_ok m' /\ m_dead m' = m_dead m /\ (forall x, held m' x = held m x + W (opt_blk o) x) /\
    (forall b, o = Some b -> b_org b = None).
Proof.
  intro M. destruct c as [t|].
  - destruct (malloc_ok t m M) as (b & m' & E & M' & G & O & D). rewrite E. eexists _, _. split; [reflexivity|].
    split; [exact M'|]. split; [exact D|]. split.
    + intro x. rewrite G. cbn [opt_blk]. cn. lia.
    + intros b' Eb. congruence.
  - eexists _, _. split; [reflexivity|]. split; [exact M|]. split; [reflexivity|]. split; [|discriminate].
    intro x. cbn [opt_blk]. cn. lia.
Qed.
Lemma add_pi_keeps s c n m : pre n m -> keeps (add_pi s c) n m.
Proof.
  intro P. unfold keeps, add_pi. rewrite (self_rd n m P), (hold_rd n m P). cbn [bind]. destruct P as (M & Wf & H).
  destruct (malloc_ok [] m M) as (a & m1 & E1 & M1 & G1 & O1 & D1). rewrite E1.
  destruct (malloc_ok s m1 M1) as (b & m2 & E2 & M2 & G2 & O2 & D2). rewrite E2. rewrite D1 in D2.
  destruct (opt_malloc c m2 M2) as (o & m3 & E3 & M3 & D3 & G3 & O3). rewrite E3. rewrite D2 in D3.
  destruct (new_item_ok n m3 M3) as (h & m4 & E4 & M4 & D4 & W4 & G4); [rewrite D3; exact Wf|].
  rewrite E4. cbn [bind]. rewrite D3 in *.
  eexists _, _. split; [reflexivity|]. split; [exact M4|]. split; [exact D4|]. split; [|split].
  - apply wf_push; [exact Wf|]. repeat split; try apply W4; assumption.
  - rewrite holder_push. auto.
  - intro x. rewrite W_push. specialize (G1 x). specialize (G2 x). specialize (G3 x). specialize (G4 x). cbn [iblocks]. cn. lia.
Qed.

(** ** functions that take trees in ([ex]) and hand trees out *)
Definition pre2 (ex : list blk) (n : node) (m : mem) : Prop :=
  mem_ok m /\ wf (m_dead m) n /\ (forall x, W (blocks n) x + W ex x <= held m x).
Definition keeps2 (ex : list blk) (f : node -> mem -> res (node * mem * list node)) (n : node) (m : mem) : Prop :=
  exists n' m' out, f n m = Ok (n', m', out) /\ mem_ok m' /\ m_dead m' = m_dead m /\ wf (m_dead m) n' /\
    (n_holder n <> None -> n_holder n' <> None) /\ Forall (wf (m_dead m)) out /\
    (forall x, held m' x + W (blocks n) x + W ex x = held m x + W (blocks n') x + W (flat_map blocks out) x).
Lemma pre2_pre ex n m : pre2 ex n m -> pre n m.
Proof. intros (A & B & C). split; [exact A|]. split; [exact B|]. intro x. specialize (C x). lia. Qed.
Lemma keeps_keeps2 f n m : keeps f n m -> keeps2 [] (simple f) n m.
Proof.
  intros (n' & m' & E & M & D & Wf & Hh & G). exists n', m', []. unfold simple. rewrite E. cbn [bind].
  split; [reflexivity|]. split; [exact M|]. split; [exact D|]. split; [exact Wf|]. split; [exact Hh|].
  split; [constructor|]. intro x. specialize (G x). cn. lia.
Qed.

Lemma node_item_ok n c m : mem_ok m -> wf (m_dead m) n -> wf (m_dead m) c -> (forall x, W (blocks c) x <= held m x) ->
  exists h m', node_item n c m = Ok (h, m') /\ mem_ok m' /\ m_dead m' = m_dead m /\ wf_hold (m_dead m) h /\
    (forall x, held m' x + W (blocks c) x = held m x + W (blocks (w_holder (Some h) c)) x).
Proof.
  intros M Wn Wc H. unfold node_item. destruct (n_holder c) as [h|] eqn:Eh.
  - destruct (holder_wf _ _ _ Wc Eh) as (O & P & A).
    rewrite rd_ok; [|exact P|intro x; specialize (H x); rewrite W_blocks, Eh in H; cbn [hold_blk] in H; cn; lia]. cbn [bind].
    eexists _, _. split; [reflexivity|]. split; [exact M|]. split; [reflexivity|]. split.
    + split; [exact O|]. split; [exact P|]. cbn [hd_doc]. intros d Ed. eapply doc_alv; [exact Wn|exact Ed].
    + intro x. pose proof (W_w_holder c (Some (Hold (hd_blk h) (hd_fac h) (n_doc n))) x) as G.
      rewrite Eh in G. cbn [hold_blk hd_blk] in G. lia.
  - destruct (new_item_ok n m M Wn) as (h & m' & E & M' & D & Wh & G). exists h, m'.
    split; [exact E|]. split; [exact M'|]. split; [exact D|]. split; [exact Wh|].
    intro x. specialize (G x). pose proof (W_w_holder c (Some h) x) as G'. rewrite Eh in G'. cbn [hold_blk] in G'. cn. lia.
Qed.

Lemma set_child_keeps c n m : pre2 (blocks c) n m -> wf (m_dead m) c -> keeps2 (blocks c) (simple (set_child c)) n m.
Proof.
  intros P Wc. pose proof P as (M & Wn & H). unfold keeps2, simple, set_child.
  rewrite (self_rd n m (pre2_pre _ _ _ P)). cbn [bind].
  assert (Pc : pre c m). { split; [exact M|]. split; [exact Wc|]. intro x. specialize (H x). lia. }
  rewrite (self_rd c m Pc). cbn [bind]. rewrite (hold_rd n m (pre2_pre _ _ _ P)). cbn [bind].
  destruct (node_item_ok n c m M Wn Wc (proj2 (proj2 Pc))) as (h & m' & E & M' & D & Wh & G). rewrite E. cbn [bind].
  eexists _, _, _. split; [reflexivity|]. split; [exact M'|]. split; [exact D|]. split; [|split; [|split]].
  - apply wf_push; [exact Wn|]. split; [|rewrite holder_w_holder; discriminate].
    apply wf_w_holder; [exact Wc|]. intros h' Eh. congruence.
  - rewrite holder_push. auto.
  - constructor.
  - intro x. rewrite W_push. specialize (G x). cbn [iblocks]. cn. lia.
Qed.

Lemma split_items k (l : list item) i : nth_error l k = Some i -> l = firstn k l ++ i :: skipn (S k) l.
Proof.
  revert l; induction k as [|k IH]; intros [|y l] H; try discriminate; simpl in *.
  - inversion H; reflexivity.
  - f_equal. apply IH, H.
Qed.

Lemma do_after_keeps k c n m : pre2 (blocks c) n m -> wf (m_dead m) c -> keeps2 (blocks c) (do_after k c) n m.
Proof.
  intros P Wc. pose proof P as (M & Wn & H). unfold keeps2, do_after.
  destruct (is_node (nth_error (n_items n) k)) eqn:Ei.
  - unfold set_after. rewrite (self_rd n m (pre2_pre _ _ _ P)). cbn [bind].
    assert (Pc : pre c m). { split; [exact M|]. split; [exact Wc|]. intro x. specialize (H x). lia. }
    rewrite (self_rd c m Pc). cbn [bind]. rewrite (hold_rd n m (pre2_pre _ _ _ P)). cbn [bind].
    destruct (node_item_ok n c m M Wn Wc (proj2 (proj2 Pc))) as (h & m' & E & M' & D & Wh & G). rewrite E. cbn [bind].
    eexists _, _, _. split; [reflexivity|]. split; [exact M'|]. split; [exact D|].
    pose proof (items_of _ _ Wn) as F. rewrite <- (firstn_skipn (S k) (n_items n)) in F. apply Forall_app in F. destruct F as [F1 F2].
    split; [|split; [|split]].
    + apply wf_w_items; [exact Wn|]. apply Forall_app. split; [exact F1|]. constructor; [|exact F2].
      split; [|rewrite holder_w_holder; discriminate]. apply wf_w_holder; [exact Wc|]. intros h' Eh. congruence.
    + rewrite holder_w_items. auto.
    + constructor.
    + intro x. specialize (G x).
      pose proof (W_w_items n (firstn (S k) (n_items n) ++ INode (w_holder (Some h) c) :: skipn (S k) (n_items n)) x) as Q.
      assert (HF : W (flat_map iblocks (n_items n)) x =
                   W (flat_map iblocks (firstn (S k) (n_items n))) x + W (flat_map iblocks (skipn (S k) (n_items n))) x).
      { rewrite <- W_app, <- flat_map_app, firstn_skipn. reflexivity. }
      rewrite flat_map_app, W_app in Q. cbn [flat_map iblocks] in Q. rewrite W_app in Q. rewrite HF in Q. cbn [flat_map]. rewrite W_nil. lia.
  - eexists _, _, _. split; [reflexivity|]. split; [exact M|]. split; [reflexivity|]. split; [exact Wn|].
    split; [auto|]. split; [repeat constructor; exact Wc|]. intro x. cn. lia.
Qed.

(** ** releasing *)
Fixpoint node_rect' (P : node -> Prop) (H : forall n, (forall c, In (INode c) (n_items n) -> P c) -> P n) (n : node) {struct n} : P n.
Proof.
  apply H. destruct n as [b f s sf a k l h]. cbn [n_items].
  refine ((fix go (l : list item) : forall c, In (INode c) l -> P c :=
            match l with
            | [] => fun c Hc => match Hc with end
            | i :: r => fun c Hc => match Hc with or_introl E => _ | or_intror Hr => go r c Hr end
            end) l).
  destruct i as [c0| |]; [|discriminate E|discriminate E].
  assert (c0 = c) as <- by congruence. exact (node_rect' P H c0).
Defined.
