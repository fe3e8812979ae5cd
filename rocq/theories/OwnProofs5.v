From Coq Require Import Permutation.
From Verif Require Import Prelude HashModel HashSpec HashExec HashProofs HashProofs2 HashStrProofs OwnModel OwnExec OwnSpec OwnProofs OwnProofs2 OwnProofs3 OwnProofs4.
Open Scope nat_scope.

(** ** axl_node_free *)
Fixpoint free_items (l : list item) (m : mem) : res mem :=
  match l with
  | [] => Ok m
  | INode c :: r => _ <- rd_hold (n_holder c) m ;; m <- node_free c m ;; free_items r m
  | i :: r => m <- leaf_free i m ;; free_items r m
  end.
Lemma node_free_eq n m : node_free n m =
  (_ <- rd (n_self n) m ;; m <- free_name_attrs n m ;; m <- free_items (n_items n) m ;; free_holder_self n m).
Proof.
  destruct n. reflexivity.
Qed.

Lemma free_attrs_ok l : forall m, mem_ok m -> Forall (wf_attr (m_dead m)) l -> (forall x, W (flat_map ablk l) x <= held m x) ->
  exists m', free_attrs l m = Ok m' /\ mem_ok m' /\ m_dead m' = m_dead m /\
    (forall x, held m x = held m' x + W (flat_map ablk l) x).
Proof.
  induction l as [|a l IH]; intros m M F H.
  - exists m. repeat split; auto; try apply M.
  - inversion F as [|? ? F1 F2]; subst. cbn [free_attrs].
    rewrite rd_ok; [|apply F1|intro x; specialize (H x); cn; lia]. cbn [bind].
    destruct (free_attr_ok a m M F1) as (m1 & E1 & M1 & D1 & G1). { intro x. specialize (H x). cn. lia. }
    rewrite E1. cbn [bind].
    destruct (IH m1 M1) as (m2 & E2 & M2 & D2 & G2). { rewrite D1; exact F2. } { intro x. specialize (H x). specialize (G1 x). cn. lia. }
    exists m2. split; [exact E2|]. split; [exact M2|]. split; [congruence|].
    intro x. specialize (G1 x). specialize (G2 x). cn. lia.
Qed.

Lemma free_name_attrs_ok n m : pre n m ->
  exists m', free_name_attrs n m = Ok m' /\ mem_ok m' /\ m_dead m' = m_dead m /\
    (forall x, held m x = held m' x + W (opt_blk (n_name n)) x + W (store_blocks (n_attrs n)) x).
Proof.
  intro P. unfold free_name_attrs. destruct (name_free n m P) as (m1 & E1 & M1 & D1 & G1). rewrite E1. cbn [bind].
  destruct P as (M & Wf & H). pose proof (wf_store_of _ _ Wf) as Ws.
  assert (H1 : forall x, W (store_blocks (n_attrs n)) x <= held m1 x).
  { intro x. specialize (H x). specialize (G1 x). rewrite W_blocks in H. lia. }
  destruct (n_attrs n) as [l|b h] eqn:Ea.
  - destruct Ws as (F & N & K & K2). destruct l as [|a0 l0].
    + cbn [is_null]. exists m1. repeat split; auto; try apply M1. intro x. specialize (G1 x). cbn [store_blocks]. cn. lia.
    + cbn [is_null]. set (l := a0 :: l0) in *. replace (n_num n <=? 10) with true by (symmetry; apply Nat.leb_le; lia).
      destruct (free_attrs_ok l m1 M1) as (m2 & E2 & M2 & D2 & G2); [rewrite D1; exact F|exact H1|].
      exists m2. split; [exact E2|]. split; [exact M2|]. split; [congruence|].
      intro x. specialize (G1 x). specialize (G2 x). cbn [store_blocks]. fold ablk. lia.
  - destruct Ws as (B & R & K & K2). cbn [is_null].
    replace (n_num n <=? 10) with false by (symmetry; apply Nat.leb_gt; lia).
    assert (HB : forall x, W (store_blocks (AHash b h)) x = w b x + W (hblocks h) x).
    { intro x. cbn [store_blocks]. unfold hblocks, pblk. cn. lia. }
    destruct (ah_free_ok b h m1 M1 B) as (m2 & E2 & M2 & D2 & G2).
    { rewrite D1; exact R. } { intro x. specialize (H1 x). rewrite HB in H1. lia. }
    exists m2. split; [exact E2|]. split; [exact M2|]. split; [congruence|].
    intro x. specialize (G1 x). specialize (G2 x). rewrite HB. lia.
Qed.

Lemma free_holder_self_ok n m : mem_ok m -> wf_local (m_dead m) n ->
  (forall x, w (n_self n) x + W (hold_blk (n_holder n)) x <= held m x) ->
  exists m', free_holder_self n m = Ok m' /\ mem_ok m' /\ m_dead m' = m_dead m /\
    (forall x, held m x = held m' x + w (n_self n) x + W (hold_blk (n_holder n)) x).
Proof.
  intros M (A & B & _ & _ & C) H. unfold free_holder_self.
  assert (X : exists m1, (_ <- rd_hold (n_holder n) m ;;
       match n_holder n with Some h => free_unless (hd_fac h) (hd_blk h) m | None => Ok m end) = Ok m1 /\
       mem_ok m1 /\ m_dead m1 = m_dead m /\ forall x, held m x = held m1 x + W (hold_blk (n_holder n)) x).
  { unfold rd_hold. destruct (n_holder n) as [h|] eqn:Eh.
    - destruct (C h eq_refl) as (O & P & _). cbn [hold_blk] in H.
      rewrite rd_ok; [|exact P|intro x; specialize (H x); cn; lia]. cbn [bind].
      destruct (free_unless_ok (hd_fac h) (hd_blk h) m M O) as (m1 & E1 & M1 & G1 & D1). { intro x. specialize (H x). cn. lia. }
      exists m1. repeat split; auto; try apply M1. intro x. specialize (G1 x). cbn [hold_blk]. cn. lia.
    - exists m. cbn [bind]. repeat split; auto; try apply M. }
  destruct X as (m1 & E1 & M1 & D1 & G1).
  destruct (rd_hold (n_holder n) m); cbn [bind] in *; try discriminate. rewrite E1. cbn [bind].
  rewrite rd_ok; [|rewrite D1; exact B|intro x; specialize (H x); specialize (G1 x); lia]. cbn [bind].
  destruct (free_unless_ok (n_fac n) (n_self n) m1 M1 A) as (m2 & E2 & M2 & G2 & D2). { intro x. specialize (H x). specialize (G1 x). lia. }
  exists m2. split; [exact E2|]. split; [exact M2|]. split; [congruence|]. intro x. specialize (G1 x). specialize (G2 x). lia.
Qed.

Lemma leaf_free_ok i m : mem_ok m -> iwf (m_dead m) i -> (forall c, i <> INode c) -> (forall x, W (iblocks i) x <= held m x) ->
  exists m', leaf_free i m = Ok m' /\ mem_ok m' /\ m_dead m' = m_dead m /\
    (forall x, held m x = held m' x + W (iblocks i) x).
Proof.
  intros M Wi Ni H. destruct i as [c|k h a c f|h pi s c]; [destruct (Ni c eq_refl)| |]; cbn [iblocks leaf_free] in *.
  - destruct Wi as ((O & P & _) & Fa & Fc & Pa & Pc).
    rewrite rd_ok; [|exact P|intro x; specialize (H x); cn; lia]. cbn [bind].
    assert (X : exists m1, (if f then Ok m else (_ <- rd a m ;; m <- free c m ;; free a m)) = Ok m1 /\
       mem_ok m1 /\ m_dead m1 = m_dead m /\ forall x, held m x = held m1 x + w a x + w c x).
    { unfold org in *. destruct f.
      - destruct (b_org a) as [d1|] eqn:E1; [|discriminate]. destruct (b_org c) as [d2|] eqn:E2; [|discriminate].
        exists m. repeat split; auto; try apply M. intro x. rewrite (w_pool a d1 x E1), (w_pool c d2 x E2). lia.
      - destruct (b_org a) as [d1|] eqn:E1; [discriminate|]. destruct (b_org c) as [d2|] eqn:E2; [discriminate|].
        rewrite rd_ok; [|exact Pa|intro x; specialize (H x); cn; lia]. cbn [bind].
        destruct (free_ok c m M E2) as (m1 & X1 & M1 & G1 & D1). { intro x. specialize (H x). cn. lia. }
        rewrite X1. cbn [bind].
        destruct (free_ok a m1 M1 E1) as (m2 & X2 & M2 & G2 & D2). { intro x. specialize (H x). specialize (G1 x). cn. lia. }
        exists m2. split; [exact X2|]. split; [exact M2|]. split; [congruence|]. intro x. specialize (G1 x). specialize (G2 x). lia. }
    destruct X as (m1 & E1 & M1 & D1 & G1). rewrite E1. cbn [bind].
    destruct (free_unless_ok (hd_fac h) (hd_blk h) m1 M1 O) as (m2 & E2 & M2 & G2 & D2). { intro x. specialize (H x). specialize (G1 x). cn. lia. }
    exists m2. split; [exact E2|]. split; [exact M2|]. split; [congruence|]. intro x. specialize (G1 x). specialize (G2 x). cn. lia.
  - destruct Wi as ((O & P & _) & Fp & Fs & Fc).
    rewrite rd_ok; [|exact P|intro x; specialize (H x); cn; lia]. cbn [bind].
    assert (Hc : forall x, w (hd_blk h) x + w pi x + w s x + W (opt_blk c) x <= held m x).
    { intro x. specialize (H x). rewrite !W_cons in H. lia. }
    unfold pi_free. rewrite rd_ok; [|apply malloc_pok; exact Fp|intro x; specialize (Hc x); lia]. cbn [bind].
    destruct (free_ok s m M Fs) as (m1 & X1 & M1 & G1 & D1). { intro x. specialize (Hc x). lia. }
    rewrite X1. cbn [bind].
    destruct (free_opt_ok c m1 M1 Fc) as (m2 & X2 & M2 & G2 & D2). { intro x. specialize (Hc x). specialize (G1 x). lia. }
    rewrite X2. cbn [bind].
    destruct (free_ok pi m2 M2 Fp) as (m3 & X3 & M3 & G3 & D3). { intro x. specialize (Hc x). specialize (G1 x). specialize (G2 x). lia. }
    rewrite X3. cbn [bind].
    destruct (free_unless_ok (hd_fac h) (hd_blk h) m3 M3 O) as (m4 & E4 & M4 & G4 & D4).
    { intro x. specialize (Hc x). specialize (G1 x). specialize (G2 x). specialize (G3 x). lia. }
    exists m4. split; [exact E4|]. split; [exact M4|]. split; [congruence|].
    intro x. specialize (G1 x). specialize (G2 x). specialize (G3 x). specialize (G4 x). rewrite !W_cons. lia.
Qed.

Lemma node_free_ok n : forall m, pre n m ->
  exists m', node_free n m = Ok m' /\ mem_ok m' /\ m_dead m' = m_dead m /\
    (forall x, held m x = held m' x + W (blocks n) x).
Proof.
  induction n as [n IH] using node_rect'. intros m P. rewrite node_free_eq, (self_rd n m P). cbn [bind].
  destruct (free_name_attrs_ok n m P) as (m1 & E1 & M1 & D1 & G1). rewrite E1. cbn [bind].
  destruct P as (M & Wf & H). pose proof Wf as Wf'. apply wf_eq in Wf'. destruct Wf' as [Wl Wi].
  assert (X : forall l, (forall c, In (INode c) l -> In (INode c) (n_items n)) -> Forall (iwf (m_dead m)) l ->
     forall m1, mem_ok m1 -> m_dead m1 = m_dead m -> (forall x, W (flat_map iblocks l) x <= held m1 x) ->
     exists m2, free_items l m1 = Ok m2 /\ mem_ok m2 /\ m_dead m2 = m_dead m /\
        forall x, held m1 x = held m2 x + W (flat_map iblocks l) x).
  { clear E1 M1 D1 G1 m1 H. induction l as [|i l IHl]; intros Sub F m1 M1 D1 H1.
    - exists m1. repeat split; auto; try apply M1.
    - inversion F as [|? ? F1 F2]; subst. cbn [flat_map] in *.
      assert (Y : exists m2, (match i with INode c => _ <- rd_hold (n_holder c) m1 ;; node_free c m1 | _ => leaf_free i m1 end) = Ok m2 /\
          mem_ok m2 /\ m_dead m2 = m_dead m /\ forall x, held m1 x = held m2 x + W (iblocks i) x).
      { destruct i as [c|k h a c f|h pi s c].
        - destruct F1 as [F1 F3].
          assert (Pc : pre c m1). { split; [exact M1|]. split; [rewrite D1; exact F1|]. intro x. specialize (H1 x). cn. cbn [iblocks] in H1. lia. }
          rewrite (hold_rd c m1 Pc). cbn [bind].
          destruct (IH c (Sub c (or_introl eq_refl)) m1 Pc) as (m2 & E2 & M2 & D2 & G2).
          exists m2. split; [exact E2|]. split; [exact M2|]. split; [congruence|exact G2].
        - destruct (leaf_free_ok (IText k h a c f) m1 M1) as (m2 & E2 & M2 & D2 & G2).
          { rewrite D1; exact F1. } { discriminate. } { intro x. specialize (H1 x). rewrite W_app in H1. lia. }
          exists m2. split; [exact E2|]. split; [exact M2|]. split; [congruence|exact G2].
        - destruct (leaf_free_ok (IPi h pi s c) m1 M1) as (m2 & E2 & M2 & D2 & G2).
          { rewrite D1; exact F1. } { discriminate. } { intro x. specialize (H1 x). rewrite W_app in H1. lia. }
          exists m2. split; [exact E2|]. split; [exact M2|]. split; [congruence|exact G2]. }
      destruct Y as (m2 & E2 & M2 & D2 & G2).
      destruct (IHl (fun c Hc => Sub c (or_intror Hc)) F2 m2 M2 D2) as (m3 & E3 & M3 & D3 & G3).
      { intro x. specialize (H1 x). specialize (G2 x). rewrite W_app in H1. lia. }
      exists m3. split; [|split; [exact M3|split; [exact D3|]]].
      + destruct i as [c|k h a c f|h pi s c]; cbn [free_items].
        * destruct (rd_hold (n_holder c) m1); cbn [bind] in *; try discriminate. rewrite E2. exact E3.
        * rewrite E2. exact E3.
        * rewrite E2. exact E3.
      + intro x. specialize (G2 x). specialize (G3 x). rewrite W_app. lia. }
  destruct (X (n_items n) (fun c Hc => Hc) Wi m1 M1 D1) as (m2 & E2 & M2 & D2 & G2).
  { intro x. specialize (H x). specialize (G1 x). rewrite W_blocks in H. lia. }
  rewrite E2. cbn [bind].
  destruct (free_holder_self_ok n m2 M2) as (m3 & E3 & M3 & D3 & G3).
  { rewrite D2; exact Wl. }
  { intro x. specialize (H x). specialize (G1 x). specialize (G2 x). rewrite W_blocks in H. lia. }
  exists m3. split; [exact E3|]. split; [exact M3|]. split; [congruence|].
  intro x. specialize (G1 x). specialize (G2 x). specialize (G3 x). rewrite W_blocks. lia.
Qed.
Lemma free_full_ok also n m : pre n m -> n_items n = [] ->
  exists m', node_free_full also n m = Ok m' /\ mem_ok m' /\ m_dead m' = m_dead m /\
    (forall x, held m x = held m' x + W (blocks n) x).
Proof.
  intros P E0. destruct (node_free_ok n m P) as (m' & E & R). exists m'. split; [|exact R].
  rewrite node_free_eq, E0 in E. unfold node_free_full. cbn [free_items] in E.
  destruct (rd (n_self n) m); cbn [bind] in *; try discriminate.
  destruct (free_name_attrs n m); cbn [bind] in *; try discriminate. exact E.
Qed.

(** ** taking out and replacing *)
Lemma take_out_ok k n m c : pre n m -> nth_error (n_items n) k = Some (INode c) -> take_out k n m = Ok (c, m) /\ pre c m.
Proof.
  intros P E. pose proof P as (M & Wf & H). unfold take_out. rewrite (self_rd n m P). cbn [bind]. rewrite E.
  assert (Pc : pre c m).
  { split; [exact M|]. pose proof (items_of _ _ Wf) as F. rewrite Forall_forall in F.
    specialize (F _ (nth_error_In _ _ E)). split; [apply F|]. intro x. specialize (H x). rewrite W_blocks in H.
    rewrite (split_items _ _ _ E), flat_map_app in H. cbn [flat_map iblocks] in H. rewrite !W_app in H. lia. }
  rewrite (self_rd c m Pc), (hold_rd c m Pc). cbn [bind]. auto.
Qed.
Lemma W_cut k n c x : nth_error (n_items n) k = Some (INode c) ->
  W (blocks (w_items (cut k (n_items n)) n)) x + W (blocks c) x = W (blocks n) x.
Proof.
  intro E. pose proof (W_w_items n (cut k (n_items n)) x) as Q. pose proof (f_equal (fun l => W (flat_map iblocks l) x) (split_items _ _ _ E)) as Q2.
  unfold cut in *. cbv beta in Q2. rewrite !flat_map_app in *. cbn [flat_map iblocks] in *. rewrite !W_app in *. lia.
Qed.
Lemma do_remove_keeps k dealloc n m : pre n m -> keeps2 [] (do_remove k dealloc) n m.
Proof.
  intro P. pose proof P as (M & Wf & H). unfold keeps2, do_remove.
  destruct (nth_error (n_items n) k) as [[c|k' h a c f|h pi s c]|] eqn:E; cbn [is_node];
    try (exists n, m, []; split; [reflexivity|]; split; [exact M|]; split; [reflexivity|]; split; [exact Wf|];
         split; [auto|]; split; [constructor|]; intro x; cn; lia).
  destruct (take_out_ok k n m c P E) as [E1 Pc]. rewrite E1. cbn [bind].
  assert (Rd : rd_doc (n_holder c) m = Ok tt).
  { unfold rd_doc. destruct (n_holder c) as [h|] eqn:Eh; [|reflexivity]. destruct Pc as (_ & Wc & _).
    destruct (holder_wf _ _ _ Wc Eh) as (_ & _ & A). destruct (hd_doc h) as [d|]; [|reflexivity].
    specialize (A d eq_refl). unfold alive. unfold alv in A. rewrite A. reflexivity. }
  rewrite Rd. cbn [bind]. cbv zeta.
  assert (Wc : wf (m_dead m) (w_items (cut k (n_items n)) n)).
  { apply wf_w_items; [exact Wf|]. pose proof (items_of _ _ Wf) as F. rewrite (split_items _ _ _ E) in F.
    apply Forall_app in F. destruct F as [F1 F2]. inversion F2; subst. apply Forall_app; split; assumption. }
  destruct dealloc.
  - destruct (node_free_ok c m Pc) as (m2 & E2 & M2 & D2 & G2). rewrite E2. cbn [bind].
    eexists _, _, []. split; [reflexivity|]. split; [exact M2|]. split; [exact D2|]. split; [exact Wc|].
    split; [rewrite holder_w_items; auto|]. split; [constructor|].
    intro x. specialize (G2 x). pose proof (W_cut k n c x E). cn. lia.
  - eexists _, _, [c]. split; [reflexivity|]. split; [exact M|]. split; [reflexivity|]. split; [exact Wc|].
    split; [rewrite holder_w_items; auto|]. split; [repeat constructor; apply Pc|].
    intro x. pose proof (W_cut k n c x E). cn. lia.
Qed.

Lemma do_replace_keeps k dealloc y n m : pre2 (blocks y) n m -> wf (m_dead m) y ->
  (forall h, n_holder y = Some h -> b_org (hd_blk h) <> None) -> keeps2 (blocks y) (do_replace k dealloc y) n m.
Proof.
  intros P2 Wy Ly. pose proof (pre2_pre _ _ _ P2) as P. pose proof P2 as (M & Wf & H). unfold keeps2, do_replace.
  destruct (nth_error (n_items n) k) as [[c|k' h a c f|h pi s c]|] eqn:E; cbn [is_node];
    try (exists n, m, [y]; split; [reflexivity|]; split; [exact M|]; split; [reflexivity|]; split; [exact Wf|];
         split; [auto|]; split; [repeat constructor; exact Wy|]; intro x; cn; lia).
  unfold swap.
  assert (Py : pre y m). { split; [exact M|]. split; [exact Wy|]. intro x. specialize (H x). lia. }
  rewrite (self_rd y m Py). cbn [bind]. destruct (take_out_ok k n m c P E) as [E1 Pc]. rewrite E1. cbn [bind].
  pose proof (items_of _ _ Wf) as F. rewrite (split_items _ _ _ E) in F.
  apply Forall_app in F. destruct F as [F1 F2]. pose proof (Forall_inv F2) as [F3 F4]. pose proof (Forall_inv_tail F2) as F5.
  set (l := firstn k (n_items n) ++ INode (w_holder (n_holder c) y) :: skipn (S k) (n_items n)).
  assert (Wn : wf (m_dead m) (w_items l n)).
  { apply wf_w_items; [exact Wf|]. apply Forall_app. split; [exact F1|]. constructor; [|exact F5]. split.
    - apply wf_w_holder; [exact Wy|]. intros h Eh. apply (holder_wf _ _ _ F3 Eh).
    - rewrite holder_w_holder. exact F4. }
  assert (Wc : wf (m_dead m) (w_holder None c)) by (apply wf_w_holder; [exact F3|discriminate]).
  assert (Hy : forall x, W (hold_blk (n_holder y)) x = 0).
  { intro x. destruct (n_holder y) as [h|] eqn:Eh; [|reflexivity]. cbn [hold_blk]. cn.
    specialize (Ly h eq_refl). destruct (b_org (hd_blk h)) as [d|] eqn:Eo; [|congruence]. rewrite (w_pool _ d x Eo). lia. }
  assert (GW : forall x, W (blocks (w_items l n)) x + W (blocks (w_holder None c)) x = W (blocks n) x + W (blocks y) x).
  { intro x. pose proof (W_w_items n l x) as Q. pose proof (f_equal (fun l => W (flat_map iblocks l) x) (split_items _ _ _ E)) as Q3.
    cbv beta in Q3. unfold l in Q at 2. rewrite !flat_map_app in Q, Q3. cbn [flat_map iblocks] in Q, Q3. rewrite !W_app in Q, Q3.
    pose proof (W_w_holder y (n_holder c) x) as Q1. pose proof (W_w_holder c None x) as Q2. cbn [hold_blk] in Q2.
    rewrite W_nil in Q2. rewrite Hy in Q1. lia. }
  destruct dealloc.
  - assert (Pw : pre (w_holder None c) m).
    { split; [exact M|]. split; [exact Wc|]. intro x. specialize (H x). specialize (GW x). lia. }
    destruct (node_free_ok _ m Pw) as (m2 & E2 & M2 & D2 & G2). rewrite E2. cbn [bind].
    eexists _, _, []. split; [reflexivity|]. split; [exact M2|]. split; [exact D2|]. split; [exact Wn|].
    split; [rewrite holder_w_items; auto|]. split; [constructor|].
    intro x. specialize (G2 x). specialize (GW x). cn. lia.
  - eexists _, _, [w_holder None c]. split; [reflexivity|]. split; [exact M|]. split; [reflexivity|]. split; [exact Wn|].
    split; [rewrite holder_w_items; auto|]. split; [repeat constructor; exact Wc|].
    intro x. specialize (GW x). cn. lia.
Qed.

(** ** axl_node_set_doc *)
Lemma set_doc_ok d n m : pre n m -> alv (m_dead m) d ->
  exists n' m', set_doc d n m = Ok (n', m') /\ mem_ok m' /\ m_dead m' = m_dead m /\ wf (m_dead m) n' /\
    (forall x, held m' x + W (blocks n) x = held m x + W (blocks n') x).
Proof.
  intros P A. unfold set_doc. rewrite (self_rd n m P). cbn [bind]. pose proof P as (M & Wf & H).
  destruct (n_holder n) as [h|] eqn:Eh.
  - destruct (holder_wf _ _ _ Wf Eh) as (O & Q & _).
    rewrite rd_ok; [|exact Q|intro x; specialize (H x); rewrite W_blocks, Eh in H; cbn [hold_blk] in H; cn; lia]. cbn [bind].
    eexists _, _. split; [reflexivity|]. split; [exact M|]. split; [reflexivity|]. split.
    + apply wf_w_holder; [exact Wf|]. intros h' E. inversion E; subst. split; [exact O|]. split; [exact Q|].
      cbn [hd_doc]. intros e Ee. congruence.
    + intro x. pose proof (W_w_holder n (Some (Hold (hd_blk h) (hd_fac h) (Some d))) x) as G.
      rewrite Eh in G. cbn [hold_blk hd_blk] in G. lia.
  - destruct (pool_ok d [] m M A) as (b & m' & E & M' & G & O & D). rewrite E. cbn [bind].
    eexists _, _. split; [reflexivity|]. split; [exact M'|]. split; [exact D|]. split.
    + apply wf_w_holder; [exact Wf|]. intros h' Eh'. inversion Eh'; subst. split; [apply (pool_org b d O)|].
      split; [apply (pool_pok _ b d O A)|]. cbn [hd_doc]. intros e Ee. congruence.
    + intro x. pose proof (W_w_holder n (Some (Hold b true (Some d))) x) as Q. rewrite Eh in Q. cbn [hold_blk hd_blk] in Q.
      rewrite W_cons, !W_nil, (w_pool b d x O) in Q. rewrite G. lia.
Qed.
