From Coq Require Import Permutation.
From Verif Require Import Prelude HashModel HashSpec HashExec HashProofs HashProofs2 HashStrProofs OwnModel OwnExec OwnSpec OwnProofs OwnProofs2 OwnProofs3 OwnProofs4 OwnProofs5.
Open Scope nat_scope.

(** ** axl_node_copy *)
Definition grows (m m' : mem) (l : list blk) : Prop :=
  mem_ok m' /\ m_dead m' = m_dead m /\ forall x, held m' x = held m x + W l x.

Lemma copy_attrs_ok l : forall m, mem_ok m -> Forall (wf_attr (m_dead m)) l -> (forall x, W (flat_map ablk l) x <= held m x) ->
  exists r m', copy_attrs l m = Ok (r, m') /\ grows m m' (flat_map ablk r) /\ Forall (wf_attr (m_dead m)) r /\
    map (fun a => b_str (at_name a)) r = map (fun a => b_str (at_name a)) l.
Proof.
  induction l as [|a l IH]; intros m M F H.
  - exists [], m. split; [reflexivity|]. split; [|split; [constructor|reflexivity]].
    split; [exact M|]. split; [reflexivity|]. intro x. cn. lia.
  - pose proof (Forall_inv F) as F1. pose proof (Forall_inv_tail F) as F2. destruct F1 as (_ & _ & _ & P1 & P2 & P3).
    assert (Ha : forall x, w (at_blk a) x + w (at_name a) x + w (at_value a) x + W (flat_map ablk l) x <= held m x).
    { intro x. specialize (H x). cn. lia. }
    cbn [copy_attrs].
    rewrite rd_ok; [|exact P1|intro x; specialize (Ha x); lia]. cbn [bind].
    rewrite rd_ok; [|exact P2|intro x; specialize (Ha x); lia]. cbn [bind].
    rewrite rd_ok; [|exact P3|intro x; specialize (Ha x); lia]. cbn [bind].
    destruct (malloc_ok [] m M) as (b & m1 & E1 & M1 & G1 & O1 & D1). rewrite E1.
    destruct (malloc_ok (b_str (at_name a)) m1 M1) as (s & m2 & E2 & M2 & G2 & O2 & D2). rewrite E2.
    assert (Es : b_str s = b_str (at_name a)) by (unfold malloc in E2; inversion E2; reflexivity).
    destruct (malloc_ok (b_str (at_value a)) m2 M2) as (v & m3 & E3 & M3 & G3 & O3 & D3). rewrite E3.
    assert (D : m_dead m3 = m_dead m) by congruence.
    destruct (IH m3 M3) as (r & m4 & E4 & (M4 & D4 & G4) & F4 & N4).
    { rewrite D. exact F2. } { intro x. specialize (Ha x). rewrite G3, G2, G1. lia. }
    rewrite E4. cbn [bind]. eexists _, m4. split; [reflexivity|]. split; [|split].
    + split; [exact M4|]. split; [congruence|]. intro x. rewrite G4, G3, G2, G1. cn. cbn [at_blk at_name at_value]. lia.
    + rewrite D in F4. constructor; [|exact F4]. repeat split; cbn [at_blk at_name at_value at_fac];
        auto using malloc_org, malloc_pok.
    + cbn [map at_name]. rewrite Es, N4. reflexivity.
Qed.

Lemma rd_pairs_ok l m : (forall x, W (flat_map pblk l) x <= held m x) -> Forall (wf_entry (m_dead m)) (map bent l) ->
  rd_pairs l m = Ok tt.
Proof.
  induction l as [|a l IH]; intros H F; [reflexivity|]. cbn [rd_pairs]. cbn [map] in F.
  pose proof (Forall_inv F) as (F1 & F2 & F3 & F4). pose proof (Forall_inv_tail F) as F5. cbn [e_key e_data ent] in *.
  assert (Ha : forall x, w (hkey a) x + w (hdata a) x + W (flat_map pblk l) x <= held m x).
  { intro x. specialize (H x). cn. lia. }
  rewrite rd_ok; [|exact F3|intro x; specialize (Ha x); lia]. cbn [bind].
  rewrite rd_ok; [|exact F4|intro x; specialize (Ha x); lia]. cbn [bind].
  apply IH; [|exact F5]. intro x. specialize (Ha x). lia.
Qed.

Definition kcp (base : nat) (l : list anode) (k : blk) : blk := Blk (base + 2 * pos l k) None (b_str k).
Definition vcp (base : nat) (l : list anode) (k d : blk) : blk := Blk (S (base + 2 * pos l k)) None (b_str d).
Lemma pos_at l1 a l2 : uniq blk blk unit bkeq (l1 ++ a :: l2) -> pos (l1 ++ a :: l2) (hkey a) = length l1.
Proof.
  induction l1 as [|y l1 IH]; cbn [app length pos]; intro U.
  - assert (bkeq (hkey a) (hkey a) = true) as -> by (apply bkeq_spec; reflexivity). reflexivity.
  - inversion U as [|? ? F U']; subst. rewrite Forall_forall in F.
    rewrite (F a) by (apply in_or_app; right; left; reflexivity). rewrite (IH U'). reflexivity.
Qed.
Lemma cnt_cons a l x : cnt (a :: l) x = (if a =? x then 1 else 0) + cnt l x.
Proof. unfold cnt. cbn [count_occ]. destruct (Nat.eq_dec a x) as [->|E]; [rewrite Nat.eqb_refl; reflexivity|]. apply Nat.eqb_neq in E. rewrite E. reflexivity. Qed.
Lemma copied_blocks base L x : uniq blk blk unit bkeq L -> forall l2 l1, L = l1 ++ l2 ->
  W (flat_map (fun a : anode => [kcp base L (hkey a); vcp base L (hkey a) (hdata a)]) l2) x =
  cnt (seq (base + 2 * length l1) (2 * length l2)) x.
Proof.
  intros U. induction l2 as [|a l2 IH]; intros l1 E; [reflexivity|]. cn. cbn [app].
  rewrite (IH (l1 ++ [a])) by (rewrite <- app_assoc; exact E).
  rewrite E in U. pose proof (pos_at _ _ _ U) as P. rewrite <- E in P.
  unfold kcp, vcp, w. cbn [b_org b_id]. rewrite P.
  replace (2 * length (a :: l2)) with (S (S (2 * length l2))) by (cbn [length]; lia).
  cbn [seq]. rewrite !cnt_cons, app_length. cbn [length].
  replace (base + 2 * (length l1 + 1)) with (S (S (base + 2 * length l1))) by lia. lia.
Qed.
Lemma seq_cnt base n x : cnt (seq base n) x = if (base <=? x) && (x <? base + n) then 1 else 0.
Proof.
  revert base. induction n as [|n IH]; intro base; cbn [seq].
  - change (cnt [] x) with 0. destruct (Nat.leb_spec base x); destruct (Nat.ltb_spec x (base + 0)); cbn [andb]; lia.
  - rewrite cnt_cons, IH. destruct (Nat.eqb_spec base x); destruct (Nat.leb_spec (S base) x); destruct (Nat.leb_spec base x);
      destruct (Nat.ltb_spec x (S base + n)); destruct (Nat.ltb_spec x (base + S n)); cbn [andb]; lia.
Qed.

Lemma ah_copy_ok h m : mem_ok m -> wf_hash (m_dead m) h -> (forall x, W (hblocks h) x <= held m x) ->
  exists b r m', ah_copy h m = Ok (b, r, m') /\ grows m m' (b :: hblocks r) /\ b_org b = None /\
    wf_hash (m_dead m) r /\ length (ah_pairs r) = length (ah_pairs h).
Proof.
  intros M ([mm R] & T & F) H. unfold ah_copy. cbv zeta.
  rewrite rd_pairs_ok; [|exact H|exact F]. cbn [bind].
  destruct (malloc_ok [] m M) as (b & m1 & E1 & M1 & G1 & O1 & D1). rewrite E1.
  set (L := ah_pairs h) in *. apply hrep_self in R. fold L in R.
  set (kc := fun (k : blk) (_ : option unit) (_ : blk) (_ : option unit) => kcp (m_next m1) L k).
  set (vc := fun (k : blk) (_ : option unit) (d : blk) (_ : option unit) => vcp (m_next m1) L k d).
  destruct (copy_spec blk blk unit bhash bkeq bkey_ok kc vc (fun k _ _ _ => proj2 (bkeq_spec _ k) eq_refl) h _ (Some (Some tt, Some tt)) R)
    as (r & E & Rr & Tr).
  change (hash_copy blk blk unit bhash bkeq (copy_key (m_next m1) L) (copy_value (m_next m1) L) h (Some (Some tt, Some tt)) = Ok r) in E.
  rewrite E. cbn [bind]. eexists b, r, _. split; [reflexivity|].
  assert (U : uniq blk blk unit bkeq L) by (apply (hr_uniq _ _ _ _ _ _ _ R)).
  pose proof (hr_perm _ _ _ _ _ _ _ Rr) as P. fold (ah_pairs r) in P.
  assert (WB : forall x, W (hblocks r) x = cnt (seq (m_next m1) (2 * length L)) x).
  { intro x. unfold hblocks. rewrite pblk_ent.
    rewrite (W_perm _ _ x (Permutation_flat_map eblk P)).
    pose proof (copied_blocks (m_next m1) L x U L [] eq_refl) as Q. cbn [length] in Q. rewrite Nat.mul_0_r, Nat.add_0_r in Q.
    rewrite <- Q. f_equal. rewrite map_map.
    assert (Z : forall l, flat_map eblk (map (fun y => set_handlers (Some (Some tt, Some tt)) (cpe kc vc (bent y))) l) =
       flat_map (fun a => [kcp (m_next m1) L (hkey a); vcp (m_next m1) L (hkey a) (hdata a)]) l).
    { induction l as [|a l IH]; [reflexivity|]. cbn [map flat_map]. rewrite IH. reflexivity. }
    apply Z. }
  split; [|split; [exact O1|split]].
  - split; [|split; [cbn [m_dead]; exact D1|]].
    + destruct M1 as [X1 X2]. split; unfold held; cbn [m_live m_next].
      * intro x. rewrite cnt_app, seq_cnt. specialize (X1 x). specialize (X2 x). unfold held in *.
        destruct (Nat.leb_spec (m_next m1) x); cbn [andb]; [|lia]. destruct (x <? _); lia.
      * intros x Hx. rewrite cnt_app, seq_cnt. specialize (X2 x). unfold held in X2.
        destruct (Nat.leb_spec (m_next m1) x); cbn [andb]; [|lia]. destruct (Nat.ltb_spec x (m_next m1 + 2 * length L)); lia.
    + intro x. unfold held at 1. cbn [m_live]. rewrite cnt_app. fold (held m1 x). rewrite G1. cn. rewrite WB. lia.
  - split; [eexists; exact Rr|]. split; [exact Tr|]. rewrite Forall_forall. intros e He.
    apply (Permutation_in _ P) in He. apply in_map_iff in He. destruct He as (e0 & <- & _).
    repeat split.
  - apply Permutation_length in P. rewrite !map_length in P. exact P.
Qed.

Lemma copy_store_ok n m : pre n m -> exists a k m', copy_store n m = Ok (a, k, m') /\
  grows m m' (store_blocks a) /\ wf_store (m_dead m) a k.
Proof.
  intros (M & Wf & H). unfold copy_store. pose proof (wf_store_of _ _ Wf) as Ws.
  assert (Hs : forall x, W (store_blocks (n_attrs n)) x <= held m x).
  { intro x. specialize (H x). rewrite W_blocks in H. lia. }
  destruct (n_attrs n) as [l|b h].
  - destruct Ws as (F & N & K & K2). destruct l as [|a0 l0]; cbn [is_null].
    + eexists _, _, _. split; [reflexivity|]. split.
      * split; [exact M|]. split; [reflexivity|]. intro x. cbn [store_blocks]. cn. lia.
      * cbn [wf_store length map]. repeat split; auto; try constructor. lia.
    + set (l := a0 :: l0) in *. replace (11 <=? n_num n) with false by (symmetry; apply Nat.leb_gt; lia).
      destruct (copy_attrs_ok l m M F Hs) as (r & m' & E & G & F' & N'). rewrite E. cbn [bind].
      eexists _, _, _. split; [reflexivity|]. split; [exact G|]. cbn [wf_store]. split; [exact F'|].
      split; [rewrite N'; exact N|]. split; [|exact K2].
      pose proof (f_equal (@length _) N') as Q. rewrite !map_length in Q. lia.
  - destruct Ws as (B & R & K & K2). cbn [is_null].
    replace (11 <=? n_num n) with true by (symmetry; apply Nat.leb_le; lia).
    assert (HB : forall x, w b x + W (hblocks h) x <= held m x).
    { intro x. specialize (Hs x). cbn [store_blocks] in Hs. unfold hblocks, pblk. cn. lia. }
    rewrite rd_ok; [|apply malloc_pok; exact B|intro x; specialize (HB x); lia]. cbn [bind].
    destruct (ah_copy_ok h m M R) as (b' & r & m' & E & G & O & Wr & Len).
    { intro x. specialize (HB x). lia. }
    rewrite E. cbn [bind]. eexists _, _, _. split; [reflexivity|]. split.
    + exact G.
    + cbn [wf_store]. split; [exact O|]. split; [exact Wr|]. split; lia.
Qed.

Lemma copy_head_ok n m : pre n m -> exists r m', copy_head n m = Ok (r, m') /\
  grows m m' (blocks r) /\ wf (m_dead m) r /\ n_holder r = None /\ n_items r = [].
Proof.
  intro P. unfold copy_head. rewrite (self_rd n m P). cbn [bind].
  assert (X : match n_name n with Some b => rd b m | None => Ok tt end = Ok tt).
  { destruct P as (M & Wf & H). apply wf_eq in Wf. destruct Wf as [(_ & _ & (Nm & _) & _) _].
    destruct (n_name n) as [b|] eqn:E; [|reflexivity]. apply rd_ok; [apply (Nm b eq_refl)|].
    intro x. specialize (H x). rewrite W_blocks, E in H. cbn [opt_blk] in H. cn. lia. }
  rewrite X. cbn [bind]. pose proof P as (M & Wf & H).
  destruct (malloc_ok [] m M) as (b & m1 & E1 & M1 & G1 & O1 & D1). rewrite E1.
  assert (Y : exists o m2, match n_name n with Some s => let '(y, m) := malloc (b_str s) m1 in (Some y, m) | None => (None, m1) end = (o, m2) /\
      mem_ok m2 /\ m_dead m2 = m_dead m /\ (forall x, held m2 x = held m1 x + W (opt_blk o) x) /\ forall y, o = Some y -> b_org y = None).
  { destruct (n_name n) as [s|].
    - destruct (malloc_ok (b_str s) m1 M1) as (y & m2 & E2 & M2 & G2 & O2 & D2). rewrite E2.
      exists (Some y), m2. split; [reflexivity|]. split; [exact M2|]. split; [congruence|]. split.
      + intro x. rewrite G2. cbn [opt_blk]. cn. lia.
      + intros z Ez. congruence.
    - exists None, m1. split; [reflexivity|]. split; [exact M1|]. split; [congruence|]. split.
      + intro x. cbn [opt_blk]. cn. lia.
      + discriminate. }
  destruct Y as (o & m2 & E2 & M2 & D2 & G2 & O2). rewrite E2.
  destruct (copy_store_ok n m2) as (a & k & m3 & E3 & (M3 & D3 & G3) & Ws).
  { split; [exact M2|]. split; [rewrite D2; exact Wf|]. intro x. rewrite G2, G1. specialize (H x). lia. }
  rewrite E3. cbn [bind]. eexists _, _. split; [reflexivity|]. split; [|split; [|split; reflexivity]].
  - split; [exact M3|]. split; [congruence|]. intro x. rewrite G3, G2, G1. rewrite W_blocks.
    cbn [n_self n_name n_attrs n_holder n_items hold_blk flat_map]. rewrite ?W_nil. lia.
  - apply wf_eq. split; [|constructor]. split; [apply malloc_org; exact O1|]. split; [apply malloc_pok; exact O1|].
    cbn [n_name n_name_fac n_attrs n_num n_holder]. split; [|split; [rewrite <- D2; exact Ws|discriminate]].
    split; [|reflexivity]. intros y Ey. split; [apply malloc_org; auto|apply malloc_pok; auto].
Qed.

Lemma leaf_copy_ok i m : mem_ok m -> iwf (m_dead m) i -> (forall c, i <> INode c) -> (forall x, W (iblocks i) x <= held m x) ->
  exists i' m', leaf_copy i m = Ok (i', m') /\ grows m m' (iblocks i') /\ iwf (m_dead m) i'.
Proof.
  intros M Wi Ni H. destruct i as [c|k h a c f|h pi s c]; [destruct (Ni c eq_refl)| |]; cbn [iblocks leaf_copy] in *.
  - destruct Wi as ((O & P & _) & Fa & Fc & Pa & Pc).
    assert (Ha : forall x, w (hd_blk h) x + w a x + w c x <= held m x). { intro x. specialize (H x). cn. lia. }
    rewrite rd_ok; [|exact P|intro x; specialize (Ha x); lia]. cbn [bind].
    rewrite rd_ok; [|exact Pa|intro x; specialize (Ha x); lia]. cbn [bind].
    rewrite rd_ok; [|exact Pc|intro x; specialize (Ha x); lia]. cbn [bind].
    destruct (malloc_ok [] m M) as (b & m1 & E1 & M1 & G1 & O1 & D1). rewrite E1.
    destruct (malloc_ok [] m1 M1) as (y & m2 & E2 & M2 & G2 & O2 & D2). rewrite E2.
    destruct (malloc_ok (b_str c) m2 M2) as (z & m3 & E3 & M3 & G3 & O3 & D3). rewrite E3.
    eexists _, _. split; [reflexivity|]. split.
    + split; [exact M3|]. split; [congruence|]. intro x. rewrite G3, G2, G1. cbn [iblocks hd_blk]. cn. lia.
    + cbn [iwf]. split; [|auto using malloc_org, malloc_pok]. split; [apply malloc_org; exact O1|]. split; [apply malloc_pok; exact O1|discriminate].
  - destruct Wi as ((O & P & _) & Fp & Fs & Fc).
    assert (Hc : forall x, w (hd_blk h) x + w pi x + w s x + W (opt_blk c) x <= held m x).
    { intro x. specialize (H x). rewrite !W_cons in H. lia. }
    rewrite rd_ok; [|exact P|intro x; specialize (Hc x); lia]. cbn [bind].
    rewrite rd_ok; [|apply malloc_pok; exact Fp|intro x; specialize (Hc x); lia]. cbn [bind].
    rewrite rd_ok; [|apply malloc_pok; exact Fs|intro x; specialize (Hc x); lia]. cbn [bind].
    destruct (malloc_ok [] m M) as (b & m1 & E1 & M1 & G1 & O1 & D1). rewrite E1.
    destruct (malloc_ok [] m1 M1) as (y & m2 & E2 & M2 & G2 & O2 & D2). rewrite E2.
    destruct (malloc_ok (b_str s) m2 M2) as (z & m3 & E3 & M3 & G3 & O3 & D3). rewrite E3.
    assert (Y : exists o m4, match c with Some t => _ <- rd t m3 ;; let '(z, m) := malloc (b_str t) m3 in Ok (Some z, m) | None => Ok (None, m3) end = Ok (o, m4) /\
       mem_ok m4 /\ m_dead m4 = m_dead m /\ (forall x, held m4 x = held m3 x + W (opt_blk o) x) /\ forall y, o = Some y -> b_org y = None).
    { destruct c as [t|].
      - rewrite rd_ok; [|apply malloc_pok; apply (Fc t eq_refl)|intro x; specialize (Hc x); rewrite G3, G2, G1; cbn [opt_blk] in Hc; cn; lia].
        cbn [bind]. destruct (malloc_ok (b_str t) m3 M3) as (u & m4 & E4 & M4 & G4 & O4 & D4). rewrite E4.
        exists (Some u), m4. split; [reflexivity|]. split; [exact M4|]. split; [congruence|]. split.
        + intro x. rewrite G4. cbn [opt_blk]. cn. lia.
        + intros u' Eu. congruence.
      - exists None, m3. split; [reflexivity|]. split; [exact M3|]. split; [congruence|]. split.
        + intro x. cbn [opt_blk]. cn. lia.
        + discriminate. }
    destruct Y as (o & m4 & E4 & M4 & D4 & G4 & O4). rewrite E4. cbn [bind].
    eexists _, _. split; [reflexivity|]. split.
    + split; [exact M4|]. split; [congruence|]. intro x. rewrite G4, G3, G2, G1. cbn [iblocks hd_blk]. rewrite !W_cons. lia.
    + cbn [iwf]. split; [|auto]. split; [apply malloc_org; exact O1|]. split; [apply malloc_pok; exact O1|discriminate].
Qed.

Fixpoint copy_items (l : list item) (m : mem) : res (list item * mem) :=
  match l with
  | [] => Ok ([], m)
  | INode c :: t =>
    _ <- rd_hold (n_holder c) m ;;
    let '(b, m) := malloc [] m in
    '(c, m) <- node_copy c m ;;
    '(t, m) <- copy_items t m ;;
    Ok (INode (w_holder (Some (Hold b false None)) c) :: t, m)
  | i :: t => '(i, m) <- leaf_copy i m ;; '(t, m) <- copy_items t m ;; Ok (i :: t, m)
  end.
Lemma node_copy_eq n m : node_copy n m =
  ('(r, m) <- copy_head n m ;; '(l, m) <- copy_items (n_items n) m ;; Ok (w_items l r, m)).
Proof. destruct n. reflexivity. Qed.

Lemma node_copy_ok n : forall m, pre n m -> exists r m', node_copy n m = Ok (r, m') /\
  grows m m' (blocks r) /\ wf (m_dead m) r /\ n_holder r = None.
Proof.
  induction n as [n IH] using node_rect'. intros m P. rewrite node_copy_eq.
  destruct (copy_head_ok n m P) as (r & m1 & E1 & (M1 & D1 & G1) & Wr & Hr & Ir). rewrite E1. cbn [bind].
  destruct P as (M & Wf & H). pose proof (items_of _ _ Wf) as Wi.
  assert (X : forall l, (forall c, In (INode c) l -> In (INode c) (n_items n)) -> Forall (iwf (m_dead m)) l ->
     forall m1, mem_ok m1 -> m_dead m1 = m_dead m -> (forall x, W (flat_map iblocks l) x <= held m1 x) ->
     exists l' m2, copy_items l m1 = Ok (l', m2) /\ grows m1 m2 (flat_map iblocks l') /\ Forall (iwf (m_dead m)) l').
  { clear E1 M1 D1 G1 m1 H. induction l as [|i l IHl]; intros Sub F m1 M1 D1 H1.
    - exists [], m1. split; [reflexivity|]. split; [|constructor]. split; [exact M1|]. split; [reflexivity|]. intro x. cn. lia.
    - pose proof (Forall_inv F) as F1. pose proof (Forall_inv_tail F) as F2. cbn [flat_map] in H1.
      assert (H2 : forall x, W (iblocks i) x + W (flat_map iblocks l) x <= held m1 x).
      { intro x. specialize (H1 x). rewrite W_app in H1. exact H1. }
      assert (Y : exists i' m2, (match i with INode c => _ <- rd_hold (n_holder c) m1 ;; let '(b, m) := malloc [] m1 in
              '(c, m) <- node_copy c m ;; Ok (INode (w_holder (Some (Hold b false None)) c), m) | _ => leaf_copy i m1 end) = Ok (i', m2) /\
          grows m1 m2 (iblocks i') /\ iwf (m_dead m) i').
      { rewrite <- D1 in F1. destruct i as [c|k h a c f|h pi s c].
        - destruct F1 as [F1 F3]. cbn [iblocks] in H2.
          assert (Pc : pre c m1). { split; [exact M1|]. split; [exact F1|]. intro x. specialize (H2 x). lia. }
          rewrite (hold_rd c m1 Pc). cbn [bind].
          destruct (malloc_ok [] m1 M1) as (b & m2 & E2 & M2 & G2 & O2 & D2). rewrite E2.
          destruct (IH c (Sub c (or_introl eq_refl)) m2) as (c' & m3 & E3 & (M3 & D3 & G3) & Wc & Hc).
          { split; [exact M2|]. split; [rewrite D2; exact F1|]. intro x. specialize (H2 x). rewrite G2. lia. }
          rewrite E3. cbn [bind]. eexists _, _. split; [reflexivity|]. split.
          + split; [exact M3|]. split; [congruence|]. intro x. cbn [iblocks]. rewrite G3, G2.
            pose proof (W_w_holder c' (Some (Hold b false None)) x) as Q. rewrite Hc in Q. cbn [hold_blk hd_blk] in Q. cn. lia.
          + cbn [iwf]. split.
            * apply wf_w_holder; [rewrite <- D1, <- D2; exact Wc|]. intros h Eh. inversion Eh; subst h.
              split; [apply malloc_org; exact O2|]. split; [apply malloc_pok; exact O2|discriminate].
            * rewrite holder_w_holder. discriminate.
        - rewrite <- D1. apply leaf_copy_ok; [exact M1|exact F1|discriminate|]. intro x. specialize (H2 x). lia.
        - rewrite <- D1. apply leaf_copy_ok; [exact M1|exact F1|discriminate|]. intro x. specialize (H2 x). lia. }
      destruct Y as (i' & m2 & E2 & (M2 & D2 & G2) & Wi').
      destruct (IHl (fun c Hc => Sub c (or_intror Hc)) F2 m2 M2 ltac:(congruence)) as (l' & m3 & E3 & (M3 & D3 & G3) & Wl').
      { intro x. specialize (H2 x). rewrite G2. lia. }
      exists (i' :: l'), m3. split; [|split; [|constructor; assumption]].
      + destruct i as [c|k h a c f|h pi s c]; cbn [copy_items].
        * destruct (rd_hold (n_holder c) m1); cbn [bind] in *; try discriminate. destruct (malloc [] m1) as [b m0].
          destruct (node_copy c m0) as [[c' m0']| |]; cbn [bind] in *; try discriminate. inversion E2; subst. rewrite E3. reflexivity.
        * rewrite E2. cbn [bind]. rewrite E3. reflexivity.
        * rewrite E2. cbn [bind]. rewrite E3. reflexivity.
      + split; [exact M3|]. split; [congruence|]. intro x. rewrite G3, G2. cbn [flat_map]. rewrite W_app. lia. }
  destruct (X (n_items n) (fun c Hc => Hc) Wi m1 M1 D1) as (l & m2 & E2 & (M2 & D2 & G2) & Wl).
  { intro x. specialize (H x). rewrite G1. rewrite W_blocks in H. lia. }
  rewrite E2. cbn [bind]. eexists _, _. split; [reflexivity|]. split; [|split].
  - split; [exact M2|]. split; [congruence|]. intro x. rewrite G2, G1.
    pose proof (W_w_items r l x) as Q. rewrite Ir in Q. cbn [flat_map] in Q. rewrite W_nil in Q. lia.
  - apply wf_w_items; assumption.
  - rewrite holder_w_items. exact Hr.
Qed.

Lemma do_copy_keeps n m : pre n m -> keeps2 [] do_copy n m.
Proof.
  intro P. unfold keeps2, do_copy. destruct (node_copy_ok n m P) as (r & m' & E & (M & D & G) & Wr & _). rewrite E. cbn [bind].
  exists n, m', [r]. split; [reflexivity|]. split; [exact M|]. split; [exact D|]. split; [apply P|]. split; [auto|].
  split; [repeat constructor; exact Wr|]. intro x. rewrite G. cn. lia.
Qed.
