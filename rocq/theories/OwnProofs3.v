From Coq Require Import Permutation.
From Verif Require Import Prelude HashModel HashSpec HashExec HashProofs HashProofs2 HashStrProofs OwnModel OwnExec OwnSpec OwnProofs OwnProofs2.
Open Scope nat_scope.

Lemma W_blocks n x : W (blocks n) x =
  w (n_self n) x + W (opt_blk (n_name n)) x + W (store_blocks (n_attrs n)) x + W (hold_blk (n_holder n)) x +
  W (flat_map iblocks (n_items n)) x.
Proof. rewrite blocks_eq. cn. lia. Qed.

Definition pre (n : node) (m : mem) : Prop :=
  mem_ok m /\ wf (m_dead m) n /\ (forall x, W (blocks n) x <= held m x).

Lemma self_rd n m : pre n m -> rd (n_self n) m = Ok tt.
Proof.
  intros (M & Wf & H). apply wf_eq in Wf. destruct Wf as [(A & B & _) _]. apply rd_ok; [exact B|].
  intro x. specialize (H x). rewrite W_blocks in H. lia.
Qed.
Lemma hold_rd n m : pre n m -> rd_hold (n_holder n) m = Ok tt.
Proof.
  intros (M & Wf & H). apply wf_eq in Wf. destruct Wf as [(_ & _ & _ & _ & B) _].
  unfold rd_hold. destruct (n_holder n) as [h|] eqn:E; [|reflexivity]. destruct (B h eq_refl) as (_ & P & _).
  apply rd_ok; [exact P|]. intro x. specialize (H x). rewrite W_blocks, E in H. cbn [hold_blk] in H. cn. lia.
Qed.

(** ** names *)
Lemma name_free n m : pre n m ->
  exists m', (if n_name_fac n then Ok m else free_opt (n_name n) m) = Ok m' /\ mem_ok m' /\ m_dead m' = m_dead m /\
    (forall x, held m x = held m' x + W (opt_blk (n_name n)) x).
Proof.
  intros (M & Wf & H). apply wf_eq in Wf. destruct Wf as [(_ & _ & (Nm & _) & _) _].
  destruct (n_name_fac n) eqn:Ef.
  - exists m. repeat split; auto; try apply M. intro x. destruct (n_name n) as [b|] eqn:E; cbn [opt_blk]; cn; [|lia].
    destruct (Nm b eq_refl) as [O _]. unfold org in O. destruct (b_org b) as [d|] eqn:Eo; [|discriminate].
    rewrite (w_pool b d x Eo). lia.
  - destruct (free_opt_ok (n_name n) m M) as (m' & E & M' & G & D).
    + intros b Eb. destruct (Nm b Eb) as [O _]. unfold org in O. destruct (b_org b); [discriminate|reflexivity].
    + intro x. specialize (H x). rewrite W_blocks in H. lia.
    + exists m'. auto.
Qed.
Lemma wf_w_name D n b f : wf D n -> org f b -> pok D b -> wf D (w_name (Some b) f n).
Proof.
  rewrite !wf_eq. intros [(A & B & Nm & C & E) F] O P. destruct n as [sb sf nm nf a k l h].
  cbn [w_name n_items n_fac n_self n_name n_name_fac n_attrs n_num n_holder] in *.
  split; [|exact F]. split; [exact A|]. split; [exact B|]. split; [|split; assumption].
  split; [|discriminate]. intros b' E'. inversion E'; subst b'. auto.
Qed.
Lemma W_w_name n b f x :
  W (blocks (w_name (Some b) f n)) x + W (opt_blk (n_name n)) x = W (blocks n) x + w b x.
Proof.
  rewrite !W_blocks. destruct n as [sb sf nm nf a k l h].
  cbn [w_name n_items n_fac n_self n_name n_name_fac n_attrs n_num n_holder opt_blk] in *. cn. lia.
Qed.
Lemma holder_w_name o f n : n_holder (w_name o f n) = n_holder n. Proof. destruct n; reflexivity. Qed.

Lemma set_name_keeps s n m : pre n m -> keeps (set_name s) n m.
Proof.
  intro P. unfold keeps, set_name. rewrite (self_rd n m P). cbn [bind].
  destruct (name_free n m P) as (m1 & E1 & M1 & D1 & G1). rewrite E1. cbn [bind].
  destruct (malloc_ok s m1 M1) as (b & m2 & E2 & M2 & G2 & O2 & D2). rewrite E2. rewrite D1 in D2.
  exists (w_name (Some b) false n), m2. split; [reflexivity|]. split; [exact M2|]. split; [exact D2|].
  split; [|split].
  - apply wf_w_name; [apply P|apply malloc_org; exact O2|apply malloc_pok; exact O2].
  - rewrite holder_w_name. auto.
  - intro x. specialize (G1 x). specialize (G2 x). pose proof (W_w_name n b false x). lia.
Qed.
Lemma set_name_ref_keeps s n m : pre n m -> (forall b, n_name n = Some b -> b_org b = None) ->
  keeps (set_name_ref s) n m.
Proof.
  intros P L. unfold keeps, set_name_ref.
  destruct (malloc_ok s m (proj1 P)) as (b & m1 & E1 & M1 & G1 & O1 & D1). rewrite E1.
  assert (P1 : pre n m1).
  { destruct P as (M & Wf & H). split; [exact M1|]. split; [rewrite D1; exact Wf|].
    intro x. specialize (H x). rewrite G1. lia. }
  rewrite (self_rd n m1 P1). cbn [bind].
  destruct (name_free n m1 P1) as (m2 & E2 & M2 & D2 & G2). rewrite E2. cbn [bind]. rewrite D1 in D2.
  assert (Ef : n_name_fac n = false).
  { destruct P as (M & Wf & H). apply wf_eq in Wf. destruct Wf as [(_ & _ & (Nm & Nn) & _) _].
    destruct (n_name n) as [c|] eqn:Ec; [|auto]. destruct (Nm c eq_refl) as [O _]. unfold org in O.
    rewrite (L c eq_refl) in O. exact O. }
  rewrite Ef. exists (w_name (Some b) false n), m2. split; [reflexivity|]. split; [exact M2|]. split; [exact D2|].
  split; [|split].
  - apply wf_w_name; [apply P|apply malloc_org; exact O1|apply malloc_pok; exact O1].
  - rewrite holder_w_name. auto.
  - intro x. specialize (G1 x). specialize (G2 x). pose proof (W_w_name n b false x). lia.
Qed.

(** ** attributes *)
Lemma wf_w_attrs D n a k : wf D n -> wf_store D a k -> wf D (w_attrs a k n).
Proof.
  rewrite !wf_eq. intros [(A & B & Nm & C & E) F] Ws. destruct n as [sb sf nm nf a0 k0 l h].
  cbn [w_attrs n_items n_fac n_self n_name n_name_fac n_attrs n_num n_holder] in *.
  split; [|exact F]. split; [exact A|]. split; [exact B|]. split; [exact Nm|]. split; [exact Ws|exact E].
Qed.
Lemma W_w_attrs n a k x :
  W (blocks (w_attrs a k n)) x + W (store_blocks (n_attrs n)) x = W (blocks n) x + W (store_blocks a) x.
Proof.
  rewrite !W_blocks. destruct n as [sb sf nm nf a0 k0 l h].
  cbn [w_attrs n_items n_fac n_self n_name n_name_fac n_attrs n_num n_holder] in *. lia.
Qed.
Lemma holder_w_attrs a k n : n_holder (w_attrs a k n) = n_holder n. Proof. destruct n; reflexivity. Qed.
Lemma self_w_attrs a k n : n_self (w_attrs a k n) = n_self n. Proof. destruct n; reflexivity. Qed.
Lemma wf_store_of D n : wf D n -> wf_store D (n_attrs n) (n_num n).
Proof. rewrite wf_eq. intros [(_ & _ & _ & C & _) _]. exact C. Qed.

(** the part common to set_attribute and set_attribute_ref: two blocks of the caller *)
Lemma set_two n m a b : mem_ok m -> wf (m_dead m) n -> b_org a = None -> b_org b = None ->
  (forall x, W (blocks n) x + w a x + w b x <= held m x) ->
  exists n' m', ('(n1, m1, done) <- set_attribute_core None a b n m ;;
     if (done : bool) then Ok (n1, m1) else (m2 <- free a m1 ;; m3 <- free b m2 ;; Ok (n1, m3))) = Ok (n', m') /\
    mem_ok m' /\ m_dead m' = m_dead m /\ wf (m_dead m) n' /\
    (exists s k, n' = w_attrs s k n) /\
    (forall x, held m' x + W (blocks n) x + w a x + w b x = held m x + W (blocks n') x).
Proof.
  intros M Wf Oa Ob H.
  destruct (core_ok None a b n m M (wf_store_of _ _ Wf)) as (n' & m' & done & E & C).
  { discriminate. } { unfold org; rewrite Oa; reflexivity. } { unfold org; rewrite Ob; reflexivity. }
  { apply malloc_pok; exact Oa. } { apply malloc_pok; exact Ob. }
  { intro x. specialize (H x). rewrite W_blocks in H. lia. }
  rewrite E. cbn [bind]. destruct done.
  - destruct C as (M' & D & s & k & -> & Ws & G). eexists _, _. split; [reflexivity|].
    split; [exact M'|]. split; [exact D|]. split; [apply wf_w_attrs; assumption|]. split; [eauto|].
    intro x. specialize (G x). pose proof (W_w_attrs n s k x). lia.
  - destruct C as [-> ->].
    destruct (free_ok a m M Oa) as (m1 & E1 & M1 & G1 & D1). { intro x. specialize (H x). lia. }
    rewrite E1. cbn [bind].
    destruct (free_ok b m1 M1 Ob) as (m2 & E2 & M2 & G2 & D2). { intro x. specialize (H x). specialize (G1 x). lia. }
    rewrite E2. cbn [bind]. eexists _, _. split; [reflexivity|]. split; [exact M2|]. split; [congruence|].
    split; [exact Wf|]. split.
    + exists (n_attrs n), (n_num n). destruct n; reflexivity.
    + intro x. specialize (G1 x). specialize (G2 x). lia.
Qed.

Lemma set_attribute_strong esc s v n m : pre n m ->
  exists n' m', set_attribute esc s v n m = Ok (n', m') /\ mem_ok m' /\ m_dead m' = m_dead m /\ wf (m_dead m) n' /\
    (exists a k, n' = w_attrs a k n) /\
    (forall x, held m' x + W (blocks n) x = held m x + W (blocks n') x).
Proof.
  intro P. unfold set_attribute. destruct s as [|c0 s0].
  { exists n, m. split; [reflexivity|]. split; [apply P|]. split; [reflexivity|]. split; [apply P|].
    split; [exists (n_attrs n), (n_num n); destruct n; reflexivity|]. lia. }
  set (s := c0 :: s0). rewrite (self_rd n m P). cbn [bind]. destruct P as (M & Wf & H).
  destruct (malloc_ok (esc s) m M) as (a & m1 & E1 & M1 & G1 & O1 & D1). rewrite E1.
  destruct (malloc_ok (esc v) m1 M1) as (b & m2 & E2 & M2 & G2 & O2 & D2). rewrite E2. rewrite D1 in D2.
  destruct (set_two n m2 a b M2) as (n' & m' & E & M' & D' & Wf' & S' & G'); auto.
  { rewrite D2; exact Wf. }
  { intro x. specialize (H x). specialize (G1 x). specialize (G2 x). lia. }
  rewrite E. rewrite D2 in *. exists n', m'. split; [reflexivity|].
  split; [exact M'|]. split; [exact D'|]. split; [exact Wf'|]. split; [exact S'|].
  intro x. specialize (G1 x). specialize (G2 x). specialize (G' x). lia.
Qed.
Lemma strong_keeps f n m :
  (exists n' m', f n m = Ok (n', m') /\ mem_ok m' /\ m_dead m' = m_dead m /\ wf (m_dead m) n' /\
    (exists a k, n' = w_attrs a k n) /\
    (forall x, held m' x + W (blocks n) x = held m x + W (blocks n') x)) -> keeps f n m.
Proof.
  intros (n' & m' & E & M' & D & Wf & (a & k & ->) & G). exists (w_attrs a k n), m'.
  rewrite holder_w_attrs. auto 10.
Qed.
Lemma set_attribute_keeps esc s v n m : pre n m -> keeps (set_attribute esc s v) n m.
Proof. intro P. apply strong_keeps, set_attribute_strong, P. Qed.
Lemma set_attribute_ref_keeps s v n m : pre n m -> keeps (set_attribute_ref s v) n m.
Proof.
  intro P. apply strong_keeps. unfold set_attribute_ref.
  destruct P as (M & Wf & H).
  destruct (malloc_ok s m M) as (a & m1 & E1 & M1 & G1 & O1 & D1). rewrite E1.
  destruct (malloc_ok v m1 M1) as (b & m2 & E2 & M2 & G2 & O2 & D2). rewrite E2. rewrite D1 in D2.
  assert (P2 : pre n m2).
  { split; [exact M2|]. split; [rewrite D2; exact Wf|]. intro x. specialize (H x). specialize (G1 x). specialize (G2 x). lia. }
  rewrite (self_rd n m2 P2). cbn [bind].
  destruct (set_two n m2 a b M2) as (n' & m' & E & M' & D' & Wf' & S' & G'); auto.
  { rewrite D2; exact Wf. }
  { intro x. specialize (H x). specialize (G1 x). specialize (G2 x). lia. }
  rewrite E. rewrite D2 in *. exists n', m'. split; [reflexivity|].
  split; [exact M'|]. split; [exact D'|]. split; [exact Wf'|]. split; [exact S'|].
  intro x. specialize (G1 x). specialize (G2 x). specialize (G' x). lia.
Qed.
Lemma set_attribute_fac_keeps d s v n m : pre n m -> alv (m_dead m) d -> keeps (set_attribute_fac d s v) n m.
Proof.
  intros P A. apply strong_keeps. unfold set_attribute_fac. destruct P as (M & Wf & H).
  destruct (pool_ok d s m M A) as (a & m1 & E1 & M1 & G1 & O1 & D1). rewrite E1. cbn [bind].
  assert (A1 : alv (m_dead m1) d) by (rewrite D1; exact A).
  destruct (pool_ok d v m1 M1 A1) as (b & m2 & E2 & M2 & G2 & O2 & D2). rewrite E2. cbn [bind]. rewrite D1 in D2.
  assert (P2 : pre n m2).
  { split; [exact M2|]. split; [rewrite D2; exact Wf|]. intro x. specialize (H x). specialize (G1 x). specialize (G2 x). lia. }
  rewrite (self_rd n m2 P2). cbn [bind].
  destruct (core_ok (Some d) a b n m2 M2) as (n' & m' & done & E & C).
  { rewrite D2. apply wf_store_of; exact Wf. } { intros e Ee. inversion Ee; subst. rewrite D2; exact A. }
  { apply (pool_org a d O1). } { apply (pool_org b d O2). }
  { rewrite D2. apply (pool_pok _ a d O1 A). } { rewrite D2. apply (pool_pok _ b d O2 A). }
  { intro x. specialize (H x). rewrite W_blocks in H. rewrite (w_pool a d x O1), (w_pool b d x O2), G2, G1. lia. }
  rewrite E. cbn [bind]. rewrite D2 in C. destruct done.
  - destruct C as (M' & D & s' & k & -> & Ws & G). eexists _, _. split; [reflexivity|].
    split; [exact M'|]. split; [exact D|]. split; [apply wf_w_attrs; assumption|]. split; [eauto|].
    intro x. specialize (G x). pose proof (W_w_attrs n s' k x).
    rewrite (w_pool a d x O1), (w_pool b d x O2), G2, G1 in G. lia.
  - destruct C as [-> ->]. eexists _, _. split; [reflexivity|]. split; [exact M2|]. split; [exact D2|].
    split; [exact Wf|]. split; [exists (n_attrs n), (n_num n); destruct n; reflexivity|].
    intro x. rewrite G2, G1. lia.
Qed.

(** ** removing an attribute *)
Lemma free_attr_ok a m : mem_ok m -> wf_attr (m_dead m) a -> (forall x, W (ablk a) x <= held m x) ->
  exists m', free_attr a m = Ok m' /\ mem_ok m' /\ m_dead m' = m_dead m /\
    (forall x, held m x = held m' x + W (ablk a) x).
Proof.
  intros M (F1 & F2 & F3 & F4 & F5 & F6) H. unfold free_attr. unfold org in F1, F2, F3. destruct (at_fac a) eqn:Ef.
  - destruct (b_org (at_blk a)) as [d1|] eqn:E1; [|discriminate]. destruct (b_org (at_name a)) as [d2|] eqn:E2; [|discriminate].
    destruct (b_org (at_value a)) as [d3|] eqn:E3; [|discriminate].
    exists m. repeat split; auto; try apply M. intro x. cn.
    rewrite (w_pool _ d1 x E1), (w_pool _ d2 x E2), (w_pool _ d3 x E3). lia.
  - destruct (b_org (at_blk a)) as [d1|] eqn:E1; [discriminate|]. destruct (b_org (at_name a)) as [d2|] eqn:E2; [discriminate|].
    destruct (b_org (at_value a)) as [d3|] eqn:E3; [discriminate|].
    destruct (free_ok (at_name a) m M E2) as (m1 & X1 & M1 & G1 & D1). { intro x. specialize (H x). cn. lia. }
    rewrite X1. cbn [bind].
    destruct (free_ok (at_value a) m1 M1 E3) as (m2 & X2 & M2 & G2 & D2). { intro x. specialize (H x). specialize (G1 x). cn. lia. }
    rewrite X2. cbn [bind].
    destruct (free_ok (at_blk a) m2 M2 E1) as (m3 & X3 & M3 & G3 & D3). { intro x. specialize (H x). specialize (G1 x). specialize (G2 x). cn. lia. }
    rewrite X3. exists m3. split; [reflexivity|]. split; [exact M3|]. split; [congruence|].
    intro x. specialize (G1 x). specialize (G2 x). specialize (G3 x). cn. lia.
Qed.
Lemma list_unlink_ok l s m : Forall (wf_attr (m_dead m)) l -> (forall x, W (flat_map ablk l) x <= held m x) ->
  exists o, list_unlink l s m = Ok o /\
    match o with Some (a, r) => Permutation l (a :: r) | None => True end.
Proof.
  induction l as [|a l IH]; intros F H; [exists None; auto|]. simpl. inversion F as [|? ? (F1 & F2 & F3 & F4 & F5 & F6) F7]; subst.
  rewrite rd_ok; [|exact F4|intro x; specialize (H x); cn; lia]. cbn [bind].
  rewrite rd_ok; [|exact F5|intro x; specialize (H x); cn; lia]. cbn [bind].
  destruct (bytes_eqb (b_str (at_name a)) s); [eexists; split; [reflexivity|]; apply Permutation_refl|].
  destruct IH as (o & E & P); [exact F7|intro x; specialize (H x); cn; lia|]. rewrite E. cbn [bind].
  eexists; split; [reflexivity|]. destruct o as [[y r]|]; [|exact I]. rewrite P. apply perm_swap.
Qed.

Definition ev_blk (e : devent blk blk unit) : blk := match e with DKey _ _ _ _ b => b | DData _ _ _ _ b => b end.
Lemma run_events_ok l : forall m, mem_ok m -> Forall (fun e => b_org (ev_blk e) = None) l ->
  (forall x, W (map ev_blk l) x <= held m x) ->
  exists m', run_events l m = Ok m' /\ mem_ok m' /\ m_dead m' = m_dead m /\
    (forall x, held m x = held m' x + W (map ev_blk l) x).
Proof.
  induction l as [|e l IH]; intros m M F H.
  - exists m. repeat split; auto; try apply M.
  - inversion F as [|? ? F1 F2]; subst. cbn [map] in H.
    destruct (free_ok (ev_blk e) m M F1) as (m1 & E1 & M1 & G1 & D1). { intro x. specialize (H x). cn. lia. }
    destruct (IH m1 M1 F2) as (m2 & E2 & M2 & D2 & G2). { intro x. specialize (H x). specialize (G1 x). cn. lia. }
    exists m2. split; [|split; [exact M2|split; [congruence|]]].
    + destruct e; cbn [run_events ev_blk] in *; rewrite E1; cbn [bind]; exact E2.
    + intro x. specialize (G1 x). specialize (G2 x). cbn [map]. cn. lia.
Qed.
(** the handlers attached to a pair release its malloc'ed blocks *)
Lemma pair_events D (y : anode) x : wf_entry D (bent y) ->
  Forall (fun e => b_org (ev_blk e) = None) (kd_event blk blk unit y ++ dd_event blk blk unit y) /\
  W (map ev_blk (kd_event blk blk unit y ++ dd_event blk blk unit y)) x = W (pblk y) x.
Proof.
  intros (F1 & F2 & _). unfold ent in F1, F2. cbn [e_kd e_dd e_key e_data] in F1, F2.
  unfold kd_event, dd_event. rewrite F1, F2. rewrite W_pblk.
  destruct (b_org (hkey y)) as [d1|] eqn:E1; destruct (b_org (hdata y)) as [d2|] eqn:E2;
    cbn [is_some handler app map ev_blk]; (split; [repeat constructor; assumption|]); cn;
    try rewrite (w_pool _ d1 x E1); try rewrite (w_pool _ d2 x E2); lia.
Qed.
Lemma free_events_ok D l x : Forall (wf_entry D) (map bent l) ->
  Forall (fun e => b_org (ev_blk e) = None) (flat_map (free_data_events blk blk unit (fun _ => false) (fun _ => false)) l) /\
  W (map ev_blk (flat_map (free_data_events blk blk unit (fun _ => false) (fun _ => false)) l)) x = W (flat_map pblk l) x.
Proof.
  induction l as [|y l IH]; intro F; [split; [constructor|reflexivity]|].
  cbn [map] in F. inversion F as [|? ? F1 F2]; subst. destruct (IH F2) as [I1 I2].
  destruct (pair_events D y x F1) as [J1 J2]. cbn [flat_map]. unfold free_data_events at 1 3. split.
  - apply Forall_app; split; assumption.
  - rewrite map_app, !W_app, I2, J2. reflexivity.
Qed.
Lemma ah_free_ok b h m : mem_ok m -> b_org b = None -> wf_hash (m_dead m) h ->
  (forall x, w b x + W (hblocks h) x <= held m x) ->
  exists m', ah_free b h m = Ok m' /\ mem_ok m' /\ m_dead m' = m_dead m /\
    (forall x, held m x = held m' x + w b x + W (hblocks h) x).
Proof.
  intros M B (R & T & F) H. unfold ah_free.
  rewrite rd_ok; [|apply malloc_pok; exact B|intro x; specialize (H x); lia]. cbn [bind].
  unfold hash_free. rewrite T. cbn [app]. fold (ah_pairs h).
  destruct (run_events_ok (flat_map (free_data_events blk blk unit (fun _ => false) (fun _ => false)) (ah_pairs h)) m M)
    as (m1 & E1 & M1 & D1 & G1).
  { apply (free_events_ok (m_dead m) (ah_pairs h) 0 F). }
  { intro x. rewrite (proj2 (free_events_ok (m_dead m) (ah_pairs h) x F)). specialize (H x). unfold hblocks in H. lia. }
  rewrite E1. cbn [bind].
  assert (G : forall x, held m x = held m1 x + W (hblocks h) x).
  { intro x. rewrite (G1 x), (proj2 (free_events_ok (m_dead m) (ah_pairs h) x F)). reflexivity. }
  destruct (free_ok b m1 M1 B) as (m2 & E2 & M2 & G2 & D2). { intro x. specialize (H x). specialize (G x). lia. }
  exists m2. split; [exact E2|]. split; [exact M2|]. split; [congruence|].
  intro x. specialize (G x). specialize (G2 x). lia.
Qed.

Lemma reinsert_ok esc (l : list anode) : forall n m, pre n m -> Forall (wf_entry (m_dead m)) (map bent l) ->
  (forall x, W (blocks n) x + W (flat_map pblk l) x <= held m x) ->
  exists n' m', reinsert esc l n m = Ok (n', m') /\ mem_ok m' /\ m_dead m' = m_dead m /\ wf (m_dead m) n' /\
    (exists a k, n' = w_attrs a k n) /\
    (forall x, held m' x + W (blocks n) x = held m x + W (blocks n') x).
Proof.
  induction l as [|y l IH]; intros n m P F H.
  - exists n, m. split; [reflexivity|]. split; [apply P|]. split; [reflexivity|]. split; [apply P|].
    split; [exists (n_attrs n), (n_num n); destruct n; reflexivity|]. lia.
  - cbn [map] in F. inversion F as [|? ? (F1 & F2 & F3 & F4) F5]; subst. cbn [reinsert].
    rewrite rd_ok; [|exact F3|intro x; specialize (H x); cn; lia]. cbn [bind].
    rewrite rd_ok; [|exact F4|intro x; specialize (H x); cn; lia]. cbn [bind].
    destruct (set_attribute_strong esc (b_str (hkey y)) (b_str (hdata y)) n m P) as (n1 & m1 & E1 & M1 & D1 & Wf1 & (a1 & k1 & S1) & G1).
    rewrite E1. cbn [bind].
    destruct (IH n1 m1) as (n2 & m2 & E2 & M2 & D2 & Wf2 & (a2 & k2 & S2) & G2).
    { split; [exact M1|]. split; [rewrite D1; exact Wf1|]. intro x. specialize (H x). specialize (G1 x). lia. }
    { rewrite D1; exact F5. }
    { intro x. specialize (H x). specialize (G1 x). cn. lia. }
    exists n2, m2. split; [exact E2|]. split; [exact M2|]. split; [congruence|]. rewrite D1 in Wf2. split; [exact Wf2|].
    split; [exists a2, k2; subst; destruct n; reflexivity|].
    intro x. specialize (G1 x). specialize (G2 x). lia.
Qed.

Lemma find_ent_in l k e : m_find blk blk unit bkeq (map bent l) k = Some e -> In e (map bent l).
Proof. unfold m_find. intro H. apply find_some in H. apply H. Qed.

(** taking a pair out of the hash *)
Lemma ah_remove_ok h s D : wf_hash D h -> exists h' b, ah_remove h (probe s) = Ok (h', b) /\
  wf_hash D (clear_trace h') /\ hash_items blk blk unit h' = Z.of_nat (length (ah_pairs h')) /\
  length (ah_pairs h') <= length (ah_pairs h) /\ length (ah_pairs h) <= S (length (ah_pairs h')) /\
  Forall (fun e => b_org (ev_blk e) = None) (htrace blk blk unit h') /\
  forall x, W (hblocks h) x = W (hblocks h') x + W (map ev_blk (htrace blk blk unit h')) x.
Proof.
  intros ([mm R] & T & F). apply hrep_self in R. unfold hash_remove.
  destruct (unlink_spec _ _ _ bhash bkeq bkey_ok h _ (probe s) R) as (o & h1 & E & Fo & R1 & T1).
  rewrite E. cbn [bind]. rewrite T in T1.
  pose proof (hr_perm _ _ _ _ _ _ _ R1) as P1. fold (ah_pairs h1) in P1.
  pose proof (hr_items _ _ _ _ _ _ _ R1) as I1. fold (ah_pairs h1) in I1.
  pose proof (hr_uniq _ _ _ _ _ _ _ R) as U. fold (ah_pairs h) in U.
  assert (FD : Forall (wf_entry D) (map bent (ah_pairs h1))).
  { rewrite P1. unfold m_del. apply Forall_forall. intros e He. apply filter_In in He.
    rewrite Forall_forall in F. apply F, He. }
  destruct o as [y|].
  - exists (add_trace blk blk unit h1 (kd_event blk blk unit y ++ dd_event blk blk unit y)), true.
    split; [reflexivity|]. simpl in Fo. cbn [htrace add_trace]. rewrite T1. cbn [app].
    assert (Fy : wf_entry D (bent y)).
    { apply find_ent_in in Fo. rewrite Forall_forall in F. apply F, Fo. }
    assert (Pp : Permutation (map bent (ah_pairs h)) (bent y :: map bent (ah_pairs h1))).
    { rewrite P1. clear - Fo U. unfold m_find, m_del in *. revert Fo. induction U as [|a l Ha U IH]; [discriminate|].
      cbn [map find filter]. destruct (bkeq (e_key (bent a)) (probe s)) eqn:Ek.
      - intro E. apply (f_equal (fun o => match o with Some e => e | None => bent y end)) in E. rewrite E. cbn [negb]. apply perm_skip.
        replace (filter (fun e => negb (bkeq (e_key e) (probe s))) (map bent l)) with (map bent l); [apply Permutation_refl|].
        clear - Ha Ek. induction l as [|b l IH]; [reflexivity|]. inversion Ha as [|? ? H1 H2]; subst.
        cbn [map filter]. replace (bkeq (e_key (bent b)) (probe s)) with false; [cbn [negb]; f_equal; apply IH; exact H2|].
        symmetry. apply bkeq_false. apply bkeq_spec in Ek. apply bkeq_false in H1. cbn [ent e_key] in *. rewrite <- Ek. congruence.
      - intro E. cbn [negb]. eapply perm_trans; [apply perm_skip; exact (IH E)|apply perm_swap]. }
    assert (Hp : ah_pairs (add_trace blk blk unit h1 (kd_event blk blk unit y ++ dd_event blk blk unit y)) = ah_pairs h1) by reflexivity.
    rewrite Hp. unfold hblocks. rewrite Hp.
    pose proof (Permutation_length Pp) as L. cbn [length] in L. rewrite !map_length in L.
    split; [|split; [exact I1|split; [lia|split; [lia|split]]]].
    + split; [|split; [reflexivity|exact FD]]. eexists. destruct R1 as [A1 A2 A3 A4 A5 A6 A7]. split; eassumption.
    + apply (pair_events D y 0 Fy).
    + intro x. rewrite (proj2 (pair_events D y x Fy)). rewrite !pblk_ent, (W_perm _ _ x (Permutation_flat_map eblk Pp)).
      cbn [flat_map]. change (eblk (bent y)) with (pblk y). cn. lia.
  - exists h1, false. split; [reflexivity|]. rewrite T1. simpl in Fo.
    assert (Ed : m_del blk blk unit bkeq (map bent (ah_pairs h)) (probe s) = map bent (ah_pairs h)).
    { clear - Fo. unfold m_find, m_del in *. induction (ah_pairs h) as [|a l IH]; [reflexivity|]. cbn [map find filter] in *.
      destruct (bkeq (e_key (bent a)) (probe s)); [discriminate|]. cbn [negb]. f_equal. apply IH, Fo. }
    rewrite Ed in P1. pose proof (Permutation_length P1) as L. rewrite !map_length in L.
    split; [|split; [exact I1|split; [lia|split; [lia|split; [constructor|]]]]].
    + split; [|split; [reflexivity|exact FD]]. eexists. destruct R1 as [A1 A2 A3 A4 A5 A6 A7]. split; eassumption.
    + intro x. unfold hblocks. rewrite !pblk_ent, (W_perm _ _ x (Permutation_flat_map eblk P1)). cbn [map]. cn. lia.
Qed.

Lemma remove_attribute_keeps esc s n m : pre n m -> keeps (remove_attribute esc s) n m.
Proof.
  intro P. apply strong_keeps. unfold remove_attribute. rewrite (self_rd n m P). cbn [bind].
  pose proof P as (M & Wf & H). pose proof (wf_store_of _ _ Wf) as Ws.
  assert (Same : exists a k, n = w_attrs a k n) by (exists (n_attrs n), (n_num n); destruct n; reflexivity).
  destruct (n_attrs n) as [l|b h] eqn:Ea.
  - destruct Ws as (F & N & K & K2). destruct l as [|a0 l0].
    + cbn [is_null]. exists n, m. split; [reflexivity|]. split; [exact M|]. split; [reflexivity|]. split; [exact Wf|].
      split; [exact Same|]. lia.
    + cbn [is_null]. set (l := a0 :: l0) in *. replace (n_num n <=? 10) with true by (symmetry; apply Nat.leb_le; lia).
      destruct (list_unlink_ok l s m F) as (o & E & Po).
      { intro x. specialize (H x). rewrite W_blocks, Ea in H. cbn [store_blocks] in H. unfold ablk. lia. }
      rewrite E. cbn [bind]. destruct o as [[a r]|].
      * assert (Fa : Forall (wf_attr (m_dead m)) (a :: r)) by (rewrite <- Po; exact F). inversion Fa as [|? ? Fa1 Fa2]; subst.
        assert (HW : forall x, W (flat_map ablk l) x = W (ablk a) x + W (flat_map ablk r) x).
        { intro x. rewrite (W_perm _ _ x (Permutation_flat_map ablk Po)). cbn [flat_map]. apply W_app. }
        destruct (free_attr_ok a m M Fa1) as (m' & E' & M' & D' & G').
        { intro x. specialize (H x). rewrite W_blocks, Ea in H. cbn [store_blocks] in H. specialize (HW x). fold ablk in H. lia. }
        rewrite E'. cbn [bind]. eexists _, _. split; [reflexivity|]. split; [exact M'|]. split; [exact D'|].
        split; [|split; [eauto|]].
        -- apply wf_w_attrs; [exact Wf|]. pose proof (Permutation_length Po) as L. cbn [length] in L.
           split; [exact Fa2|]. split; [|lia].
           pose proof (Permutation_NoDup (Permutation_map (fun a => b_str (at_name a)) Po) N) as N'.
           cbn [map] in N'. inversion N'; assumption.
        -- intro x. specialize (G' x). specialize (HW x). pose proof (W_w_attrs n (AList r) (n_num n - 1) x) as Hw.
           rewrite Ea in Hw. cbn [store_blocks] in Hw. fold ablk in Hw. lia.
      * exists n, m. split; [reflexivity|]. split; [exact M|]. split; [reflexivity|]. split; [exact Wf|].
        split; [exact Same|]. lia.
  - destruct Ws as (B & R & K & K2). cbn [is_null].
    replace (n_num n <=? 10) with false by (symmetry; apply Nat.leb_gt; lia).
    assert (HB : forall x, W (blocks n) x = w (n_self n) x + W (opt_blk (n_name n)) x + (w b x + W (hblocks h) x) +
                  W (hold_blk (n_holder n)) x + W (flat_map iblocks (n_items n)) x).
    { intro x. rewrite W_blocks, Ea. cbn [store_blocks]. unfold hblocks, pblk. cn. lia. }
    rewrite rd_ok; [|apply malloc_pok; exact B|intro x; specialize (H x); rewrite HB in H; lia]. cbn [bind].
    rewrite rd_keys_ok; [|intro x; specialize (H x); rewrite HB in H; unfold hblocks in H; lia|apply R]. cbn [bind].
    destruct (ah_remove_ok h s (m_dead m) R) as (h1 & bb & E1 & R1 & I1 & L1 & L2 & V1 & G1). rewrite E1. cbn [bind].
    destruct (run_events_ok (htrace blk blk unit h1) m M V1) as (m2 & E2 & M2 & D2 & G2).
    { intro x. specialize (H x). rewrite HB, G1 in H. lia. }
    rewrite E2. cbn [bind]. cbv zeta.
    replace (hash_items blk blk unit (clear_trace h1)) with (hash_items blk blk unit h1) by reflexivity.
    rewrite I1, Nat2Z.id. change (hblocks h1) with (hblocks (clear_trace h1)) in G1.
    change (ah_pairs h1) with (ah_pairs (clear_trace h1)) in *. set (hc := clear_trace h1) in *.
    destruct (length (ah_pairs hc) =? 10) eqn:Et.
    + set (n0 := w_attrs (AList []) 0 n).
      assert (HW0 : forall x, W (blocks n0) x + (w b x + W (hblocks h) x) = W (blocks n) x).
      { intro x. pose proof (W_w_attrs n (AList []) 0 x) as Hw. fold n0 in Hw. rewrite Ea in Hw. cbn [store_blocks flat_map] in Hw.
        unfold hblocks, pblk. cn. lia. }
      assert (Wf0 : wf (m_dead m) n0).
      { apply wf_w_attrs; [exact Wf|]. split; [constructor|]. split; [constructor|]. cbn [length]; lia. }
      destruct (reinsert_ok esc (ah_pairs hc) n0 m2) as (n3 & m3 & E3 & M3 & D3 & Wf3 & (a3 & k3 & S3) & G3).
      { split; [exact M2|]. split; [rewrite D2; exact Wf0|]. intro x. specialize (H x). specialize (HW0 x). specialize (G1 x). specialize (G2 x). lia. }
      { rewrite D2. apply R1. }
      { intro x. specialize (H x). specialize (HW0 x). specialize (G1 x). specialize (G2 x). unfold hblocks at 2 in G1. lia. }
      rewrite E3. cbn [bind]. rewrite D2 in *.
      destruct (ah_free_ok b hc m3 M3 B) as (m4 & E4 & M4 & D4 & G4).
      { rewrite D3; exact R1. }
      { intro x. specialize (H x). specialize (HW0 x). specialize (G1 x). specialize (G2 x). specialize (G3 x). lia. }
      rewrite E4. cbn [bind]. exists n3, m4. split; [reflexivity|]. split; [exact M4|]. split; [congruence|]. split; [exact Wf3|].
      split; [exists a3, k3; rewrite S3; unfold n0; destruct n; reflexivity|].
      intro x. specialize (HW0 x). specialize (G1 x). specialize (G2 x). specialize (G3 x). specialize (G4 x). lia.
    + apply Nat.eqb_neq in Et. eexists _, _. split; [reflexivity|]. split; [exact M2|]. split; [exact D2|].
      split; [|split; [eauto|]].
      * apply wf_w_attrs; [exact Wf|]. split; [exact B|]. split; [exact R1|]. lia.
      * intro x. specialize (G1 x). specialize (G2 x).
        pose proof (W_w_attrs n (AHash b hc) (length (ah_pairs hc)) x) as Hw. rewrite Ea in Hw.
        cbn [store_blocks] in Hw. unfold hblocks, pblk in *. cn. lia.
Qed.
