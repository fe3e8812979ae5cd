From Coq Require Import Permutation.
From Verif Require Import Prelude HashModel HashSpec HashExec HashProofs HashProofs2 HashStrProofs OwnModel OwnExec OwnSpec OwnProofs.
Open Scope nat_scope.

(** ** attributes *)
Lemma bkey_ok : key_ok blk bkeq bhash.
Proof.
  destruct str_key_ok as (A & B & C & D). unfold bkeq, bhash. repeat split; intros.
  - apply A. - apply B. - eapply C; eassumption. - apply D; assumption.
Qed.
Lemma bkeq_spec a b : bkeq a b = true <-> b_str a = b_str b.
Proof. apply skeq_spec. Qed.
Lemma bkeq_false a b : bkeq a b = false <-> b_str a <> b_str b.
Proof. rewrite <- bkeq_spec. destruct (bkeq a b); split; congruence. Qed.

Lemma W_perm l l' x : Permutation l l' -> W l x = W l' x.
Proof. induction 1; cn; try lia. Qed.

Notation bent := (ent blk blk unit).
Definition eblk (e : entry blk blk unit) : list blk := [e_key e; e_data e].
Definition hblocks (h : ahash) : list blk := flat_map pblk (ah_pairs h).
Definition hnames (h : ahash) : list bytes := map (fun x => b_str (hkey x)) (ah_pairs h).
Lemma pblk_ent l : flat_map pblk l = flat_map eblk (map bent l).
Proof. induction l as [|a l IH]; [reflexivity|]. simpl. rewrite IH. reflexivity. Qed.
Lemma names_ent l : map (fun x : anode => b_str (hkey x)) l = map (fun e => b_str (e_key e)) (map bent l).
Proof. rewrite map_map. reflexivity. Qed.
Lemma hrep_self h mm : ahrep h mm -> ahrep h (map bent (ah_pairs h)).
Proof. intro R. eapply hrep_perm; [exact R|]. symmetry. apply (hr_perm _ _ _ _ _ _ _ R). Qed.
Lemma find_none_names (l : list anode) (k : blk) : ~ In (b_str k) (map (fun x => b_str (hkey x)) l) ->
  m_find blk blk unit bkeq (map bent l) k = None /\ m_del blk blk unit bkeq (map bent l) k = map bent l.
Proof.
  unfold m_find, m_del. induction l as [|a l IH]; simpl; intro H; [auto|].
  destruct IH as [I1 I2]; [tauto|].
  assert (bkeq (hkey a) k = false) as -> by (apply bkeq_false; intro E; apply H; left; exact E).
  simpl. rewrite I1, I2. auto.
Qed.

Lemma rd_keys_ok l m : (forall x, W (flat_map pblk l) x <= held m x) -> Forall (wf_entry (m_dead m)) (map bent l) ->
  rd_keys l m = Ok tt.
Proof.
  induction l as [|a l IH]; intros H F; [reflexivity|]. simpl in *. inversion F as [|? ? (F1 & F2 & F3 & F4) F5]; subst.
  rewrite (rd_ok (hkey a) m); [|exact F3|]; cbn [bind].
  - apply IH; [|exact F5]. intro x. specialize (H x). cn. lia.
  - intro x. specialize (H x). cn. lia.
Qed.

Lemma hash_put_ok h name value fac m : mem_ok m -> wf_hash (m_dead m) h -> ~ In (b_str name) (hnames h) ->
  org fac name -> org fac value -> pok (m_dead m) name -> pok (m_dead m) value ->
  (forall x, W (hblocks h) x + w name x <= held m x) ->
  exists h', hash_put h name value fac m = Ok (h', m) /\ wf_hash (m_dead m) h' /\
    (forall x, W (hblocks h') x = W (hblocks h) x + w name x + w value x) /\
    length (ah_pairs h') = S (length (ah_pairs h)) /\
    (forall s, In s (hnames h') <-> s = b_str name \/ In s (hnames h)).
Proof.
  intros M ([mm R] & T & F) N O1 O2 P1 P2 H.
  unfold hash_put. rewrite rd_keys_ok; [|intro x; specialize (H x); unfold hblocks in H; lia|exact F]. cbn [bind].
  rewrite rd_ok; [|exact P1|intro x; specialize (H x); lia]. cbn [bind].
  apply hrep_self in R. destruct (find_none_names _ _ N) as [N1 N2].
  destruct (insert_spec _ _ _ bhash bkeq bkey_ok h _ name (handler fac) value (handler fac) R) as (h' & E & R' & T').
  rewrite E. cbn [bind]. rewrite T', T, N1. cbn [app run_events bind].
  unfold m_put in R'. cbn [e_key] in R'. rewrite N2 in R'.
  pose proof (hr_perm _ _ _ _ _ _ _ R') as P. fold (ah_pairs h') in P.
  exists (clear_trace h'). split; [reflexivity|]. change (ah_pairs (clear_trace h')) with (ah_pairs h').
  unfold hblocks, hnames. change (ah_pairs (clear_trace h')) with (ah_pairs h'). repeat split.
  - exists (Entry name (handler fac) value (handler fac) :: map bent (ah_pairs h)).
    destruct R' as [R1 R2 R3 R4 R5 R6 R7]. split; assumption.
  - change (ah_pairs (clear_trace h')) with (ah_pairs h').
    rewrite P. constructor; [|exact F]. unfold wf_entry; cbn [e_kd e_dd e_key e_data].
    unfold org in *. rewrite <- O1, <- O2. auto.
  - intro x. rewrite pblk_ent. rewrite (W_perm _ _ x (Permutation_flat_map eblk P)). cbn [flat_map eblk app e_key e_data].
    rewrite <- pblk_ent. cn. lia.
  - apply Permutation_length in P. cbn [length] in P. rewrite !map_length in P. exact P.
  - intro Hs. rewrite names_ent in Hs. apply (Permutation_in _ (Permutation_map _ P)) in Hs.
    cbn [map e_key] in Hs. rewrite <- names_ent in Hs. destruct Hs as [<-|Hs]; auto.
  - intro Hs. rewrite names_ent. apply (Permutation_in _ (Permutation_map _ (Permutation_sym P))).
    cbn [map e_key]. rewrite <- names_ent. destruct Hs as [->|Hs]; [left; reflexivity|right; exact Hs].
Qed.

Notation anames l := (map (fun a => b_str (at_name a)) l).
Lemma list_exists_ok l s m : Forall (wf_attr (m_dead m)) l -> (forall x, W (flat_map ablk l) x <= held m x) ->
  list_exists l s m = Ok (existsb (fun a => bytes_eqb (b_str (at_name a)) s) l).
Proof.
  induction l as [|a l IH]; intros F H; [reflexivity|]. simpl in *. inversion F as [|? ? (F1 & F2 & F3 & F4 & F5 & F6) F7]; subst.
  rewrite rd_ok; [|exact F4|intro x; specialize (H x); cn; lia]. cbn [bind].
  rewrite rd_ok; [|exact F5|intro x; specialize (H x); cn; lia]. cbn [bind].
  destruct (bytes_eqb (b_str (at_name a)) s); [reflexivity|]. apply IH; [exact F7|].
  intro x. specialize (H x). cn. lia.
Qed.
Lemma names_exists l s : existsb (fun a => bytes_eqb (b_str (at_name a)) s) l = false -> ~ In s (anames l).
Proof.
  induction l as [|a l IH]; simpl; intros H; [tauto|]. apply orb_false_iff in H. destruct H as [H1 H2].
  intros [E|E]; [|exact (IH H2 E)]. rewrite E in H1. rewrite bytes_eqb_refl in H1. discriminate.
Qed.

Lemma list_to_hash_ok l : forall h m, mem_ok m -> Forall (wf_attr (m_dead m)) l -> NoDup (anames l) -> wf_hash (m_dead m) h ->
  (forall s, In s (anames l) -> ~ In s (hnames h)) ->
  (forall x, W (hblocks h) x + W (flat_map ablk l) x <= held m x) ->
  exists h' m', list_to_hash l h m = Ok (h', m') /\ mem_ok m' /\ m_dead m' = m_dead m /\ wf_hash (m_dead m) h' /\
    (forall x, held m' x + W (hblocks h) x + W (flat_map ablk l) x = held m x + W (hblocks h') x) /\
    length (ah_pairs h') = length l + length (ah_pairs h) /\
    (forall s, In s (hnames h') <-> In s (anames l) \/ In s (hnames h)).
Proof.
  induction l as [|a l IH]; intros h m M F N R Ds H; simpl.
  - exists h, m. split; [reflexivity|]. split; [exact M|]. split; [reflexivity|]. split; [exact R|].
    split; [intro x; cbn [flat_map]; cn; lia|]. split; [reflexivity|]. intro s. tauto.
  - inversion F as [|? ? (F1 & F2 & F3 & F4 & F5 & F6) F7]; subst. inversion N as [|? ? N1 N2]; subst.
    rewrite rd_ok; [|exact F4|intro x; specialize (H x); cbn [flat_map ablk] in H; cn; lia]. cbn [bind].
    destruct (hash_put_ok h (at_name a) (at_value a) (at_fac a) m M R) as (h1 & E1 & R1 & G1 & L1 & S1); auto.
    { apply Ds. left; reflexivity. }
    { intro x. specialize (H x). cbn [flat_map ablk] in H. cn. lia. }
    rewrite E1. cbn [bind].
    destruct (free_unless_ok (at_fac a) (at_blk a) m M F1) as (m2 & E2 & M2 & G2 & D2).
    { intro x. specialize (H x). cbn [flat_map ablk] in H. cn. lia. }
    rewrite E2. cbn [bind].
    destruct (IH h1 m2 M2) as (h3 & m3 & E3 & M3 & D3 & R3 & G3 & L3 & S3).
    { rewrite D2; exact F7. }
    { exact N2. }
    { rewrite D2; exact R1. }
    { intros s Hs Hs2. apply S1 in Hs2. destruct Hs2 as [->|Hs2]; [exact (N1 Hs)|].
      exact (Ds s (or_intror Hs) Hs2). }
    { intro x. specialize (H x). specialize (G1 x). specialize (G2 x). cbn [flat_map ablk] in H. cn. lia. }
    exists h3, m3. split; [exact E3|]. rewrite D2 in *. repeat split; auto; try apply M3; try apply R3.
    + intro x. specialize (G3 x). specialize (G2 x). specialize (G1 x). cbn [flat_map ablk]. cn. lia.
    + lia.
    + intro Hs. apply S3 in Hs. rewrite S1 in Hs. cbn [map]. simpl. intuition.
    + intro Hs. apply S3. rewrite S1. simpl in Hs. intuition.
Qed.

Lemma wf_hash_new D : wf_hash D (hash_new_full blk blk unit 1).
Proof. split; [|split; [reflexivity|constructor]]. exists []. apply hrep_new. lia. Qed.

Lemma has_attribute_ok s n m : wf_store (m_dead m) (n_attrs n) (n_num n) ->
  (forall x, W (store_blocks (n_attrs n)) x <= held m x) ->
  exists e, has_attribute s n m = Ok e /\
    (e = false -> match n_attrs n with AList l => ~ In s (anames l) | AHash b h => ~ In s (hnames h) end).
Proof.
  intros Ws H. unfold has_attribute. destruct (n_attrs n) as [l|b h] eqn:Ea; cbn [is_null].
  - destruct Ws as (F & N & K & K2). destruct l as [|a l].
    + exists false. split; [reflexivity|]. intros _ [].
    + replace (n_num n <=? 10) with true by (symmetry; apply Nat.leb_le; lia).
      rewrite list_exists_ok; [|exact F|exact H]. eexists; split; [reflexivity|]. apply names_exists.
  - destruct Ws as (B & (([mm R] & T & F) & K & K2)).
    replace (n_num n <=? 10) with false by (symmetry; apply Nat.leb_gt; lia). cbn [store_blocks] in H.
    rewrite rd_ok; [|apply malloc_pok; exact B|intro x; specialize (H x); cn; lia]. cbn [bind].
    rewrite rd_keys_ok; [|intro x; specialize (H x); cn; unfold pblk; lia|exact F]. cbn [bind].
    unfold hash_exists. destruct (lookup_spec _ _ _ bhash bkeq bkey_ok h mm (probe s) R) as (o & E & _ & Ho).
    rewrite E. cbn [bind]. eexists; split; [reflexivity|]. destruct o; [discriminate|]. intros _ Hs.
    unfold hnames in Hs. apply in_map_iff in Hs. destruct Hs as (y & Ey & Hy). specialize (Ho y Hy).
    apply bkeq_false in Ho. apply Ho. exact Ey.
Qed.

Lemma new_attr_ok d m : mem_ok m -> (forall e, d = Some e -> alv (m_dead m) e) ->
  exists b m', new_attr d m = Ok (b, m') /\ mem_ok m' /\ m_dead m' = m_dead m /\
    (forall x, held m' x = held m x + w b x) /\ org (is_some d) b /\ pok (m_dead m) b.
Proof.
  intros M A. unfold new_attr. destruct d as [d|].
  - destruct (pool_ok d [] m M (A d eq_refl)) as (b & m' & E & M' & G & O & D). rewrite E.
    exists b, m'. split; [reflexivity|]. split; [exact M'|]. split; [exact D|]. split; [|split].
    + intro x. rewrite (w_pool b d x O), G. lia.
    + unfold org. rewrite O. reflexivity.
    + apply (pool_pok _ b d O). apply A; reflexivity.
  - destruct (malloc_ok [] m M) as (b & m' & E & M' & G & O & D). rewrite E. exists b, m'.
    split; [reflexivity|]. split; [exact M'|]. split; [exact D|]. split; [exact G|]. split.
    + unfold org. rewrite O. reflexivity.
    + apply malloc_pok; exact O.
Qed.

Lemma core_ok d name value n m : mem_ok m -> wf_store (m_dead m) (n_attrs n) (n_num n) ->
  (forall e, d = Some e -> alv (m_dead m) e) ->
  org (is_some d) name -> org (is_some d) value -> pok (m_dead m) name -> pok (m_dead m) value ->
  (forall x, W (store_blocks (n_attrs n)) x + w name x + w value x <= held m x) ->
  exists n' m' done, set_attribute_core d name value n m = Ok (n', m', done) /\
    if (done : bool) then
      mem_ok m' /\ m_dead m' = m_dead m /\
      exists a k, n' = w_attrs a k n /\ wf_store (m_dead m) a k /\
      (forall x, held m' x + W (store_blocks (n_attrs n)) x + w name x + w value x = held m x + W (store_blocks a) x)
    else n' = n /\ m' = m.
Proof.
  intros M Ws A O1 O2 P1 P2 H. unfold set_attribute_core.
  destruct (is_null (n_attrs n)) eqn:En.
  { destruct (n_attrs n) as [[|a l]|b h] eqn:Ea; try discriminate.
    destruct (new_attr_ok d m M A) as (b & m' & E & M' & D & G & O & P). rewrite E. cbn [bind].
    eexists _, _, true. split; [reflexivity|]. split; [exact M'|]. split; [exact D|].
    eexists _, _. split; [reflexivity|]. split.
    - split; [|split; [|split]]; cbn [length map]; try lia.
      + constructor; [|constructor]. repeat split; cbn [at_fac at_blk at_name at_value]; auto.
      + constructor; [intros []|constructor].
    - intro x. specialize (G x). cbn [store_blocks flat_map at_blk at_name at_value app]. cn. lia. }
  destruct (has_attribute_ok (b_str name) n m Ws) as (e & Ee & Ne).
  { intro x. specialize (H x). lia. }
  destruct (n_num n <? 10) eqn:Ek.
  - rewrite Ee. cbn [bind]. destruct e.
    + eexists _, _, false. split; [reflexivity|]. auto.
    + destruct (new_attr_ok d m M A) as (b & m' & E & M' & D & G & O & P). rewrite E. cbn [bind].
      specialize (Ne eq_refl). apply Nat.ltb_lt in Ek.
      destruct (n_attrs n) as [l|hb h] eqn:Ea; [|destruct Ws as (_ & _ & _ & K); lia].
      destruct Ws as (F & N & K & K2). eexists _, _, true. split; [reflexivity|].
      split; [exact M'|]. split; [exact D|]. eexists _, _. split; [reflexivity|]. split.
      * split; [|split; [|split]]; cbn [length map at_name]; try lia.
        -- constructor; [|exact F]. repeat split; cbn [at_fac at_blk at_name at_value]; auto.
        -- constructor; assumption.
      * intro x. specialize (G x). cbn [store_blocks flat_map at_blk at_name at_value app]. cn. lia.
  - rewrite Ee. cbn [bind]. destruct e.
    + eexists _, _, false. split; [reflexivity|]. auto.
    + specialize (Ne eq_refl). apply Nat.ltb_ge in Ek. destruct (n_num n =? 10) eqn:Et.
      * apply Nat.eqb_eq in Et. destruct (n_attrs n) as [l|hb h] eqn:Ea; [|destruct Ws as (_ & _ & _ & K); lia].
        destruct Ws as (F & N & K & K2).
        destruct (malloc_ok [] m M) as (b & m1 & E1 & M1 & G1 & O & D1). rewrite E1.
        destruct (list_to_hash_ok l (hash_new_full blk blk unit 1) m1 M1) as (h2 & m2 & E2 & M2 & D2 & R2 & G2 & L2 & S2).
        { rewrite D1; exact F. } { exact N. } { apply wf_hash_new. } { intros s _ []. }
        { intro x. specialize (H x). specialize (G1 x). cbn [store_blocks] in H.
          change (hblocks (hash_new_full blk blk unit 1)) with (@nil blk). cn. unfold ablk. lia. }
        rewrite E2. cbn [bind]. rewrite D1 in *.
        destruct (hash_put_ok h2 name value (is_some d) m2 M2) as (h3 & E3 & R3 & G3 & L3 & S3); try (rewrite D2; assumption); auto.
        { intro Hs. apply S2 in Hs. destruct Hs as [Hs|[]]. exact (Ne Hs). }
        { intro x. specialize (H x). specialize (G1 x). specialize (G2 x). cbn [store_blocks] in H.
          change (hblocks (hash_new_full blk blk unit 1)) with (@nil blk) in G2. unfold ablk in G2. cn. lia. }
        rewrite E3. cbn [bind]. eexists _, _, true. split; [reflexivity|]. split; [exact M2|]. split; [exact D2|].
        eexists _, _. split; [reflexivity|]. rewrite D2 in R3. split.
        -- split; [exact O|]. split; [exact R3|]. change (ah_pairs (hash_new_full blk blk unit 1)) with (@nil anode) in L2.
           cbn [length] in L2. lia.
        -- intro x. specialize (G1 x). specialize (G2 x). specialize (G3 x). unfold hblocks in *.
           change (ah_pairs (hash_new_full blk blk unit 1)) with (@nil anode) in G2. unfold pblk, ablk in *.
           cbn [store_blocks flat_map] in *. cn. lia.
      * apply Nat.eqb_neq in Et. destruct (n_attrs n) as [l|hb h] eqn:Ea; [destruct Ws as (_ & _ & K & K2); lia|].
        destruct Ws as (B & R & K & K2). cbn [bind].
        destruct (hash_put_ok h name value (is_some d) m M R Ne) as (h3 & E3 & R3 & G3 & L3 & S3); auto.
        { intro x. specialize (H x). cbn [store_blocks] in H. unfold hblocks, pblk. cn. lia. }
        rewrite E3. cbn [bind]. eexists _, _, true. split; [reflexivity|]. split; [exact M|]. split; [reflexivity|].
        eexists _, _. split; [reflexivity|]. split.
        -- split; [exact B|]. split; [exact R3|]. lia.
        -- intro x. specialize (G3 x). unfold hblocks, pblk in *. cbn [store_blocks] in *. cn. lia.
Qed.
