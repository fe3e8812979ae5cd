From Coq Require Import Permutation.
From Verif Require Import Prelude Arr HashModel HashSpec HashExec.

Section HashProofs.
Variables K D F : Type.
Variable hashf : K -> N.
Variable keq : K -> K -> bool.
Notation hash := (hash K D F).
Notation hnode := (hnode K D F).
Notation table := (table K D F).
Notation h_key := (h_key K D F).
Notation h_data := (h_data K D F).
Notation h_id := (h_id K D F).
Notation slot := (slot K hashf).
Notation chain_lookup := (chain_lookup K D F keq).
Notation insert_node := (insert_node K D F hashf).
Notation insert_nodes := (insert_nodes K D F hashf).

Definition ent (n : hnode) : entry K D F := Entry (h_key n) (h_kd K D F n) (h_data n) (h_dd K D F n).

Definition placed (t : list (list hnode)) : Prop :=
  forall i c n, nth_error t i = Some c -> In n c -> slot (length t) (h_key n) = i.
Definition uniq (l : list hnode) : Prop :=
  ForallOrdPairs (fun a b => keq (h_key a) (h_key b) = false) l.

Record hrep (h : hash) (m : fmap K D F) : Prop := {
  hr_placed : placed (table h);
  hr_uniq : uniq (concat (table h));
  hr_perm : Permutation (map ent (concat (table h))) m;
  hr_items : h_items K D F h = Z.of_nat (length (concat (table h)));
  hr_step : 1 <= h_step K D F h;
  hr_ids : NoDup (map h_id (concat (table h)));
  hr_next : forall n, In n (concat (table h)) -> h_id n < h_next K D F h
}.

Lemma slot_lt size k : 0 < size -> slot size k < size.
Proof.
  intro H. unfold HashModel.slot.
  assert (N.modulo (hashf k) (N.of_nat size) < N.of_nat size)%N by (apply N.mod_lt; lia). lia.
Qed.

Lemma nth_cut {A} (l : list A) n : n < length l ->
  exists x l1 l2, l = l1 ++ x :: l2 /\ length l1 = n /\ nth_error l n = Some x.
Proof.
  intro H. destruct (nth_error l n) as [x|] eqn:E.
  - destruct (nth_error_split l n E) as (l1 & l2 & E1 & E2). exists x, l1, l2. auto.
  - apply nth_error_None in E. lia.
Qed.

Lemma uniq_perm (sym : forall a b, keq a b = keq b a) l l' : Permutation l l' -> uniq l -> uniq l'.
Proof.
  unfold uniq. induction 1 as [|x l l' P IH|x y l|l l' l'' P1 IH1 P2 IH2]; intro U; auto.
  - inversion U as [|? ? Hf Hu]; subst. constructor; [|auto].
    rewrite Forall_forall in Hf |- *. intros z Hz. apply Hf. eapply Permutation_in; [|exact Hz].
    apply Permutation_sym; exact P.
  - inversion U as [|? ? Hf Hu]; subst. inversion Hu as [|? ? Hf2 Hu2]; subst.
    inversion Hf; subst. constructor.
    + constructor; [rewrite sym; assumption|assumption].
    + constructor; assumption.
Qed.

Lemma concat_cut {A} (t1 t2 : list (list A)) c : concat (t1 ++ c :: t2) = concat t1 ++ c ++ concat t2.
Proof. rewrite concat_app. reflexivity. Qed.

(** inserting a node *)
Lemma insert_node_spec t n : 0 < length t -> placed t ->
  exists t', insert_node t n = Ok t' /\ length t' = length t /\ placed t' /\
             Permutation (concat t') (n :: concat t).
Proof.
  intros Hl Hp. unfold HashModel.insert_node.
  destruct (nth_cut t (slot (length t) (h_key n)) (slot_lt _ _ Hl)) as (c & t1 & t2 & E & L & Hn).
  unfold aget. rewrite Hn. simpl.
  destruct (aset_ok t (slot (length t) (h_key n)) (n :: c) (slot_lt _ _ Hl)) as [t' Ht].
  rewrite Ht. exists t'. split; [reflexivity|].
  pose proof (aset_length _ _ _ _ Ht) as HL. split; [exact HL|]. split.
  - intros i ci ni Hi Hin. rewrite HL. rewrite (aset_nth _ _ _ _ Ht) in Hi.
    destruct (Nat.eqb_spec i (slot (length t) (h_key n))) as [->|Ne].
    + inversion Hi; subst ci. destruct Hin as [->|Hin]; [reflexivity|].
      apply (Hp _ c); assumption.
    + apply (Hp _ ci); assumption.
  - rewrite <- L in Ht. rewrite E in Ht at 1. rewrite aset_split in Ht. inversion Ht; subst t'.
    rewrite E. rewrite !concat_cut. simpl.
    symmetry. apply Permutation_middle.
Qed.

Lemma insert_nodes_spec l : forall t, 0 < length t -> placed t ->
  exists t', insert_nodes t l = Ok t' /\ length t' = length t /\ placed t' /\
             Permutation (concat t') (l ++ concat t).
Proof.
  induction l as [|n l IH]; intros t Hl Hp; simpl.
  - exists t. auto.
  - destruct (insert_node_spec t n Hl Hp) as (t1 & E1 & L1 & P1 & C1). rewrite E1. simpl.
    destruct (IH t1) as (t2 & E2 & L2 & P2 & C2); [lia|assumption|].
    exists t2. split; [exact E2|]. split; [lia|]. split; [exact P2|].
    rewrite C2, C1. symmetry. apply Permutation_middle.
Qed.

Lemma concat_repeat_nil {A} n : concat (repeat (@nil A) n) = [].
Proof. induction n; simpl; auto. Qed.

Lemma placed_repeat n : placed (repeat [] n).
Proof.
  intros i c x Hi Hin. apply nth_error_In in Hi. apply repeat_spec in Hi. subst. destruct Hin.
Qed.

Lemma rehash_spec t step : 1 <= step ->
  exists t', rehash K D F hashf t step = Ok t' /\ length t' = length t + step /\ placed t' /\
             Permutation (concat t') (concat t).
Proof.
  intro H. unfold rehash.
  destruct (insert_nodes_spec (concat t) (repeat [] (length t + step))) as (t' & E & L & P & C).
  - rewrite repeat_length. lia.
  - apply placed_repeat.
  - rewrite repeat_length in L. rewrite concat_repeat_nil, app_nil_r in C. eauto.
Qed.

Variable KO : key_ok K keq hashf.

Lemma keq_refl a : keq a a = true. Proof. apply KO. Qed.
Lemma keq_sym a b : keq a b = keq b a. Proof. apply KO. Qed.
Lemma keq_trans a b c : keq a b = true -> keq b c = true -> keq a c = true.
Proof. apply KO. Qed.
Lemma keq_hash a b : keq a b = true -> hashf a = hashf b. Proof. apply KO. Qed.
Lemma keq_slot s a b : keq a b = true -> slot s a = slot s b.
Proof. intro H. unfold HashModel.slot. rewrite (keq_hash _ _ H). reflexivity. Qed.

Lemma chain_lookup_some c k n : chain_lookup c k = Some n ->
  exists c1 c2, c = c1 ++ n :: c2 /\ keq (h_key n) k = true /\ forall x, In x c1 -> keq (h_key x) k = false.
Proof.
  induction c as [|x c IH]; simpl; [discriminate|]. destruct (keq (h_key x) k) eqn:E.
  - intro H; inversion H; subst. exists [], c. repeat split; auto. intros x [].
  - intro H. destruct (IH H) as (c1 & c2 & -> & E2 & E3). exists (x :: c1), c2.
    repeat split; auto. intros y [<-|Hy]; auto.
Qed.
Lemma chain_lookup_none c k : chain_lookup c k = None -> forall x, In x c -> keq (h_key x) k = false.
Proof.
  induction c as [|x c IH]; simpl; [tauto|]. destruct (keq (h_key x) k) eqn:E; [discriminate|].
  intros H y [<-|Hy]; auto.
Qed.

(** the chain that may hold [k] *)
Lemma bucket h m k : hrep h m -> table h <> [] ->
  exists c t1 t2, table h = t1 ++ c :: t2 /\ length t1 = slot (length (table h)) k /\
    aget (table h) (slot (length (table h)) k) = Ok c /\
    (forall x, In x (concat t1 ++ concat t2) -> keq (h_key x) k = false).
Proof.
  intros R Hne. assert (Hl : 0 < length (table h)) by (destruct (table h); [congruence|simpl; lia]).
  destruct (nth_cut (table h) (slot (length (table h)) k) (slot_lt _ _ Hl)) as (c & t1 & t2 & E & L & Hn).
  exists c, t1, t2. split; [exact E|]. split; [exact L|]. split; [apply aget_ok; exact Hn|].
  intros x Hx. destruct (keq (h_key x) k) eqn:Ek; [|reflexivity]. exfalso.
  assert (Hs : slot (length (table h)) (h_key x) = slot (length (table h)) k) by (apply keq_slot; exact Ek).
  apply in_app_or in Hx. destruct Hx as [Hx|Hx]; apply in_concat in Hx; destruct Hx as (ci & Hci & Hxc);
    apply In_nth_error in Hci; destruct Hci as [i Hi].
  - assert (i < length t1) by (apply nth_error_Some; congruence).
    assert (He : slot (length (table h)) (h_key x) = i).
    { apply (hr_placed _ _ R i ci); [|exact Hxc]. rewrite E, nth_error_app1; assumption. }
    lia.
  - assert (He : slot (length (table h)) (h_key x) = length t1 + S i).
    { apply (hr_placed _ _ R _ ci); [|exact Hxc].
      rewrite E, nth_error_app2 by lia. replace (length t1 + S i - length t1) with (S i) by lia. exact Hi. }
    lia.
Qed.

Lemma find_perm_some (l : list hnode) m n k :
  uniq l -> Permutation (map ent l) m -> In n l -> keq (h_key n) k = true ->
  m_find K D F keq m k = Some (ent n).
Proof.
  intros U P Hin Hk. unfold m_find.
  destruct (find (fun e => keq (e_key e) k) m) as [e|] eqn:E.
  - apply find_some in E. destruct E as [Ein Ek].
    apply (Permutation_in _ (Permutation_sym P)) in Ein. apply in_map_iff in Ein.
    destruct Ein as (n' & <- & Hin'). simpl in Ek. f_equal.
    destruct (ForallOrdPairs_In U n n' Hin Hin') as [->|[H|H]]; [reflexivity| |].
    + rewrite (keq_trans _ _ _ Hk) in H; [discriminate|]. rewrite keq_sym; exact Ek.
    + rewrite (keq_trans _ _ _ Ek) in H; [discriminate|]. rewrite keq_sym; exact Hk.
  - exfalso. pose proof (find_none _ _ E (ent n)) as H. simpl in H. rewrite H in Hk; [discriminate|].
    apply (Permutation_in _ P). apply in_map; exact Hin.
Qed.
Lemma find_perm_none (l : list hnode) m k :
  Permutation (map ent l) m -> (forall x, In x l -> keq (h_key x) k = false) ->
  m_find K D F keq m k = None.
Proof.
  intros P H. unfold m_find. destruct (find (fun e => keq (e_key e) k) m) as [e|] eqn:E; [|reflexivity].
  apply find_some in E. destruct E as [Ein Ek]. apply (Permutation_in _ (Permutation_sym P)) in Ein.
  apply in_map_iff in Ein. destruct Ein as (n & <- & Hin). simpl in Ek. rewrite (H _ Hin) in Ek. discriminate.
Qed.

Lemma lookup_spec h m k : hrep h m ->
  exists o, hash_lookup K D F hashf keq h k = Ok o /\ m_find K D F keq m k = option_map ent o /\
    match o with
    | Some n => In n (concat (table h)) /\ keq (h_key n) k = true
    | None => forall x, In x (concat (table h)) -> keq (h_key x) k = false
    end.
Proof.
  intro R. unfold hash_lookup. destruct (table h) as [|c0 t0] eqn:Et.
  - exists None. split; [reflexivity|]. split; [|simpl; tauto].
    pose proof (hr_perm _ _ R) as P. rewrite Et in P. simpl in P.
    apply Permutation_nil in P. subst. reflexivity.
  - rewrite <- Et. destruct (bucket h m k R) as (c & t1 & t2 & E & L & G & N); [congruence|].
    rewrite G. simpl. exists (chain_lookup c k). split; [reflexivity|].
    destruct (chain_lookup c k) as [n|] eqn:El; simpl.
    + destruct (chain_lookup_some _ _ _ El) as (c1 & c2 & Ec & Ek & _).
      assert (Hin : In n (concat (table h))).
      { rewrite E, concat_cut, Ec. rewrite !in_app_iff. simpl. tauto. }
      split; [|split; [exact Hin|exact Ek]].
      apply (find_perm_some (concat (table h))); auto; apply R.
    + assert (H : forall x, In x (concat (table h)) -> keq (h_key x) k = false).
      { intros x Hx. rewrite E, concat_cut in Hx. rewrite !in_app_iff in Hx.
        destruct Hx as [Hx|[Hx|Hx]].
        - apply N. apply in_or_app; tauto.
        - apply (chain_lookup_none _ _ El); exact Hx.
        - apply N. apply in_or_app; tauto. }
      split; [|exact H]. apply (find_perm_none (concat (table h))); auto. apply R.
Qed.

Lemma del_none (l : list hnode) m k : Permutation (map ent l) m ->
  (forall x, In x l -> keq (h_key x) k = false) -> m_del K D F keq m k = m.
Proof.
  intros P H. unfold m_del.
  assert (H' : forall e, In e m -> keq (e_key e) k = false).
  { intros e He. apply (Permutation_in _ (Permutation_sym P)) in He.
    apply in_map_iff in He. destruct He as (x & <- & Hx). apply H; exact Hx. }
  clear P H. induction m as [|e m IH]; simpl; [reflexivity|].
  rewrite (H' e) by (left; reflexivity). simpl. f_equal. apply IH. intros x Hx; apply H'; right; exact Hx.
Qed.

Lemma filter_perm {A} (f : A -> bool) l l' : Permutation l l' -> Permutation (filter f l) (filter f l').
Proof.
  induction 1 as [|x l l' P IH|x y l|l l' l'' P1 IH1 P2 IH2]; simpl; auto.
  - destruct (f x); auto.
  - destruct (f x), (f y); auto. constructor.
  - etransitivity; eauto.
Qed.

Lemma del_split (l1 l2 : list hnode) n m k :
  uniq (l1 ++ n :: l2) -> Permutation (map ent (l1 ++ n :: l2)) m -> keq (h_key n) k = true ->
  Permutation (map ent (l1 ++ l2)) (m_del K D F keq m k).
Proof.
  intros U P Hk. unfold m_del. rewrite <- (filter_perm _ _ _ P).
  assert (U2 : uniq (n :: l1 ++ l2)).
  { apply (uniq_perm keq_sym (l1 ++ n :: l2)); [|exact U]. symmetry. apply Permutation_middle. }
  inversion U2 as [|? ? Hf Hu]; subst. rewrite Forall_forall in Hf.
  assert (G : forall l, (forall x, In x l -> In x (l1 ++ l2)) ->
      filter (fun e => negb (keq (e_key e) k)) (map ent l) = map ent l).
  { induction l as [|x l IH]; simpl; intro H; [reflexivity|].
    assert (Ex : keq (h_key x) k = false).
    { destruct (keq (h_key x) k) eqn:E; [|reflexivity]. rewrite <- (Hf x) by (apply H; left; reflexivity).
      symmetry. apply (keq_trans _ k); [exact Hk|]. rewrite keq_sym; exact E. }
    rewrite Ex. simpl. f_equal. apply IH. intros; apply H; right; assumption. }
  rewrite !map_app. simpl. rewrite filter_app. simpl. rewrite Hk. simpl.
  rewrite <- map_app. rewrite !G by (intros; apply in_or_app; tauto). rewrite <- map_app. reflexivity.
Qed.

Lemma hrep_new step : 1 <= step -> hrep (hash_new_full K D F step) [].
Proof.
  intro H. split; simpl; auto.
  - intros i c n Hi. destruct i; discriminate.
  - constructor.
  - constructor.
  - tauto.
Qed.

(** a node with a fresh id and a new key goes in *)
Lemma hrep_add h m t n tr :
  hrep h m -> placed t ->
  Permutation (concat t) (n :: concat (table h)) ->
  h_id n = h_next K D F h ->
  (forall x, In x (concat (table h)) -> keq (h_key x) (h_key n) = false) ->
  hrep (Hash K D F t (h_items K D F h + 1) (h_step K D F h) (S (h_next K D F h)) tr) (ent n :: m).
Proof.
  intros R Pl P Hid Hk. destruct R as [R1 R2 R3 R4 R5 R6 R7]. split; simpl; auto.
  - apply (uniq_perm keq_sym (n :: concat (table h))); [symmetry; exact P|]. constructor; [|exact R2].
    apply Forall_forall. intros x Hx. rewrite keq_sym. apply Hk; exact Hx.
  - rewrite (Permutation_map ent P). simpl. constructor. exact R3.
  - rewrite (Permutation_length P). simpl. lia.
  - rewrite (Permutation_map h_id P). simpl. constructor; [|exact R6].
    intro H. apply in_map_iff in H. destruct H as (x & Ex & Hx). apply R7 in Hx. lia.
  - intros x Hx. apply (Permutation_in _ P) in Hx. destruct Hx as [<-|Hx]; [lia|].
    apply R7 in Hx; lia.
Qed.

Lemma chain_replace_split c1 c2 n k f :
  (forall x, In x c1 -> keq (h_key x) k = false) -> keq (h_key n) k = true ->
  chain_replace K D F keq (c1 ++ n :: c2) k f = c1 ++ f n :: c2.
Proof.
  intros H Hk. induction c1 as [|x c1 IH]; simpl.
  - rewrite Hk; reflexivity.
  - rewrite (H x) by (left; reflexivity). f_equal. apply IH. intros; apply H; right; assumption.
Qed.

Lemma aset_bucket (t1 t2 : list (list hnode)) c c' pos :
  length t1 = pos -> aset (t1 ++ c :: t2) pos c' = Ok (t1 ++ c' :: t2).
Proof. intros <-. apply aset_split. Qed.

Lemma placed_bucket t1 t2 c c' :
  placed (t1 ++ c :: t2) ->
  (forall n, In n c' -> slot (length (t1 ++ c :: t2)) (h_key n) = length t1) ->
  placed (t1 ++ c' :: t2).
Proof.
  intros Hp Hc i ci ni Hi Hin.
  replace (length (t1 ++ c' :: t2)) with (length (t1 ++ c :: t2)) by (rewrite !app_length; reflexivity).
  destruct (Nat.lt_trichotomy i (length t1)) as [L|[L|L]].
  - rewrite nth_error_app1 in Hi by exact L. apply (Hp i ci); [|exact Hin].
    rewrite nth_error_app1 by exact L. exact Hi.
  - subst i. rewrite nth_error_app2 in Hi by lia. rewrite Nat.sub_diag in Hi. inversion Hi; subst.
    apply Hc; exact Hin.
  - apply (Hp i ci); [|exact Hin]. rewrite nth_error_app2 in Hi |- * by lia.
    destruct (i - length t1) eqn:E; [lia|]. exact Hi.
Qed.

Lemma insert_spec h m k kd d dd : hrep h m ->
  exists h', hash_insert_full K D F hashf keq h k kd d dd = Ok h' /\
    hrep h' (m_put K D F keq m (Entry k kd d dd)) /\
    htrace K D F h' = htrace K D F h ++
      match m_find K D F keq m k with
      | Some e => match e_kd e with Some f => [DKey K D F f (e_key e)] | None => [] end ++
                  match e_dd e with Some f => [DData K D F f (e_data e)] | None => [] end
      | None => [] end.
Proof.
  intro R. unfold hash_insert_full. destruct (table h) as [|c0 t0] eqn:Et.
  - pose proof (hr_perm _ _ R) as P. rewrite Et in P. simpl in P. apply Permutation_nil in P. subst m.
    destruct (insert_node_spec (repeat [] (h_step K D F h)) (HNode K D F (h_next K D F h) k kd d dd))
      as (t & E & L & Pl & C).
    { rewrite repeat_length. apply R. }
    { apply placed_repeat. }
    rewrite E. simpl. eexists; split; [reflexivity|]. split.
    + unfold m_put. simpl. rewrite concat_repeat_nil in C.
      apply (hrep_add h [] t (HNode K D F (h_next K D F h) k kd d dd) (htrace K D F h) R Pl); auto;
        rewrite Et; simpl; auto. intros x [].
    + simpl. rewrite app_nil_r. reflexivity.
  - rewrite <- Et. assert (Hne : table h <> []) by congruence.
    destruct (lookup_spec h m k R) as (o & Eo & Fo & Ho). rewrite Eo. simpl.
    destruct o as [old|].
    + destruct Ho as [Hin Hk].
      destruct (bucket h m k R Hne) as (c & t1 & t2 & E & L & G & N).
      rewrite G. simpl.
      assert (Hc : chain_lookup c k = Some old).
      { unfold hash_lookup in Eo. rewrite Et in Eo. rewrite <- Et in Eo. rewrite G in Eo. simpl in Eo.
        inversion Eo; reflexivity. }
      destruct (chain_lookup_some _ _ _ Hc) as (c1 & c2 & Ec & _ & N1).
      rewrite Ec. rewrite (chain_replace_split c1 c2 old k _ N1 Hk).
      assert (AS : forall c', aset (table h) (slot (length (table h)) k) c' = Ok (t1 ++ c' :: t2)).
      { intro c'. rewrite <- L. rewrite E. apply aset_split. }
      rewrite AS. simpl.
      eexists; split; [reflexivity|]. split.
      * pose proof (hr_uniq _ _ R) as U. pose proof (hr_perm _ _ R) as P.
        pose proof (hr_ids _ _ R) as I.
        rewrite E, concat_cut, Ec in U, P, I.
        set (nn := HNode K D F (h_id old) k kd d dd) in *.
        assert (EA : forall n : hnode, concat t1 ++ (c1 ++ n :: c2) ++ concat t2 =
                (concat t1 ++ c1) ++ n :: (c2 ++ concat t2)).
        { intro n. rewrite <- !app_assoc. reflexivity. }
        rewrite EA in U, P, I.
        assert (U2 : uniq (old :: (concat t1 ++ c1) ++ c2 ++ concat t2)).
        { apply (uniq_perm keq_sym _ _ (Permutation_sym (Permutation_middle _ _ _))). exact U. }
        inversion U2 as [|? ? Hf Hu]; subst. rewrite Forall_forall in Hf.
        split; simpl; try (rewrite concat_cut, EA).
        -- apply (placed_bucket _ _ (c1 ++ old :: c2)).
           ++ rewrite <- E. apply R.
           ++ rewrite <- E. intros n Hn. rewrite in_app_iff in Hn. simpl in Hn.
              destruct Hn as [Hn|[<-|Hn]].
              ** apply (hr_placed _ _ R _ (c1 ++ old :: c2)).
                 --- rewrite E, nth_error_app2 by lia. rewrite Nat.sub_diag. reflexivity.
                 --- apply in_or_app; left; exact Hn.
              ** simpl. symmetry; exact L.
              ** apply (hr_placed _ _ R _ (c1 ++ old :: c2)).
                 --- rewrite E, nth_error_app2 by lia. rewrite Nat.sub_diag. reflexivity.
                 --- apply in_or_app; right; right; exact Hn.
        -- apply (uniq_perm keq_sym _ _ (Permutation_middle _ _ _)). constructor; [|exact Hu].
           apply Forall_forall. intros x Hx. specialize (Hf x Hx). simpl.
           destruct (keq k (h_key x)) eqn:Ek; [|reflexivity]. rewrite <- Hf. symmetry.
           apply (keq_trans _ k); assumption.
        -- unfold m_put. rewrite map_app. simpl. rewrite <- Permutation_middle. constructor.
           rewrite <- map_app. apply (del_split _ _ old); assumption.
        -- rewrite (hr_items _ _ R), E, concat_cut, EA, !app_length. reflexivity.
        -- apply R.
        -- rewrite map_app in I |- *. simpl in I |- *. exact I.
        -- intros n Hn. rewrite in_app_iff in Hn. simpl in Hn.
           assert (G2 : forall x, In x ((concat t1 ++ c1) ++ old :: c2 ++ concat t2) -> h_id x < h_next K D F h).
           { intros x Hx. apply (hr_next _ _ R). rewrite E, concat_cut, EA. exact Hx. }
           destruct Hn as [Hn|[<-|Hn]].
           ++ apply G2. apply in_or_app; tauto.
           ++ simpl. apply G2. apply in_or_app; right; left; reflexivity.
           ++ apply G2. apply in_or_app; right; right; exact Hn.
      * simpl. rewrite Fo. simpl. reflexivity.
    + assert (T : exists t, (if (Z.of_nat (length (table h)) =? h_items K D F h)%Z
               then rehash K D F hashf (table h) (h_step K D F h) else Ok (table h)) = Ok t /\
               0 < length t /\ placed t /\ Permutation (concat t) (concat (table h))).
      { destruct (Z.of_nat (length (table h)) =? h_items K D F h)%Z.
        - destruct (rehash_spec (table h) (h_step K D F h) (hr_step _ _ R)) as (t & E & L & P & C).
          exists t. repeat split; auto. pose proof (hr_step _ _ R). lia.
        - exists (table h). repeat split; auto; [|apply R]. destruct (table h); [congruence|simpl; lia]. }
      destruct T as (t & E & L & Pl & C). rewrite E. simpl.
      destruct (insert_node_spec t (HNode K D F (h_next K D F h) k kd d dd) L Pl) as (t' & E' & L' & Pl' & C').
      rewrite E'. simpl. eexists; split; [reflexivity|]. split.
      * unfold m_put. simpl e_key.
        rewrite (del_none (concat (table h)) m k (hr_perm _ _ R) Ho).
        apply (hrep_add h m t' (HNode K D F (h_next K D F h) k kd d dd)); auto.
        rewrite C'. constructor. exact C.
      * simpl. rewrite Fo. simpl. rewrite app_nil_r. reflexivity.
Qed.

Lemma chain_remove_none c k : (forall x, In x c -> keq (h_key x) k = false) ->
  chain_remove K D F keq c k = None.
Proof.
  induction c as [|x c IH]; simpl; intro H; [reflexivity|].
  rewrite (H x) by auto. rewrite IH; auto.
Qed.
Lemma chain_remove_split c1 c2 n k :
  (forall x, In x c1 -> keq (h_key x) k = false) -> keq (h_key n) k = true ->
  chain_remove K D F keq (c1 ++ n :: c2) k = Some (n, c1 ++ c2).
Proof.
  intros H Hk. induction c1 as [|x c1 IH]; simpl.
  - rewrite Hk; reflexivity.
  - rewrite (H x) by (left; reflexivity). rewrite IH; [reflexivity|]. intros; apply H; right; assumption.
Qed.

Lemma uniq_remove l1 l2 n : uniq (l1 ++ n :: l2) -> uniq (l1 ++ l2).
Proof.
  intro U. assert (U2 : uniq (n :: l1 ++ l2)).
  { apply (uniq_perm keq_sym _ _ (Permutation_sym (Permutation_middle _ _ _))). exact U. }
  inversion U2; assumption.
Qed.

(** where the unlinked node was, for the cursor proofs *)
Lemma unlink_at h m t1 t2 c1 c2 n :
  hrep h m -> table h = t1 ++ (c1 ++ n :: c2) :: t2 ->
  hash_unlink K D F hashf keq h (h_key n) =
    Ok (Some n, Hash K D F (t1 ++ (c1 ++ c2) :: t2) (h_items K D F h - 1) (h_step K D F h)
                  (h_next K D F h) (htrace K D F h)) /\
  hrep (Hash K D F (t1 ++ (c1 ++ c2) :: t2) (h_items K D F h - 1) (h_step K D F h)
                  (h_next K D F h) (htrace K D F h)) (m_del K D F keq m (h_key n)).
Proof.
  intros R E. assert (Hne : table h <> []) by (rewrite E; destruct t1; discriminate).
  assert (L : slot (length (table h)) (h_key n) = length t1).
  { apply (hr_placed _ _ R _ (c1 ++ n :: c2)).
    - rewrite E, nth_error_app2 by lia. rewrite Nat.sub_diag. reflexivity.
    - apply in_or_app; right; left; reflexivity. }
  assert (EA : forall x, concat t1 ++ (c1 ++ x ++ c2) ++ concat t2 =
                (concat t1 ++ c1) ++ x ++ (c2 ++ concat t2)).
  { intro x. rewrite <- !app_assoc. reflexivity. }
  pose proof (hr_uniq _ _ R) as U. pose proof (hr_perm _ _ R) as P. pose proof (hr_ids _ _ R) as I.
  rewrite E, concat_cut in U, P, I. specialize (EA [n]) as EA1. simpl in EA1. rewrite EA1 in U, P, I.
  specialize (EA []) as EA0. simpl in EA0.
  assert (N1 : forall x, In x c1 -> keq (h_key x) (h_key n) = false).
  { intros x Hx. assert (U2 : uniq (n :: (concat t1 ++ c1) ++ c2 ++ concat t2)).
    { apply (uniq_perm keq_sym _ _ (Permutation_sym (Permutation_middle _ _ _))). exact U. }
    inversion U2 as [|? ? Hf Hu]; subst. rewrite Forall_forall in Hf. rewrite keq_sym. apply Hf.
    rewrite !in_app_iff. tauto. }
  split.
  - unfold hash_unlink. destruct (table h) as [|c0 t0] eqn:Et; [congruence|]. rewrite L, E.
    rewrite aget_split. simpl. rewrite (chain_remove_split c1 c2 n (h_key n) N1 (keq_refl _)).
    rewrite aset_split. reflexivity.
  - split; simpl; try rewrite concat_cut, EA0.
    + apply (placed_bucket _ _ (c1 ++ n :: c2)); rewrite <- E; [apply R|].
      intros x Hx. apply (hr_placed _ _ R _ (c1 ++ n :: c2)).
      * rewrite E, nth_error_app2 by lia. rewrite Nat.sub_diag. reflexivity.
      * rewrite in_app_iff in Hx |- *. simpl. tauto.
    + apply (uniq_remove _ _ n). exact U.
    + apply (del_split _ _ n); auto. apply keq_refl.
    + rewrite (hr_items _ _ R), E, concat_cut, EA1, !app_length. simpl. rewrite app_length. lia.
    + apply R.
    + rewrite map_app in I |- *. simpl in I. apply NoDup_remove_1 in I. exact I.
    + intros x Hx. apply (hr_next _ _ R). rewrite E, concat_cut, EA1.
      rewrite in_app_iff in Hx |- *. simpl. tauto.
Qed.

Lemma unlink_spec h m k : hrep h m ->
  exists o h', hash_unlink K D F hashf keq h k = Ok (o, h') /\
    m_find K D F keq m k = option_map ent o /\ hrep h' (m_del K D F keq m k) /\
    htrace K D F h' = htrace K D F h.
Proof.
  intro R. destruct (lookup_spec h m k R) as (o & Eo & Fo & Ho).
  destruct o as [n|].
  - destruct Ho as [Hin Hk].
    assert (Hne : table h <> []) by (intro E; rewrite E in Hin; destruct Hin).
    destruct (bucket h m k R Hne) as (c & t1 & t2 & E & L & G & N).
    assert (Hc : chain_lookup c k = Some n).
    { unfold hash_lookup in Eo. destruct (table h) eqn:Et; [congruence|].
      rewrite G in Eo. simpl in Eo. inversion Eo; reflexivity. }
    destruct (chain_lookup_some _ _ _ Hc) as (c1 & c2 & Ec & _ & N1). subst c.
    destruct (unlink_at h m t1 t2 c1 c2 n R E) as [E1 R1].
    assert (Eu : hash_unlink K D F hashf keq h k = hash_unlink K D F hashf keq h (h_key n)).
    { unfold hash_unlink. destruct (table h) eqn:Et; [reflexivity|].
      rewrite (keq_slot _ _ _ Hk), G. simpl.
      rewrite (chain_remove_split c1 c2 n k N1 Hk).
      rewrite (chain_remove_split c1 c2 n (h_key n)); [reflexivity| |apply keq_refl].
      intros x Hx. destruct (keq (h_key x) (h_key n)) eqn:Ek; [|reflexivity].
      rewrite <- (N1 x Hx). symmetry. apply (keq_trans _ (h_key n)); assumption. }
    eexists _, _. split; [rewrite Eu; exact E1|]. split; [exact Fo|]. split; [|reflexivity].
    assert (Em : m_del K D F keq m k = m_del K D F keq m (h_key n)).
    { unfold m_del. apply filter_ext. intro e. f_equal.
      destruct (keq (e_key e) k) eqn:E2; symmetry.
      - apply (keq_trans _ k); [exact E2|]. rewrite keq_sym; exact Hk.
      - destruct (keq (e_key e) (h_key n)) eqn:E3; [|reflexivity].
        rewrite <- E2. symmetry. apply (keq_trans _ (h_key n)); assumption. }
    rewrite Em. exact R1.
  - exists None, h. simpl in Fo. rewrite (del_none (concat (table h)) m k (hr_perm _ _ R) Ho).
    split; [|auto]. unfold hash_unlink. destruct (table h) as [|c0 t0] eqn:Et; [reflexivity|].
    rewrite <- Et. destruct (bucket h m k R) as (c & t1 & t2 & E & L & G & N); [congruence|].
    rewrite G. simpl. rewrite chain_remove_none; [reflexivity|].
    intros x Hx. apply Ho. rewrite <- Et, E, concat_cut, !in_app_iff. tauto.
Qed.

Lemma hrep_trace h m l : hrep h m -> hrep (add_trace K D F h l) m.
Proof. intros [R1 R2 R3 R4 R5 R6 R7]. split; simpl; assumption. Qed.

Variable knull : K -> bool.
Variable dnull : D -> bool.
Variable null : D.
Notation hexec := (hexec K D F hashf keq knull dnull null).
Notation hexec_all := (hexec_all K D F hashf keq knull dnull null).
Notation hspec := (hspec K D F keq null).
Notation hspec_all := (hspec_all K D F keq null).

Notation ev := (ev K D F).

(** destroy calls made by one operation *)
Definition fired (m : fmap K D F) (o : hop K D F) : list (devent K D F) :=
  match o with
  | HInsert k _ _ _ | HRemove k =>
    match m_find K D F keq m k with Some e => map ev (owes K D F e) | None => [] end
  | HDeferred k =>
    match m_find K D F keq m k with
    | Some e =>
      (if knull (e_key e) then [] else match e_kd e with Some f => [DKey K D F f (e_key e)] | None => [] end) ++
      (if dnull (e_data e) then [] else match e_dd e with Some f => [DData K D F f (e_data e)] | None => [] end)
    | None => [] end
  | _ => []
  end.

Lemma owes_ev e : map ev (owes K D F e) =
  match e_kd e with Some f => [DKey K D F f (e_key e)] | None => [] end ++
  match e_dd e with Some f => [DData K D F f (e_data e)] | None => [] end.
Proof. unfold owes. destruct (e_kd e), (e_dd e); reflexivity. Qed.

Lemma perm_len (h : hash) m : hrep h m -> length m = length (concat (table h)).
Proof. intro R. rewrite <- (Permutation_length (hr_perm _ _ R)). apply map_length. Qed.

Lemma hexec_spec h m o : hrep h m ->
  exists h', hexec h o = Ok (h', snd (hspec m o)) /\ hrep h' (fst (hspec m o)) /\
    htrace K D F h' = htrace K D F h ++ fired m o.
Proof.
  intro R. destruct o as [k kd d dd|k|k|k|k|k|]; simpl.
  - destruct (insert_spec h m k kd d dd R) as (h' & E & R' & T). rewrite E. simpl.
    eexists; split; [reflexivity|]. split; [exact R'|]. rewrite T.
    destruct (m_find K D F keq m k); [rewrite owes_ev|]; reflexivity.
  - unfold hash_remove. destruct (unlink_spec h m k R) as (o & h' & E & Fo & R' & T). rewrite E. simpl.
    rewrite Fo. destruct o as [n|]; simpl.
    + eexists; split; [reflexivity|]. split; [apply hrep_trace; exact R'|].
      unfold add_trace; simpl. rewrite T, owes_ev. reflexivity.
    + eexists; split; [reflexivity|]. split; [exact R'|]. rewrite T, app_nil_r; reflexivity.
  - unfold hash_delete. destruct (unlink_spec h m k R) as (o & h' & E & Fo & R' & T). rewrite E. simpl.
    rewrite Fo. destruct o as [n|]; simpl; eexists; (split; [reflexivity|]); (split; [exact R'|]);
      rewrite T, app_nil_r; reflexivity.
  - unfold hash_remove_deferred. destruct (unlink_spec h m k R) as (o & h' & E & Fo & R' & T). rewrite E. simpl.
    rewrite Fo. destruct o as [n|]; simpl.
    + eexists; split; [reflexivity|]. split; [apply hrep_trace; exact R'|].
      unfold add_trace; simpl. rewrite T. reflexivity.
    + eexists; split; [reflexivity|]. split; [exact R'|]. rewrite T, app_nil_r; reflexivity.
  - unfold hash_get. destruct (Z.eqb_spec (h_items K D F h) 0) as [E|E].
    + pose proof (perm_len _ _ R) as L. rewrite (hr_items _ _ R) in E.
      destruct m; [|simpl in L; lia]. simpl. exists h. rewrite app_nil_r. auto.
    + destruct (lookup_spec h m k R) as (o & Eo & Fo & _). rewrite Eo. simpl. rewrite Fo.
      exists h. rewrite app_nil_r. destruct o; auto.
  - unfold hash_exists. destruct (lookup_spec h m k R) as (o & Eo & Fo & _). rewrite Eo. simpl. rewrite Fo.
    exists h. rewrite app_nil_r. destruct o; auto.
  - exists h. rewrite app_nil_r. unfold hash_items. rewrite (hr_items _ _ R), (perm_len _ _ R). auto.
Qed.

Lemma hexec_all_spec ops : forall h m, hrep h m ->
  exists h', hexec_all h ops = Ok (h', snd (hspec_all m ops)) /\ hrep h' (fst (hspec_all m ops)).
Proof.
  induction ops as [|o ops IH]; intros h m R; simpl; [eauto|].
  destruct (hexec_spec h m o R) as (h1 & E & R1 & _). rewrite E. simpl.
  destruct (hspec m o) as [m1 a]. simpl in *.
  destruct (IH _ _ R1) as (h2 & E2 & R2). rewrite E2. simpl.
  destruct (hspec_all m1 ops) as [m2 l]. simpl in *. eauto.
Qed.

Lemma C09_lemma step ops : 1 <= step ->
  exists h, hexec_all (hash_new_full K D F step) ops = Ok (h, snd (hspec_all [] ops)).
Proof.
  intro H. destruct (hexec_all_spec ops _ _ (hrep_new step H)) as (h & E & _). eauto.
Qed.

Lemma reach step ops : 1 <= step ->
  exists h ans m, hexec_all (hash_new_full K D F step) ops = Ok (h, ans) /\ hrep h m /\
                  m = fst (hspec_all [] ops) /\ ans = snd (hspec_all [] ops).
Proof.
  intro H. destruct (hexec_all_spec ops _ _ (hrep_new step H)) as (h & E & R). eauto 10.
Qed.

(** ** C10 *)
Definition entry_ok (e : entry K D F) : Prop :=
  (e_kd e <> None -> knull (e_key e) = false) /\ (e_dd e <> None -> dnull (e_data e) = false).

Lemma fd_owes e : entry_ok e ->
  (if knull (e_key e) then [] else match e_kd e with Some f => [DKey K D F f (e_key e)] | None => [] end) ++
  (if dnull (e_data e) then [] else match e_dd e with Some f => [DData K D F f (e_data e)] | None => [] end)
  = map ev (owes K D F e).
Proof.
  intros [H1 H2]. rewrite owes_ev. f_equal.
  - destruct (e_kd e); [rewrite H1 by discriminate; reflexivity|]. destruct (knull (e_key e)); reflexivity.
  - destruct (e_dd e); [rewrite H2 by discriminate; reflexivity|]. destruct (dnull (e_data e)); reflexivity.
Qed.

Definition owed (m : fmap K D F) : list (devent K D F) := flat_map (fun e => map ev (owes K D F e)) m.

Lemma owed_perm m m' : Permutation m m' -> Permutation (owed m) (owed m').
Proof.
  unfold owed. induction 1 as [|x l l' P IH|x y l|l l' l'' P1 IH1 P2 IH2]; simpl; auto.
  - apply Permutation_app_head; exact IH.
  - rewrite !app_assoc. apply Permutation_app_tail. apply Permutation_app_comm.
  - etransitivity; eauto.
Qed.

(** taking [k] out of the map *)
Lemma owed_del h m k : hrep h m ->
  Permutation (owed m)
    (match m_find K D F keq m k with Some e => map ev (owes K D F e) | None => [] end ++
     owed (m_del K D F keq m k)).
Proof.
  intro R. destruct (lookup_spec h m k R) as (o & _ & Fo & Ho). rewrite Fo. destruct o as [n|]; simpl.
  - destruct Ho as [Hin Hk]. apply in_split in Hin. destruct Hin as (l1 & l2 & E).
    pose proof (hr_perm _ _ R) as P. pose proof (hr_uniq _ _ R) as U. rewrite E in P, U.
    rewrite <- (owed_perm _ _ (del_split _ _ _ _ _ U P Hk)).
    rewrite <- (owed_perm _ _ P). rewrite !map_app. simpl.
    change (map ev (owes K D F (ent n)) ++ owed (map ent l1 ++ map ent l2))
      with (owed (ent n :: map ent l1 ++ map ent l2)).
    apply owed_perm. symmetry. apply Permutation_middle.
  - rewrite (del_none (concat (table h)) m k (hr_perm _ _ R) Ho). reflexivity.
Qed.

Lemma m_find_in m k e : m_find K D F keq m k = Some e -> In e m.
Proof. unfold m_find. intro H. apply find_some in H. tauto. Qed.

Lemma ledger ops : forall h m h' ans, hrep h m -> Forall entry_ok m ->
  Forall (no_null_owed K D F knull dnull) ops ->
  hexec_all h ops = Ok (h', ans) ->
  exists m', hrep h' m' /\ Forall entry_ok m' /\
    Permutation (htrace K D F h' ++ owed m' ++ map ev (cancelled K D F keq null m ops))
                (htrace K D F h ++ owed m ++ map ev (attached K D F ops)).
Proof.
  induction ops as [|o ops IH]; intros h m h' ans R OK FO H; simpl in H.
  - inversion H; subst. exists m. simpl. auto.
  - destruct (hexec_spec h m o R) as (h1 & E & R1 & T1). rewrite E in H. simpl in H.
    destruct (hexec_all h1 ops) as [[h2 l]| |] eqn:E2; simpl in H; try discriminate.
    inversion H; subst h2 ans. clear H.
    inversion FO as [|? ? HO FO']; subst.
    assert (OK1 : Forall entry_ok (fst (hspec m o))).
    { assert (Hd : forall k, Forall entry_ok (m_del K D F keq m k)).
      { intro k. rewrite Forall_forall in OK |- *. intros e He. apply OK.
        unfold m_del in He. apply filter_In in He. tauto. }
      destruct o; simpl; auto. constructor; [exact HO|]. apply Hd. }
    destruct (IH _ _ _ _ R1 OK1 FO' E2) as (m' & R' & OK' & P').
    exists m'. split; [exact R'|]. split; [exact OK'|].
    assert (HF : forall e, In e m -> entry_ok e) by (rewrite Forall_forall in OK; exact OK).
    (* one step of the balance *)
    assert (B : Permutation (fired m o ++ owed (fst (hspec m o)) ++
        map ev (match o with HDelete k => match m_find K D F keq m k with Some e => owes K D F e | None => [] end
                           | _ => [] end))
       (owed m ++ map ev (match o with HInsert k kd d dd => owes K D F (Entry k kd d dd) | _ => [] end))).
    { destruct o as [k kd d dd|k|k|k|k|k|]; simpl; rewrite ?app_nil_r; auto.
      - change (owed (m_put K D F keq m (Entry k kd d dd))) with
          (map ev (owes K D F (Entry k kd d dd)) ++ owed (m_del K D F keq m k)).
        rewrite (owed_del h m k R).
        destruct (m_find K D F keq m k) as [e|]; simpl; rewrite <- ?app_assoc.
        + apply Permutation_app_head. apply Permutation_app_comm.
        + apply Permutation_app_comm.
      - rewrite (owed_del h m k R). reflexivity.
      - rewrite (owed_del h m k R). destruct (m_find K D F keq m k) as [e|]; simpl; rewrite ?app_nil_r.
        + apply Permutation_app_comm.
        + reflexivity.
      - rewrite (owed_del h m k R). destruct (m_find K D F keq m k) as [e|] eqn:Ef; simpl.
        + rewrite (fd_owes e (HF e (m_find_in _ _ _ Ef))). reflexivity.
        + reflexivity. }
    simpl. rewrite !map_app.
    rewrite T1 in P'.
    set (X := map ev (match o with HDelete k => match m_find K D F keq m k with Some e => owes K D F e | None => [] end
                           | _ => [] end)) in *.
    set (Y := map ev (match o with HInsert k kd d dd => owes K D F (Entry k kd d dd) | _ => [] end)) in *.
    set (C := map ev (cancelled K D F keq null (fst (hspec m o)) ops)) in *.
    set (A := map ev (attached K D F ops)) in *.
    change (fst (hspec m o)) with (fst (hspec m o)) in *.
    assert (P2 : Permutation (htrace K D F h' ++ owed m' ++ X ++ C)
                             (X ++ htrace K D F h' ++ owed m' ++ C)).
    { rewrite (app_assoc (htrace K D F h')). rewrite Permutation_app_swap_app.
      rewrite <- app_assoc. reflexivity. }
    unfold C in *. simpl in P2.
    etransitivity; [exact P2|]. rewrite P'. rewrite <- !app_assoc.
    transitivity (htrace K D F h ++ (fired m o ++ owed (fst (hspec m o)) ++ X) ++ A).
    + rewrite (Permutation_app_comm X). rewrite <- !app_assoc. apply Permutation_app_head.
      apply Permutation_app_head. apply Permutation_app_head. apply Permutation_app_comm.
    + rewrite B. rewrite <- !app_assoc. reflexivity.
Qed.

Lemma free_events (l : list hnode) m : Permutation (map ent l) m -> Forall entry_ok m ->
  Permutation (flat_map (free_data_events K D F knull dnull) l) (owed m).
Proof.
  intros P OK. rewrite <- (owed_perm _ _ P).
  assert (OK2 : forall n, In n l -> entry_ok (ent n)).
  { rewrite Forall_forall in OK. intros n Hn. apply OK. apply (Permutation_in _ P). apply in_map; exact Hn. }
  clear P OK. induction l as [|n l IH]; simpl; [constructor|].
  rewrite IH by (intros; apply OK2; right; assumption).
  apply Permutation_app_tail. rewrite <- (fd_owes (ent n)) by (apply OK2; left; reflexivity). reflexivity.
Qed.

Lemma C10_lemma step ops : 1 <= step -> Forall (no_null_owed K D F knull dnull) ops ->
  exists h ans, hexec_all (hash_new_full K D F step) ops = Ok (h, ans) /\
    Permutation (hash_free K D F knull dnull h ++ map ev (cancelled K D F keq null [] ops))
                (map ev (attached K D F ops)).
Proof.
  intros H FO. destruct (reach step ops H) as (h & ans & m & E & R & _ & _).
  exists h, ans. split; [exact E|].
  destruct (ledger ops _ _ _ _ (hrep_new step H) (Forall_nil _) FO E) as (m' & R' & OK' & P).
  simpl in P. rewrite <- P. unfold hash_free. rewrite <- app_assoc.
  apply Permutation_app_head. apply Permutation_app_tail.
  apply free_events; [apply R'|exact OK'].
Qed.

End HashProofs.
