From Coq Require Import Permutation.
From Verif Require Import Prelude HashModel HashSpec HashExec HashProofs HashProofs2 HashStrProofs
  StrModel StrSpec StrProofs EscModel EscSpec EscProofs EscProofs2 AttrModel AttrSpec AttrExec.
Open Scope Z_scope.
Local Arguments Z.of_nat : simpl never.
Local Arguments Z.add : simpl never.
Local Arguments Z.sub : simpl never.
Local Arguments Z.leb : simpl never.
Local Arguments Z.ltb : simpl never.

Notation ahrep := (hrep bytes (option bytes) unit shash skeq).

Lemma skeq_bytes a b : skeq a b = bytes_eqb a b.
Proof.
  destruct (skeq a b) eqn:E, (bytes_eqb a b) eqn:E2; auto.
  - apply skeq_spec in E. subst. rewrite bytes_eqb_refl in E2. discriminate.
  - apply bytes_eqb_eq in E2. subst. rewrite <- E. apply skeq_spec. reflexivity.
Qed.

(** ** association lists *)
Section Assoc.
Context {V : Type}.
Implicit Types m : amap V.
Lemma a_find_some m k v : a_find m k = Some v -> In (k, v) m.
Proof.
  unfold a_find. induction m as [|[k' v'] m IH]; simpl; [discriminate|].
  destruct (bytes_eqb k' k) eqn:E.
  - simpl. intro X. injection X as ->. apply bytes_eqb_eq in E. subst. auto.
  - auto.
Qed.
Lemma a_find_in m k v : NoDup (map fst m) -> In (k, v) m -> a_find m k = Some v.
Proof.
  unfold a_find. induction m as [|[k' v'] m IH]; simpl; intros ND H; [contradiction|].
  inversion ND as [|? ? N1 N2]; subst. destruct (bytes_eqb k' k) eqn:E.
  - apply bytes_eqb_eq in E. subst. destruct H as [H|H]; [injection H as ->; reflexivity|].
    exfalso. apply N1. apply in_map_iff. exists (k, v). auto.
  - destruct H as [H|H]; [injection H as -> ->; rewrite bytes_eqb_refl in E; discriminate|]. auto.
Qed.
Lemma a_find_none m k : a_find m k = None <-> ~ In k (map fst m).
Proof.
  unfold a_find. induction m as [|[k' v'] m IH]; simpl; [tauto|].
  destruct (bytes_eqb k' k) eqn:E; simpl.
  - apply bytes_eqb_eq in E. subst. split; [discriminate|tauto].
  - apply bytes_eqb_neq in E. rewrite IH. tauto.
Qed.
Lemma a_find_perm m m' k : NoDup (map fst m) -> Permutation m m' -> a_find m k = a_find m' k.
Proof.
  intros ND P. assert (ND' : NoDup (map fst m')) by (eapply Permutation_NoDup; [apply Permutation_map; exact P|exact ND]).
  destruct (a_find m k) as [v|] eqn:E.
  - symmetry. apply a_find_in; [exact ND'|]. eapply Permutation_in; [exact P|]. apply a_find_some. exact E.
  - symmetry. apply a_find_none. apply a_find_none in E. intro H. apply E.
    eapply Permutation_in; [apply Permutation_map, Permutation_sym; exact P|exact H].
Qed.
Lemma a_del_perm m m' k : Permutation m m' -> Permutation (a_del m k) (a_del m' k).
Proof. apply filter_perm. Qed.
Lemma a_del_keys m k x : In x (map fst (a_del m k)) <-> In x (map fst m) /\ x <> k.
Proof.
  unfold a_del. rewrite !in_map_iff. split.
  - intros ([k' v'] & E & I). apply filter_In in I. simpl in *. destruct I as [I1 I2]. subst k'.
    apply negb_true_iff, bytes_eqb_neq in I2. split; [exists (x, v'); auto|exact I2].
  - intros [([k' v'] & E & I) N]. simpl in E. subst k'. exists (x, v'). split; [reflexivity|].
    apply filter_In. split; [exact I|]. simpl. apply negb_true_iff, bytes_eqb_neq. exact N.
Qed.
Lemma a_del_nodup m k : NoDup (map fst m) -> NoDup (map fst (a_del m k)).
Proof.
  induction m as [|[k' v'] m IH]; simpl; intro ND; [constructor|]. inversion ND as [|? ? N1 N2]; subst.
  destruct (bytes_eqb k' k); simpl; [auto|]. constructor; [|auto].
  intro H. apply N1. apply (a_del_keys m k) in H. tauto.
Qed.
Lemma a_del_absent m k : a_find m k = None -> a_del m k = m.
Proof.
  rewrite a_find_none. unfold a_del. induction m as [|[k' v'] m IH]; simpl; intro H; [reflexivity|].
  destruct (bytes_eqb k' k) eqn:E; simpl.
  - apply bytes_eqb_eq in E. tauto.
  - f_equal. apply IH. tauto.
Qed.
Lemma a_del_len m k v : NoDup (map fst m) -> a_find m k = Some v -> S (length (a_del m k)) = length m.
Proof.
  induction m as [|[k' v'] m IH]; [discriminate|]. intros ND E. inversion ND as [|? ? N1 N2]; subst.
  unfold a_del, a_find in *. simpl in *. destruct (bytes_eqb k' k) eqn:Ek; simpl in *.
  - f_equal. apply bytes_eqb_eq in Ek. subst k'. f_equal.
    change (a_del m k = m). apply a_del_absent. apply a_find_none. exact N1.
  - f_equal. apply IH; assumption.
Qed.
End Assoc.

(** ** representation *)
Notation vmap := (amap (option bytes)).
Definition apair (a : attr) : bytes * option bytes := (a_name a, a_value a).
Inductive arep : attrs -> vmap -> Prop :=
| arep_list l m : Permutation (map apair l) m -> NoDup (map fst m) -> Forall nul_free (map fst m) -> (length l <= 10)%nat ->
    arep (Attrs (AList l) (Z.of_nat (length l))) m
| arep_hash h em m : ahrep h em -> Permutation (m_pairs em) m -> NoDup (map fst m) -> Forall nul_free (map fst m) ->
    (11 <= length m)%nat ->
    arep (Attrs (AHash h) (Z.of_nat (length m))) m.

Lemma arep_nodup n m : arep n m -> NoDup (map fst m).
Proof. destruct 1; assumption. Qed.
Lemma arep_nul n m : arep n m -> Forall nul_free (map fst m).
Proof. destruct 1; assumption. Qed.
Lemma arep_perm n m m' : arep n m -> Permutation m m' -> arep n m'.
Proof.
  intros R P.
  assert (A : forall x : vmap, Permutation m m' -> NoDup (map fst m) -> NoDup (map fst m')).
  { intros. eapply Permutation_NoDup; [apply Permutation_map; exact P|assumption]. }
  assert (B : Forall nul_free (map fst m) -> Forall nul_free (map fst m')).
  { rewrite !Forall_forall. intros H x I. apply H. eapply Permutation_in; [apply Permutation_map, Permutation_sym; exact P|exact I]. }
  destruct R as [l m H1 H2 H3 H4|h em m H1 H2 H3 H4 H5].
  - constructor; eauto. etransitivity; eassumption.
  - rewrite (Permutation_length P). eapply arep_hash; eauto; [etransitivity; eassumption|].
    rewrite <- (Permutation_length P). exact H5.
Qed.
Lemma arep_none : arep no_attrs [].
Proof. apply (arep_list [] []); [reflexivity|constructor|constructor|simpl; lia]. Qed.

(** ** the list *)
Lemma axl_cmp_names a b : nul_free a -> nul_free b -> axl_cmp (Some (cs a)) (Some (cs b)) = Ok (bytes_eqb a b).
Proof. intros. apply cmp_ok; assumption. Qed.
Lemma list_find_ok l k : Forall nul_free (map a_name l) -> nul_free k ->
  list_find l k = Ok (find (fun a => bytes_eqb (a_name a) k) l).
Proof.
  intros H Hk. induction l as [|a l IH]; cbn [list_find find map]; [reflexivity|]. inversion H; subst.
  rewrite axl_cmp_names by assumption. cbn [bind]. destruct (bytes_eqb (a_name a) k); [reflexivity|]. auto.
Qed.
Lemma find_apair l k : option_map snd (find (fun p => bytes_eqb (fst p) k) (map apair l)) =
  option_map a_value (find (fun a => bytes_eqb (a_name a) k) l).
Proof.
  induction l as [|a l IH]; simpl; [reflexivity|]. destruct (bytes_eqb (a_name a) k); [reflexivity|exact IH].
Qed.
Lemma list_unlink_ok l k : Forall nul_free (map a_name l) -> nul_free k -> NoDup (map a_name l) ->
  list_unlink l k = Ok (if existsb (fun a => bytes_eqb (a_name a) k) l
                        then Some (filter (fun a => negb (bytes_eqb (a_name a) k)) l) else None).
Proof.
  intros H Hk ND. induction l as [|a l IH]; cbn [list_unlink existsb filter map]; [reflexivity|]. inversion H; subst. inversion ND; subst.
  rewrite axl_cmp_names by assumption. cbn [bind]. destruct (bytes_eqb (a_name a) k) eqn:E; simpl.
  - apply bytes_eqb_eq in E. subst k. f_equal. f_equal. symmetry. apply forallb_filter_id.
    apply forallb_forall. intros x I. apply negb_true_iff, bytes_eqb_neq. intro E.
    match goal with N : ~ In _ _ |- _ => apply N end. rewrite <- E. apply in_map. exact I.
  - rewrite IH by assumption. cbn [bind]. destruct (existsb _ l); reflexivity.
Qed.
Lemma keys_apair l : map fst (map apair l) = map a_name l.
Proof. rewrite map_map. reflexivity. Qed.
Lemma list_keys l m : Permutation (map apair l) m -> Forall nul_free (map fst m) -> Forall nul_free (map a_name l).
Proof.
  intros P H. rewrite <- keys_apair. rewrite Forall_forall in *. intros x I. apply H.
  eapply Permutation_in; [apply Permutation_map; exact P|exact I].
Qed.
Lemma list_nodup l m : Permutation (map apair l) m -> NoDup (map fst m) -> NoDup (map a_name l).
Proof.
  intros P H. rewrite <- keys_apair. eapply Permutation_NoDup; [apply Permutation_map, Permutation_sym; exact P|exact H].
Qed.

(** ** the hash *)
Lemma m_find_a em k : option_map (fun e => e_data e) (m_find bytes (option bytes) unit skeq em k) = a_find (m_pairs em) k.
Proof.
  unfold m_find, a_find, m_pairs. induction em as [|e em IH]; simpl; [reflexivity|].
  rewrite skeq_bytes. destruct (bytes_eqb (e_key e) k); [reflexivity|exact IH].
Qed.
Lemma m_del_a em k : m_pairs (m_del bytes (option bytes) unit skeq em k) = a_del (m_pairs em) k.
Proof.
  unfold m_del, a_del, m_pairs. induction em as [|e em IH]; simpl; [reflexivity|].
  rewrite skeq_bytes. destruct (bytes_eqb (e_key e) k); simpl; [exact IH|rewrite IH; reflexivity].
Qed.

Lemma ah_insert_ok h em k fac v : ahrep h em -> a_find (m_pairs em) k = None ->
  exists h' em', ah_insert h k (handler fac) v (handler fac) = Ok h' /\ ahrep h' em' /\
    m_pairs em' = (k, v) :: m_pairs em.
Proof.
  intros R N. destruct (insert_spec bytes (option bytes) unit shash skeq str_key_ok h em k (handler fac) v (handler fac) R)
    as (h' & E & R' & _). exists h'. eexists. split; [exact E|]. split; [exact R'|].
  unfold m_put. cbn [m_pairs map e_key e_data]. f_equal.
  change (m_pairs (m_del bytes (option bytes) unit skeq em k) = m_pairs em). rewrite m_del_a. apply a_del_absent. exact N.
Qed.
Lemma ah_exists_ok h em k : ahrep h em ->
  ah_exists h k = Ok (match a_find (m_pairs em) k with Some _ => true | None => false end).
Proof.
  intro R. destruct (hexec_spec bytes (option bytes) unit shash skeq str_key_ok (fun _ => false) (fun _ => false) None h em (HExists k) R)
    as (h' & E & _). cbn [hexec hspec snd] in E. destruct (ah_exists h k); try discriminate. cbn [bind] in E.
  injection E as _ E. rewrite E. rewrite <- m_find_a. destruct (m_find _ _ _ _ em k); reflexivity.
Qed.
Lemma ah_get_ok h em k : ahrep h em ->
  ah_get h k = Ok (match a_find (m_pairs em) k with Some v => v | None => None end).
Proof.
  intro R. destruct (hexec_spec bytes (option bytes) unit shash skeq str_key_ok (fun _ => false) (fun _ => false) None h em (HGet k) R)
    as (h' & E & _). cbn [hexec hspec snd] in E. destruct (ah_get h k); try discriminate. cbn [bind] in E.
  injection E as _ E. rewrite E. rewrite <- m_find_a. destruct (m_find _ _ _ _ em k); reflexivity.
Qed.
Lemma ah_items_ok h em : ahrep h em -> ah_items h = Z.of_nat (length (m_pairs em)).
Proof.
  intro R. unfold hash_items. rewrite (hr_items _ _ _ _ _ _ _ R), <- (perm_len _ _ _ _ _ _ _ R).
  unfold m_pairs. rewrite map_length. reflexivity.
Qed.
Lemma ah_remove_ok h em k : ahrep h em ->
  exists h' em' b, ah_remove h k = Ok (h', b) /\ ahrep h' em' /\ m_pairs em' = a_del (m_pairs em) k.
Proof.
  intro R. unfold hash_remove. destruct (unlink_spec bytes (option bytes) unit shash skeq str_key_ok h em k R)
    as (o & h' & E & _ & R' & _). rewrite E. cbn [bind]. exists (match o with None => h' | Some n => add_trace _ _ _ h' (kd_event _ _ _ n ++ dd_event _ _ _ n) end).
  exists (m_del bytes (option bytes) unit skeq em k), (match o with Some _ => true | None => false end).
  split; [destruct o; reflexivity|]. split; [|apply m_del_a]. destruct o; [apply hrep_trace|]; exact R'.
Qed.

Lemma list_to_hash_ok : forall l h em, ahrep h em ->
  NoDup (map fst (map apair l ++ m_pairs em)) ->
  exists h' em', list_to_hash l h = Ok h' /\ ahrep h' em' /\ Permutation (m_pairs em') (map apair l ++ m_pairs em).
Proof.
  induction l as [|a l IH]; intros h em R ND; cbn [list_to_hash].
  - exists h, em. split; [reflexivity|]. split; [exact R|reflexivity].
  - simpl in ND. inversion ND as [|? ? N1 N2]; subst.
    assert (Na : a_find (m_pairs em) (a_name a) = None).
    { apply a_find_none. intro I. apply N1. rewrite map_app, in_app_iff. right. exact I. }
    destruct (ah_insert_ok h em (a_name a) (a_fac a) (a_value a) R Na) as (h1 & em1 & E1 & R1 & M1).
    rewrite E1. cbn [bind].
    destruct (IH h1 em1 R1) as (h2 & em2 & E2 & R2 & P2).
    { rewrite M1. eapply Permutation_NoDup; [|exact ND]. 
      change (a_name a :: map fst (map apair l ++ m_pairs em)) with (map fst (apair a :: (map apair l ++ m_pairs em))).
      apply Permutation_map. apply Permutation_middle. }
    exists h2, em2. split; [exact E2|]. split; [exact R2|]. rewrite P2, M1. symmetry. apply Permutation_middle.
Qed.

(** ** the operations *)
Lemma has_attribute_ok n m k : arep n m -> nul_free k ->
  has_attribute n k = Ok (match a_find m k with Some _ => true | None => false end).
Proof.
  intros R Hk. destruct R as [l m H1 H2 H3 H4|h em m H1 H2 H3 H4 H5]; unfold has_attribute; cbn [a_store a_num].
  - destruct l as [|a l].
    { apply Permutation_nil in H1. subst m. reflexivity. }
    cbn [is_null]. destruct (Z.leb_spec (Z.of_nat (length (a :: l))) 10); [|lia]. cbn [as_list bind].
    rewrite list_find_ok by (auto; eapply list_keys; eassumption). cbn [bind].
    rewrite <- (a_find_perm (map apair (a :: l)) m k).
    + unfold a_find. rewrite find_apair. destruct (find _ (a :: l)); reflexivity.
    + rewrite keys_apair. eapply list_nodup; eassumption.
    + exact H1.
  - cbn [is_null]. destruct (Z.leb_spec (Z.of_nat (length m)) 10); [lia|]. cbn [as_hash bind].
    rewrite (ah_exists_ok h em k H1). rewrite (a_find_perm (m_pairs em) m k); [reflexivity| |exact H2].
    eapply Permutation_NoDup; [apply Permutation_map, Permutation_sym; exact H2|exact H3].
Qed.
Lemma get_attribute_ok n m k : arep n m -> nul_free k ->
  get_attribute_value n k = Ok (match a_find m k with Some v => v | None => None end).
Proof.
  intros R Hk. destruct R as [l m H1 H2 H3 H4|h em m H1 H2 H3 H4 H5]; unfold get_attribute_value; cbn [a_store a_num].
  - destruct l as [|a l].
    { apply Permutation_nil in H1. subst m. reflexivity. }
    cbn [is_null]. destruct (Z.leb_spec (Z.of_nat (length (a :: l))) 10); [|lia]. cbn [as_list bind].
    rewrite list_find_ok by (auto; eapply list_keys; eassumption). cbn [bind].
    rewrite <- (a_find_perm (map apair (a :: l)) m k).
    + unfold a_find. rewrite find_apair. destruct (find _ (a :: l)); reflexivity.
    + rewrite keys_apair. eapply list_nodup; eassumption.
    + exact H1.
  - cbn [is_null]. destruct (Z.leb_spec (Z.of_nat (length m)) 10); [lia|]. cbn [as_hash bind].
    rewrite (ah_get_ok h em k H1). rewrite (a_find_perm (m_pairs em) m k); [reflexivity| |exact H2].
    eapply Permutation_NoDup; [apply Permutation_map, Permutation_sym; exact H2|exact H3].
Qed.
Lemma num_attributes_ok n m : arep n m -> num_attributes n = Ok (Z.of_nat (length m)).
Proof.
  intros R. destruct R as [l m H1 H2 H3 H4|h em m H1 H2 H3 H4 H5]; unfold num_attributes; cbn [a_store a_num].
  - destruct (Z.leb_spec (Z.of_nat (length l)) 10); [|lia]. rewrite <- (Permutation_length H1), map_length. reflexivity.
  - destruct (Z.leb_spec (Z.of_nat (length m)) 10); [lia|]. cbn [as_hash bind].
    rewrite (ah_items_ok h em H1), (Permutation_length H2). reflexivity.
Qed.
Lemma has_attributes_ok n m : arep n m -> has_attributes n = match m with [] => false | _ => true end.
Proof.
  intros R. destruct R as [l m H1 H2 H3 H4|h em m H1 H2 H3 H4 H5]; unfold has_attributes; cbn [a_store].
  - pose proof (Permutation_length H1) as L. rewrite map_length in L. destruct l, m; simpl in *; try lia; reflexivity.
  - destruct m; simpl in *; [lia|reflexivity].
Qed.

Lemma set_core_ok n m k v fac : arep n m -> nul_free k ->
  exists n', set_attribute_core n k v fac = Ok (n', match a_find m k with Some _ => false | None => true end) /\
    arep n' (a_add m k v).
Proof.
  intros R Hk. unfold set_attribute_core, a_add.
  pose proof (has_attribute_ok n m k R Hk) as Hh.
  pose proof (arep_nodup _ _ R) as ND. pose proof (arep_nul _ _ R) as NF.
  assert (ND' : a_find m k = None -> NoDup (map fst ((k, v) :: m))).
  { intro E. simpl. constructor; [apply a_find_none; exact E|exact ND]. }
  assert (NF' : Forall nul_free (map fst ((k, v) :: m))) by (simpl; constructor; assumption).
  destruct R as [l m H1 H2 H3 H4|h em m H1 H2 H3 H4 H5]; cbn [a_store a_num] in *.
  - destruct l as [|a l].
    { apply Permutation_nil in H1. subst m. cbn [is_null]. eexists. split; [reflexivity|].
      apply (arep_list [Attr k v fac]); auto; simpl; lia. }
    cbn [is_null]. destruct (Z.ltb_spec (Z.of_nat (length (a :: l))) 10).
    + rewrite Hh. cbn [bind]. destruct (a_find m k) eqn:E.
      * eexists. split; [reflexivity|]. constructor; assumption.
      * cbn [as_list bind]. eexists. split; [reflexivity|].
        replace (Z.of_nat (length (a :: l)) + 1) with (Z.of_nat (length (Attr k v fac :: a :: l))) by (cbn [length]; lia).
        constructor; auto; [|cbn [length] in *; lia]. cbn [map apair a_name a_value]. constructor. exact H1.
    + assert (L : length (a :: l) = 10%nat) by lia. rewrite Hh. cbn [bind]. destruct (a_find m k) eqn:E.
      * eexists. split; [reflexivity|]. constructor; assumption.
      * rewrite L. change (Z.of_nat 10 =? 10) with true. cbv iota. cbn [as_list bind].
        destruct (list_to_hash_ok (a :: l) _ [] (hrep_new bytes (option bytes) unit shash skeq 1 (le_n 1)))
          as (h1 & em1 & E1 & R1 & P1).
        { change (m_pairs []) with (@nil (bytes * option bytes)). rewrite app_nil_r, keys_apair. eapply list_nodup; eassumption. }
        rewrite E1. cbn [bind]. change (m_pairs []) with (@nil (bytes * option bytes)) in P1. rewrite app_nil_r in P1.
        assert (P2 : Permutation (m_pairs em1) m) by (etransitivity; eassumption).
        assert (N2 : a_find (m_pairs em1) k = None).
        { rewrite (a_find_perm (m_pairs em1) m k); [exact E| |exact P2].
          eapply Permutation_NoDup; [apply Permutation_map, Permutation_sym; exact P2|exact H2]. }
        destruct (ah_insert_ok h1 em1 k fac v R1 N2) as (h2 & em2 & E2 & R2 & M2). rewrite E2. cbn [bind].
        eexists. split; [reflexivity|].
        pose proof (Permutation_length H1) as Lm. rewrite map_length, L in Lm.
        replace (Z.of_nat 10 + 1) with (Z.of_nat (length ((k, v) :: m))) by (cbn [length]; lia).
        eapply arep_hash; eauto; [rewrite M2; constructor; exact P2|cbn [length]; lia].
  - cbn [is_null]. destruct (Z.ltb_spec (Z.of_nat (length m)) 10); [lia|].
    rewrite Hh. cbn [bind]. destruct (a_find m k) eqn:E.
    + eexists. split; [reflexivity|]. eapply arep_hash; eassumption.
    + destruct (Z.eqb_spec (Z.of_nat (length m)) 10); [lia|]. cbn [as_hash bind].
      assert (N2 : a_find (m_pairs em) k = None).
      { rewrite (a_find_perm (m_pairs em) m k); [exact E| |exact H2].
        eapply Permutation_NoDup; [apply Permutation_map, Permutation_sym; exact H2|exact H3]. }
      destruct (ah_insert_ok h em k fac v H1 N2) as (h2 & em2 & E2 & R2 & M2). rewrite E2. cbn [bind].
      eexists. split; [reflexivity|].
      replace (Z.of_nat (length m) + 1) with (Z.of_nat (length ((k, v) :: m))) by (cbn [length]; lia).
      eapply arep_hash; eauto; [rewrite M2; constructor; exact H2|cbn [length]; lia].
Qed.

(** ** clean strings are not changed by escaping *)
Lemma clean_ent c s : clean (c :: s) -> EscProofs.ent c = None.
Proof.
  intro H. specialize (H c (or_introl eq_refl)). destruct (ent_cases c) as [E|D]; [exact E|].
  exfalso. apply H. destruct D as [[-> _]|[[-> _]|[[-> _]|[[-> _]|[-> _]]]]]; vm_compute; tauto.
Qed.
Lemma clean_esc s : clean s -> esc false s = s.
Proof.
  rewrite esc_chars. induction s as [|c s IH]; intro H; [reflexivity|]. cbn [flat_map]. unfold echar.
  rewrite (clean_ent c s H). cbn [app]. f_equal. apply IH. intros x I. apply H. right. exact I.
Qed.
Lemma esc_clean_nonempty s : s <> [] -> esc false s <> [].
Proof.
  intros H E. pose proof (esc_len false _ s (le_n _)) as L. rewrite E in L. destruct s; [contradiction|simpl in L; lia].
Qed.
Lemma esc_nul_free s : nul_free s -> nul_free (esc false s).
Proof. intro H. rewrite esc_chars. apply chars_nul_free. exact H. Qed.

Lemma set_attribute_ok n m k v : arep n m -> good_name k -> nul_free v ->
  exists n', set_attribute n k v = Ok n' /\ arep n' (a_add m k (Some (esc false v))).
Proof.
  intros R (Hne & Hn & Hc) Hv. unfold set_attribute. destruct k as [|c k]; [contradiction|].
  unfold cs at 1 2. rewrite !attr_escape_ok by assumption. cbn [bind]. unfold cs.
  rewrite (clean_esc (c :: k) Hc), !cstr_holds by (try assumption; apply esc_nul_free; assumption).
  destruct (set_core_ok n m (c :: k) (Some (esc false v)) false R Hn) as (n' & E & R'). rewrite E. cbn [bind].
  exists n'. split; [reflexivity|exact R'].
Qed.

(** removal *)
Definition good_pair (p : bytes * option bytes) : Prop :=
  good_name (fst p) /\ exists v, snd p = Some v /\ nul_free v.
Definition re_esc (p : bytes * option bytes) : bytes * option bytes :=
  (fst p, option_map (esc false) (snd p)).

Lemma reinsert_loop : forall l n m, arep n m ->
  Forall good_pair (map (pr bytes (option bytes) unit) l) ->
  NoDup (map fst (map (pr bytes (option bytes) unit) l ++ m)) ->
  exists n', fold_left (fun a x => fst (reinsert x a)) l (Ok n) = Ok n' /\
    arep n' (rev (map re_esc (map (pr bytes (option bytes) unit) l)) ++ m).
Proof.
  induction l as [|x l IH]; intros n m R G ND; cbn [fold_left map rev].
  - exists n. split; [reflexivity|exact R].
  - inversion G as [|? ? G1 G2]; subst. destruct G1 as (G1 & v & Ev & Gv). cbn [fst snd pr] in *.
    cbn [map app fst pr] in ND. inversion ND as [|? ? N1 N2]; subst.
    unfold reinsert at 2. cbn [fst bind]. rewrite Ev.
    destruct (set_attribute_ok n m _ v R G1 Gv) as (n1 & E1 & R1). rewrite E1.
    assert (Na : a_find m (h_key bytes (option bytes) unit x) = None).
    { apply a_find_none. intro I. apply N1. rewrite map_app, in_app_iff. right. exact I. }
    unfold a_add in R1. rewrite Na in R1.
    destruct (IH _ _ R1 G2) as (n2 & E2 & R2).
    { rewrite map_app in *. cbn [map fst]. eapply Permutation_NoDup; [apply Permutation_middle|]. constructor; assumption. }
    exists n2. split; [exact E2|]. rewrite <- app_assoc. cbn [app]. unfold re_esc at 2. cbn [pr fst snd]. rewrite Ev. exact R2.
Qed.

Lemma remove_attribute_ok n m k : arep n m -> nul_free k -> Forall good_pair m ->
  exists n' m', remove_attribute n k = Ok n' /\ arep n' m' /\
    (m' = a_del m k \/ (a_find m k <> None /\ length m = 11%nat /\ m' = map re_esc (a_del m k))).
Proof.
  intros R Hk G. pose proof (arep_nodup _ _ R) as ND. pose proof (arep_nul _ _ R) as NF.
  assert (Fd : Forall nul_free (map fst (a_del m k))).
  { rewrite Forall_forall in *. intros x I. apply (a_del_keys m k) in I. apply NF. tauto. }
  destruct R as [l m H1 H2 H3 H4|h em m H1 H2 H3 H4 H5]; unfold remove_attribute; cbn [a_store a_num].
  - destruct l as [|a l].
    { apply Permutation_nil in H1. subst m. cbn [is_null]. exists (Attrs (AList []) 0), []. split; [reflexivity|].
      split; [apply arep_none|left; reflexivity]. }
    cbn [is_null]. destruct (Z.leb_spec (Z.of_nat (length (a :: l))) 10); [|lia]. cbn [as_list bind].
    pose proof (list_nodup _ _ H1 H2) as NDl.
    rewrite list_unlink_ok by (auto; eapply list_keys; eassumption). cbn [bind].
    set (L := a :: l) in *.
    assert (Ex : existsb (fun a => bytes_eqb (a_name a) k) L = match a_find m k with Some _ => true | None => false end).
    { rewrite <- (a_find_perm (map apair L) m k); [|rewrite keys_apair; exact NDl|exact H1].
      unfold a_find. rewrite find_apair. clearbody L. clear. induction L as [|x L IH]; simpl; [reflexivity|].
      destruct (bytes_eqb (a_name x) k); [reflexivity|exact IH]. }
    rewrite Ex. destruct (a_find m k) as [v|] eqn:E.
    + assert (Pd : Permutation (map apair (filter (fun a0 => negb (bytes_eqb (a_name a0) k)) L)) (a_del m k)).
      { rewrite <- (a_del_perm _ _ k H1). clearbody L. clear. unfold a_del. induction L as [|x L IH]; simpl; [reflexivity|].
        destruct (bytes_eqb (a_name x) k); simpl; [exact IH|constructor; exact IH]. }
      pose proof (Permutation_length Pd) as Lp. rewrite map_length in Lp.
      pose proof (a_del_len m k v H2 E) as Ld. pose proof (Permutation_length H1) as Lm. rewrite map_length in Lm.
      eexists. exists (a_del m k). split; [reflexivity|]. split; [|left; reflexivity].
      replace (Z.of_nat (length L) - 1) with (Z.of_nat (length (filter (fun a0 => negb (bytes_eqb (a_name a0) k)) L))) by lia.
      constructor; auto; [apply a_del_nodup; exact H2|lia].
    + eexists. exists m. split; [reflexivity|]. split; [constructor; assumption|]. left. symmetry. apply a_del_absent. exact E.
  - cbn [is_null]. destruct (Z.leb_spec (Z.of_nat (length m)) 10); [lia|]. cbn [as_hash bind].
    destruct (ah_remove_ok h em k H1) as (h' & em' & b & E & R' & M'). rewrite E. cbn [bind].
    assert (P' : Permutation (m_pairs em') (a_del m k)) by (rewrite M'; apply a_del_perm; exact H2).
    rewrite (ah_items_ok h' em' R'), (Permutation_length P').
    destruct (Z.eqb_spec (Z.of_nat (length (a_del m k))) 10) as [E10|N10].
    + unfold hash_foreach. rewrite foreach_all by reflexivity.
      assert (Pp : Permutation (map (pr bytes (option bytes) unit) (concat (table _ _ _ h'))) (a_del m k)).
      { rewrite <- P'. exact (pairs_perm _ _ _ _ _ _ _ R'). }
      destruct (reinsert_loop (concat (table _ _ _ h')) no_attrs [] arep_none) as (n' & En & Rn).
      * rewrite Forall_forall in *. intros p I. apply G.
        eapply Permutation_in in I; [|exact Pp]. unfold a_del in I. apply filter_In in I. tauto.
      * rewrite app_nil_r. eapply Permutation_NoDup; [apply Permutation_map, Permutation_sym; exact Pp|].
        apply a_del_nodup. exact H3.
      * rewrite app_nil_r in Rn. exists n', (map re_esc (a_del m k)). split; [exact En|]. split.
        { eapply arep_perm; [exact Rn|]. rewrite <- Permutation_rev. apply Permutation_map. exact Pp. }
        right. destruct (a_find m k) as [v|] eqn:Ef.
        { pose proof (a_del_len m k v H3 Ef). split; [discriminate|]. split; [lia|reflexivity]. }
        { rewrite (a_del_absent m k Ef) in E10. lia. }
    + eexists. exists (a_del m k). split; [reflexivity|]. split; [|left; reflexivity].
      eapply arep_hash; [exact R'|exact P'|apply a_del_nodup; exact H3|exact Fd|].
      destruct (a_find m k) as [v|] eqn:Ef.
      * pose proof (a_del_len m k v H3 Ef). lia.
      * rewrite (a_del_absent m k Ef) in *. lia.
Qed.

(** ** histories *)
(** the stored map against the ideal one *)
Definition sto (p : bytes * bytes) : bytes * option bytes := (fst p, Some (esc false (snd p))).
Lemma a_find_sto m k : a_find (map sto m) k = option_map (fun v => Some (esc false v)) (a_find m k).
Proof.
  unfold a_find. induction m as [|[k' v'] m IH]; simpl; [reflexivity|]. destruct (bytes_eqb k' k); [reflexivity|exact IH].
Qed.
Lemma a_del_sto m k : a_del (map sto m) k = map sto (a_del m k).
Proof.
  unfold a_del. induction m as [|[k' v'] m IH]; simpl; [reflexivity|]. destruct (bytes_eqb k' k); simpl; [exact IH|rewrite IH; reflexivity].
Qed.
Lemma a_add_sto m k v : a_add (map sto m) k (Some (esc false v)) = map sto (a_add m k v).
Proof. unfold a_add. rewrite a_find_sto. destruct (a_find m k); reflexivity. Qed.

Definition good_entry (p : bytes * bytes) : Prop := good_name (fst p) /\ nul_free (snd p).
Lemma good_sto m : Forall good_entry m -> Forall good_pair (map sto m).
Proof.
  rewrite !Forall_forall. intros H p I. apply in_map_iff in I. destruct I as (q & <- & I). destruct (H q I) as [H1 H2].
  split; [exact H1|]. exists (esc false (snd q)). split; [reflexivity|apply esc_nul_free; exact H2].
Qed.
Lemma re_esc_clean m : Forall (fun p => clean (snd p)) m -> map re_esc (map sto m) = map sto m.
Proof.
  induction 1 as [|p m H1 H2 IH]; [reflexivity|]. cbn [map]. rewrite IH. f_equal. unfold re_esc, sto. cbn [fst snd option_map].
  rewrite !(clean_esc _ H1). reflexivity.
Qed.
Lemma stored_esc v : nul_free v -> stored v (esc false v).
Proof.
  intro H. destruct (attr_roundtrip v [] H) as (e & b & E & M & N & T & Hb).
  rewrite attr_escape_ok in E by exact H. unfold cs in E. injection E as E. apply app_inj_tail in E. destruct E as [<- _].
  split; [exact M|]. split; [exact N|]. split; [exists b; split; assumption|]. apply clean_esc.
Qed.
Lemma aspec_good m o : Forall good_entry m -> good_op o -> Forall good_entry (fst (aspec m o)).
Proof.
  intros H G. destruct o as [k v|k|k|k| |]; cbn [aspec fst]; try exact H.
  - unfold a_add. destruct (a_find m k); [exact H|]. constructor; [|exact H]. destruct G. split; assumption.
  - unfold a_del. rewrite Forall_forall in *. intros p I. apply filter_In in I. apply H. tauto.
Qed.
Lemma aspec_clean m o : Forall (fun p => clean (snd p)) m -> clean_op o -> Forall (fun p => clean (snd p)) (fst (aspec m o)).
Proof.
  intros H G. destruct o as [k v|k|k|k| |]; cbn [aspec fst]; try exact H.
  - unfold a_add. destruct (a_find m k); [exact H|]. constructor; [exact G|exact H].
  - unfold a_del. rewrite Forall_forall in *. intros p I. apply filter_In in I. apply H. tauto.
Qed.

Lemma aexec_ok n m o : arep n (map sto m) -> Forall good_entry m -> good_op o ->
  (clean_op o /\ Forall (fun p => clean (snd p)) m) \/
    ~ (match o with ARemove k => a_find m k <> None /\ length m = 11%nat | _ => False end) ->
  exists n' a, aexec n o = Ok (n', a) /\ answers (snd (aspec m o)) a /\ arep n' (map sto (fst (aspec m o))).
Proof.
  intros R G Go H. destruct o as [k v|k|k|k| |]; cbn [aexec aspec fst snd good_op] in *.
  - destruct Go as [G1 G2]. destruct (set_attribute_ok n _ k v R G1 G2) as (n' & E & R'). rewrite E. cbn [bind].
    exists n', AUnit. split; [reflexivity|]. split; [exact I|]. rewrite a_add_sto in R'. exact R'.
  - destruct (remove_attribute_ok n _ k R) as (n' & m' & E & R' & D); [apply Go|apply good_sto; exact G|].
    rewrite E. cbn [bind]. exists n', AUnit. split; [reflexivity|]. split; [exact I|].
    rewrite a_del_sto in D. destruct D as [->|(D1 & D2 & ->)]; [exact R'|].
    rewrite a_find_sto in D1. rewrite map_length in D2. destruct H as [[_ H]|H].
    + rewrite re_esc_clean in R'; [exact R'|]. rewrite Forall_forall in *. intros p I. apply H.
      unfold a_del in I. apply filter_In in I. tauto.
    + exfalso. apply H. split; [|exact D2]. destruct (a_find m k); [discriminate|exfalso; apply D1; reflexivity].
  - rewrite (get_attribute_ok n _ k R) by apply Go. cbn [bind]. eexists. eexists. split; [reflexivity|]. split; [|exact R].
    rewrite a_find_sto. destruct (a_find m k) as [v|] eqn:E; cbn [option_map answers]; [|exact I].
    apply stored_esc. apply a_find_some in E. rewrite Forall_forall in G. destruct (G _ E). assumption.
  - rewrite (has_attribute_ok n _ k R) by apply Go. cbn [bind]. eexists. eexists. split; [reflexivity|]. split; [|exact R].
    rewrite a_find_sto. destruct (a_find m k); reflexivity.
  - rewrite (num_attributes_ok n _ R). cbn [bind]. eexists. eexists. split; [reflexivity|]. split; [|exact R].
    rewrite map_length. reflexivity.
  - rewrite (has_attributes_ok n _ R). eexists. eexists. split; [reflexivity|]. split; [|exact R]. destruct m; reflexivity.
Qed.

Lemma aexec_all_ok : forall ops n m, arep n (map sto m) -> Forall good_entry m -> Forall good_op ops ->
  (Forall clean_op ops /\ Forall (fun p => clean (snd p)) m) \/ ~ shrinks m ops ->
  exists n' l, aexec_all n ops = Ok (n', l) /\ Forall2 answers (aspec_all m ops) l /\
    exists m', arep n' m'.
Proof.
  induction ops as [|o ops IH]; intros n m R G Go H; cbn [aexec_all aspec_all].
  - exists n, []. split; [reflexivity|]. split; [constructor|]. exists (map sto m). exact R.
  - inversion Go as [|? ? Go1 Go2]; subst.
    destruct (aexec_ok n m o R G Go1) as (n1 & a & E1 & A1 & R1).
    { destruct H as [[H1 H2]|H]; [left; inversion H1; subst; split; assumption|]. right. intro X. apply H. left. exact X. }
    rewrite E1. cbn [bind].
    destruct (IH n1 (fst (aspec m o)) R1 (aspec_good m o G Go1) Go2) as (n2 & l & E2 & A2 & R2).
    { destruct H as [[H1 H2]|H].
      - left. inversion H1; subst. split; [assumption|]. apply aspec_clean; assumption.
      - right. intro X. apply H. right. exact X. }
    rewrite E2. cbn [bind]. exists n2, (a :: l). split; [reflexivity|]. split; [constructor; assumption|exact R2].
Qed.

(** ** enumeration *)
Lemma list_foreach_ok stop l : list_foreach stop l = take_until stop (map apair l).
Proof.
  induction l as [|a l IH]; cbn [list_foreach map apair take_until]; [reflexivity|].
  destruct (stop (a_name a) (a_value a)); [reflexivity|rewrite IH; reflexivity].
Qed.
Lemma enumerate_ok n m : arep n m ->
  exists order, Permutation order m /\
    (forall stop, attr_foreach stop n = Ok (take_until stop order)) /\
    exists c, attr_cursor_new n = Ok c /\ attr_walk (S (length order)) n c = Ok order.
Proof.
  intro R. destruct R as [l m H1 H2 H3 H4|h em m H1 H2 H3 H4 H5].
  - exists (map apair l). split; [exact H1|]. split.
    + intro stop. unfold attr_foreach. cbn [a_store a_num]. destruct l as [|a l]; [reflexivity|].
      cbn [is_null]. destruct (Z.ltb_spec (Z.of_nat (length (a :: l))) 11); [|lia]. cbn [as_list bind].
      rewrite list_foreach_ok. reflexivity.
    + unfold attr_cursor_new. cbn [a_store a_num]. destruct (Z.leb_spec (Z.of_nat (length l)) 10); [|lia].
      cbn [as_list bind]. eexists. split; [reflexivity|].
      set (n := Attrs (AList l) (Z.of_nat (length l))).
      assert (W : forall r fuel, (length r < fuel)%nat ->
        attr_walk fuel n (ACursor (Z.of_nat (length l)) (PList r)) = Ok (map apair r)).
      { induction r as [|a r IH]; intros fuel Hf; (destruct fuel as [|fuel]; [cbn in Hf; lia|]); cbn [attr_walk];
          unfold attr_cursor_has_item, attr_cursor_get, attr_cursor_next; cbn [ac_count ac_pos a_num n];
          rewrite Z.eqb_refl; cbn [negb]; [reflexivity|].
        cbn [bind of_option]. rewrite IH by (cbn in Hf; lia). reflexivity. }
      apply W. rewrite map_length. lia.
  - exists (pairs _ _ _ h). split; [rewrite <- H2; apply (pairs_perm _ _ _ _ _ _ _ H1)|]. split.
    + intro stop. unfold attr_foreach. cbn [a_store a_num is_null]. destruct (Z.ltb_spec (Z.of_nat (length m)) 11); [lia|].
      cbn [as_hash bind]. f_equal. apply (foreach_spec bytes (option bytes) unit stop h).
    + unfold attr_cursor_new. cbn [a_store a_num]. destruct (Z.leb_spec (Z.of_nat (length m)) 10); [lia|].
      cbn [as_hash bind]. eexists. split; [reflexivity|].
      assert (W : forall fuel c, attr_walk fuel (Attrs (AHash h) (Z.of_nat (length m))) (ACursor (Z.of_nat (length m)) (PHash c)) =
        cursor_walk _ _ _ fuel h c).
      { induction fuel as [|fuel IH]; intro c; cbn [attr_walk cursor_walk]; [reflexivity|].
        unfold attr_cursor_has_item, attr_cursor_get, attr_cursor_next. cbn [ac_count ac_pos a_num a_store].
        rewrite Z.eqb_refl. cbn [negb as_hash bind]. destruct (cursor_has_item c); [|reflexivity].
        destruct (cursor_get _ _ _ h c) as [o| |]; [|reflexivity|reflexivity]. cbn [bind].
        destruct (of_option o) as [p| |]; [|reflexivity|reflexivity]. cbn [bind].
        destruct (cursor_next _ _ _ h c) as [c'| |]; [|reflexivity|reflexivity]. cbn [bind]. rewrite IH. reflexivity. }
      rewrite W. destruct (first_cur bytes (option bytes) unit h None (or_intror eq_refl)) as [l1 C].
      unfold cursor_new. rewrite (walk_spec bytes (option bytes) unit shash skeq h em H1 _ _ _ _ C); [reflexivity|].
      unfold pairs. rewrite map_length. lia.
Qed.

(** ** any history, without condition on the values *)
Lemma good_add m k v : Forall good_pair m -> good_name k -> nul_free v -> Forall good_pair (a_add m k (Some v)).
Proof.
  intros H G Hv. unfold a_add. destruct (a_find m k); [exact H|]. constructor; [|exact H]. split; [exact G|]. exists v. auto.
Qed.
Lemma reach_any : forall ops n m, arep n m -> Forall good_pair m -> Forall good_op ops ->
  exists n' l m', aexec_all n ops = Ok (n', l) /\ arep n' m' /\ Forall good_pair m'.
Proof.
  induction ops as [|o ops IH]; intros n m R G Go; cbn [aexec_all].
  - exists n, [], m. auto.
  - inversion Go as [|? ? G1 G2]; subst.
    assert (S : exists n1 a m1, aexec n o = Ok (n1, a) /\ arep n1 m1 /\ Forall good_pair m1).
    { destruct o as [k v|k|k|k| |]; cbn [aexec good_op] in *.
      - destruct G1 as [Gk Gv]. destruct (set_attribute_ok n m k v R Gk Gv) as (n1 & E & R1). rewrite E. cbn [bind].
        eexists. eexists. eexists. split; [reflexivity|]. split; [exact R1|].
        apply good_add; [exact G|exact Gk|apply esc_nul_free; exact Gv].
      - assert (Gd : Forall good_pair (a_del m k)).
        { rewrite Forall_forall in *. intros p I. unfold a_del in I. apply filter_In in I. apply G. tauto. }
        destruct (remove_attribute_ok n m k R) as (n1 & m1 & E & R1 & D); [apply G1|exact G|]. rewrite E. cbn [bind].
        exists n1, AUnit, m1. split; [reflexivity|]. split; [exact R1|]. destruct D as [->|(_ & _ & ->)]; [exact Gd|].
        rewrite Forall_forall in *. intros p I. apply in_map_iff in I. destruct I as (q & <- & I).
        destruct (Gd q I) as (Q1 & v & Q2 & Q3). split; [exact Q1|]. exists (esc false v). unfold re_esc. cbn [snd]. rewrite Q2.
        split; [reflexivity|apply esc_nul_free; exact Q3].
      - rewrite (get_attribute_ok n m k R) by apply G1. cbn [bind]. eexists. eexists. exists m. auto.
      - rewrite (has_attribute_ok n m k R) by apply G1. cbn [bind]. eexists. eexists. exists m. auto.
      - rewrite (num_attributes_ok n m R). cbn [bind]. eexists. eexists. exists m. auto.
      - eexists. eexists. exists m. auto. }
    destruct S as (n1 & a & m1 & E & R1 & G1'). rewrite E. cbn [bind].
    destruct (IH n1 m1 R1 G1' G2) as (n2 & l & m2 & E2 & R2 & G2'). rewrite E2. cbn [bind].
    exists n2, (a :: l), m2. auto.
Qed.

Lemma C48_lemma ops : Forall good_op ops ->
  exists n ans order, aexec_all no_attrs ops = Ok (n, ans) /\
    NoDup (map fst order) /\
    (forall name, nul_free name -> has_attribute n name = Ok (existsb (fun p => bytes_eqb (fst p) name) order)) /\
    (forall name v, In (name, v) order -> get_attribute_value n name = Ok v) /\
    num_attributes n = Ok (Z.of_nat (length order)) /\
    (forall stop, attr_foreach stop n = Ok (take_until stop order)) /\
    exists c, attr_cursor_new n = Ok c /\ attr_walk (S (length order)) n c = Ok order.
Proof.
  intro G. destruct (reach_any ops no_attrs [] arep_none (Forall_nil _) G) as (n & l & m & E & R & Gm).
  destruct (enumerate_ok n m R) as (order & P & F & c & C1 & C2).
  exists n, l, order. split; [exact E|].
  pose proof (arep_perm _ _ _ R (Permutation_sym P)) as R'. pose proof (arep_nodup _ _ R') as ND.
  split; [exact ND|]. split.
  { intros name Hn. rewrite (has_attribute_ok n order name R' Hn). f_equal. unfold a_find.
    clear. induction order as [|p order IH]; simpl; [reflexivity|]. destruct (bytes_eqb (fst p) name); [reflexivity|exact IH]. }
  split.
  { intros name v I. rewrite (get_attribute_ok n order name R').
    - rewrite (a_find_in order name v ND I). reflexivity.
    - pose proof (arep_nul _ _ R') as NF. rewrite Forall_forall in NF. apply NF. apply in_map_iff. exists (name, v). auto. }
  split; [apply num_attributes_ok; exact R'|]. split; [exact F|]. exists c. auto.
Qed.
Lemma Forall2_at {A B} (R : A -> B -> Prop) n : forall l l' a b, Forall2 R l l' ->
  nth_error l n = Some a -> nth_error l' n = Some b -> R a b.
Proof.
  induction n as [|n IH]; intros l l' a b F E1 E2; inversion F; subst; try discriminate; cbn in E1, E2.
  - injection E1 as ->. injection E2 as ->. assumption.
  - eapply IH; eassumption.
Qed.
