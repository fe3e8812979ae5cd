From Coq Require Import Permutation.
From Verif Require Import Prelude StrModel StrSpec StrProofs StrProofs2 EscModel EscSpec EscProofs EscProofs2 HashModel HashSpec HashProofs HashProofs2 HashStrProofs AttrSpec AttrModel AttrProofs TreeModel XmlSpec DumpProofs EqModel EqSpec.
Open Scope Z_scope.

(** ** attributes *)
Definition vgood (p : bytes * option bytes) : Prop := nul_free (fst p) /\ exists v, snd p = Some v /\ nul_free v.
Lemma vgood_add m k v : Forall vgood m -> nul_free k -> nul_free v -> Forall vgood (a_add m k (Some v)).
Proof.
  intros H Hk Hv. unfold a_add. destruct (a_find m k); [exact H|]. constructor; [|exact H]. split; [exact Hk|].
  exists v. split; [reflexivity|exact Hv].
Qed.
Lemma foreach_perm a m l : arep a m -> attr_foreach (fun _ _ => false) a = Ok l -> Permutation l m.
Proof.
  intros R E. destruct (enumerate_ok a m R) as (o & P & F & _). rewrite F in E. injection E as <-.
  assert (H : take_until (fun _ _ => false) o = o).
  { clear. induction o as [|[k v] o IH]; [reflexivity|]. cbn [take_until]. rewrite IH. reflexivity. }
  rewrite H. exact P.
Qed.
Lemma dup_ok s : nul_free s -> dup s = Ok s.
Proof. intro H. unfold dup. unfold cs. rewrite strdup_ok by exact H. cbn [bind]. unfold cs. rewrite cstr_holds by exact H. reflexivity. Qed.
Lemma copy_attr_list_ok l : Forall vgood (map apair l) ->
  copy_attr_list l = Ok (map (fun a => Attr (a_name a) (a_value a) false) l).
Proof.
  induction l as [|a l IH]; intro G; cbn [copy_attr_list map]; [reflexivity|]. inversion G as [|? ? (N & v & Ev & Hv) Gl]; subst.
  unfold apair in N, Ev. cbn [fst snd] in N, Ev. rewrite dup_ok by exact N. cbn [bind]. rewrite Ev. cbn [dup_opt].
  rewrite dup_ok by exact Hv. cbn [bind]. rewrite IH by exact Gl. reflexivity.
Qed.
Lemma copy_attrs_ok a m : arep a m -> Forall vgood m -> exists a', copy_attrs a = Ok a' /\ arep a' m.
Proof.
  intros R G. unfold copy_attrs. destruct R as [l m H1 H2 H3 H4|h em m H1 H2 H3 H4 H5]; cbn [a_store a_num].
  - destruct l as [|x l]; cbn [is_null].
    + exists no_attrs. split; [reflexivity|]. apply Permutation_nil in H1. subst m. exact arep_none.
    + remember (x :: l) as L. destruct (Z.leb_spec 11 (Z.of_nat (length L))); [lia|]. cbn [as_list bind].
      rewrite copy_attr_list_ok.
      * cbn [bind]. eexists. split; [reflexivity|].
        replace (length L) with (length (map (fun a => Attr (a_name a) (a_value a) false) L)) by apply map_length.
        constructor; [|exact H2|exact H3|rewrite map_length; exact H4]. rewrite map_map. exact H1.
      * rewrite Forall_forall in *. intros q I. apply G. eapply Permutation_in; [exact H1|exact I].
  - cbn [is_null]. destruct (Z.leb_spec 11 (Z.of_nat (length m))); [|lia]. cbn [as_hash bind].
    destruct (copy_spec bytes (option bytes) unit shash skeq str_key_ok (fun k _ _ _ => k) (fun _ _ d _ => d) (fun k _ _ _ => proj2 (skeq_spec k k) eq_refl) h em (Some (Some tt, Some tt)) H1)
      as (r & E & Rr & _). rewrite E. cbn [bind]. eexists. split; [reflexivity|].
    eapply arep_hash; [exact Rr| |exact H3|exact H4|exact H5]. rewrite <- H2. unfold m_pairs. rewrite map_map. reflexivity.
Qed.
Lemma made_arep a : made a -> exists m, arep a m /\ Forall vgood m.
Proof.
  induction 1 as [|a k v fac a' r _ (m & R & G) Hk Hv E|a k v a' _ (m & R & G) Hk Hv E|a k a' l _ (m & R & G) El Gl Hk E|a a' _ (m & R & G) E].
  - exists []. split; [exact arep_none|constructor].
  - destruct (set_core_ok a m k (Some v) fac R Hk) as (n' & E' & R'). exists (a_add m k (Some v)).
    rewrite E' in E. injection E as <- <-. split; [exact R'|apply vgood_add; assumption].
  - destruct (set_attribute_ok a m k v R Hk Hv) as (n' & E' & R').
    rewrite E' in E. injection E as <-. exists (a_add m k (Some (esc false v))). split; [exact R'|].
    apply vgood_add; [exact G|apply Hk|apply esc_nul_free; exact Hv].
  - assert (Gm : Forall good_pair m).
    { pose proof (foreach_perm a m l R El) as P. rewrite Forall_forall in *. intros p I. split.
      - apply Gl. eapply Permutation_in; [apply Permutation_sym; exact P|exact I].
      - destruct (G p I) as (_ & v & ? & ?). exists v. auto. }
    destruct (remove_attribute_ok a m k R Hk Gm) as (n' & m' & E' & R' & D). rewrite E' in E. injection E as <-.
    exists m'. split; [exact R'|].
    assert (Gd : Forall vgood (a_del m k)).
    { rewrite Forall_forall in *. intros p I. apply filter_In in I. apply G. tauto. }
    destruct D as [->|(_ & _ & ->)]; [exact Gd|]. rewrite Forall_map. rewrite Forall_forall in *. intros p I.
    destruct (Gd p I) as (H1 & v & E1 & H2). unfold re_esc. split; [exact H1|].
    cbn [snd]. rewrite E1. cbn. exists (esc false v). split; [reflexivity|apply esc_nul_free; exact H2].
  - destruct (copy_attrs_ok a m R G) as (a2 & E2 & R2). rewrite E2 in E. injection E as <-. exists m. auto.
Qed.

Lemma cmp_opt_some a b : nul_free a -> nul_free b -> cmp_opt (Some a) (Some b) = Ok (bytes_eqb a b).
Proof. intros. unfold cmp_opt. cbn [option_map]. apply axl_cmp_names; assumption. Qed.

Definition pair_eqb (p q : bytes * option bytes) : bool :=
  bytes_eqb (fst p) (fst q) && match snd p, snd q with Some a, Some b => bytes_eqb a b | _, _ => false end.
Lemma pair_eqb_eq p q : vgood p -> (pair_eqb p q = true <-> p = q).
Proof.
  destruct p as [k v], q as [k' v']. intros (_ & w & E & _). cbn [snd] in E. subst v. unfold pair_eqb. cbn [fst snd].
  rewrite andb_true_iff, bytes_eqb_eq. destruct v' as [v'|]; [rewrite bytes_eqb_eq|]; split.
  - intros [-> ->]. reflexivity.
  - intro H. injection H as -> ->. auto.
  - intros [_ H]. discriminate.
  - intro H. discriminate.
Qed.

Lemma attr_in_list_ok a l : vgood (apair a) -> Forall vgood (map apair l) ->
  attr_in_list a l = Ok (existsb (pair_eqb (apair a)) (map apair l)).
Proof.
  intros Ga G. induction l as [|x l IH]; cbn [attr_in_list map existsb]; [reflexivity|].
  inversion G as [|? ? Gx Gl]; subst. destruct Gx as (N & v & Ev & Hv). destruct Ga as (Na & w & Ew & Hw).
  unfold apair in N, Ev, Na, Ew. cbn [fst snd] in *. rewrite axl_cmp_names by assumption. cbn [bind].
  unfold pair_eqb at 1. unfold apair at 1 2 3 4. cbn [fst snd]. rewrite Ev, Ew.
  destruct (bytes_eqb (a_name x) (a_name a)) eqn:E.
  - rewrite cmp_opt_some by assumption. cbn [bind].
    apply bytes_eqb_eq in E. rewrite E, bytes_eqb_refl. cbn [andb].
    destruct (bytes_eqb v w) eqn:E2.
    + apply bytes_eqb_eq in E2. subst w. rewrite bytes_eqb_refl. reflexivity.
    + destruct (bytes_eqb w v) eqn:E3; [apply bytes_eqb_eq in E3; subst w; rewrite bytes_eqb_refl in E2; discriminate|].
      cbn [orb]. apply IH; exact Gl.
  - cbn [bind]. destruct (bytes_eqb (a_name a) (a_name x)) eqn:E3; [apply bytes_eqb_eq in E3; rewrite E3, bytes_eqb_refl in E; discriminate|].
    cbn [andb orb]. apply IH; exact Gl.
Qed.
Lemma attr_list_equal_ok l l2 : Forall vgood (map apair l) -> Forall vgood (map apair l2) ->
  attr_list_equal l l2 = Ok (forallb (fun p => existsb (pair_eqb p) (map apair l2)) (map apair l)).
Proof.
  intros G G2. induction l as [|a l IH]; cbn [attr_list_equal map forallb]; [reflexivity|].
  inversion G as [|? ? Ga Gl]; subst. rewrite attr_in_list_ok by assumption. cbn [bind].
  destruct (existsb _ _); [apply IH; exact Gl|reflexivity].
Qed.
Lemma incl_perm {A} (l l2 : list A) : NoDup l -> length l = length l2 -> (incl l l2 <-> Permutation l l2).
Proof.
  intros N L. split.
  - intro H. apply NoDup_Permutation_bis; [exact N|lia|exact H].
  - intros P x I. eapply Permutation_in; eassumption.
Qed.
Lemma NoDup_fst {A B} (l : list (A * B)) : NoDup (map fst l) -> NoDup l.
Proof.
  induction l as [|x l IH]; intro H; [constructor|]. inversion H as [|? ? N Hl]; subst. constructor; [|apply IH; exact Hl].
  intro I. apply N. apply in_map. exact I.
Qed.

(** the loop over a hash *)
Lemma equal_foreach h em m2 h2 em2 : ahrep h em -> ahrep h2 em2 -> Permutation (m_pairs em2) m2 -> NoDup (map fst m2) ->
  Forall vgood (m_pairs em) -> Forall vgood m2 ->
  ah_foreach (res bool) (equal_attr h2) h (Ok true) =
    Ok (forallb (fun p => existsb (pair_eqb p) m2) (map (pr bytes (option bytes) unit) (concat (table _ _ _ h)))).
Proof.
  intros R R2 P2 N2 G G2. unfold hash_foreach.
  assert (Gc : Forall vgood (map (pr bytes (option bytes) unit) (concat (table _ _ _ h)))).
  { pose proof (pairs_perm _ _ _ _ _ _ _ R) as P. rewrite Forall_forall in *. intros p I. apply G.
    eapply Permutation_in; [exact P|exact I]. }
  assert (St : forall x, vgood (pr bytes (option bytes) unit x) ->
    (v <- ah_get h2 (h_key _ _ _ x) ;; cmp_opt (h_data _ _ _ x) v) = Ok (existsb (pair_eqb (pr bytes (option bytes) unit x)) m2)).
  { intros x Gx. rewrite (ah_get_ok h2 em2 _ R2). cbn [bind].
    rewrite (a_find_perm (m_pairs em2) m2); [|eapply Permutation_NoDup; [apply Permutation_map, Permutation_sym; exact P2|exact N2]|exact P2].
    destruct Gx as (Nx & w & Ew & Hw). unfold pr in Nx, Ew. cbn [fst snd] in Nx, Ew. rewrite Ew.
    destruct (a_find m2 (h_key _ _ _ x)) as [v2|] eqn:Ef.
    - pose proof (a_find_some _ _ _ Ef) as I. rewrite Forall_forall in G2. destruct (G2 _ I) as (_ & v & Ev & Hv). cbn [snd] in Ev. subst v2.
      rewrite cmp_opt_some by assumption. f_equal. apply eq_true_iff_eq. rewrite bytes_eqb_eq, existsb_exists. split.
      + intros ->. eexists. split; [exact I|]. unfold pair_eqb, pr. cbn [fst snd]. rewrite Ew, !bytes_eqb_refl. reflexivity.
      + intros ([k' v'] & I' & E'). unfold pair_eqb, pr in E'. cbn [fst snd] in E'. rewrite Ew in E'. apply andb_true_iff in E'. destruct E' as [E1 E2].
        destruct v' as [v'|]; [|discriminate]. apply bytes_eqb_eq in E1, E2. subst k' v'.
        rewrite (a_find_in _ _ _ N2 I') in Ef. congruence.
    - unfold cmp_opt. cbn [option_map]. cbn [axl_cmp]. f_equal. symmetry. apply not_true_iff_false. rewrite existsb_exists.
      intros ([k' v'] & I' & E'). unfold pair_eqb, pr in E'. cbn [fst snd] in E'. apply andb_true_iff in E'. destruct E' as [E1 _].
      apply bytes_eqb_eq in E1. subst k'. apply a_find_none in Ef. apply Ef. apply (in_map fst) in I'. exact I'. }
  revert Gc. generalize (table _ _ _ h). clear -St.
  assert (Ch : forall c acc, Forall vgood (map (pr bytes (option bytes) unit) c) ->
    chain_foreach _ _ _ (res bool) (equal_attr h2) c (Ok acc) =
      let b := forallb (fun p => existsb (pair_eqb p) m2) (map (pr bytes (option bytes) unit) c) in
      (Ok (if b then acc else false), negb b)).
  { induction c as [|x c IH]; intros acc G; cbn [chain_foreach map forallb]; [reflexivity|].
    inversion G as [|? ? Gx Gc]; subst. unfold equal_attr at 1. rewrite (St x Gx).
    destruct (existsb _ m2); [|reflexivity]. cbn [andb]. apply IH. exact Gc. }
  intro t. induction t as [|c t IH]; intro G; cbn [table_foreach concat map forallb]; [reflexivity|].
  cbn [concat] in G. rewrite map_app in G. apply Forall_app in G. destruct G as [G1 G2].
  rewrite (Ch c true G1). cbv zeta. rewrite map_app, forallb_app.
  destruct (forallb _ (map _ c)); cbn [negb andb]; [apply IH; exact G2|reflexivity].
Qed.

Lemma attrs_equal_ok a a2 m m2 : arep a m -> arep a2 m2 -> Forall vgood m -> Forall vgood m2 ->
  exists b, attrs_equal a a2 = Ok b /\ (b = true <-> Permutation m m2).
Proof.
  intros R R2 G G2. unfold attrs_equal.
  pose proof (has_attributes_ok _ _ R) as A. pose proof (has_attributes_ok _ _ R2) as A2. unfold has_attributes in A, A2.
  rewrite A, A2. assert (A' : is_null (a_store a) = match m with [] => true | _ => false end) by (destruct m, (is_null (a_store a)); cbn in *; congruence).
  assert (A2' : is_null (a_store a2) = match m2 with [] => true | _ => false end) by (destruct m2, (is_null (a_store a2)); cbn in *; congruence).
  rewrite A', A2'. clear A A2 A' A2'.
  destruct m as [|p m].
  { destruct m2 as [|p2 m2]; cbn [andb negb]; eexists; (split; [reflexivity|]).
    - split; intro; constructor.
    - split; [discriminate|]. intro P. apply Permutation_nil in P. discriminate. }
  destruct m2 as [|p2 m2]; cbn [andb negb].
  { eexists. split; [reflexivity|]. split; [discriminate|]. intro P. apply Permutation_sym, Permutation_nil in P. discriminate. }
  remember (p :: m) as M. remember (p2 :: m2) as M2. clear HeqM HeqM2.
  assert (N1 : a_num a = Z.of_nat (length M)).
  { destruct R as [l m' H _ _ _|]; [|reflexivity]. cbn [a_num]. rewrite <- (Permutation_length H), map_length. reflexivity. }
  assert (N2 : a_num a2 = Z.of_nat (length M2)).
  { destruct R2 as [l m' H _ _ _|]; [|reflexivity]. cbn [a_num]. rewrite <- (Permutation_length H), map_length. reflexivity. }
  rewrite N1, N2. destruct (Z.eqb_spec (Z.of_nat (length M)) (Z.of_nat (length M2))) as [El|Nl]; cbn [negb].
  2:{ eexists. split; [reflexivity|]. split; [discriminate|]. intro P. apply Permutation_length in P. lia. }
  assert (Fin : forall L L2, Permutation L M -> Permutation L2 M2 -> NoDup (map fst M) ->
    (forallb (fun p => existsb (pair_eqb p) L2) L = true <-> Permutation M M2)).
  { intros L L2 P P2 N. rewrite <- (incl_perm M M2) by (try apply NoDup_fst; try assumption; lia).
    rewrite forallb_forall. split.
    - intros H q I. assert (I' : In q L) by (eapply Permutation_in; [apply Permutation_sym; exact P|exact I]).
      specialize (H q I'). apply existsb_exists in H. destruct H as (q' & I2 & E).
      rewrite Forall_forall in G. apply pair_eqb_eq in E; [|apply G; exact I]. subst q'.
      eapply Permutation_in; [exact P2|exact I2].
    - intros H q I. apply existsb_exists. exists q. assert (I' : In q M) by (eapply Permutation_in; [exact P|exact I]). split.
      + eapply Permutation_in; [apply Permutation_sym; exact P2|]. apply H. exact I'.
      + rewrite Forall_forall in G. apply pair_eqb_eq; [apply G; exact I'|reflexivity]. }
  destruct R as [l m1 H1 H2 H3 H4|h em m1 H1 H2 H3 H4 H5]; destruct R2 as [l' m1' J1 J2 J3 J4|h' em' m1' J1 J2 J3 J4 J5];
    cbn [a_store as_list as_hash bind].
  - assert (Hl : Z.of_nat (length m1) <=? 10 = true) by (rewrite <- (Permutation_length H1), map_length; apply Z.leb_le; lia).
    rewrite Hl. rewrite attr_list_equal_ok.
    + eexists. split; [reflexivity|]. apply Fin; assumption.
    + rewrite Forall_forall in *. intros q I. apply G. eapply Permutation_in; [exact H1|exact I].
    + rewrite Forall_forall in *. intros q I. apply G2. eapply Permutation_in; [exact J1|exact I].
  - exfalso. pose proof (Permutation_length H1). rewrite map_length in *. lia.
  - exfalso. pose proof (Permutation_length J1). rewrite map_length in *. lia.
  - destruct (Z.leb_spec (Z.of_nat (length m1)) 10); [lia|].
    rewrite (equal_foreach h em m1' h' em' H1 J1 J2 J3).
    + eexists. split; [reflexivity|]. apply Fin; [|reflexivity|exact H3].
      rewrite <- H2. exact (pairs_perm _ _ _ _ _ _ _ H1).
    + rewrite Forall_forall in *. intros q I. apply G. eapply Permutation_in; [exact H2|exact I].
    + exact G2.
Qed.
