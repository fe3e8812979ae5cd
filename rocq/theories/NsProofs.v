(** Namespace declarations and their tables. *)
From Coq Require Import Permutation.
From Verif Require Import Prelude HashModel HashSpec HashExec HashProofs HashStrProofs StrModel StrSpec StrProofs EscProofs AttrModel AttrSpec AttrExec AttrProofs
  TreeModel XmlSpec EqModel EqSpec EqProofs NsModel NsSpec.
Open Scope nat_scope.
Open Scope list_scope.

(** ** names *)
Lemma colon_some name : forall p l, colon name = Some (p, l) <-> splits name p l.
Proof.
  unfold splits. induction name as [|c name IH]; intros p l; cbn [colon].
  - split; [discriminate|]. intros [H _]. destruct p; discriminate.
  - destruct (Ascii.eqb_spec c ":") as [->|N].
    + split.
      * intro H. injection H as <- <-. split; [reflexivity|intros []].
      * intros [H K]. destruct p as [|x p]; [injection H as ->; reflexivity|]. injection H as <- _. exfalso. apply K. left. reflexivity.
    + destruct (colon name) as [[p' l']|] eqn:E.
      * split.
        -- intro H. injection H as <- <-. destruct (proj1 (IH p' l') eq_refl) as [-> K]. split; [reflexivity|].
           intros [X|X]; [congruence|contradiction].
        -- intros [H K]. destruct p as [|x p]; [injection H as -> _; congruence|]. injection H as <- H.
           assert (X : Some (p', l') = Some (p, l)) by (apply IH; split; [exact H|intro Y; apply K; right; exact Y]). injection X as -> ->. reflexivity.
      * split; [discriminate|]. intros [H K]. destruct p as [|x p]; [injection H as -> _; congruence|]. injection H as <- H.
        assert (X : None = Some (p, l)) by (apply IH; split; [exact H|intro Y; apply K; right; exact Y]). discriminate.
Qed.
Lemma colon_none name : colon name = None <-> unprefixed name.
Proof.
  unfold unprefixed. split.
  - intros H I. induction name as [|c name IH]; [contradiction|]. cbn [colon] in H. destruct (Ascii.eqb_spec c ":") as [->|N]; [discriminate|].
    destruct I as [I|I]; [congruence|]. destruct (colon name) as [[? ?]|]; [discriminate|]. apply IH; [reflexivity|exact I].
  - intro H. destruct (colon name) as [[p l]|] eqn:E; [|reflexivity]. apply colon_some in E. destruct E as [-> _]. exfalso. apply H.
    apply in_or_app. right. left. reflexivity.
Qed.
Lemma splits_nul name p l : nul_free name -> splits name p l -> nul_free p /\ nul_free l.
Proof. intros N [-> _]. unfold nul_free in *. split; intro I; apply N; apply in_or_app; [left|right; right]; exact I. Qed.

Definition starts (a : bytes) : bool := match after (s2b "xmlns") a with Some _ => true | None => false end.
Lemma xmlns_nul : nul_free (s2b "xmlns").
Proof. intro I. repeat (destruct I as [I|I]; [discriminate|]). destruct I. Qed.
Lemma starts_ok a : nul_free a -> axl_memcmp (cs a) (cs (s2b "xmlns")) 5 = Ok (starts a).
Proof.
  intro N. exact (memcmp_prefix a [] (s2b "xmlns") [] N xmlns_nul).
Qed.
Lemma starts_decl a : starts a = true -> ~ lookalike a -> a = default_decl \/ a = decl (skipn 6 a) /\ length a <> 5.
Proof.
  unfold starts. destruct (after (s2b "xmlns") a) as [r|] eqn:E; [|discriminate]. intros _ L. apply after_Some in E.
  assert (D : is_decl a).
  { unfold is_decl. destruct (list_eq_dec Ascii.ascii_dec a default_decl) as [->|X]; [left; reflexivity|].
    destruct r as [|c r]; [rewrite E, app_nil_r in X; contradiction|].
    destruct (Ascii.eqb_spec c ":") as [->|N]; [right; exists r; exact E|].
    exfalso. apply L. split; [exists (c :: r); exact E|]. intros [Y|[p Y]]; [contradiction|].
    rewrite Y in E. unfold decl, str in E. cbn in E. injection E as F _. congruence. }
  destruct D as [D|[p ->]]; [left; exact D|]. right. split; [reflexivity|]. cbn. lia.
Qed.
Lemma starts_not a : starts a = false -> ~ is_decl a.
Proof. unfold starts. intros H [->|[p ->]]; discriminate. Qed.
Lemma decl_starts a : is_decl a -> starts a = true.
Proof. intros [->|[p ->]]; reflexivity. Qed.
Lemma decl_inj p q : decl p = decl q -> p = q.
Proof. unfold decl. apply app_inv_head. Qed.
Lemma decl_default p : decl p <> default_decl.
Proof. discriminate. Qed.

(** ** tables *)
Notation phrep := (hrep bytes (option bytes) unit shash skeq).
Notation pfm := (fmap bytes (option bytes) unit).
Definition hmap (o : option phash) (fm : pfm) : Prop := match o with None => fm = [] | Some h => phrep h fm end.
Definition pfound (fm : pfm) (p : bytes) : option (option bytes) := option_map e_data (m_find bytes (option bytes) unit skeq fm p).
Definition dflt (t : option nstable) : nstable := match t with Some t => t | None => NsTable None None end.
Definition trep (t : option nstable) (ats : list (bytes * option bytes)) : Prop :=
  (exists fm, hmap (t_table (dflt t)) fm /\ forall p, pfound fm p = a_find ats (decl p)) /\
  t_default (dflt t) = match a_find ats default_decl with Some v => v | None => None end.
Definition is_some {A} (o : option A) : bool := match o with Some _ => true | None => false end.

Lemma pfound_put fm e k : pfound (m_put _ _ _ skeq fm e) k = if bytes_eqb k (e_key e) then Some (e_data e) else pfound fm k.
Proof.
  unfold pfound, m_put, m_find, m_del. cbn [find]. rewrite skeq_bytes. destruct (bytes_eqb (e_key e) k) eqn:E.
  - apply bytes_eqb_eq in E. subst k. rewrite bytes_eqb_refl. reflexivity.
  - assert (E' : bytes_eqb k (e_key e) = false).
    { destruct (bytes_eqb k (e_key e)) eqn:X; [|reflexivity]. apply bytes_eqb_eq in X. symmetry in X. apply bytes_eqb_eq in X. congruence. }
    rewrite E'. f_equal. induction fm as [|x fm IH]; [reflexivity|]. cbn [filter find].
    destruct (skeq (e_key x) k) eqn:Ex.
    + assert (Y : skeq (e_key x) (e_key e) = false) by (apply skeq_spec in Ex; rewrite skeq_bytes; rewrite Ex; exact E').
      rewrite Y. cbn [negb find]. rewrite Ex. reflexivity.
    + destruct (skeq (e_key x) (e_key e)); cbn [negb find]; [exact IH|]. rewrite Ex. exact IH.
Qed.
Lemma exists_ok h fm p : phrep h fm -> hash_exists bytes (option bytes) unit shash skeq h p = Ok (is_some (pfound fm p)).
Proof.
  intro R. unfold hash_exists, pfound. destruct (lookup_spec _ _ _ _ _ str_key_ok h fm p R) as (o & E & F & _). rewrite E, F. destruct o; reflexivity.
Qed.
Lemma exists_in_ok o fm p : hmap o fm -> exists_in o p = Ok (is_some (pfound fm p)).
Proof. destruct o as [h|]; cbn [hmap exists_in]; [apply exists_ok|intros ->; reflexivity]. Qed.
Lemma get_in_ok o fm p v : hmap o fm -> pfound fm p = Some v -> get_in o p = Ok v.
Proof.
  destruct o as [h|]; cbn [hmap get_in]; [|intros -> X; discriminate]. intros R. unfold hash_get, pfound.
  destruct (lookup_spec _ _ _ _ _ str_key_ok h fm p R) as (o & E & F & I). rewrite E, F. destruct o as [x|]; [|discriminate]. cbn. intro X. injection X as <-.
  destruct (Z.eqb_spec (h_items bytes (option bytes) unit h) 0) as [Z|Z]; [|reflexivity].
  exfalso. rewrite (hr_items _ _ _ _ _ _ _ R) in Z. destruct I as [I _]. destruct (concat _); [contradiction|cbn in Z; lia].
Qed.
Lemma a_find_cons k v (m : list (bytes * option bytes)) k' : a_find ((k, v) :: m) k' = if bytes_eqb k k' then Some v else a_find m k'.
Proof. unfold a_find. cbn [find fst]. destruct (bytes_eqb k k'); reflexivity. Qed.

Lemma install_ok l : forall t dn, trep t dn -> Forall (fun p => nul_free (fst p)) l -> (forall a, In a (map fst l) -> ~ lookalike a) ->
  NoDup (map fst (rev l ++ dn)) ->
  exists t', install_decls l t (is_some (a_find dn default_decl)) = Ok (t', true) /\ trep t' (rev l ++ dn).
Proof.
  induction l as [|[a v] l IH]; intros t dn T N L D; cbn [install_decls rev map app].
  - exists t. split; [reflexivity|exact T].
  - inversion N as [|? ? Na Nl]; subst. cbn [fst] in Na. rewrite (starts_ok a Na). cbn [bind].
    cbn [rev] in D. rewrite <- app_assoc in D. cbn [app] in D.
    assert (Fresh : ~ In a (map fst dn)).
    { rewrite map_app in D. cbn [map fst] in D. apply NoDup_remove_2 in D. intro I. apply D. apply in_or_app. right. exact I. }
    assert (L' : forall b, In b (map fst l) -> ~ lookalike b) by (intros b I; apply L; right; exact I).
    rewrite <- app_assoc. cbn [app]. destruct (starts a) eqn:S; cbn [negb].
    + destruct T as [(fm & Hm & Ht) Hd]. change (match t with Some t0 => t0 | None => NsTable None None end) with (dflt t).
      destruct (starts_decl a S (L a (or_introl eq_refl))) as [->|[Ea Hl]].
      * change (Nat.eqb (length default_decl) 5) with true. cbv iota. apply a_find_none in Fresh. rewrite Fresh. cbn [is_some].
        destruct (IH (Some (NsTable (t_table (dflt t)) v)) ((default_decl, v) :: dn)) as (t' & E & T'); [|exact Nl|exact L'|exact D|].
        -- split; [exists fm; split; [exact Hm|]|].
           ++ intro p. rewrite Ht, a_find_cons. destruct (bytes_eqb default_decl (decl p)) eqn:X; [|reflexivity].
              apply bytes_eqb_eq in X. symmetry in X. apply decl_default in X. contradiction.
           ++ rewrite a_find_cons, bytes_eqb_refl. reflexivity.
        -- rewrite a_find_cons, bytes_eqb_refl in E. cbn [is_some] in E. exists t'. split; [exact E|exact T'].
      * apply Nat.eqb_neq in Hl. rewrite Hl.
        set (h := match t_table (dflt t) with Some h => h | None => hash_new_full bytes (option bytes) unit 1 end).
        assert (Rh : phrep h fm).
        { unfold h. destruct (t_table (dflt t)) as [h'|]; [exact Hm|]. cbn in Hm. subst fm. apply hrep_new. lia. }
        rewrite (exists_ok h fm _ Rh). cbn [bind].
        assert (Fr : a_find dn (decl (skipn 6 a)) = None) by (apply a_find_none; rewrite <- Ea; exact Fresh).
        rewrite Ht, Fr. cbn [is_some].
        destruct (insert_spec _ _ _ _ _ str_key_ok h fm (skipn 6 a) None v None Rh) as (h' & Eh & Rh' & _). rewrite Eh. cbn [bind].
        destruct (IH (Some (NsTable (Some h') (t_default (dflt t)))) ((a, v) :: dn)) as (t' & E & T'); [|exact Nl|exact L'|exact D|].
        -- split; [eexists; split; [exact Rh'|]|].
           ++ intro p. rewrite pfound_put, a_find_cons, Ht. cbn [e_key e_data].
              destruct (bytes_eqb p (skipn 6 a)) eqn:X.
              ** apply bytes_eqb_eq in X. subst p. rewrite <- Ea, bytes_eqb_refl. reflexivity.
              ** destruct (bytes_eqb a (decl p)) eqn:Y; [|reflexivity]. apply bytes_eqb_eq in Y. rewrite Ea in Y. apply decl_inj in Y. subst p.
                 rewrite bytes_eqb_refl in X. discriminate.
           ++ rewrite a_find_cons. cbn [dflt t_default]. rewrite Hd. destruct (bytes_eqb a default_decl) eqn:Y; [|reflexivity].
              apply bytes_eqb_eq in Y. rewrite Y in Hl. discriminate.
        -- rewrite a_find_cons in E. destruct (bytes_eqb a default_decl) eqn:Y; [apply bytes_eqb_eq in Y; rewrite Y in Hl; discriminate|].
           exists t'. split; [exact E|exact T'].
    + destruct (IH t ((a, v) :: dn)) as (t' & E & T'); [|exact Nl|exact L'|exact D|].
      * destruct T as [(fm & Hm & Ht) Hd]. apply starts_not in S. split; [exists fm; split; [exact Hm|]|].
        -- intro p. rewrite Ht, a_find_cons. destruct (bytes_eqb a (decl p)) eqn:Y; [|reflexivity]. apply bytes_eqb_eq in Y. exfalso. apply S. right. exists p. exact Y.
        -- rewrite Hd, a_find_cons. destruct (bytes_eqb a default_decl) eqn:Y; [|reflexivity]. apply bytes_eqb_eq in Y. exfalso. apply S. left. exact Y.
      * rewrite a_find_cons in E. destruct (bytes_eqb a default_decl) eqn:Y; [apply bytes_eqb_eq in Y; exfalso; apply (starts_not a S); left; exact Y|].
        exists t'. split; [exact E|exact T'].
Qed.

(** a chain of tables stands for a scope *)
Definition good_ats (ats : list (bytes * option bytes)) : Prop := NoDup (map fst ats) /\ Forall vgood ats.
Lemma trep_perm t ats ats' : trep t ats -> NoDup (map fst ats) -> Permutation ats ats' -> trep t ats'.
Proof.
  intros [(fm & Hm & Ht) Hd] D P. split; [exists fm; split; [exact Hm|]|]; [intro p; rewrite Ht|rewrite Hd]; [apply a_find_perm; assumption|].
  rewrite (a_find_perm _ _ default_decl D P). reflexivity.
Qed.
Definition has_key (k : bytes) (s : scope) : bool := existsb (fun ats => is_some (a_find ats k)) s.
Lemma exists_table t ats p : trep t ats -> match t with Some t => exists_in (t_table t) p | None => Ok false end = Ok (is_some (a_find ats (decl p))).
Proof.
  intros [(fm & Hm & Ht) _]. rewrite <- Ht. destruct t as [t|]; [apply exists_in_ok; exact Hm|]. cbn in Hm. subst fm. reflexivity.
Qed.
Lemma declared_ok up s : Forall2 trep up s -> forall p, declared_in up p = Ok (has_key (decl p) s).
Proof.
  induction 1 as [|t ats up s T R IH]; intro p; cbn [declared_in]; [reflexivity|].
  rewrite (exists_table t ats p T). cbn [bind has_key existsb]. destruct (is_some _); [reflexivity|]. apply IH.
Qed.
Lemma has_key_spec k s : has_key k s = true <-> Exists (fun ats => In k (map fst ats)) s.
Proof.
  unfold has_key. rewrite existsb_exists, Exists_exists. split; intros (ats & I & H); exists ats; (split; [exact I|]).
  - destruct (a_find ats k) as [v|] eqn:E; [|discriminate]. apply a_find_some in E. apply in_map_iff. exists (k, v). auto.
  - destruct (a_find ats k) as [v|] eqn:E; [reflexivity|]. apply a_find_none in E. contradiction.
Qed.
(** the value found *)
Fixpoint value_of (k : bytes) (s : scope) : option bytes :=
  match s with
  | [] => None
  | ats :: s => match a_find ats k with Some v => v | None => value_of k s end
  end.
Lemma value_spec k s v : Forall good_ats s -> (value_of k s = Some v <-> nearest k s v).
Proof.
  induction s as [|ats s IH]; intro G; cbn [value_of].
  - split; [discriminate|]. intro H. inversion H.
  - inversion G as [|? ? [D F] Gs]; subst. destruct (a_find ats k) as [w|] eqn:E.
    + split.
      * intros ->. apply nearest_here. apply a_find_some. exact E.
      * intro H. inversion H as [? ? ? I|? ? ? I _]; subst.
        -- rewrite (a_find_in ats k (Some v) D I) in E. injection E as <-. reflexivity.
        -- exfalso. apply I. apply a_find_some in E. apply in_map_iff. exists (k, w). auto.
    + rewrite (IH Gs). apply a_find_none in E. split.
      * intro H. apply nearest_up; assumption.
      * intro H. inversion H as [? ? ? I|? ? ? I J]; subst; [|exact J]. exfalso. apply E. apply in_map_iff. exists (k, Some v). auto.
Qed.
Definition opt_eqb (o : option bytes) (b : bytes) : bool := match o with Some a => bytes_eqb a b | None => false end.
Lemma vgood_find ats k o : good_ats ats -> a_find ats k = Some o -> exists v, o = Some v /\ nul_free v.
Proof.
  intros [_ F] E. apply a_find_some in E. rewrite Forall_forall in F. destruct (F _ E) as (_ & v & Ev & H). cbn [snd] in Ev. exists v. auto.
Qed.
Lemma node_check_ok up s p ns : Forall2 trep up s -> Forall good_ats s -> nul_free ns ->
  node_check up p ns = Ok (opt_eqb (value_of (decl p) s) ns).
Proof.
  intros R G Hn. induction R as [|t ats up s T R IH]; cbn [node_check value_of]; [reflexivity|]. inversion G as [|? ? Ga Gs]; subst.
  pose proof (exists_table t ats p T) as X. destruct T as [(fm & Hm & Ht) _]. destruct t as [t|].
  - rewrite X. cbn [bind]. destruct (a_find ats (decl p)) as [o|] eqn:E; cbn [is_some]; [|apply IH; exact Gs].
    destruct (vgood_find ats _ o Ga E) as (v & -> & Hv). cbn [dflt] in Hm. rewrite (get_in_ok _ fm p (Some v) Hm) by (rewrite Ht; exact E). cbn [bind option_map opt_eqb].
    apply axl_cmp_names; assumption.
  - injection X as X. destruct (a_find ats (decl p)); [discriminate|]. apply IH. exact Gs.
Qed.
Lemma check_default_ok up s ns : Forall2 trep up s -> Forall good_ats s -> nul_free ns ->
  check_default up ns = Ok (opt_eqb (value_of default_decl s) ns).
Proof.
  intros R G Hn. induction R as [|t ats up s T R IH]; cbn [check_default value_of]; [reflexivity|]. inversion G as [|? ? Ga Gs]; subst.
  destruct T as [_ Hd]. destruct (a_find ats default_decl) as [o|] eqn:E.
  - destruct (vgood_find ats _ o Ga E) as (v & -> & Hv). destruct t as [[h d]|]; cbn in Hd; [|discriminate]. subst d. cbn [opt_eqb]. apply axl_cmp_names; assumption.
  - destruct t as [[h d]|]; cbn in Hd; [subst d|]; apply IH; exact Gs.
Qed.
Lemma cmp_named e up s ns local : Forall2 trep (map e_table (e :: up)) s -> Forall good_ats s -> nul_free (e_name e) -> nul_free ns -> nul_free local ->
  exists b, ns_node_cmp (e :: up) ns local = Ok b /\ (b = true <-> named s (e_name e) ns local).
Proof.
  intros R G Ne Nn Nl. unfold ns_node_cmp, named. destruct (colon (e_name e)) as [[p l]|] eqn:C.
  - pose proof (proj1 (colon_some _ _ _) C) as Sp. destruct (splits_nul _ _ _ Ne Sp) as [Np Nl']. rewrite (node_check_ok _ s p ns R G Nn). cbn [bind].
    assert (U : ~ unprefixed (e_name e)) by (rewrite <- colon_none; congruence).
    assert (Q : forall q m, splits (e_name e) q m -> q = p /\ m = l) by (intros q m H; apply colon_some in H; rewrite C in H; injection H as <- <-; auto).
    destruct (opt_eqb (value_of (decl p) s) ns) eqn:V; cbn [negb].
    + rewrite axl_cmp_names by assumption. eexists. split; [reflexivity|]. rewrite bytes_eqb_eq. split.
      * intros ->. left. exists p. split; [exact Sp|]. apply (value_spec _ _ _ G). destruct (value_of (decl p) s) as [v|]; [|discriminate]. cbn in V. apply bytes_eqb_eq in V. congruence.
      * intros [(q & H & _)|(H & _)]; [destruct (Q _ _ H) as [_ ->]; reflexivity|contradiction].
    + eexists. split; [reflexivity|]. split; [discriminate|]. intros [(q & H & H2)|(H & _)]; [|contradiction]. destruct (Q _ _ H) as [-> ->].
      apply (value_spec _ _ _ G) in H2. rewrite H2 in V. cbn in V. rewrite bytes_eqb_refl in V. discriminate.
  - pose proof (proj1 (colon_none _) C) as U. rewrite (check_default_ok _ s ns R G Nn). cbn [bind].
    assert (Q : forall q m, ~ splits (e_name e) q m) by (intros q m H; apply colon_some in H; congruence).
    destruct (opt_eqb (value_of default_decl s) ns) eqn:V; cbn [negb].
    + rewrite axl_cmp_names by assumption. eexists. split; [reflexivity|]. rewrite bytes_eqb_eq. split.
      * intros ->. right. split; [exact U|]. split; [reflexivity|]. apply (value_spec _ _ _ G). destruct (value_of default_decl s) as [v|]; [|discriminate]. cbn in V. apply bytes_eqb_eq in V. congruence.
      * intros [(q & H & _)|(_ & H & _)]; [destruct (Q _ _ H)|congruence].
    + eexists. split; [reflexivity|]. split; [discriminate|]. intros [(q & H & _)|(_ & _ & H)]; [destruct (Q _ _ H)|].
      apply (value_spec _ _ _ G) in H. rewrite H in V. cbn in V. rewrite bytes_eqb_refl in V. discriminate.
Qed.
