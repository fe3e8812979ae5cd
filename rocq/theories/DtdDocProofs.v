From Coq Require Import Permutation.
From Verif Require Import Prelude Arr HashModel HashSpec HashExec HashProofs HashStrProofs DtdModel DtdSpec DtdDocModel DtdDocSpec.
Open Scope nat_scope.
Open Scope list_scope.

(** ** The table of identifiers *)
Notation okey := (option bytes).
Notation tkeys h := (map (h_key okey okey unit) (concat (table okey okey unit h))).
Record tab (h : idtab) (l : list okey) : Prop := {
  tb_placed : placed okey okey unit hash_string (table okey okey unit h);
  tb_perm : Permutation (tkeys h) l;
  tb_step : 1 <= h_step okey okey unit h
}.
Lemma tab_new : tab (hash_new okey okey unit) [].
Proof.
  constructor; cbn; [|constructor|lia]. intros i c n H. destruct i; discriminate H.
Qed.
Lemma chain_find (c : list (hnode okey okey unit)) k :
  match chain_lookup okey okey unit str_keq c k with
  | Some n => In n c /\ str_keq (h_key okey okey unit n) k = true
  | None => forall n, In n c -> str_keq (h_key okey okey unit n) k = false
  end.
Proof.
  induction c as [|n c IH]; cbn [chain_lookup]; [intros n []|].
  destruct (str_keq (h_key okey okey unit n) k) eqn:E; [split; [left; reflexivity|exact E]|].
  destruct (chain_lookup okey okey unit str_keq c k); [destruct IH; split; [right; assumption|assumption]|].
  intros m [->|Hm]; [exact E|apply IH; exact Hm].
Qed.
Lemma tab_lookup h l k : tab h l ->
  exists o, hash_lookup okey okey unit hash_string str_keq h k = Ok o /\
    match o with
    | Some n => exists k', In k' l /\ str_keq k' k = true
    | None => forall v, k = Some v -> ~ In (Some v) l
    end.
Proof.
  intros [P Q _]. unfold hash_lookup. destruct (table okey okey unit h) as [|c0 t0] eqn:T.
  - exists None. split; [reflexivity|]. intros v _ Hv. apply Permutation_sym in Q. apply (Permutation_in _ Q) in Hv. exact Hv.
  - rewrite <- T in *. assert (L : 0 < length (table okey okey unit h)) by (rewrite T; cbn; lia). clear T c0 t0.
    destruct (nth_cut _ _ (slot_lt okey hash_string _ k L)) as (c & t1 & t2 & E & L1 & Hn).
    unfold aget. rewrite Hn. cbn [bind]. exists (chain_lookup okey okey unit str_keq c k). split; [reflexivity|].
    pose proof (chain_find c k) as F. destruct (chain_lookup okey okey unit str_keq c k) as [n|].
    + destruct F as [F1 F2]. exists (h_key okey okey unit n). split; [|exact F2].
      apply (Permutation_in _ Q). apply in_map. rewrite E, concat_cut, !in_app_iff. auto.
    + intros v -> Hv. apply (Permutation_in _ (Permutation_sym Q)) in Hv. apply in_map_iff in Hv. destruct Hv as (n & K & Hv).
      apply in_concat in Hv. destruct Hv as (c' & Hc & Hin). apply In_nth_error in Hc. destruct Hc as [i Hc].
      pose proof (P _ _ _ Hc Hin) as Pl. rewrite K in Pl. rewrite <- Pl, Hn in Hc. injection Hc as Hc. subst c'.
      pose proof (F _ Hin) as F'. rewrite K in F'. pose proof (proj2 (skeq_spec v v) eq_refl) as Y. unfold skeq in Y. congruence.
Qed.
Lemma tab_exists h l k : tab h l ->
  exists b, id_exists (Some h) k = Ok b /\
    (b = true -> exists k', In k' l /\ str_keq k' k = true) /\
    (b = false -> forall v, k = Some v -> ~ In (Some v) l).
Proof.
  intro T. destruct (tab_lookup h l k T) as (o & E & H). unfold id_exists, hash_exists. rewrite E. cbn [bind].
  destruct o; eexists; (split; [reflexivity|]); split; intro; try discriminate; exact H.
Qed.
Lemma tab_insert h l k : tab h l -> id_exists (Some h) k = Ok false ->
  exists h', id_insert (Some h) k = Ok (Some h') /\ tab h' (k :: l).
Proof.
  intros [P Q S1] E. unfold id_exists, hash_exists in E. unfold id_insert, hash_insert_full.
  assert (G : forall t m, placed okey okey unit hash_string t -> 0 < length t -> Permutation (map (h_key okey okey unit) (concat t)) l ->
     exists t', insert_node okey okey unit hash_string t (HNode okey okey unit m k None k None) = Ok t' /\
                placed okey okey unit hash_string t' /\ Permutation (map (h_key okey okey unit) (concat t')) (k :: l)).
  { intros t m Pt Lt Qt. destruct (insert_node_spec okey okey unit hash_string t (HNode okey okey unit m k None k None) Lt Pt) as (t' & E' & _ & P' & C').
    exists t'. split; [exact E'|]. split; [exact P'|]. rewrite C'. cbn [map HashModel.h_key]. constructor. exact Qt. }
  destruct (table okey okey unit h) as [|c0 t0] eqn:T.
  - destruct (G (repeat [] (h_step okey okey unit h)) (h_next okey okey unit h)) as (t' & E' & P' & Q').
    + apply placed_repeat. + rewrite repeat_length. lia. + rewrite concat_repeat_nil. exact Q.
    + rewrite E'. cbn [bind]. eexists. split; [reflexivity|]. constructor; cbn; [exact P'|exact Q'|exact S1].
  - destruct (hash_lookup okey okey unit hash_string str_keq h k) as [[n|]| |] eqn:Hl; try discriminate E.
    cbn [bind]. rewrite <- T in *. assert (L : 0 < length (table okey okey unit h)) by (rewrite T; cbn; lia).
    destruct (Z.eqb _ _).
    + destruct (rehash_spec okey okey unit hash_string (table okey okey unit h) _ S1) as (t1 & E1 & L1 & P1 & C1).
      rewrite E1. cbn [bind]. destruct (G t1 (h_next okey okey unit h) P1 ltac:(lia)) as (t' & E' & P' & Q').
      { rewrite C1. exact Q. }
      rewrite E'. cbn [bind]. eexists. split; [reflexivity|]. constructor; cbn; [exact P'|exact Q'|exact S1].
    + cbn [bind]. destruct (G (table okey okey unit h) (h_next okey okey unit h) P L Q) as (t' & E' & P' & Q').
      rewrite E'. cbn [bind]. eexists. split; [reflexivity|]. constructor; cbn; [exact P'|exact Q'|exact S1].
Qed.
(** without NULL the keys are told apart *)
Lemma tab_exact h (l : list bytes) v : tab h (map Some l) -> exists b, id_exists (Some h) (Some v) = Ok b /\ (b = true <-> In v l).
Proof.
  intro T. destruct (tab_exists h _ (Some v) T) as (b & E & H1 & H2). exists b. split; [exact E|].
  destruct b; split; intro H; try discriminate; try reflexivity.
  - destruct (H1 eq_refl) as (k' & K1 & K2). apply in_map_iff in K1. destruct K1 as (w & <- & K1).
    apply skeq_spec in K2. subst. exact K1.
  - exfalso. apply (H2 eq_refl v eq_refl). apply in_map. exact H.
Qed.

(** ** Looking up declarations *)
Lemma find_key {A} (f : A -> bytes) (l : list A) n x : NoDup (map f l) ->
  (find (fun a => bytes_eqb (f a) n) l = Some x <-> In x l /\ f x = n).
Proof.
  induction l as [|a l IH]; cbn [map find]; intro N; [split; [discriminate|intros [[] _]]|].
  inversion N as [|? ? N1 N2]; subst. destruct (bytes_eqb (f a) n) eqn:E.
  - apply bytes_eqb_eq in E. split.
    + intro H. injection H as <-. split; [left; reflexivity|exact E].
    + intros [[->|H] F]; [reflexivity|]. exfalso. apply N1. rewrite E, <- F. apply in_map. exact H.
  - rewrite (IH N2). split; intros [H F].
    + split; [right; exact H|exact F].
    + destruct H as [->|H]; [rewrite F, bytes_eqb_refl in E; discriminate|split; assumption].
Qed.
Lemma find_key_none {A} (f : A -> bytes) (l : list A) n : find (fun a => bytes_eqb (f a) n) l = None <-> ~ In n (map f l).
Proof.
  induction l as [|a l IH]; cbn [map find]; [split; [intros _ []|reflexivity]|].
  destruct (bytes_eqb (f a) n) eqn:E.
  - apply bytes_eqb_eq in E. split; [discriminate|]. intro H. exfalso. apply H. left. exact E.
  - rewrite IH. split; [intros H [F|F]; [rewrite F, bytes_eqb_refl in E; discriminate|auto]|intros H F; apply H; right; exact F].
Qed.
Lemma get_element_spec d e c : NoDup (map el_name (d_elements d)) -> (get_element d (e_name e) = Some c <-> declared d e c).
Proof. intro N. apply (find_key el_name). exact N. Qed.
Lemma get_attr_spec d n l : NoDup (map fst (d_attrs d)) -> (get_attr d n = Some l <-> In (n, l) (d_attrs d)).
Proof.
  intro N. unfold get_attr. pose proof (fun x => find_key fst (d_attrs d) n x N) as F.
  destruct (find (fun p => bytes_eqb (fst p) n) (d_attrs d)) as [[m l']|]; cbn [option_map snd].
  - destruct (F (m, l')) as [F1 _]. destruct (F1 eq_refl) as [F2 F3]. cbn in F3. subst m. split.
    + intro H. injection H as <-. exact F2.
    + intro H. destruct (F (n, l)) as [_ F4]. specialize (F4 (conj H eq_refl)). injection F4 as ->. reflexivity.
  - split; [discriminate|]. intro H. destruct (F (n, l)) as [_ F4]. specialize (F4 (conj H eq_refl)). discriminate.
Qed.
Lemma get_attr_none d n : get_attr d n = None <-> forall l, ~ In (n, l) (d_attrs d).
Proof.
  unfold get_attr. pose proof (find_key_none fst (d_attrs d) n) as F.
  destruct (find (fun p => bytes_eqb (fst p) n) (d_attrs d)) as [[m l']|]; cbn [option_map].
  - split; [discriminate|]. intro H. exfalso. destruct F as [_ F].
    assert (X : ~ In n (map fst (d_attrs d))).
    { intro Y. apply in_map_iff in Y. destruct Y as ([a b] & Y1 & Y2). cbn in Y1. subst. exact (H _ Y2). }
    specialize (F X). discriminate.
  - split; [intros _ l H|reflexivity]. apply (proj1 F eq_refl). apply in_map_iff. exists (n, l). auto.
Qed.
Lemma any_spec d e : NoDup (map el_name (d_elements d)) ->
  any_declared d e = match get_element d (e_name e) with Some c => is_any c | None => false end.
Proof.
  intro N. unfold any_declared. destruct (existsb _ _) eqn:E.
  - apply existsb_exists in E. destruct E as (c & H & E). apply andb_prop in E. destruct E as [E1 E2]. apply bytes_eqb_eq in E1.
    rewrite (proj2 (get_element_spec d e c N) (conj H E1)). symmetry. exact E2.
  - destruct (get_element d (e_name e)) as [c|] eqn:G; [|reflexivity]. apply (get_element_spec d e c N) in G. destruct G as [G1 G2].
    destruct (is_any c) eqn:A; [|reflexivity]. assert (X : existsb (fun c => bytes_eqb (el_name c) (e_name e) && match el_ty c with TAny => true | _ => false end) (d_elements d) = true).
    { apply existsb_exists. exists c. split; [exact G1|]. rewrite G2, bytes_eqb_refl. exact A. }
    congruence.
Qed.
Lemma att_has e n v : att e n = Some v -> has e n v.
Proof.
  unfold att. destruct (find _ _) as [[m w]|] eqn:F; [|discriminate]. cbn. intro H. injection H as <-.
  apply find_some in F. destruct F as [F1 F2]. cbn in F2. apply bytes_eqb_eq in F2. subst. exact F1.
Qed.
Lemma att_spec e n v : NoDup (map fst (e_atts e)) -> (att e n = Some v <-> has e n v).
Proof.
  intro N. split; [apply att_has|]. intro H. unfold att. rewrite (proj2 (find_key fst (e_atts e) n (n, v) N) (conj H eq_refl)). reflexivity.
Qed.
Lemma att_none e n : att e n = None -> forall v, ~ has e n v.
Proof.
  unfold att. destruct (find _ _) eqn:F; [discriminate|]. intros _ v H. apply (find_key_none fst) in F. apply F.
  apply in_map_iff. exists (n, v). auto.
Qed.
Lemma att_some e n v : has e n v -> exists w, att e n = Some w.
Proof. intro H. destruct (att e n) eqn:E; [eauto|]. destruct (att_none e n E v H). Qed.
(** the values of the attribute with this name *)
Lemma values_att e n : NoDup (map fst (e_atts e)) ->
  map snd (filter (fun p => bytes_eqb (fst p) n) (e_atts e)) = match att e n with Some v => [v] | None => [] end.
Proof.
  unfold att. induction (e_atts e) as [|[m w] l IH]; cbn [map filter find fst]; intro N; [reflexivity|].
  inversion N as [|? ? N1 N2]; subst. destruct (bytes_eqb m n) eqn:E; [|apply IH; exact N2].
  apply bytes_eqb_eq in E. subst m. cbn [map snd option_map]. rewrite (IH N2).
  rewrite (proj2 (find_key_none fst l n) N1). reflexivity.
Qed.
Lemma typed_none d ty e : get_attr d (e_name e) = None -> typed d ty e = [].
Proof.
  intro G. pose proof (proj1 (get_attr_none d _) G) as H. unfold typed. induction (d_attrs d) as [|[n l] r IH]; cbn [flat_map fst snd]; [reflexivity|].
  rewrite IH by (intros l' X; apply (H l'); right; exact X). destruct (bytes_eqb n (e_name e)) eqn:E; [|reflexivity].
  apply bytes_eqb_eq in E. subst n. destruct (H l). left. reflexivity.
Qed.
Lemma typed_some d ty e l : NoDup (map fst (d_attrs d)) -> NoDup (map fst (e_atts e)) -> get_attr d (e_name e) = Some l ->
  typed d ty e = flat_map (fun a => if ty (ad_type a) then match att e (ad_name a) with Some v => [v] | None => [] end else []) l.
Proof.
  intros N Ne G. apply (get_attr_spec d _ l N) in G. unfold typed. induction (d_attrs d) as [|[n l'] r IH]; [destruct G|].
  cbn [map] in N. inversion N as [|? ? N1 N2]; subst. cbn [flat_map fst snd].
  assert (X : forall l0, flat_map (fun a => if ty (ad_type a) then map snd (filter (fun p => bytes_eqb (fst p) (ad_name a)) (e_atts e)) else []) l0
            = flat_map (fun a => if ty (ad_type a) then match att e (ad_name a) with Some v => [v] | None => [] end else []) l0).
  { intro l0. induction l0 as [|a l0 IHl]; cbn [flat_map]; [reflexivity|]. rewrite IHl, values_att by exact Ne. reflexivity. }
  destruct (bytes_eqb n (e_name e)) eqn:E.
  - apply bytes_eqb_eq in E. subst n. destruct G as [G|G]; [|exfalso; apply N1; cbn [fst]; change (e_name e) with (fst (e_name e, l)); apply in_map; exact G].
    injection G as ->. rewrite X.
    replace (flat_map _ r) with (@nil bytes); [apply app_nil_r|]. symmetry. clear -N1. cbn [fst] in N1.
    induction r as [|[m l'] r IH]; cbn [flat_map fst snd]; [reflexivity|]. cbn [map fst] in N1.
    destruct (bytes_eqb m (e_name e)) eqn:E; [apply bytes_eqb_eq in E; subst; destruct N1; left; reflexivity|].
    apply IH. intro H. apply N1. right. exact H.
  - destruct G as [G|G]; [injection G as -> ->; rewrite bytes_eqb_refl in E; discriminate|]. apply IH; assumption.
Qed.

(** ** The attributes of one element *)
Definition state (d : dtd) (s : idstate) (K : list okey) (R : list bytes) : Prop :=
  (if d_id d then exists h, fst s = Some h /\ tab h K else fst s = None /\ K = []) /\
  (if d_idref d then snd s = Some R else snd s = None /\ R = []).
Definition keys_of (d : dtd) (e : elem) : list okey :=
  if d_id d then match get_attr d (e_name e) with
                 | None => []
                 | Some l => match find is_id l with None => [] | Some a => [att e (ad_name a)] end
                 end else [].
Definition refs_at (d : dtd) (e : elem) : list bytes :=
  if d_idref d then match get_attr d (e_name e) with None => [] | Some l => refs_of e l end else [].
Definition atts_check (d : dtd) (e : elem) : bool :=
  match get_attr d (e_name e) with None => true | Some l => forallb (attr_known l) (e_atts e) && negb (existsb (attr_missing e) l) end.
Lemma state_start d : state d (id_start d) [] [].
Proof.
  unfold state, id_start. cbn [fst snd]. destruct (d_id d), (d_idref d); split; try (split; reflexivity); try reflexivity; eexists; (split; [reflexivity|exact tab_new]).
Qed.
Lemma attr_go d e s K R : state d s K R ->
  exists o, attr_validate d e s = Ok o /\
    match o with
    | Some s' => atts_check d e = true /\ state d s' (keys_of d e ++ K) (R ++ refs_at d e) /\ (forall v, In (Some v) (keys_of d e) -> ~ In (Some v) K)
    | None => atts_check d e = false \/ exists k k', In k (keys_of d e) /\ In k' K /\ str_keq k' k = true
    end.
Proof.
  intros [S1 S2]. unfold attr_validate, atts_check, keys_of, refs_at, state.
  destruct (get_attr d (e_name e)) as [l|].
  2:{ exists (Some s). split; [reflexivity|]. split; [reflexivity|].
      assert (X : (if d_id d then @nil okey else []) = []) by (destruct (d_id d); reflexivity).
      assert (Y : (if d_idref d then @nil bytes else []) = []) by (destruct (d_idref d); reflexivity).
      rewrite X, Y, app_nil_r. split; [split; assumption|intros v []]. }
  destruct (forallb (attr_known l) (e_atts e)) eqn:F; cbn [negb andb]; [|exists None; split; [reflexivity|left; reflexivity]].
  destruct (existsb (attr_missing e) l) eqn:G; cbn [negb]; [exists None; split; [reflexivity|left; reflexivity]|].
  assert (Z : forall h, (if d_id d then exists h', h = Some h' /\ tab h' (match find is_id l with None => [] | Some a => [att e (ad_name a)] end ++ K) else h = None /\ K = []) ->
    exists o, match Ok (Some h) with Ok (Some h) => Ok (Some (h, if d_idref d then option_map (fun l0 => l0 ++ refs_of e l) (snd s) else snd s)) | Ok None => Ok None | UB => UB | NoFuel => NoFuel end = Ok o /\
    match o with Some s' => true = true /\ ((if d_id d then exists h', fst s' = Some h' /\ tab h' ((if d_id d then match find is_id l with None => [] | Some a => [att e (ad_name a)] end else []) ++ K) else fst s' = None /\ (if d_id d then match find is_id l with None => [] | Some a => [att e (ad_name a)] end else []) ++ K = []) /\
       (if d_idref d then snd s' = Some (R ++ (if d_idref d then refs_of e l else [])) else snd s' = None /\ R ++ (if d_idref d then refs_of e l else []) = [])) | None => False end).
  { intros h H. eexists. split; [reflexivity|]. split; [reflexivity|]. cbn [fst snd]. destruct (d_id d), (d_idref d).
    - rewrite S2. cbn [option_map]. split; [exact H|reflexivity].
    - rewrite app_nil_r. split; assumption.
    - rewrite S2. cbn [option_map app]. split; [exact H|reflexivity].
    - rewrite app_nil_r. cbn [app]. split; assumption. }
  destruct (d_id d) eqn:Di.
  2:{ cbn [bind]. destruct (Z (fst s)) as (o & E & H).
      - exact S1. - exists o. split; [exact E|]. destruct o; [|destruct H]. destruct H as [H1 H2]. split; [reflexivity|]. split; [exact H2|intros v []]. }
  destruct S1 as (h & S1 & T). destruct (find is_id l) as [a|].
  2:{ cbn [bind]. destruct (Z (fst s)) as (o & E & H).
      - exists h. split; assumption. - exists o. split; [exact E|]. destruct o; [|destruct H]. destruct H as [H1 H2]. split; [reflexivity|]. split; [exact H2|intros v []]. }
  rewrite S1. destruct (tab_exists h K (att e (ad_name a)) T) as (b & E & B1 & B2). rewrite E. cbn [bind]. destruct b.
  - exists None. split; [reflexivity|]. right. destruct (B1 eq_refl) as (k' & K1 & K2). exists (att e (ad_name a)), k'. split; [left; reflexivity|]. split; assumption.
  - destruct (tab_insert h K _ T E) as (h' & I1 & I2). rewrite I1. cbn [bind]. destruct (Z (Some h')) as (o & E' & H).
    + exists h'. split; [reflexivity|exact I2].
    + exists o. split; [exact E'|]. destruct o; [|destruct H]. destruct H as [H1 H2]. split; [reflexivity|]. split; [exact H2|].
      intros v [V|[]]. apply B2; [reflexivity|exact V].
Qed.
Lemma atts_check_sound d e : dtd_ok d -> atts_check d e = true -> atts_valid d e.
Proof.
  intros D C l H. unfold atts_check in C. rewrite (proj2 (get_attr_spec d _ l (ok_lists d D)) H) in C.
  apply andb_prop in C. destruct C as [C1 C2]. rewrite forallb_forall in C1. apply Bool.negb_true_iff in C2.
  assert (C3 : forall a, In a l -> attr_missing e a = false).
  { intros a Ha. destruct (attr_missing e a) eqn:M; [|reflexivity]. assert (existsb (attr_missing e) l = true) by (apply existsb_exists; eauto). congruence. }
  split; [|split].
  - intros n v Hv. specialize (C1 _ Hv). unfold attr_known in C1. cbn [fst snd] in C1.
    destruct (find (fun a => bytes_eqb (ad_name a) n) l) as [a|] eqn:F; [|discriminate].
    apply find_some in F. destruct F as [F1 F2]. apply bytes_eqb_eq in F2. exists a. split; [exact F1|]. split; [exact F2|].
    intros vs T. rewrite T in C1. apply existsb_exists in C1. destruct C1 as (w & W1 & W2). apply bytes_eqb_eq in W2. subst. exact W1.
  - intros a Ha R. specialize (C3 a Ha). unfold attr_missing in C3. rewrite R in C3. destruct (att e (ad_name a)) as [v|] eqn:A; [|discriminate].
    exists v. apply att_has. exact A.
  - intros a Ha R. specialize (C3 a Ha). unfold attr_missing in C3. rewrite R in C3. destruct (att e (ad_name a)) as [v|] eqn:A; [|discriminate].
    destruct (ad_value a) as [w|]; [|discriminate]. apply Bool.negb_false_iff in C3. apply bytes_eqb_eq in C3. subst w. exists v. split; [reflexivity|]. apply att_has. exact A.
Qed.
Lemma atts_check_complete d e : dtd_ok d -> NoDup (map fst (e_atts e)) -> atts_valid d e -> atts_check d e = true.
Proof.
  intros D N V. unfold atts_check. destruct (get_attr d (e_name e)) as [l|] eqn:G; [|reflexivity].
  apply (get_attr_spec d _ l (ok_lists d D)) in G. destruct (V l G) as (V1 & V2 & V3). apply andb_true_intro. split.
  - apply forallb_forall. intros [n v] H. destruct (V1 n v H) as (a & A1 & A2 & A3). unfold attr_known. cbn [fst snd].
    rewrite (proj2 (find_key ad_name l n a (ok_atts d D _ _ G)) (conj A1 A2)). destruct (ad_type a) as [|vs| | |]; try reflexivity.
    apply existsb_exists. exists v. split; [apply A3; reflexivity|apply bytes_eqb_refl].
  - apply Bool.negb_true_iff. destruct (existsb (attr_missing e) l) eqn:X; [|reflexivity]. apply existsb_exists in X. destruct X as (a & A1 & A2).
    unfold attr_missing in A2. destruct (ad_default a) eqn:Da; [|discriminate|].
    + destruct (V2 a A1 Da) as (v & Hv). rewrite (proj2 (att_spec e _ v N) Hv) in A2. discriminate.
    + destruct (V3 a A1 Da) as (v & Hv1 & Hv). rewrite (proj2 (att_spec e _ v N) Hv), Hv1, bytes_eqb_refl in A2. discriminate.
Qed.
Definition somes (l : list okey) : list bytes := flat_map (fun o => match o with Some v => [v] | None => [] end) l.
Lemma in_somes l v : In v (somes l) <-> In (Some v) l.
Proof.
  unfold somes. rewrite in_flat_map. split.
  - intros ([w|] & H & I1); [destruct I1 as [->|[]]; exact H|destruct I1].
  - intro H. exists (Some v). split; [exact H|left; reflexivity].
Qed.
Lemma one_id e l : NoDup (map ad_name l) -> (forall a b, In a l -> In b l -> ad_type a = AId -> ad_type b = AId -> ad_name a = ad_name b) ->
  flat_map (fun a => if (match ad_type a with AId => true | _ => false end) then match att e (ad_name a) with Some v => [v] | None => [] end else []) l
  = somes match find is_id l with None => [] | Some a => [att e (ad_name a)] end.
Proof.
  induction l as [|a l IH]; intros N U; [reflexivity|]. cbn [map] in N. inversion N as [|? ? N1 N2]; subst. cbn [flat_map find].
  assert (U' : forall a0 b, In a0 l -> In b l -> ad_type a0 = AId -> ad_type b = AId -> ad_name a0 = ad_name b) by (intros; apply U; try right; assumption).
  specialize (IH N2 U'). unfold is_id at 1. destruct (ad_type a) eqn:T; try exact IH.
  match goal with |- _ ++ ?r = _ => replace r with (@nil bytes); [rewrite app_nil_r; cbn [somes flat_map]; rewrite app_nil_r; reflexivity|symmetry] end.
  assert (X : forall b, In b l -> ad_type b <> AId).
  { intros b Hb Tb. apply N1. rewrite (U a b (or_introl eq_refl) (or_intror Hb) T Tb). apply in_map. exact Hb. }
  clear -X. induction l as [|b l IH]; cbn [flat_map]; [reflexivity|]. rewrite IH by (intros; apply X; right; assumption).
  pose proof (X b (or_introl eq_refl)). destruct (ad_type b); try reflexivity. congruence.
Qed.
Lemma ids_keys d e : dtd_ok d -> NoDup (map fst (e_atts e)) -> ids d e = somes (keys_of d e).
Proof.
  intros D N. unfold ids, keys_of. destruct (get_attr d (e_name e)) as [l|] eqn:G.
  - rewrite (typed_some d _ e l (ok_lists d D) N G). apply (get_attr_spec d _ l (ok_lists d D)) in G.
    rewrite one_id; [|exact (ok_atts d D _ _ G)|intros a b; exact (ok_ids d D _ _ a b G)].
    destruct (d_id d) eqn:Di; [reflexivity|]. destruct (find is_id l) as [a|] eqn:F; [|reflexivity].
    apply find_some in F. destruct F as [F1 F2]. unfold is_id in F2. destruct (ad_type a) eqn:T; try discriminate.
    rewrite (ok_id d D _ _ a G F1 T) in Di. discriminate.
  - rewrite typed_none by exact G. destruct (d_id d); reflexivity.
Qed.
Lemma idrefs_at d e : dtd_ok d -> NoDup (map fst (e_atts e)) -> idrefs d e = refs_at d e.
Proof.
  intros D N. unfold idrefs, refs_at. destruct (get_attr d (e_name e)) as [l|] eqn:G.
  - rewrite (typed_some d _ e l (ok_lists d D) N G). apply (get_attr_spec d _ l (ok_lists d D)) in G.
    destruct (d_idref d) eqn:Di; [reflexivity|].
    assert (X : forall b, In b l -> ad_type b <> AIdref) by (intros b Hb Tb; rewrite (ok_idref d D _ _ b G Hb Tb) in Di; discriminate).
    clear -X. induction l as [|b l IH]; cbn [flat_map]; [reflexivity|]. rewrite IH by (intros; apply X; right; assumption).
    pose proof (X b (or_introl eq_refl)). destruct (ad_type b); try reflexivity. congruence.
  - rewrite typed_none by exact G. destruct (d_idref d); reflexivity.
Qed.
(** when every ID is there, no key is NULL *)
Lemma keys_given d e : dtd_ok d ->
  (forall l a, In (e_name e, l) (d_attrs d) -> In a l -> ad_type a = AId -> exists v, has e (ad_name a) v) ->
  keys_of d e = map Some (somes (keys_of d e)).
Proof.
  intros D H. unfold keys_of. destruct (d_id d); [|reflexivity]. destruct (get_attr d (e_name e)) as [l|] eqn:G; [|reflexivity].
  apply (get_attr_spec d _ l (ok_lists d D)) in G. destruct (find is_id l) as [a|] eqn:F; [|reflexivity].
  apply find_some in F. destruct F as [F1 F2]. unfold is_id in F2. destruct (ad_type a) eqn:T; try discriminate.
  destruct (H l a G F1 T) as (v & Hv). destruct (att_some e _ v Hv) as (w & W). rewrite W. reflexivity.
Qed.
