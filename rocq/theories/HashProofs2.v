From Coq Require Import Permutation.
From Verif Require Import Prelude Arr HashModel HashSpec HashExec HashProofs.

Section HashProofs2.
Variables K D F : Type.
Variable hashf : K -> N.
Variable keq : K -> K -> bool.
Notation hash := (hash K D F).
Notation hnode := (hnode K D F).
Notation table := (table K D F).
Notation h_key := (h_key K D F).
Notation h_data := (h_data K D F).
Notation h_id := (h_id K D F).
Notation slot := (slot K hashf).
Notation hrep := (hrep K D F hashf keq).
Notation ent := (ent K D F).

Lemma forallb_filter_id {A} (f : A -> bool) l : forallb f l = true -> filter f l = l.
Proof.
  induction l as [|x l IH]; simpl; [reflexivity|]. intro H. apply andb_true_iff in H.
  destruct H as [-> H]. f_equal; auto.
Qed.

Definition pr (n : hnode) : K * D := (h_key n, h_data n).

Lemma pairs_perm h m : hrep h m -> Permutation (pairs K D F h) (m_pairs m).
Proof.
  intro R. unfold pairs, m_pairs. rewrite <- (hr_perm _ _ _ _ _ _ _ R). rewrite map_map. reflexivity.
Qed.

(** ** foreach *)
Section FE.
Variable stop : K -> D -> bool.
Let f := fun (n : hnode) (acc : list (K * D)) => (acc ++ [(h_key n, h_data n)], stop (h_key n) (h_data n)).

Fixpoint stops (l : list (K * D)) : bool :=
  match l with [] => false | (k, d) :: r => stop k d || stops r end.

Lemma chain_foreach_spec c : forall acc,
  chain_foreach K D F _ f c acc = (acc ++ take_until stop (map pr c), stops (map pr c)).
Proof.
  induction c as [|n c IH]; intro acc; simpl; [rewrite app_nil_r; reflexivity|].
  destruct (stop (h_key n) (h_data n)); simpl; [reflexivity|].
  rewrite IH. rewrite <- app_assoc. reflexivity.
Qed.
Lemma take_until_app l1 l2 :
  take_until stop (l1 ++ l2) = take_until stop l1 ++ (if stops l1 then [] else take_until stop l2).
Proof.
  induction l1 as [|[k d] l1 IH]; simpl; [reflexivity|].
  destruct (stop k d); simpl; [reflexivity|]. rewrite IH; reflexivity.
Qed.
Lemma table_foreach_spec t : forall acc,
  table_foreach K D F _ f t acc = acc ++ take_until stop (map pr (concat t)).
Proof.
  induction t as [|c t IH]; intro acc; simpl; [rewrite app_nil_r; reflexivity|].
  rewrite chain_foreach_spec. rewrite map_app, take_until_app. destruct (stops (map pr c)).
  - rewrite app_nil_r; reflexivity.
  - rewrite IH, app_assoc. reflexivity.
Qed.
Lemma foreach_spec h : foreach_pairs K D F stop h = take_until stop (pairs K D F h).
Proof. unfold foreach_pairs, hash_foreach. rewrite table_foreach_spec. reflexivity. Qed.
End FE.

(** ** cursors *)
Lemma chain_at_spec c1 n c2 : ~ In (h_id n) (map h_id c1) ->
  chain_at K D F (c1 ++ n :: c2) (h_id n) = Some (n :: c2).
Proof.
  induction c1 as [|x c1 IH]; simpl; intro H.
  - rewrite Nat.eqb_refl; reflexivity.
  - destruct (Nat.eqb_spec (h_id x) (h_id n)); [tauto|]. apply IH; tauto.
Qed.
Lemma chain_at_none c id : ~ In id (map h_id c) -> chain_at K D F c id = None.
Proof.
  induction c as [|x c IH]; simpl; intro H; [reflexivity|].
  destruct (Nat.eqb_spec (h_id x) id); [tauto|]. apply IH; tauto.
Qed.
Lemma nodup_app_r {A} (l1 l2 : list A) : NoDup (l1 ++ l2) -> NoDup l2.
Proof. induction l1 as [|x l1 IH]; simpl; intro H; [exact H|]. inversion H; auto. Qed.
Lemma table_at_spec t1 c1 n c2 t2 :
  NoDup (map h_id (concat (t1 ++ (c1 ++ n :: c2) :: t2))) ->
  table_at K D F (t1 ++ (c1 ++ n :: c2) :: t2) (h_id n) = Some (n :: c2).
Proof.
  induction t1 as [|c t1 IH]; simpl; intro ND.
  - rewrite chain_at_spec; [reflexivity|].
    rewrite <- app_assoc, map_app in ND. simpl in ND. apply NoDup_remove_2 in ND.
    intro H. apply ND. apply in_or_app; left; exact H.
  - rewrite chain_at_none.
    + apply IH. rewrite map_app in ND. exact (nodup_app_r _ _ ND).
    + rewrite map_app in ND. intro H.
      assert (H2 : In (h_id n) (map h_id (concat (t1 ++ (c1 ++ n :: c2) :: t2)))).
      { rewrite concat_cut. apply in_map. rewrite !in_app_iff. simpl. tauto. }
      clear IH. induction (map h_id c) as [|y l IHl]; [destruct H|].
      simpl in ND. inversion ND as [|? ? Hn Hd]; subst. destruct H as [->|H].
      * apply Hn. apply in_or_app; right; exact H2.
      * apply IHl; assumption.
Qed.

Inductive cur_at (h : hash) : hcursor -> list hnode -> list hnode -> Prop :=
| cur_none i : cur_at h (HCursor i None) (concat (table h)) []
| cur_some t1 c1 n c2 t2 : table h = t1 ++ (c1 ++ n :: c2) :: t2 ->
    cur_at h (HCursor (length t1) (Some (h_id n))) (concat t1 ++ c1) (n :: c2 ++ concat t2).

Lemma scan_spec t : forall i,
  (concat t = [] /\ snd (scan K D F t i) = None) \/
  (exists t1 n c t2, t = t1 ++ (n :: c) :: t2 /\ concat t1 = [] /\
     scan K D F t i = (i + length t1, Some (h_id n))).
Proof.
  induction t as [|c t IH]; intro i; simpl; [left; auto|].
  destruct c as [|n c]; simpl.
  - destruct (IH (S i)) as [[E1 E2]|(t1 & n & c & t2 & E1 & E2 & E3)]; [left; auto|].
    right. exists ([] :: t1), n, c, t2. rewrite E1. simpl. split; [reflexivity|]. split; [exact E2|].
    rewrite <- E1, E3. f_equal. lia.
  - right. exists [], n, c, t. simpl. rewrite Nat.add_0_r. auto.
Qed.

Lemma scan_cur h i t0 t : table h = t0 ++ t -> length t0 = i ->
  exists c l1 l2, scan K D F t i = (hc_index c, hc_node c) /\ cur_at h c l1 l2 /\
    l1 = (match l2 with [] => concat (table h) | _ => concat t0 end) /\ l2 = concat t.
Proof.
  intros E L. destruct (scan_spec t i) as [[E1 E2]|(t1 & n & c & t2 & E1 & E2 & E3)].
  - destruct (scan K D F t i) as [j o] eqn:Es. simpl in E2. subst o.
    exists (HCursor j None), (concat (table h)), []. repeat split; [constructor|]. symmetry; exact E1.
  - exists (HCursor (i + length t1) (Some (h_id n))), (concat (t0 ++ t1) ++ []), (n :: c ++ concat t2).
    split; [exact E3|].
    assert (Et : table h = (t0 ++ t1) ++ ([] ++ n :: c) :: t2) by (rewrite E, E1, <- app_assoc; reflexivity).
    split.
    { replace (i + length t1) with (length (t0 ++ t1)) by (rewrite app_length; lia).
      apply cur_some. exact Et. }
    split.
    + rewrite concat_app, E2, !app_nil_r. reflexivity.
    + rewrite E1, concat_app, E2. reflexivity.
Qed.

Lemma deref_spec h m t1 c1 n c2 t2 : hrep h m -> table h = t1 ++ (c1 ++ n :: c2) :: t2 ->
  deref K D F h (h_id n) = Ok (n, option_map h_id (hd_error c2)).
Proof.
  intros R E. unfold deref. rewrite E, table_at_spec; [reflexivity|]. rewrite <- E. apply R.
Qed.

Lemma skipn_cut {A} (t1 t2 : list A) c : skipn (S (length t1)) (t1 ++ c :: t2) = t2.
Proof.
  rewrite skipn_app. replace (S (length t1) - length t1) with 1 by lia.
  rewrite skipn_all2 by lia. reflexivity.
Qed.
Lemma skipn_cut0 {A} (t1 t2 : list A) : skipn (length t1) (t1 ++ t2) = t2.
Proof. rewrite skipn_app, Nat.sub_diag, skipn_all. reflexivity. Qed.

Lemma next_spec h m c done n rest : hrep h m -> cur_at h c done (n :: rest) ->
  exists c', cursor_next K D F h c = Ok c' /\ cur_at h c' (done ++ [n]) rest.
Proof.
  intros R C. inversion C as [|t1 c1 n0 c2 t2 E]; subst. unfold cursor_next. simpl.
  rewrite (deref_spec _ _ _ _ _ _ _ R E). simpl. destruct c2 as [|n2 c2]; simpl.
  - assert (Hs : skipn (S (length t1)) (table h) = t2) by (rewrite E; apply skipn_cut).
    simpl in Hs. rewrite Hs.
    destruct (scan_cur h (S (length t1)) (t1 ++ [c1 ++ [n]]) t2) as (c & l1 & l2 & Es & Cu & E1 & E2).
    { rewrite E, <- app_assoc. reflexivity. }
    { rewrite app_length. simpl. lia. }
    rewrite Es. eexists; split; [reflexivity|]. subst l2. destruct c as [ci cn]. simpl.
    replace ((concat t1 ++ c1) ++ [n]) with l1; [exact Cu|].
    rewrite E1. destruct (concat t2) as [|x r] eqn:Ec.
    + rewrite E, concat_cut, Ec, app_nil_r, app_assoc. reflexivity.
    + rewrite concat_app. simpl. rewrite app_nil_r, app_assoc. reflexivity.
  - eexists; split; [reflexivity|].
    pose proof (cur_some h t1 (c1 ++ [n]) n2 c2 t2) as X. rewrite <- app_assoc in X |- *.
    apply X. exact E.
Qed.

Lemma get_spec h m c done n rest : hrep h m -> cur_at h c done (n :: rest) ->
  cursor_get K D F h c = Ok (Some (pr n)) /\ cursor_has_item c = true.
Proof.
  intros R C. inversion C as [|t1 c1 n0 c2 t2 E]; subst. unfold cursor_get. simpl.
  rewrite (deref_spec _ _ _ _ _ _ _ R E). auto.
Qed.

Lemma cur_all h c done rest : cur_at h c done rest -> concat (table h) = done ++ rest.
Proof.
  intro C. inversion C as [|t1 c1 n0 c2 t2 E]; subst; [rewrite app_nil_r; reflexivity|].
  rewrite E, concat_cut, <- !app_assoc. reflexivity.
Qed.

Lemma first_cur h i : concat (table h) <> [] \/ i = None ->
  exists l1, cur_at h (cursor_first K D F h (HCursor 0 i)) l1 (concat (table h)).
Proof.
  intro H. unfold cursor_first.
  destruct (scan_cur h 0 [] (table h) eq_refl eq_refl) as (c & l1 & l2 & Es & Cu & E1 & E2).
  rewrite Es. subst l2. destruct c as [ci [cn|]]; simpl in *; [exists l1; exact Cu|].
  assert (Hc : concat (table h) = []) by (clear E1; inversion Cu; auto).
  destruct H as [H|H]; [congruence|]. subst i. exists [].
  pose proof (cur_none h 0) as X. rewrite Hc in X |- *. exact X.
Qed.

Lemma walk_spec h m : hrep h m -> forall rest done c fuel, cur_at h c done rest ->
  length rest < fuel -> cursor_walk K D F fuel h c = Ok (map pr rest).
Proof.
  intro R. induction rest as [|n rest IH]; intros done c fuel C Hf; (destruct fuel as [|fuel]; [simpl in Hf; lia|]); simpl.
  - inversion C; subst. reflexivity.
  - destruct (get_spec _ _ _ _ _ _ R C) as [G1 G2]. rewrite G2, G1. simpl.
    destruct (next_spec _ _ _ _ _ _ R C) as (c' & E & C'). rewrite E. simpl.
    rewrite (IH _ _ _ C'); [reflexivity|]. simpl in Hf; lia.
Qed.

Variable KO : key_ok K keq hashf.

(** ** cursor_remove *)
Lemma remove_spec h m c done n rest : hrep h m -> cur_at h c done (n :: rest) ->
  exists h' c' done' rest', cursor_remove K D F hashf keq h c = Ok (h', c') /\
    hrep h' (m_del K D F keq m (h_key n)) /\ cur_at h' c' done' rest' /\
    done' ++ rest' = done ++ rest /\ (forall x, In x done' -> In x done \/ rest' = []) /\
    (forall x, In x rest -> In x rest') /\ concat (table h') = done ++ rest.
Proof.
  intros R C. inversion C as [|t1 c1 n0 c2 t2 E]; subst. unfold cursor_remove. simpl.
  rewrite (deref_spec _ _ _ _ _ _ _ R E). simpl.
  destruct (unlink_at K D F hashf keq KO h m t1 t2 c1 c2 n R E) as [U R'].
  unfold hash_remove. rewrite U. simpl.
  set (h' := add_trace K D F _ _).
  assert (R2 : hrep h' (m_del K D F keq m (h_key n))) by (apply hrep_trace; exact R').
  assert (Et : table h' = t1 ++ (c1 ++ c2) :: t2) by reflexivity.
  destruct c2 as [|n2 c2]; simpl.
  - destruct (scan_cur h' (length t1) t1 ((c1 ++ []) :: t2) Et eq_refl) as (c & l1 & l2 & Es & Cu & E1 & E2).
    assert (Hs : skipn (length t1) (t1 ++ (c1 ++ []) :: t2) = (c1 ++ []) :: t2) by apply skipn_cut0.
    rewrite Hs, Es. exists h', c, l1, l2. destruct c as [ci cn]. simpl.
    assert (Ef : concat (table h') = (concat t1 ++ c1) ++ concat t2).
    { rewrite Et, concat_cut, app_nil_r, app_assoc. reflexivity. }
    split; [reflexivity|]. split; [exact R2|]. split; [exact Cu|]. split; [|split; [|split; [|exact Ef]]].
    + etransitivity; [|exact Ef]. symmetry; exact (cur_all _ _ _ _ Cu).
    + intros x Hx. destruct l2 as [|y r] eqn:Ey; [right; reflexivity|]. left. rewrite E1 in Hx.
      apply in_or_app; left; exact Hx.
    + intros x Hx. rewrite E2. simpl. rewrite app_nil_r. apply in_or_app; right; exact Hx.
  - exists h', (HCursor (length t1) (Some (h_id n2))), (concat t1 ++ c1), (n2 :: c2 ++ concat t2).
    split; [reflexivity|]. split; [exact R2|]. split; [apply (cur_some h' t1 c1 n2 c2 t2 Et)|].
    split; [reflexivity|]. split; [intros x Hx; left; exact Hx|]. split; [intros x Hx; exact Hx|].
    rewrite Et, concat_cut, <- !app_assoc. reflexivity.
Qed.

Section Filter.
Variable drop : K -> D -> bool.
Definition dropn (n : hnode) : bool := drop (h_key n) (h_data n).
Definition keepn (n : hnode) : bool := negb (dropn n).

Lemma filter_loop N : forall k h m c done rest,
  hrep h m -> cur_at h c done rest -> Forall (fun n => dropn n = false) done ->
  length (concat (table h)) <= N ->
  length (filter dropn (concat (table h))) * S N + length rest <= k ->
  exists h' seen, cursor_filter K D F hashf keq (S k) drop h c = Ok (h', seen) /\
    concat (table h') = filter keepn (concat (table h)) /\
    (forall n, In n rest -> In (pr n) seen) /\ exists m', hrep h' m'.
Proof.
  induction k as [|k IH]; intros h m c done rest R C Hd HN Hk.
  - destruct rest as [|n rest]; [|simpl in Hk; lia].
    inversion C; subst. simpl. exists h, []. split; [reflexivity|]. split.
    { symmetry. apply forallb_filter_id. apply forallb_forall. rewrite Forall_forall in Hd.
      intros x Hx. unfold keepn. rewrite (Hd x Hx). reflexivity. }
    split; [intros n []|eauto].
  - destruct rest as [|n rest].
    { inversion C; subst. simpl. exists h, []. split; [reflexivity|]. split.
      { symmetry. apply forallb_filter_id. apply forallb_forall. rewrite Forall_forall in Hd.
        intros x Hx. unfold keepn. rewrite (Hd x Hx). reflexivity. }
      split; [intros n []|eauto]. }
    destruct (get_spec _ _ _ _ _ _ R C) as [G1 G2].
    change (cursor_filter K D F hashf keq (S (S k)) drop h c) with
      (if cursor_has_item c then
        o <- cursor_get K D F h c ;;
        p <- of_option o ;;
        '(h, c) <- (if drop (fst p) (snd p) then cursor_remove K D F hashf keq h c
                    else c <- cursor_next K D F h c ;; Ok (h, c)) ;;
        '(h, r) <- cursor_filter K D F hashf keq (S k) drop h c ;;
        Ok (h, p :: r)
      else Ok (h, [])).
    rewrite G2, G1. cbn [bind of_option pr fst snd].
    destruct (drop (h_key n) (h_data n)) eqn:Ed.
    + destruct (remove_spec _ _ _ _ _ _ R C) as (h' & c' & done' & rest' & E & R' & C' & A1 & A2 & A3 & A4).
      rewrite E. cbn [bind].
      pose proof (cur_all _ _ _ _ C) as CA. pose proof (cur_all _ _ _ _ C') as CA'.
      assert (HF : filter dropn (concat (table h)) = filter dropn done ++ n :: filter dropn rest).
      { assert (Ek : dropn n = true) by exact Ed. rewrite CA, filter_app. simpl. rewrite Ek. reflexivity. }
      assert (HF' : filter dropn (concat (table h')) = filter dropn done ++ filter dropn rest).
      { rewrite A4, filter_app. reflexivity. }
      destruct (IH h' _ c' done' rest' R' C') as (h2 & seen & E2 & F2 & S2 & M2).
      * apply Forall_forall. intros x Hx. destruct (A2 x Hx) as [Hx2|Hx2].
        -- rewrite Forall_forall in Hd. apply Hd; exact Hx2.
        -- (* the walk is over: everything left was kept *)
           subst rest'. rewrite app_nil_r in A1.
           assert (rest = []) by (destruct rest as [|y r]; [reflexivity|exfalso; apply (A3 y); left; reflexivity]).
           subst rest. rewrite app_nil_r in A1. rewrite A1 in Hx. rewrite Forall_forall in Hd. apply Hd; exact Hx.
      * rewrite A4, app_length. rewrite CA, app_length in HN. simpl in HN. lia.
      * rewrite HF' , app_length. rewrite HF, app_length in Hk. simpl in Hk.
        assert (length rest' <= N).
        { assert (L : length (concat (table h')) = length done' + length rest') by (rewrite CA', app_length; reflexivity).
          rewrite A4, app_length in L. rewrite CA, app_length in HN. simpl in HN. lia. }
        nia.
      * rewrite E2. cbn [bind]. exists h2, (pr n :: seen). split; [reflexivity|]. split.
        { assert (Ek : keepn n = false) by (unfold keepn, dropn; rewrite Ed; reflexivity).
          rewrite F2, A4, CA, !filter_app. simpl. rewrite Ek. reflexivity. }
        split; [|exact M2]. intros x [<-|Hx]; [left; reflexivity|]. right. apply S2, A3, Hx.
    + destruct (next_spec _ _ _ _ _ _ R C) as (c' & E & C'). rewrite E. cbn [bind].
      destruct (IH h _ c' _ rest R C') as (h2 & seen & E2 & F2 & S2 & M2).
      * apply Forall_app. split; [exact Hd|]. constructor; [exact Ed|constructor].
      * exact HN.
      * simpl in Hk. lia.
      * rewrite E2. cbn [bind]. exists h2, (pr n :: seen). split; [reflexivity|]. split; [exact F2|].
        split; [|exact M2]. intros x [<-|Hx]; [left; reflexivity|]. right. apply S2, Hx.
Qed.
End Filter.

Variable knull : K -> bool.
Variable dnull : D -> bool.
Variable null : D.
Notation hexec_all := (hexec_all K D F hashf keq knull dnull null).
Notation hspec_all := (hspec_all K D F keq null).

Lemma C11_foreach_lemma step ops : 1 <= step ->
  exists h ans order, hexec_all (hash_new_full K D F step) ops = Ok (h, ans) /\
    Permutation order (m_pairs (fst (hspec_all [] ops))) /\
    (forall stop, foreach_pairs K D F stop h = take_until stop order).
Proof.
  intro H. destruct (reach K D F hashf keq KO knull dnull null step ops H) as (h & ans & m & E & R & -> & _).
  exists h, ans, (pairs K D F h). split; [exact E|]. split; [apply pairs_perm; exact R|].
  intro stop. apply foreach_spec.
Qed.

Lemma C11_walk_lemma step ops : 1 <= step ->
  exists h ans order, hexec_all (hash_new_full K D F step) ops = Ok (h, ans) /\
    Permutation order (m_pairs (fst (hspec_all [] ops))) /\
    cursor_walk K D F (S (length order)) h (cursor_new K D F h) = Ok order.
Proof.
  intro H. destruct (reach K D F hashf keq KO knull dnull null step ops H) as (h & ans & m & E & R & -> & _).
  exists h, ans, (pairs K D F h). split; [exact E|]. split; [apply pairs_perm; exact R|].
  destruct (first_cur h None (or_intror eq_refl)) as [l1 C].
  rewrite (walk_spec h _ R _ _ _ _ C); [reflexivity|]. unfold pairs. rewrite map_length. lia.
Qed.

Lemma m_pairs_filter (drop : K -> D -> bool) (l : list hnode) m : Permutation (map ent l) m ->
  Permutation (map pr (filter (keepn drop) l)) (filter (fun p => negb (drop (fst p) (snd p))) (m_pairs m)).
Proof.
  intro P. unfold m_pairs.
  assert (P2 : Permutation (map pr l) (map (fun e => (e_key e, e_data e)) m)).
  { rewrite <- P, map_map. reflexivity. }
  rewrite <- (filter_perm _ _ _ P2). clear.
  induction l as [|n l IH]; simpl; [constructor|]. unfold keepn, dropn at 1. simpl.
  destruct (drop (h_key n) (h_data n)); simpl; [exact IH|]. constructor. exact IH.
Qed.

Lemma C11_filter_lemma step ops drop : 1 <= step ->
  exists h ans fuel h' seen, hexec_all (hash_new_full K D F step) ops = Ok (h, ans) /\
    cursor_filter K D F hashf keq fuel drop h (cursor_new K D F h) = Ok (h', seen) /\
    Permutation (pairs K D F h')
      (filter (fun p => negb (drop (fst p) (snd p))) (m_pairs (fst (hspec_all [] ops)))) /\
    (forall p, In p (m_pairs (fst (hspec_all [] ops))) -> In p seen).
Proof.
  intro H. destruct (reach K D F hashf keq KO knull dnull null step ops H) as (h & ans & m & E & R & -> & _).
  destruct (first_cur h None (or_intror eq_refl)) as [l1 C].
  assert (L1 : l1 = []).
  { pose proof (cur_all _ _ _ _ C) as A. apply (f_equal (@length _)) in A. rewrite app_length in A.
    destruct l1; [reflexivity|simpl in A; lia]. }
  subst l1.
  destruct (filter_loop drop (length (concat (table h))) _ h _ _ _ _ R C (Forall_nil _) (le_n _) (le_n _))
    as (h' & seen & E' & F' & S' & M').
  eexists h, ans, _, h', seen. split; [exact E|]. split; [exact E'|]. split.
  - unfold pairs. fold pr. rewrite F'. apply m_pairs_filter. apply R.
  - intros p Hp. apply (Permutation_in _ (Permutation_sym (pairs_perm _ _ R))) in Hp.
    unfold pairs in Hp. apply in_map_iff in Hp. destruct Hp as (n & <- & Hn). apply S'; exact Hn.
Qed.

(** ** C12 *)
Section Copy.
Variable kc : K -> option F -> D -> option F -> K.
Variable vc : K -> option F -> D -> option F -> D.
Let key_copy := fun n : hnode => kc (h_key n) (h_kd K D F n) (h_data n) (h_dd K D F n).
Let value_copy := fun n : hnode => vc (h_key n) (h_kd K D F n) (h_data n) (h_dd K D F n).
Notation cpe := (cpe kc vc).
Hypothesis kc_eq : forall k kd d dd, keq (kc k kd d dd) k = true.

Lemma hrep_perm h m m' : hrep h m -> Permutation m m' -> hrep h m'.
Proof. intros [R1 R2 R3 R4 R5 R6 R7] P. split; auto. rewrite R3; exact P. Qed.

Lemma foreach_all (A : Type) (g : hnode -> A -> A * bool) :
  (forall n a, snd (g n a) = false) ->
  forall t acc, table_foreach K D F A g t acc = fold_left (fun a n => fst (g n a)) (concat t) acc.
Proof.
  intro Hg.
  assert (HC : forall c acc, chain_foreach K D F A g c acc = (fold_left (fun a n => fst (g n a)) c acc, false)).
  { induction c as [|n c IH]; intro acc; simpl; [reflexivity|].
    specialize (Hg n acc). destruct (g n acc) as [a b]; simpl in *. subst b. apply IH. }
  induction t as [|c t IH]; intro acc; simpl; [reflexivity|].
  rewrite HC, IH, fold_left_app. reflexivity.
Qed.

Lemma copy_loop h m : hrep h m -> forall l done r,
  concat (table h) = done ++ l ->
  hrep r (rev (map cpe (map ent done))) ->
  exists r', fold_left (fun a n => fst (copy_foreach K D F hashf keq key_copy value_copy h n a)) l (Ok r) = Ok r' /\
    hrep r' (rev (map cpe (map ent (done ++ l)))) /\ htrace K D F r' = htrace K D F r.
Proof.
  intro R. induction l as [|n l IH]; intros done r E Rr; simpl.
  - rewrite app_nil_r. eauto.
  - assert (Hin : In n (concat (table h))) by (rewrite E; apply in_or_app; right; left; reflexivity).
    assert (Hne : table h <> []) by (intro X; rewrite X in Hin; destruct Hin).
    destruct (bucket K D F hashf keq KO h m (h_key n) R Hne) as (c & t1 & t2 & Et & L & G & NB).
    rewrite G. simpl.
    assert (Hl : chain_lookup K D F keq c (h_key n) = Some n).
    { destruct (lookup_spec K D F hashf keq KO h m (h_key n) R) as (o & Eo & _ & Ho).
      unfold hash_lookup in Eo. destruct (table h) eqn:X; [congruence|]. rewrite G in Eo. simpl in Eo.
      inversion Eo as [Eo']. rewrite <- X in *. destruct o as [n'|].
      - destruct Ho as [Hin' Hk]. rewrite Eo'. f_equal.
        destruct (ForallOrdPairs_In (hr_uniq _ _ _ _ _ _ _ R) n' n Hin' Hin) as [->|[Hx|Hx]]; [reflexivity| |].
        + congruence.
        + rewrite (keq_sym K hashf keq KO) in Hx. congruence.
      - specialize (Ho n Hin). rewrite (keq_refl K hashf keq KO) in Ho. discriminate. }
    rewrite Hl. simpl. unfold key_copy, value_copy.
    destruct (insert_spec K D F hashf keq KO r _ (kc (h_key n) (h_kd K D F n) (h_data n) (h_dd K D F n))
       (h_kd K D F n) (vc (h_key n) (h_kd K D F n) (h_data n) (h_dd K D F n)) (h_dd K D F n) Rr)
      as (r' & E' & R' & T').
    rewrite E'.
    assert (EM : m_put K D F keq (rev (map cpe (map ent done)))
        (Entry (kc (h_key n) (h_kd K D F n) (h_data n) (h_dd K D F n)) (h_kd K D F n)
               (vc (h_key n) (h_kd K D F n) (h_data n) (h_dd K D F n)) (h_dd K D F n)) =
        rev (map cpe (map ent (done ++ [n])))).
    { rewrite !map_app, rev_app_distr. simpl. unfold m_put. f_equal. simpl.
      unfold m_del. apply forallb_filter_id. apply forallb_forall. intros e He.
      apply in_rev in He. apply in_map_iff in He. destruct He as (e0 & <- & He).
      apply in_map_iff in He. destruct He as (x & <- & Hx). simpl. apply negb_true_iff.
      destruct (keq _ _) eqn:Ek; [|reflexivity]. exfalso.
      pose proof (hr_uniq _ _ _ _ _ _ _ R) as U. rewrite E in U.
      assert (U2 : uniq K D F keq (n :: done ++ l)).
      { apply (uniq_perm K D F keq (keq_sym K hashf keq KO) _ _ (Permutation_sym (Permutation_middle _ _ _))). exact U. }
      inversion U2 as [|? ? Hf Hu]; subst. rewrite Forall_forall in Hf.
      assert (Hxn : keq (h_key n) (h_key x) = false) by (apply Hf; apply in_or_app; left; exact Hx).
      assert (keq (h_key x) (h_key n) = true).
      { apply (keq_trans K hashf keq KO _ (kc (h_key x) (h_kd K D F x) (h_data x) (h_dd K D F x))).
        - rewrite (keq_sym K hashf keq KO). apply kc_eq.
        - apply (keq_trans K hashf keq KO _ _ _ Ek). apply kc_eq. }
      rewrite (keq_sym K hashf keq KO) in Hxn. congruence. }
    assert (ET : htrace K D F r' = htrace K D F r).
    { rewrite T'. destruct (m_find K D F keq (rev (map cpe (map ent done))) _) as [e|] eqn:Ef; [|apply app_nil_r].
      exfalso. unfold m_find in Ef. apply find_some in Ef. destruct Ef as [Ein Ek].
      rewrite !map_app, rev_app_distr in EM. simpl in EM. unfold m_put in EM. simpl in EM. inversion EM as [EM'].
      unfold m_del in EM'. rewrite <- EM' in Ein. apply filter_In in Ein. destruct Ein as [_ Ein].
      rewrite Ek in Ein. discriminate. }
    rewrite EM in R'.
    destruct (IH (done ++ [n]) r') as (r2 & E2 & R2 & T2).
    + rewrite <- app_assoc. exact E.
    + exact R'.
    + exists r2. split; [exact E2|]. rewrite <- app_assoc in R2. split; [exact R2|]. congruence.
Qed.

Lemma uniq_map (g : hnode -> hnode) (l : list hnode) :
  (forall n, h_key (g n) = h_key n) -> uniq K D F keq l -> uniq K D F keq (map g l).
Proof.
  intros Hg U. induction U as [|n l Hf Hu IH]; simpl; constructor; auto.
  rewrite Forall_forall in Hf |- *. intros x Hx. apply in_map_iff in Hx. destruct Hx as (y & <- & Hy).
  rewrite !Hg. apply Hf; exact Hy.
Qed.

Lemma copy_spec h m rep : hrep h m ->
  exists r, hash_copy K D F hashf keq key_copy value_copy h rep = Ok r /\
    hrep r (map (fun e => set_handlers rep (cpe e)) m) /\ htrace K D F r = [].
Proof.
  intro R. unfold hash_copy. destruct (table h) as [|c0 t0] eqn:Et.
  - pose proof (hr_perm _ _ _ _ _ _ _ R) as P. rewrite Et in P. simpl in P. apply Permutation_nil in P. subst m.
    eexists; split; [reflexivity|]. split; [|reflexivity]. apply hrep_new. apply R.
  - unfold hash_foreach. rewrite foreach_all by reflexivity.
    destruct (copy_loop h m R (concat (table h)) [] (hash_new_full K D F (h_step K D F h)) eq_refl) as (r & E & Rr & Tr).
    { apply hrep_new. apply R. }
    rewrite E. simpl. simpl in Rr.
    assert (R2 : hrep r (map cpe m)).
    { apply (hrep_perm _ _ _ Rr). rewrite <- Permutation_rev. apply Permutation_map.
      apply (hr_perm _ _ _ _ _ _ _ R). }
    destruct rep as [[dk dd]|].
    + eexists; split; [reflexivity|]. split; [|exact Tr]. destruct R2 as [A1 A2 A3 A4 A5 A6 A7].
      set (g := fun n : hnode => HNode K D F (h_id n) (h_key n) dk (h_data n) dd).
      assert (EC : concat (map (map g) (table r)) = map g (concat (table r))) by (symmetry; apply concat_map).
      split; simpl; try (fold g; rewrite EC).
      * intros i c n Hi Hin. rewrite map_length. rewrite nth_error_map in Hi.
        destruct (nth_error (table r) i) as [ci|] eqn:Ei; [|discriminate]. simpl in Hi. inversion Hi; subst c.
        apply in_map_iff in Hin. destruct Hin as (x & <- & Hx). simpl. apply (A1 i ci x Ei Hx).
      * apply uniq_map; auto.
      * rewrite map_map.
        rewrite <- (map_map cpe (fun e => Entry (e_key e) dk (e_data e) dd)).
        rewrite <- A3, map_map. reflexivity.
      * rewrite map_length; exact A4.
      * exact A5.
      * rewrite map_map. exact A6.
      * intros n Hn. apply in_map_iff in Hn. destruct Hn as (x & <- & Hx). simpl. apply A7; exact Hx.
    + exists r. split; [reflexivity|]. split; [exact R2|exact Tr].
Qed.

Lemma C12_lemma step ops rep ops2 : 1 <= step ->
  exists h ans r r', hexec_all (hash_new_full K D F step) ops = Ok (h, ans) /\
    hash_copy K D F hashf keq key_copy value_copy h rep = Ok r /\
    hexec_all r ops2 =
      Ok (r', snd (hspec_all (map (fun e => set_handlers rep (cpe e)) (fst (hspec_all [] ops))) ops2)).
Proof.
  intro H. destruct (reach K D F hashf keq KO knull dnull null step ops H) as (h & ans & m & E & R & -> & _).
  destruct (copy_spec h _ rep R) as (r & Er & Rr & _).
  destruct (hexec_all_spec K D F hashf keq KO knull dnull null ops2 r _ Rr) as (r' & E' & _).
  exists h, ans, r, r'. auto.
Qed.
End Copy.
End HashProofs2.
