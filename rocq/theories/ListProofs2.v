From Verif Require Import Prelude ListModel ListSpec ListExec ListProofs.
Open Scope Z_scope.


Section P.
Variable D : Type.
Variable null : D.
Variable deqb : D -> D -> bool.
Variable cmp : D -> D -> Z.
Variable has_destroy : bool.

Notation cell := (cell D).
Notation lst := (lst D).
Notation R := (R D).
Notation seq_add := (seq_add D cmp).

Local Opaque walk_fuel.
Local Arguments Z.of_nat : simpl never.

(** ----- axl_list_exists at the level of sequences ----- *)
Fixpoint head_scan (l : list D) (x : D) : bool :=
  match l with
  | [] => false
  | d :: r => if cmp d x =? 0 then true else if cmp d x =? 1 then head_scan r x else false
  end.
Definition seq_exists0 (l : list D) (x : D) : bool :=
  match l with
  | [] => false
  | d :: r =>
    if cmp d x =? 0 then true else if cmp d x =? 1 then
      let e := last l d in
      if cmp e x =? -1 then head_scan r x else if cmp e x =? 0 then true else false
    else false
  end.
Definition seq_exists (l : list D) (x : D) : bool :=
  if deqb x null then false else seq_exists0 l x.

Definition is_some {A} (o : option A) : bool := match o with Some _ => true | None => false end.

Lemma head_lookup_ok s x : forall al p fuel,
  lseg D (heap D s) p al None -> (length al < fuel)%nat ->
  exists o, lookup_loop D cmp fuel s x (hd_or D al None) None = Ok o /\
    is_some o = head_scan (map snd al) x.
Proof.
  induction al as [|[a d] al IH]; intros p fuel S F; destruct fuel as [|fuel]; simpl in *; try lia.
  - eauto.
  - destruct S as [S1 S2]. rewrite (rd_ok _ _ _ _ S1). simpl.
    destruct (cmp d x =? 0); [simpl; eauto|].
    destruct (cmp d x =? 1); [simpl|simpl; eauto].
    apply (IH (Some a)); auto. lia.
Qed.

Lemma lookup_ok s al sp x : R s al sp ->
  exists o, lookup_loop D cmp (walk_fuel D s) s x (first D s) (last_ D s) = Ok o /\
    is_some o = seq_exists0 (map snd al) x.
Proof.
  intro H. rewrite (R_first _ _ _ _ H), (R_last _ _ _ _ H).
  pose proof (walk_fuel_ok _ _ _ _ H) as F.
  destruct (walk_fuel D s) as [|fuel]; [lia|].
  pose proof (R_seg _ _ _ _ H) as S.
  destruct al as [|[a d] al]; [simpl; eauto|].
  set (al0 := (a, d) :: al) in *.
  destruct (last_or D al0 None) as [t|] eqn:LT.
  2:{ apply last_or_none in LT; discriminate. }
  destruct (last_or_some _ _ _ LT) as [l' [e EL]].
  assert (ST : heap D s t = Some (Cell (last_or D l' None) None e)).
  { rewrite EL in S. apply lseg_last in S. exact S. }
  unfold al0. simpl hd_or. simpl map. simpl.
  unfold al0 in S. simpl in S. destruct S as [S1 S2].
  rewrite (rd_ok _ _ _ _ S1). simpl.
  destruct (cmp d x =? 0); [simpl; eauto|].
  destruct (cmp d x =? 1); [simpl|simpl; eauto].
  rewrite (rd_ok _ _ _ _ ST). simpl.
  replace (match map snd al with [] => d | _ :: _ => last (map snd al) d end) with e.
  2:{ assert (X : last (map snd al0) d = e).
      { rewrite EL, map_app. simpl. apply last_last. }
      rewrite <- X. unfold al0. reflexivity. }
  destruct (cmp e x =? -1); [simpl|].
  - apply (head_lookup_ok s x al (Some a)); auto. unfold al0 in F. simpl in F. lia.
  - destruct (cmp e x =? 0); simpl; eauto.
Qed.

Lemma last_nth_error (l : list D) k : (length l = S k)%nat -> nth_error l k = Some (last l null).
Proof.
  intro L. destruct (@exists_last _ l) as [l' [x ->]]; [intro; subst; discriminate|].
  rewrite last_last. rewrite app_length in L. simpl in L.
  rewrite nth_error_app2 by lia. replace (k - length l')%nat with 0%nat by lia. reflexivity.
Qed.

(** ----- one API call refines one step of the sequence ----- *)
Definition rejected (l : list D) (o : op D) : nat :=
  match o with
  | OAdd x => if (length (seq_add l x) =? length l)%nat then 1%nat else 0%nat
  | _ => 0%nat
  end.

Lemma map_snd_split k al (a : nat) (x : D) :
  map snd (firstn k al ++ (a, x) :: skipn k al) = insert_at D (map snd al) k x.
Proof. unfold insert_at. rewrite map_app. simpl. rewrite firstn_map, skipn_map. reflexivity. Qed.

Lemma nth_error_some_nth (l : list D) k d : nth_error l k = Some d -> nth k l null = d.
Proof. intro. apply nth_error_nth. auto. Qed.

Lemma in_range_nth pos (al : list (nat * D)) k : in_range pos (length al) = Some k ->
  nth_error (map snd al) k = Some (nth k (map snd al) null).
Proof.
  intro E. apply in_range_lt in E.
  apply nth_error_nth'. rewrite map_length. exact E.
Qed.

Lemma find_index f (al : list (nat * D)) :
  match index_of D f (map snd al) with
  | Some k => exists d, nth_error (map snd al) k = Some d /\ find f (map snd al) = Some d
  | None => find f (map snd al) = None
  end.
Proof.
  induction al as [|[a d] al IH]; simpl; auto.
  destruct (f d); [exists d; auto|].
  destruct (index_of D f (map snd al)); simpl; auto.
Qed.

Lemma exec_ok s al sp o : R s al sp ->
  exists s' al' sp' ans dd,
    exec D null deqb cmp has_destroy s o = Ok (s', ans) /\ R s' al' sp' /\
    spec_step D null deqb cmp has_destroy seq_add seq_exists (map snd al) o
      = (map snd al', dd, ans) /\
    dtrace D s' = dtrace D s ++ dd /\
    (length (pool D s') + length al + length sp
     = length (pool D s) + length al' + length sp' + rejected (map snd al) o)%nat.
Proof.
  intro H. destruct o; simpl.
  - (* append *)
    destruct (append_ok D null _ _ _ x H) as [s' [a [sp' [E1 [E2 [E3 E4]]]]]]. rewrite E1. simpl.
    eexists _, _, _, _, []. split; [reflexivity|]. split; [exact E2|].
    rewrite map_app, app_nil_r. split; [reflexivity|split; [auto|]].
    unfold bal in E4. rewrite app_length. simpl. lia.
  - (* prepend *)
    destruct (prepend_ok D null _ _ _ x H) as [s' [a [sp' [E1 [E2 [E3 E4]]]]]]. rewrite E1. simpl.
    eexists _, _, _, _, []. split; [reflexivity|]. split; [exact E2|].
    rewrite app_nil_r. split; [reflexivity|split; [auto|]].
    unfold bal in E4. simpl. lia.
  - (* add_at *)
    destruct (add_at_ok D null _ _ _ x pos H) as [s' [a [sp' [E1 [E2 [E3 E4]]]]]]. rewrite E1. simpl.
    eexists _, _, _, _, []. split; [reflexivity|]. split; [exact E2|].
    rewrite app_nil_r, map_snd_split, map_length. split; [reflexivity|split; [auto|]].
    unfold bal in E4. rewrite app_length. simpl. rewrite firstn_length, skipn_length. lia.
  - (* add *)
    destruct (add_ok D null cmp _ _ _ x H) as [s' [al' [sp' [E1 [E2 [E3 [E4 [E5 E6]]]]]]]]. rewrite E1. simpl.
    eexists _, _, _, _, []. split; [reflexivity|]. split; [exact E2|].
    rewrite app_nil_r, E3. split; [reflexivity|split; [auto|]].
    rewrite <- E3, !map_length. unfold bal in E6.
    destruct E5 as [E5|E5].
    + destruct (Nat.eqb_spec (length al') (length al)); lia.
    + subst al'. rewrite Nat.eqb_refl. lia.
  - (* remove *)
    unfold list_remove.
    rewrite (R_first _ _ _ _ H).
    rewrite (linear_ok D s _ al None (walk_fuel D s) (R_seg _ _ _ _ H) (walk_fuel_ok _ _ _ _ H)). simpl.
    destruct (remove_index_ok D has_destroy s al sp (index_of D (fun d => cmp d x =? 0) (map snd al)) also H)
      as [s' [al' [sp' [E1 [E2 [E3 [E4 [E5 E6]]]]]]]].
    { intros k K. apply index_of_lt in K. rewrite map_length in K. auto. }
    rewrite E1. simpl. eexists _, _, _, _, _. split; [reflexivity|]. split; [exact E2|].
    rewrite E5. split; [|split; [exact E6|lia]].
    f_equal. apply surjective_pairing.
  - unfold list_remove_ptr.
    rewrite (R_first _ _ _ _ H).
    rewrite (linear_ok D s _ al None (walk_fuel D s) (R_seg _ _ _ _ H) (walk_fuel_ok _ _ _ _ H)). simpl.
    destruct (remove_index_ok D has_destroy s al sp (index_of D (fun d => deqb d x) (map snd al)) also H)
      as [s' [al' [sp' [E1 [E2 [E3 [E4 [E5 E6]]]]]]]].
    { intros k K. apply index_of_lt in K. rewrite map_length in K. auto. }
    rewrite E1. simpl. eexists _, _, _, _, _. split; [reflexivity|]. split; [exact E2|].
    rewrite E5. split; [|split; [exact E6|lia]].
    f_equal. apply surjective_pairing.
  - unfold list_remove_at. rewrite (R_first _ _ _ _ H).
    rewrite (at_ok D s pos al None (walk_fuel D s) 0 (R_seg _ _ _ _ H) (walk_fuel_ok _ _ _ _ H)). simpl.
    rewrite Z.sub_0_r, map_length.
    destruct (remove_index_ok D has_destroy s al sp (in_range pos (length al)) also H)
      as [s' [al' [sp' [E1 [E2 [E3 [E4 [E5 E6]]]]]]]].
    { intros k K. apply in_range_lt in K. auto. }
    assert (EQ : (if (0 <=? pos) && (pos <? Z.of_nat (length al))
                 then option_map fst (nth_error al (Z.to_nat pos)) else None)
            = match in_range pos (length al) with Some k => option_map fst (nth_error al k) | None => None end).
    { unfold in_range. destruct ((0 <=? pos) && (pos <? Z.of_nat (length al))); reflexivity. }
    simpl in EQ. rewrite EQ, E1. simpl.
    eexists _, _, _, _, _. split; [reflexivity|]. split; [exact E2|].
    rewrite E5. split; [|split; [exact E6|lia]].
    f_equal. apply surjective_pairing.
  - unfold list_remove_first. rewrite (R_first _ _ _ _ H), map_length.
    destruct (remove_index_ok D has_destroy s al sp (in_range 0 (length al)) also H)
      as [s' [al' [sp' [E1 [E2 [E3 [E4 [E5 E6]]]]]]]].
    { intros k K. apply in_range_lt in K. auto. }
    assert (EQ : hd_or D al None
            = match in_range 0 (length al) with Some k => option_map fst (nth_error al k) | None => None end).
    { destruct al as [|[a d] al]; reflexivity. }
    rewrite EQ, E1. simpl.
    eexists _, _, _, _, _. split; [reflexivity|]. split; [exact E2|].
    rewrite E5. split; [|split; [exact E6|lia]].
    f_equal. apply surjective_pairing.
  - unfold list_remove_last. rewrite (R_last _ _ _ _ H), map_length.
    destruct (remove_index_ok D has_destroy s al sp (in_range (Z.of_nat (length al) - 1) (length al)) also H)
      as [s' [al' [sp' [E1 [E2 [E3 [E4 [E5 E6]]]]]]]].
    { intros k K. apply in_range_lt in K. auto. }
    assert (EQ : last_or D al None
            = match in_range (Z.of_nat (length al) - 1) (length al) with Some k => option_map fst (nth_error al k) | None => None end).
    { rewrite last_or_nth. unfold tail_at, addr_at, in_range.
      destruct al as [|[a d] al]; [reflexivity|].
      set (al0 := (a, d) :: al). assert (0 < length al0)%nat by (simpl; lia).
      destruct (Nat.ltb_spec 0 (length al0)); [|lia].
      destruct (Z.leb_spec 0 (Z.of_nat (length al0) - 1)); [|lia].
      destruct (Z.ltb_spec (Z.of_nat (length al0) - 1) (Z.of_nat (length al0))); [|lia].
      simpl andb. cbv iota. f_equal. f_equal. lia. }
    rewrite EQ, E1. simpl.
    eexists _, _, _, _, _. split; [reflexivity|]. split; [exact E2|].
    rewrite E5. split; [|split; [exact E6|lia]].
    f_equal. apply surjective_pairing.
  - (* get_nth *)
    unfold list_get_nth. rewrite (internal_nth_ok _ _ _ _ pos H), map_length. simpl.
    destruct (in_range pos (length al)) as [k|] eqn:E.
    + rewrite (data_nth_ok D null s al sp k _ H (in_range_nth _ _ _ E)). simpl.
      eexists _, _, _, _, _. split; [reflexivity|]. split; [exact H|]. rewrite app_nil_r. split; [reflexivity|]. split; [reflexivity|]; lia.
    + simpl. eexists _, _, _, _, _. split; [reflexivity|]. split; [exact H|]. rewrite app_nil_r. split; [reflexivity|]. split; [reflexivity|]; lia.
  - unfold list_get_first. rewrite (R_first _ _ _ _ H).
    assert (EQ : data_of D null s (hd_or D al None) = Ok (hd null (map snd al))).
    { destruct al as [|[a d] al]; [reflexivity|].
      apply (data_nth_ok D null s ((a, d) :: al) sp 0 d H). reflexivity. }
    rewrite EQ. simpl.
    eexists _, _, _, _, _. split; [reflexivity|]. split; [exact H|]. rewrite app_nil_r. split; [reflexivity|]. split; [reflexivity|]; lia.
  - unfold list_get_last. rewrite (R_last _ _ _ _ H).
    assert (EQ : data_of D null s (last_or D al None) = Ok (last (map snd al) null)).
    { rewrite last_or_nth. unfold tail_at. destruct (Nat.ltb_spec 0 (length al)).
      - apply (data_nth_ok D null s al sp _ _ H). apply last_nth_error. rewrite map_length. lia.
      - destruct al; [reflexivity|simpl in *; lia]. }
    rewrite EQ. simpl.
    eexists _, _, _, _, _. split; [reflexivity|]. split; [exact H|]. rewrite app_nil_r. split; [reflexivity|]. split; [reflexivity|]; lia.
  - eexists _, _, _, _, _. split; [reflexivity|]. split; [exact H|]. rewrite app_nil_r, map_length.
    unfold list_length. rewrite (R_len _ _ _ _ H). split; [reflexivity|]. split; [reflexivity|]; lia.
  - eexists _, _, _, _, _. split; [reflexivity|]. split; [exact H|]. rewrite app_nil_r.
    unfold list_is_empty. rewrite (R_first _ _ _ _ H).
    destruct al as [|[a d] al]; simpl; (split; [reflexivity|]; split; [reflexivity|]; lia).
  - unfold list_exists_at. rewrite (internal_nth_ok _ _ _ _ pos H), map_length. simpl.
    destruct (in_range pos (length al)) as [k|] eqn:E.
    + pose proof (in_range_nth _ _ _ E) as N.
      rewrite nth_error_map in N. destruct (nth_error al k) as [[a d]|] eqn:N'; [|discriminate].
      simpl in N. inversion N as [N2]. simpl.
      destruct (lseg_nth _ _ _ _ _ _ _ _ (R_seg _ _ _ _ H) N') as [c [C1 C2]].
      rewrite (rd_ok _ _ _ _ C1). simpl. rewrite C2.
      eexists _, _, _, _, _. split; [reflexivity|]. split; [exact H|]. rewrite app_nil_r, <- N2. split; [reflexivity|]. split; [reflexivity|]; lia.
    + simpl. eexists _, _, _, _, _. split; [reflexivity|]. split; [exact H|]. rewrite app_nil_r. split; [reflexivity|]. split; [reflexivity|]; lia.
  - unfold list_lookup. rewrite (R_first _ _ _ _ H).
    rewrite (linear_ok D s f al None (walk_fuel D s) (R_seg _ _ _ _ H) (walk_fuel_ok _ _ _ _ H)). simpl.
    pose proof (find_index f al) as FI.
    destruct (index_of D f (map snd al)) as [k|].
    + destruct FI as [d [F1 F2]]. rewrite F2, (data_nth_ok D null s al sp k d H F1). simpl.
      eexists _, _, _, _, _. split; [reflexivity|]. split; [exact H|]. rewrite app_nil_r. split; [reflexivity|]. split; [reflexivity|]; lia.
    + rewrite FI. simpl. eexists _, _, _, _, _. split; [reflexivity|]. split; [exact H|]. rewrite app_nil_r. split; [reflexivity|]. split; [reflexivity|]; lia.
  - unfold list_exists, seq_exists. destruct (deqb x null); simpl.
    + eexists _, _, _, _, _. split; [reflexivity|]. split; [exact H|]. rewrite app_nil_r. split; [reflexivity|]. split; [reflexivity|]; lia.
    + destruct (lookup_ok s al sp x H) as [oo [L1 L2]]. rewrite L1. simpl.
      eexists _, _, _, _, _. split; [reflexivity|]. split; [exact H|]. rewrite app_nil_r, <- L2.
      split; [destruct oo; reflexivity|]. split; [reflexivity|]; lia.
Qed.

Fixpoint rejected_total (l : list D) (ops : list (op D)) : nat :=
  match ops with
  | [] => 0
  | o :: r => (rejected l o + rejected_total
      (fst (fst (spec_step D null deqb cmp has_destroy seq_add seq_exists l o))) r)%nat
  end.

Lemma run_ok : forall ops s al sp, R s al sp ->
  exists s' al' sp' ans dd,
    run D null deqb cmp has_destroy s ops = Ok (s', ans) /\ R s' al' sp' /\
    spec_run D null deqb cmp has_destroy seq_add seq_exists (map snd al) ops
      = (map snd al', dd, ans) /\
    dtrace D s' = dtrace D s ++ dd /\
    (length (pool D s') + length al + length sp
     = length (pool D s) + length al' + length sp' + rejected_total (map snd al) ops)%nat.
Proof.
  induction ops as [|o ops IH]; intros s al sp H.
  - simpl. eexists _, _, _, _, _. split; [reflexivity|]. split; [exact H|].
    split; [reflexivity|]. rewrite app_nil_r. split; [reflexivity|lia].
  - destruct (exec_ok s al sp o H) as [s1 [al1 [sp1 [a1 [d1 [E1 [E2 [E3 [E4 E5]]]]]]]]].
    destruct (IH s1 al1 sp1 E2) as [s2 [al2 [sp2 [a2 [d2 [F1 [F2 [F3 [F4 F5]]]]]]]]].
    simpl. rewrite E1. simpl. rewrite F1. simpl. rewrite E3, F3. simpl.
    eexists _, _, _, _, _. split; [reflexivity|]. split; [exact F2|]. split; [reflexivity|].
    rewrite F4, E4, app_assoc. split; [reflexivity|lia].
Qed.

(** reading the heap back *)
Lemma chain_ok s : forall al p fuel, lseg D (heap D s) p al None -> (length al <= fuel)%nat ->
  chain D fuel s (hd_or D al None) = al.
Proof.
  induction al as [|[a d] al IH]; intros p fuel S F; destruct fuel; simpl in *; try lia; auto.
  destruct S as [S1 S2]. rewrite S1. simpl. f_equal. eapply IH; eauto. lia.
Qed.
Lemma linked_ok s al sp : R s al sp -> linked D s = map fst al.
Proof.
  intro H. unfold linked. rewrite (R_first _ _ _ _ H).
  erewrite chain_ok; [reflexivity|apply (R_seg _ _ _ _ H)|]. pose proof (R_cap _ _ _ _ H). lia.
Qed.
Lemma contents_ok s al sp : R s al sp -> contents D s = map snd al.
Proof.
  intro H. unfold contents. rewrite (R_first _ _ _ _ H).
  erewrite chain_ok; [reflexivity|apply (R_seg _ _ _ _ H)|]. pose proof (R_cap _ _ _ _ H). lia.
Qed.

Lemma run_reach ops s ans : run D null deqb cmp has_destroy (list_new D) ops = Ok (s, ans) ->
  exists al sp, R s al sp.
Proof.
  intro E. destruct (run_ok ops _ _ _ (R_new D)) as [s' [al [sp [a [d [E1 [E2 _]]]]]]].
  rewrite E in E1. inversion E1; subst. eauto.
Qed.

(** ----- C01 ----- *)
Lemma spec_run_positional add exi add' exi' : forall ops l, Forall positional ops ->
  spec_run D null deqb cmp has_destroy add exi l ops
  = spec_run D null deqb cmp has_destroy add' exi' l ops.
Proof.
  induction ops as [|o ops IH]; intros l F; simpl; auto.
  inversion F as [|? ? F1 F2]; subst.
  replace (spec_step D null deqb cmp has_destroy add exi l o)
    with (spec_step D null deqb cmp has_destroy add' exi' l o).
  - destruct (spec_step D null deqb cmp has_destroy add' exi' l o) as [[l1 d1] a1].
    rewrite (IH l1 F2). reflexivity.
  - destruct o; try reflexivity; simpl in F1; contradiction.
Qed.

Lemma C01_lemma add exi ops : Forall positional ops ->
  exists s ans,
    run D null deqb cmp has_destroy (list_new D) ops = Ok (s, ans) /\
    spec_run D null deqb cmp has_destroy add exi [] ops = (contents D s, dtrace D s, ans).
Proof.
  intro F. destruct (run_ok ops _ _ _ (R_new D)) as [s [al [sp [a [d [E1 [E2 [E3 [E4 _]]]]]]]]].
  exists s, a. split; auto. rewrite (contents_ok _ _ _ E2). simpl in E4. rewrite E4.
  rewrite <- E3. apply spec_run_positional; auto.
Qed.

(** ----- C04 ----- *)
Definition adds_rejected (ops : list (op D)) : nat := rejected_total [] ops.

Lemma spares_ok s al sp : R s al sp -> spares D s = map Some sp.
Proof. intro H. apply (R_pool _ _ _ _ H). Qed.

Lemma rejected_total_no_add ops l : Forall (fun o => match o with OAdd _ => False | _ => True end) ops ->
  rejected_total l ops = 0%nat.
Proof.
  revert l; induction ops as [|o ops IH]; intros l F; simpl; auto.
  inversion F as [|? ? F1 F2]; subst. rewrite (IH _ F2).
  destruct o; try reflexivity; contradiction.
Qed.

Lemma map_Some_inj {A} (l l' : list A) : map Some l = map Some l' -> l = l'.
Proof.
  revert l'; induction l as [|x l IH]; intros [|y l'] E; simpl in E; try discriminate; auto.
  inversion E; f_equal; auto.
Qed.

Lemma C04_lemma ops :
  exists s ans sp,
    run D null deqb cmp has_destroy (list_new D) ops = Ok (s, ans) /\
    spares D s = map Some sp /\ NoDup (linked D s ++ sp) /\
    length (linked D s) = length (contents D s) /\
    (forall a, In a (linked D s ++ sp) -> (a < fresh D s)%nat) /\
    (fresh D s = length (linked D s ++ sp) + rejected_total [] ops)%nat.
Proof.
  destruct (run_ok ops _ _ _ (R_new D)) as [s [al [sp [a [d [E1 [E2 [E3 [E4 E5]]]]]]]]].
  exists s, a, sp. split; auto. split; [apply (spares_ok _ _ _ E2)|].
  rewrite (linked_ok _ _ _ E2). split; [apply (R_nodup _ _ _ _ E2)|].
  rewrite (contents_ok _ _ _ E2).
  split; [rewrite !map_length; reflexivity|].
  split; [apply (R_fresh _ _ _ _ E2)|].
  rewrite app_length, map_length, (R_fp _ _ _ _ E2). simpl in E5. lia.
Qed.

Lemma C04_shared_lemma ops :
  exists s ans sp,
    run D null deqb cmp has_destroy (list_new D) ops = Ok (s, ans) /\
    spares D s = map Some sp /\ NoDup (linked D s ++ sp) /\
    length (linked D s) = length (contents D s) /\
    (forall a, In a (linked D s ++ sp) -> (a < fresh D s)%nat).
Proof.
  destruct (C04_lemma ops) as [s [ans [sp [E1 [E2 [E3 [E4 [E5 E6]]]]]]]].
  exists s, ans, sp. auto.
Qed.

Lemma covers (l : list nat) n : NoDup l -> length l = n -> (forall a, In a l -> (a < n)%nat) ->
  forall a, (a < n)%nat -> In a l.
Proof.
  intros ND L B a A.
  assert (incl (seq 0 n) l) as I.
  { apply NoDup_length_incl; auto.
    - rewrite seq_length; lia.
    - intros x X. apply in_seq. specialize (B x X). lia. }
  apply I, in_seq. lia.
Qed.

Lemma C04_covers ops : rejected_total [] ops = 0%nat ->
  exists s ans sp,
    run D null deqb cmp has_destroy (list_new D) ops = Ok (s, ans) /\
    spares D s = map Some sp /\ NoDup (linked D s ++ sp) /\
    (forall a, (a < fresh D s)%nat <-> In a (linked D s ++ sp)).
Proof.
  intro RT. destruct (C04_lemma ops) as [s [ans [sp [E1 [E2 [E3 [E4 [E5 E6]]]]]]]].
  exists s, ans, sp. split; auto. split; auto. split; auto.
  intro a. split; auto. apply covers; auto. lia.
Qed.

Lemma C04_noadd_lemma ops : Forall (fun o => match o with OAdd _ => False | _ => True end) ops ->
  exists s ans sp,
    run D null deqb cmp has_destroy (list_new D) ops = Ok (s, ans) /\
    spares D s = map Some sp /\ NoDup (linked D s ++ sp) /\
    (forall a, (a < fresh D s)%nat <-> In a (linked D s ++ sp)).
Proof. intro F. apply C04_covers, rejected_total_no_add, F. Qed.


Lemma pool_firstn_ok : forall sp p n, firstn n p = map Some sp -> length sp = n ->
  pool_firstn p n = Ok sp.
Proof.
  induction sp as [|a sp IH]; intros p [|n] E L; simpl in *; try discriminate;
    [destruct p; reflexivity|].
  destruct p as [|o p]; simpl in E; [discriminate|]. inversion E; subst.
  simpl. rewrite (IH p n) by (auto; lia). reflexivity.
Qed.

Lemma free_loop_ok : forall al p fuel s freed, lseg D (heap D s) p al None -> (length al < fuel)%nat ->
  exists s', free_loop D has_destroy fuel s (hd_or D al None) freed = Ok (s', freed ++ map fst al) /\
    pool D s' = pool D s /\ avail D s' = avail D s /\
    dtrace D s' = dtrace D s ++ (if has_destroy then map snd al else []).
Proof.
  induction al as [|[a d] al IH]; intros p fuel s freed S F; destruct fuel as [|fuel]; simpl in *; try lia.
  - exists s. rewrite app_nil_r. destruct has_destroy; rewrite app_nil_r; auto.
  - destruct S as [S1 S2]. rewrite (rd_ok _ _ _ _ S1). simpl.
    set (s1 := if has_destroy then set_trace D s (dtrace D s ++ [d]) else s).
    destruct (IH (Some a) fuel s1 (freed ++ [a])) as [s' [E1 [E2 [E3 E4]]]].
    { unfold s1. destruct has_destroy; exact S2. }
    { lia. }
    exists s'. rewrite E1, E2, E3, E4. rewrite <- app_assoc. simpl.
    split; [reflexivity|]. unfold s1. destruct has_destroy; simpl; auto.
    rewrite <- app_assoc. auto.
Qed.

Lemma C04_free_lemma ops :
  Forall (fun o => match o with OAdd _ => False | _ => True end) ops ->
  exists s ans dt freed,
    run D null deqb cmp has_destroy (list_new D) ops = Ok (s, ans) /\
    list_free D has_destroy s = Ok (dt, freed) /\ NoDup freed /\ (forall a, (a < fresh D s)%nat <-> In a freed) /\
    dt = dtrace D s ++ (if has_destroy then contents D s else []).
Proof.
  intro F.
  destruct (run_ok ops _ _ _ (R_new D)) as [s [al [sp [a [d [E1 [E2 [E3 [E4 E5]]]]]]]]].
  unfold list_free. 
  destruct (free_loop_ok al None (walk_fuel D s) s []) as [s' [G1 [G2 [G3 G4]]]].
  { apply (R_seg _ _ _ _ E2). }
  { apply (walk_fuel_ok _ _ _ _ E2). }
  exists s, a. rewrite (R_first _ _ _ _ E2), G1. simpl.
  rewrite G2, G3, (pool_firstn_ok sp) by (rewrite ?(R_pool _ _ _ _ E2), ?(R_avail _ _ _ _ E2); auto).
  simpl. eexists _, _. split; [auto|]. split; [reflexivity|].
  split; [apply (R_nodup _ _ _ _ E2)|].
  simpl in E5. rewrite (rejected_total_no_add ops []) in E5 by auto.
  split.
  - intro z. split; [|apply (R_fresh _ _ _ _ E2)].
    apply covers; [apply (R_nodup _ _ _ _ E2)| |apply (R_fresh _ _ _ _ E2)].
    rewrite app_length, map_length, (R_fp _ _ _ _ E2). lia.
  - rewrite G4, (contents_ok _ _ _ E2). reflexivity.
Qed.

(** ----- ordered lists ----- *)
Section Ordered.
Variable lt : D -> D -> Prop.
Hypothesis OC : order_cmp cmp lt.

Lemma oc_irrefl a : ~ lt a a.
Proof.
  intro L. apply (oc_gt _ _ _ OC) in L. assert (cmp a a = 0) by (apply (oc_eq _ _ _ OC); auto). lia.
Qed.

Lemma cmp1 a b : cmp a b =? 1 = true <-> lt a b.
Proof. rewrite Z.eqb_eq. apply (oc_gt _ _ _ OC). Qed.

Lemma add_scan_split x l1 l2 : forall fuel i,
  (forall y, In y l1 -> lt y x) -> (forall y, In y l2 -> lt x y) ->
  (i <= length l1)%nat -> (i <= length l2)%nat -> l1 ++ l2 <> [] ->
  (length l1 + length l2 < fuel + i)%nat ->
  add_scan D cmp fuel (l1 ++ l2) x i = l1 ++ x :: l2.
Proof.
  induction fuel as [|fuel IH]; intros i A1 A2 I1 I2 NE F; [lia|]. simpl.
  destruct (nth_error (l1 ++ l2) i) as [d|] eqn:E.
  2:{ apply nth_error_None in E. rewrite app_length in E.
      assert (l1 = [] /\ l2 = []) as [-> ->].
      { destruct l1, l2; simpl in *; try lia; auto. }
      contradiction. }
  destruct (Nat.eq_dec i (length l1)) as [EI|NI].
  - (* head meets the first element after x *)
    rewrite nth_error_app2 in E by lia. replace (i - length l1)%nat with 0%nat in E by lia.
    destruct l2 as [|e l2]; [discriminate|]. simpl in E. inversion E; subst e.
    rewrite (proj2 (Z.eqb_eq _ _) (proj2 (oc_lt _ _ _ OC d x) (A2 d (or_introl eq_refl)))).
    unfold insert_at. subst i.
    rewrite firstn_app, Nat.sub_diag, firstn_all, skipn_app, skipn_all, Nat.sub_diag. simpl.
    rewrite app_nil_r. reflexivity.
  - rewrite nth_error_app1 in E by lia.
    assert (LD : lt d x) by (apply A1; eapply nth_error_In; eauto).
    assert (C : cmp d x = 1) by (apply (oc_gt _ _ _ OC); auto).
    rewrite C. simpl.
    rewrite app_length.
    destruct (nth_error (l1 ++ l2) (length l1 + length l2 - 1 - i)) as [e|] eqn:E2.
    2:{ apply nth_error_None in E2. rewrite app_length in E2. lia. }
    destruct (Nat.eq_dec i (length l2)) as [EI2|NI2].
    + rewrite nth_error_app1 in E2 by lia.
      assert (C2 : cmp e x = 1) by (apply (oc_gt _ _ _ OC); apply A1; eapply nth_error_In; eauto).
      rewrite C2. simpl. unfold insert_at.
      replace (length l1 + length l2 - i)%nat with (length l1) by lia.
      rewrite firstn_app, Nat.sub_diag, firstn_all, skipn_app, skipn_all, Nat.sub_diag. simpl.
      rewrite app_nil_r. reflexivity.
    + rewrite nth_error_app2 in E2 by lia.
      assert (C2 : cmp e x = -1) by (apply (oc_lt _ _ _ OC); apply A2; eapply nth_error_In; eauto).
      rewrite C2. simpl. apply IH; auto; lia.
Qed.

Lemma add_scan_present x l1 l2 : forall fuel i,
  (forall y, In y l1 -> lt y x) -> (forall y, In y l2 -> lt x y) ->
  (i <= length l1)%nat -> (i <= length l2)%nat ->
  add_scan D cmp fuel (l1 ++ x :: l2) x i = l1 ++ x :: l2.
Proof.
  induction fuel as [|fuel IH]; intros i A1 A2 I1 I2; auto. simpl.
  destruct (nth_error (l1 ++ x :: l2) i) as [d|] eqn:E; auto.
  assert (CX : cmp x x = 0) by (apply (oc_eq _ _ _ OC); auto).
  destruct (Nat.eq_dec i (length l1)) as [EI|NI].
  - rewrite nth_error_app2 in E by lia. replace (i - length l1)%nat with 0%nat in E by lia.
    simpl in E. inversion E; subst d. rewrite CX. reflexivity.
  - rewrite nth_error_app1 in E by lia.
    assert (C : cmp d x = 1) by (apply (oc_gt _ _ _ OC); apply A1; eapply nth_error_In; eauto).
    rewrite C. simpl. rewrite app_length. simpl length.
    destruct (nth_error (l1 ++ x :: l2) (length l1 + S (length l2) - 1 - i)) as [e|] eqn:E2; auto.
    destruct (Nat.eq_dec i (length l2)) as [EI2|NI2].
    + replace (length l1 + S (length l2) - 1 - i)%nat with (length l1) in E2 by lia.
      rewrite nth_error_app2, Nat.sub_diag in E2 by lia. simpl in E2. inversion E2; subst.
      rewrite CX. reflexivity.
    + rewrite nth_error_app2 in E2 by lia.
      destruct (length l1 + S (length l2) - 1 - i - length l1)%nat as [|m] eqn:M; [lia|].
      simpl in E2.
      assert (C2 : cmp e x = -1) by (apply (oc_lt _ _ _ OC); apply A2; eapply nth_error_In; eauto).
      rewrite C2. simpl. apply IH; auto; lia.
Qed.

Lemma inc_split x : forall l, increasing lt l ->
  exists l1 l2, (forall y, In y l1 -> lt y x) /\ (forall y, In y l2 -> lt x y) /\
    (l = l1 ++ l2 \/ l = l1 ++ x :: l2).
Proof.
  induction 1 as [|d l A I IH].
  - exists [], []. simpl. tauto.
  - destruct IH as [l1 [l2 [B1 [B2 B3]]]].
    destruct (oc_sign _ _ _ OC d x) as [C|[C|C]].
    + apply (oc_lt _ _ _ OC) in C. exists [], (d :: l). split; [simpl; tauto|]. split; [|auto].
      intros y [<-|Y]; auto. eapply (oc_trans _ _ _ OC); eauto.
    + apply (oc_eq _ _ _ OC) in C. subst d. exists [], l. split; [simpl; tauto|]. auto.
    + apply (oc_gt _ _ _ OC) in C. exists (d :: l1), l2.
      split; [intros y [<-|Y]; auto|]. split; auto.
      destruct B3 as [->| ->]; auto.
Qed.

Lemma inc_app l1 l2 : increasing lt l1 -> increasing lt l2 ->
  (forall a b, In a l1 -> In b l2 -> lt a b) -> increasing lt (l1 ++ l2).
Proof.
  induction 1 as [|d l A I IH]; simpl; intros H2 H3; auto.
  constructor.
  - intros y Y. apply in_app_or in Y. destruct Y; auto.
  - apply IH; auto.
Qed.
Lemma inc_app_inv l1 l2 : increasing lt (l1 ++ l2) -> increasing lt l1 /\ increasing lt l2 /\
  (forall a b, In a l1 -> In b l2 -> lt a b).
Proof.
  induction l1 as [|d l1 IH]; simpl; intro H.
  - repeat split; auto; [constructor|tauto].
  - inversion H as [|? ? A I]; subst. destruct (IH I) as [I1 [I2 I3]].
    repeat split; auto.
    + constructor; auto. intros; apply A, in_or_app; auto.
    + intros a b [<-|X] Y; auto. apply A, in_or_app; auto.
Qed.

Lemma seq_add_sorted l x : increasing lt l ->
  increasing lt (seq_add l x) /\ (forall y, In y (seq_add l x) <-> y = x \/ In y l) /\
  (In x l -> seq_add l x = l) /\ (~ In x l -> length (seq_add l x) = S (length l)).
Proof.
  intro I. destruct (inc_split x l I) as [l1 [l2 [A1 [A2 [E|E]]]]].
  - assert (NX : ~ In x l).
    { intro X. subst l. apply in_app_or in X.
      destruct X as [X|X]; [apply A1 in X|apply A2 in X]; apply (oc_irrefl x); auto. }
    assert (EQ : seq_add l x = l1 ++ x :: l2).
    { unfold ListProofs.seq_add. destruct l as [|d l].
      - symmetry in E. apply app_eq_nil in E. destruct E as [-> ->]. reflexivity.
      - rewrite E. apply add_scan_split; auto; try lia.
        + rewrite <- E. discriminate.
        + rewrite app_length. lia. }
    rewrite EQ. subst l. apply inc_app_inv in I. destruct I as [I1 [I2 I3]].
    split; [|split; [|split]].
    + apply inc_app; auto.
      * constructor; auto.
      * intros a b Ha [<-|Hb]; auto.
    + intro y. rewrite !in_app_iff. simpl. intuition congruence.
    + contradiction.
    + intros _. rewrite !app_length. simpl. lia.
  - assert (EQ : seq_add l x = l).
    { unfold ListProofs.seq_add. rewrite E.
      destruct (l1 ++ x :: l2) eqn:Q; [destruct l1; discriminate|]. rewrite <- Q.
      apply add_scan_present; auto; lia. }
    assert (X : In x l) by (subst l; apply in_or_app; simpl; auto).
    rewrite EQ. split; auto. split; [|tauto].
    intro y. split; [auto|]. intros [->|?]; auto.
Qed.

Lemma head_scan_sorted x : forall l, increasing lt l -> head_scan l x = true <-> In x l.
Proof.
  induction 1 as [|d l A I IH]; simpl; [split; [discriminate|tauto]|].
  destruct (oc_sign _ _ _ OC d x) as [C|[C|C]]; rewrite C; simpl.
  - apply (oc_lt _ _ _ OC) in C. split; [discriminate|]. intros [->|X].
    + exfalso; apply (oc_irrefl x); auto.
    + exfalso. apply A in X. apply (oc_irrefl x). eapply (oc_trans _ _ _ OC); eauto.
  - apply (oc_eq _ _ _ OC) in C. tauto.
  - apply (oc_gt _ _ _ OC) in C. rewrite IH. split; auto. intros [->|X]; auto.
    exfalso; apply (oc_irrefl x); auto.
Qed.

Lemma seq_exists_sorted x l : deqb x null = false -> increasing lt l ->
  seq_exists l x = true <-> In x l.
Proof.
  intros NX I. unfold seq_exists. rewrite NX. destruct l as [|d l]; [simpl; split; [discriminate|tauto]|].
  pose proof (head_scan_sorted x _ I) as HS. simpl in HS. simpl.
  destruct (oc_sign _ _ _ OC d x) as [C|[C|C]]; rewrite C in *; simpl in *; auto.
  assert (IL : In (match l with [] => d | _ :: _ => last l d end) (d :: l)).
  { destruct l as [|e l]; [simpl; auto|]. right.
    destruct (@exists_last _ (e :: l)) as [l' [z Q]]; [discriminate|]. rewrite Q, last_last.
    apply in_or_app; simpl; auto. }
  assert (LAST : forall z, In z (d :: l) -> z = (match l with [] => d | _ :: _ => last l d end) \/
                  lt z (match l with [] => d | _ :: _ => last l d end)).
  { intros z Z1. destruct l as [|e l].
    - destruct Z1 as [->|[]]; auto.
    - destruct (@exists_last _ (e :: l)) as [l' [w Q]]; [discriminate|].
      rewrite Q in *. rewrite last_last.
      rewrite app_comm_cons in *. apply in_app_or in Z1. destruct Z1 as [Z1|[->|[]]]; auto.
      apply inc_app_inv in I. right. apply I; simpl; auto. }
  set (e := match l with [] => d | _ :: _ => last l d end) in *. clearbody e.
  destruct (oc_sign _ _ _ OC e x) as [C2|[C2|C2]]; rewrite C2; simpl; auto.
  - apply (oc_eq _ _ _ OC) in C2. subst e. tauto.
  - apply (oc_gt _ _ _ OC) in C2. split; [discriminate|]. intro X.
    exfalso. apply LAST in X. destruct X as [->|X]; apply (oc_irrefl e); auto.
    + eapply (oc_trans _ _ _ OC); eauto.
Qed.

(** removal keeps order *)
Lemma index_of_sorted x : forall l, increasing lt l ->
  index_of D (fun d => cmp d x =? 0) l = None /\ ~ In x l \/
  exists k l1 l2, index_of D (fun d => cmp d x =? 0) l = Some k /\ length l1 = k /\
    l = l1 ++ x :: l2 /\ ~ In x l1 /\ ~ In x l2.
Proof.
  induction 1 as [|d l A I IH]; simpl; [tauto|].
  destruct (Z.eqb_spec (cmp d x) 0) as [C|C].
  - apply (oc_eq _ _ _ OC) in C. subst d. right. exists 0%nat, [], l. simpl. repeat split; auto.
    intro X. apply A in X. apply (oc_irrefl x); auto.
  - assert (d <> x) by (intro; apply C, (oc_eq _ _ _ OC); auto).
    destruct IH as [[IH1 IH2]|[k [l1 [l2 [K1 [K2 [K3 [K4 K5]]]]]]]].
    + left. rewrite IH1. simpl. split; auto. tauto.
    + right. rewrite K1. exists (S k), (d :: l1), l2. simpl. subst. repeat split; auto.
      intros [?|?]; auto.
Qed.

Lemma delete_mid (l1 l2 : list D) x k : length l1 = k -> delete_at D (l1 ++ x :: l2) k = l1 ++ l2.
Proof.
  intros <-. unfold delete_at.
  rewrite firstn_app, Nat.sub_diag, firstn_all, skipn_app. simpl firstn. rewrite app_nil_r.
  rewrite skipn_all2 by lia. replace (S (length l1) - length l1)%nat with 1%nat by lia. reflexivity.
Qed.

Lemma remove_sorted l x also : increasing lt l ->
  let l' := fst (remove_index D has_destroy l (index_of D (fun d => cmp d x =? 0) l) also) in
  increasing lt l' /\ (forall y, In y l' <-> y <> x /\ In y l).
Proof.
  intros I. simpl. destruct (index_of_sorted x l I) as [[E N]|[k [l1 [l2 [E [K [EL [N1 N2]]]]]]]]; rewrite E; simpl.
  - split; auto. intro y. split; [|tauto]. intro Y. split; auto. intro; subst; auto.
  - rewrite EL, (delete_mid _ _ _ _ K). subst l. apply inc_app_inv in I. destruct I as [I1 [I2 I3]].
    inversion I2 as [|? ? J1 J2]; subst. split.
    + apply inc_app; auto. intros; apply I3; simpl; auto.
    + intro y. rewrite !in_app_iff. simpl. split.
      * intros [Y|Y]; (split; [intro; subst; auto|auto]).
      * intros [NE [Y|[Y|Y]]]; auto. congruence.
Qed.

Lemma live_snoc_add (ops : list (op D)) x y : live (ops ++ [OAdd x]) y <-> y = x \/ live ops y.
Proof.
  split.
  - intros [b [a [E N]]].
    destruct (@exists_last _ (OAdd y :: a)) as [q [z Q]]; [discriminate|].
    rewrite Q in E. rewrite app_assoc in E. apply app_inj_tail in E. destruct E as [E1 E2].
    subst z. destruct q as [|o q].
    + simpl in Q. inversion Q; subst. auto.
    + simpl in Q. inversion Q; subst. right. exists b, q. split; auto.
      intros al I. apply (N al), in_or_app; auto.
  - intros [->|[b [a [E N]]]].
    + exists ops, []. simpl. auto.
    + exists b, (a ++ [OAdd x]). split; [subst; rewrite <- app_assoc; reflexivity|].
      intros al I. apply in_app_or in I. destruct I as [I|[I|[]]]; [eapply N; eauto|discriminate].
Qed.

Lemma live_snoc_remove (ops : list (op D)) x b y : live (ops ++ [ORemove x b]) y <-> y <> x /\ live ops y.
Proof.
  split.
  - intros [bf [a [E N]]].
    destruct (@exists_last _ (OAdd y :: a)) as [q [z Q]]; [discriminate|].
    rewrite Q, app_assoc in E. apply app_inj_tail in E. destruct E as [E1 E2]. subst z.
    destruct q as [|o q]; [simpl in Q; inversion Q|]. simpl in Q. inversion Q; subst.
    split.
    + intro; subst. apply (N b), in_or_app; simpl; auto.
    + exists bf, q. split; auto. intros al I. apply (N al), in_or_app; auto.
  - intros [NE [bf [a [E N]]]]. exists bf, (a ++ [ORemove x b]).
    split; [subst; rewrite <- app_assoc; reflexivity|].
    intros al I. apply in_app_or in I. destruct I as [I|[I|[]]]; [eapply N; eauto|].
    inversion I; subst; congruence.
Qed.

Lemma live_snoc_other (ops : list (op D)) (o : op D) (y : D) : (forall x, o <> OAdd x) -> (forall x b, o <> ORemove x b) ->
  live (ops ++ [o]) y <-> live ops y.
Proof.
  intros N1 N2. split.
  - intros [bf [a [E N]]].
    destruct (@exists_last _ (OAdd y :: a)) as [q [z Q]]; [discriminate|].
    rewrite Q, app_assoc in E. apply app_inj_tail in E. destruct E as [E1 E2]. subst z.
    destruct q as [|w q]; [simpl in Q; inversion Q; subst; exfalso; eapply N1; eauto|].
    simpl in Q. inversion Q; subst.
    exists bf, q. split; auto. intros al I. apply (N al), in_or_app; auto.
  - intros [bf [a [E N]]]. exists bf, (a ++ [o]).
    split; [subst; rewrite <- app_assoc; reflexivity|].
    intros al I. apply in_app_or in I. destruct I as [I|[I|[]]]; [eapply N; eauto|].
    eapply N2; eauto.
Qed.

Lemma spec_run_snoc add exi : forall ops l o,
  spec_run D null deqb cmp has_destroy add exi l (ops ++ [o]) =
  let '(l1, d1, a1) := spec_run D null deqb cmp has_destroy add exi l ops in
  let '(l2, d2, a2) := spec_step D null deqb cmp has_destroy add exi l1 o in
  (l2, d1 ++ d2, a1 ++ [a2]).
Proof.
  induction ops as [|p ops IH]; intros l o; simpl.
  - destruct (spec_step D null deqb cmp has_destroy add exi l o) as [[? ?] ?].
    rewrite app_nil_r. reflexivity.
  - destruct (spec_step D null deqb cmp has_destroy add exi l p) as [[l1 d1] a1].
    rewrite IH. destruct (spec_run D null deqb cmp has_destroy add exi l1 ops) as [[l2 d2] a2].
    destruct (spec_step D null deqb cmp has_destroy add exi l2 o) as [[l3 d3] a3].
    rewrite app_assoc. reflexivity.
Qed.

Lemma spec_sorted : forall ops, Forall ordered_op ops ->
  let '(l, _, _) := spec_run D null deqb cmp has_destroy seq_add seq_exists [] ops in
  increasing lt l /\ (forall y, In y l <-> live ops y).
Proof.
  induction ops as [|o ops IH] using rev_ind; intro F.
  - simpl. split; [constructor|]. intro y. split; [tauto|].
    intros [b [a [E _]]]. destruct b; discriminate.
  - apply Forall_app in F. destruct F as [F1 F2]. inversion F2 as [|? ? F3 _]; subst.
    rewrite spec_run_snoc.
    specialize (IH F1).
    destruct (spec_run D null deqb cmp has_destroy seq_add seq_exists [] ops) as [[l d] a].
    destruct IH as [I1 I2].
    destruct o; simpl in F3; try contradiction; simpl;
      try (split; [exact I1|]; intro y; rewrite live_snoc_other by (intros; discriminate); apply I2).
    + destruct (seq_add_sorted l x I1) as [S1 [S2 _]]. split; auto.
      intro y. rewrite S2, live_snoc_add, I2. tauto.
    + pose proof (remove_sorted l x also I1) as RS. simpl in RS.
      destruct (remove_index D has_destroy l (index_of D (fun d0 => cmp d0 x =? 0) l) also) as [l' d'] eqn:Q.
      simpl in RS. destruct RS as [S1 S2]. split; auto.
      intro y. rewrite S2, live_snoc_remove, I2. tauto.
Qed.

(** no cell is lost when every added element is new *)
Lemma rejected_total_snoc : forall ops l o,
  rejected_total l (ops ++ [o]) =
  (rejected_total l ops + rejected (fst (fst (spec_run D null deqb cmp has_destroy seq_add seq_exists l ops))) o)%nat.
Proof.
  induction ops as [|p ops IH]; intros l o; simpl; [lia|].
  rewrite IH. destruct (spec_step D null deqb cmp has_destroy seq_add seq_exists l p) as [[l1 d1] a1]. simpl.
  destruct (spec_run D null deqb cmp has_destroy seq_add seq_exists l1 ops) as [[l2 d2] a2]. simpl. lia.
Qed.

Lemma rejected_fresh : forall ops, Forall ordered_op ops ->
  (forall before x after, ops = before ++ OAdd x :: after -> ~ live before x) ->
  rejected_total [] ops = 0%nat.
Proof.
  induction ops as [|o ops IH] using rev_ind; intros F N; auto.
  apply Forall_app in F. destruct F as [F1 F2]. rewrite rejected_total_snoc, IH; auto.
  2:{ intros b x a E. apply (N b x (a ++ [o])). subst ops. rewrite <- app_assoc. reflexivity. }
  pose proof (spec_sorted ops F1) as SS.
  destruct (spec_run D null deqb cmp has_destroy seq_add seq_exists [] ops) as [[l d] a].
  simpl. destruct SS as [I1 I2]. destruct o; auto. simpl.
  destruct (seq_add_sorted l x I1) as [_ [_ [_ S4]]].
  rewrite S4; [destruct (Nat.eqb_spec (S (length l)) (length l)); lia|].
  rewrite I2. apply (N ops x []). reflexivity.
Qed.

Lemma C04_ordered_lemma ops : Forall ordered_op ops ->
  (forall before x after, ops = before ++ OAdd x :: after -> ~ live before x) ->
  exists s ans sp,
    run D null deqb cmp has_destroy (list_new D) ops = Ok (s, ans) /\
    spares D s = map Some sp /\ NoDup (linked D s ++ sp) /\
    (forall a, (a < fresh D s)%nat <-> In a (linked D s ++ sp)).
Proof. intros F N. apply C04_covers, rejected_fresh; auto. Qed.

Lemma C02_lemma ops : Forall ordered_op ops ->
  exists s ans,
    run D null deqb cmp has_destroy (list_new D) ops = Ok (s, ans) /\
    increasing lt (contents D s) /\ (forall y, In y (contents D s) <-> live ops y).
Proof.
  intro F. destruct (run_ok ops _ _ _ (R_new D)) as [s [al [sp [a [d [E1 [E2 [E3 [E4 _]]]]]]]]].
  exists s, a. split; auto. rewrite (contents_ok _ _ _ E2).
  pose proof (spec_sorted ops F) as SS. simpl in E3. rewrite E3 in SS. exact SS.
Qed.

Lemma C02_equal_lemma ops x : Forall ordered_op ops -> live ops x ->
  exists s ans s',
    run D null deqb cmp has_destroy (list_new D) ops = Ok (s, ans) /\
    list_add D null cmp s x = Ok s' /\ contents D s' = contents D s.
Proof.
  intros F LX. destruct (run_ok ops _ _ _ (R_new D)) as [s [al [sp [a [d [E1 [E2 [E3 [E4 _]]]]]]]]].
  pose proof (spec_sorted ops F) as SS. simpl in E3. rewrite E3 in SS. destruct SS as [I1 I2].
  destruct (add_ok D null cmp s al sp x E2) as [s' [al' [sp' [G1 [G2 [G3 _]]]]]].
  exists s, a, s'. split; auto. split; auto.
  rewrite (contents_ok _ _ _ E2), (contents_ok _ _ _ G2), G3.
  apply seq_add_sorted; auto. apply I2; auto.
Qed.

Lemma C03_lemma ops x : Forall ordered_op ops -> deqb x null = false ->
  exists s ans b,
    run D null deqb cmp has_destroy (list_new D) ops = Ok (s, ans) /\
    list_exists D null deqb cmp s x = Ok b /\ (b = true <-> live ops x).
Proof.
  intros F NX. destruct (run_ok ops _ _ _ (R_new D)) as [s [al [sp [a [d [E1 [E2 [E3 [E4 _]]]]]]]]].
  pose proof (spec_sorted ops F) as SS. simpl in E3. rewrite E3 in SS. destruct SS as [I1 I2].
  destruct (exec_ok s al sp (OExists x) E2) as [s' [al' [sp' [an [dd [G1 [G2 [G3 _]]]]]]]].
  simpl in G1. unfold lift in G1.
  destruct (list_exists D null deqb cmp s x) as [b| |] eqn:LE; simpl in G1; try discriminate.
  inversion G1; subst. simpl in G3. inversion G3. subst.
  eexists s', a, _. split; [auto|]. split; [exact LE|].
  rewrite seq_exists_sorted by auto. rewrite H0 in *. apply I2.
Qed.

(** copying a sorted list *)
Lemma fold_add_sorted : forall l acc, increasing lt (acc ++ l) ->
  fold_left seq_add l acc = acc ++ l.
Proof.
  induction l as [|x l IH]; intros acc I; simpl; [rewrite app_nil_r; auto|].
  assert (seq_add acc x = acc ++ [x]) as ->.
  { apply inc_app_inv in I. destruct I as [I1 [I2 I3]].
    unfold ListProofs.seq_add. destruct acc as [|d acc]; [reflexivity|].
    set (ac := d :: acc) in *. 
    rewrite <- (app_nil_r ac) at 1 2.
    rewrite (add_scan_split x ac []); try reflexivity; try lia.
    - intros y Y. apply I3; simpl; auto.
    - simpl; tauto.
    - unfold ac; discriminate.
    - rewrite app_nil_r. simpl. lia. }
  rewrite IH; rewrite <- app_assoc; auto.
Qed.

End Ordered.

Lemma copy_loop_ok s al sp dup : R s al sp -> forall n it r ral rsp,
  R r ral rsp -> (it + n = length al)%nat ->
  exists r' ral' rsp', copy_loop D null cmp n (Z.of_nat it) s dup r = Ok r' /\ R r' ral' rsp' /\
    map snd ral' = fold_left seq_add (map dup (skipn it (map snd al))) (map snd ral).
Proof.
  intro H. induction n as [|n IH]; intros it r ral rsp HR N; simpl.
  - exists r, ral, rsp. split; auto. split; auto.
    rewrite skipn_all2 by (rewrite map_length; lia). reflexivity.
  - unfold list_get_nth. rewrite (internal_nth_ok _ _ _ _ (Z.of_nat it) H). simpl.
    assert (IR : in_range (Z.of_nat it) (length al) = Some it).
    { unfold in_range. destruct (Z.leb_spec 0 (Z.of_nat it)), (Z.ltb_spec (Z.of_nat it) (Z.of_nat (length al))); simpl; try lia.
      f_equal; lia. }
    rewrite IR.
    pose proof (in_range_nth _ _ _ IR) as NE. set (d := nth it (map snd al) null) in *.
    rewrite (data_nth_ok D null s al sp it d H NE). simpl.
    destruct (add_ok D null cmp r ral rsp (dup d) HR) as [r1 [al1 [sp1 [E1 [E2 [E3 _]]]]]].
    rewrite E1. simpl.
    replace (Z.of_nat it + 1) with (Z.of_nat (S it)) by lia.
    destruct (IH (S it) r1 al1 sp1 E2) as [r' [ral' [rsp' [F1 [F2 F3]]]]]; [lia|].
    exists r', ral', rsp'. split; auto. split; auto. rewrite F3, E3.
    rewrite (skipn_nth _ _ _ NE). reflexivity.
Qed.

Lemma copy_ok s al sp dup : R s al sp ->
  exists r ral rsp, list_copy D null cmp s dup = Ok r /\ R r ral rsp /\
    map snd ral = fold_left seq_add (map dup (map snd al)) [].
Proof.
  intro H. unfold list_copy. rewrite (R_len _ _ _ _ H), Nat2Z.id.
  destruct (copy_loop_ok s al sp dup H (length al) 0 (list_new D) [] [] (R_new D)) as [r [ral [rsp [E1 [E2 E3]]]]]; [lia|].
  exists r, ral, rsp. auto.
Qed.

Lemma C06_sorted_lemma lt ops : order_cmp cmp lt -> Forall ordered_op ops ->
  exists s ans r, run D null deqb cmp has_destroy (list_new D) ops = Ok (s, ans) /\
    list_copy D null cmp s (fun d => d) = Ok r /\ contents D r = contents D s.
Proof.
  intros OC F. destruct (run_ok ops _ _ _ (R_new D)) as [s [al [sp [a [d [E1 [E2 [E3 [E4 _]]]]]]]]].
  pose proof (spec_sorted lt OC ops F) as SS. simpl in E3. rewrite E3 in SS. destruct SS as [I1 I2].
  destruct (copy_ok s al sp (fun d => d) E2) as [r [ral [rsp [G1 [G2 G3]]]]].
  exists s, a, r. split; auto. split; auto.
  rewrite (contents_ok _ _ _ E2), (contents_ok _ _ _ G2), G3, map_id.
  apply (fold_add_sorted lt OC (map snd al) []). exact I1.
Qed.

Lemma C06_always1_lemma ops : (forall a b, cmp a b = 1) ->
  exists s ans r, run D null deqb cmp has_destroy (list_new D) ops = Ok (s, ans) /\
    list_copy D null cmp s (fun d => d) = Ok r /\ contents D r = contents D s.
Proof.
  intros C1. destruct (run_ok ops _ _ _ (R_new D)) as [s [al [sp [a [d [E1 [E2 _]]]]]]].
  destruct (copy_ok s al sp (fun d => d) E2) as [r [ral [rsp [G1 [G2 G3]]]]].
  exists s, a, r. split; auto. split; auto.
  rewrite (contents_ok _ _ _ E2), (contents_ok _ _ _ G2), G3, map_id.
  assert (ADD : forall l x, seq_add l x = l ++ [x]).
  { intros l x. unfold ListProofs.seq_add. destruct l as [|y l]; [reflexivity|].
    simpl. rewrite !C1. simpl. rewrite !Nat.sub_0_r.
    set (l0 := y :: l). 
    destruct (nth_error l0 (length l)) eqn:E.
    - rewrite C1. simpl. unfold insert_at, l0.
      rewrite firstn_all2, skipn_all2 by (simpl; lia). reflexivity.
    - apply nth_error_None in E. unfold l0 in E. simpl in E. lia. }
  assert (forall l acc, fold_left seq_add l acc = acc ++ l) as FL.
  { induction l as [|x l IH]; intro acc; simpl; [rewrite app_nil_r; auto|].
    rewrite ADD, IH, <- app_assoc. reflexivity. }
  rewrite FL. reflexivity.
Qed.

(** ----- cursors ----- *)
Local Arguments skipn : simpl never.
Local Arguments firstn : simpl never.
Lemma cursor_walk_ok s : forall al p fuel, lseg D (heap D s) p al None -> (length al < fuel)%nat ->
  cursor_walk null fuel s (hd_or D al None) = Ok (map snd al).
Proof.
  induction al as [|[a d] al IH]; intros p fuel S F; destruct fuel as [|fuel]; simpl in *; try lia; auto.
  destruct S as [S1 S2]. rewrite !(rd_ok _ _ _ _ S1). simpl.
  rewrite (IH (Some a)) by (auto; lia). reflexivity.
Qed.

Lemma C05_enum_lemma ops : 
  exists s ans, run D null deqb cmp has_destroy (list_new D) ops = Ok (s, ans) /\
    exists bound, forall fuel, (bound <= fuel)%nat ->
      cursor_walk null fuel s (cursor_first D s) = Ok (contents D s).
Proof.
  destruct (run_ok ops _ _ _ (R_new D)) as [s [al [sp [a [d [E1 [E2 _]]]]]]].
  exists s, a. split; auto. exists (S (length al)). intros fuel F.
  rewrite (contents_ok _ _ _ E2). unfold cursor_first.
  rewrite (R_len _ _ _ _ E2), (R_first _ _ _ _ E2).
  destruct (Z.eqb_spec (Z.of_nat (length al)) 0) as [E|E].
  - destruct al; [|simpl in E; lia]. destruct fuel; [simpl in F; lia|reflexivity].
  - apply cursor_walk_ok with (p := None); [apply (R_seg _ _ _ _ E2)|lia].
Qed.

Lemma cursor_walk_back_ok s : forall al fuel rest, lseg D (heap D s) None (al ++ rest) None ->
  (length al < fuel)%nat ->
  cursor_walk_back null fuel s (last_or D al None) = Ok (rev (map snd al)).
Proof.
  induction al as [|[a d] al IH] using rev_ind; intros fuel rest S F; destruct fuel as [|fuel]; try lia.
  - reflexivity.
  - rewrite app_length in F. simpl in F. rewrite last_or_cons_some. simpl.
    rewrite <- app_assoc in S. assert (S0 := S). apply lseg_app in S. destruct S as [_ [S1 _]].
    rewrite !(rd_ok _ _ _ _ S1). simpl.
    rewrite (IH fuel ([(a, d)] ++ rest)) by (auto; lia). simpl.
    rewrite map_app, rev_app_distr. reflexivity.
Qed.

Lemma C05_back_lemma ops : 
  exists s ans, run D null deqb cmp has_destroy (list_new D) ops = Ok (s, ans) /\
    exists bound, forall fuel, (bound <= fuel)%nat ->
      cursor_walk_back null fuel s (cursor_last D s) = Ok (rev (contents D s)).
Proof.
  destruct (run_ok ops _ _ _ (R_new D)) as [s [al [sp [a [d [E1 [E2 _]]]]]]].
  exists s, a. split; auto. exists (S (length al)). intros fuel F.
  rewrite (contents_ok _ _ _ E2). unfold cursor_last. rewrite (R_last _ _ _ _ E2).
  apply (cursor_walk_back_ok s al fuel []); [rewrite app_nil_r; apply (R_seg _ _ _ _ E2)|lia].
Qed.

(** cursor on the [k]-th element *)
Lemma cursor_remove_ok s al sp k also cur : R s al sp ->
  nth_error (map fst al) k = Some cur ->
  exists s' cur' d, cursor_remove D has_destroy s (Some cur) also = Ok (s', cur') /\
    nth_error (map snd al) k = Some d /\
    R s' (firstn k al ++ skipn (S k) al) (sp ++ [cur]) /\
    dtrace D s' = dtrace D s ++ (if also && has_destroy then [d] else []) /\
    cur' = nth_error (firstn k (map fst al) ++ skipn (S k) (map fst al))
             (if (S k <? length al)%nat then k else (k - 1)%nat).
Proof.
  intros H N. rewrite nth_error_map in N. destruct (nth_error al k) as [[a d]|] eqn:E; [|discriminate].
  simpl in N; inversion N; subst cur. clear N.
  unfold cursor_remove.
  pose proof (lseg_cell _ _ _ _ _ _ _ _ (R_seg _ _ _ _ H) E) as C.
  rewrite (rd_ok _ _ _ _ C). simpl.
  assert (KL : (k < length al)%nat) by (apply nth_error_Some; congruence).
  pose proof (nth_split_eq _ _ _ E) as SP.
  assert (H' := H). rewrite SP in H'.
  destruct (remove_selected_ok D has_destroy s _ _ _ _ _ also H') as [s' [E1 [E2 [E3 E4]]]].
  rewrite E1. simpl. eexists _, _, d. split; [reflexivity|].
  split; [rewrite nth_error_map, E; reflexivity|]. split; [exact E2|]. split; [exact E3|].
  assert (LF : length (firstn k (map fst al)) = k) by (apply firstn_length_le; rewrite map_length; lia).
  change (match al with [] => None | _ :: l => nth_error l k end) with (nth_error al (S k)).
  destruct (Nat.ltb_spec (S k) (length al)) as [L|L].
  - destruct (nth_error al (S k)) as [[b e]|] eqn:E5; [|apply nth_error_None in E5; lia].
    rewrite nth_error_app2 by lia. rewrite LF, Nat.sub_diag.
    rewrite skipn_map, (skipn_nth _ _ _ E5). reflexivity.
  - destruct (nth_error al (S k)) as [[b e]|] eqn:E5; [exfalso; assert (S k < length al)%nat by (apply nth_error_Some; congruence); lia|].
    rewrite (skipn_all2 (map fst al)) by (rewrite map_length; lia). rewrite app_nil_r.
    destruct k as [|k]; [reflexivity|].
    replace (S k - 1)%nat with k by lia. unfold addr_at. rewrite <- nth_error_map.
    destruct (nth_error (map fst al) k) as [z|] eqn:EZ.
    + rewrite <- (firstn_skipn (S k) (map fst al)) in EZ.
      rewrite nth_error_app1 in EZ by lia. auto.
    + apply nth_error_None in EZ. rewrite map_length in EZ. lia.
Qed.

Lemma C05_remove_lemma ops k also cur s ans :
  run D null deqb cmp has_destroy (list_new D) ops = Ok (s, ans) ->
  nth_error (linked D s) k = Some cur ->
  exists s' cur' d,
    cursor_remove D has_destroy s (Some cur) also = Ok (s', cur') /\
    nth_error (contents D s) k = Some d /\
    contents D s' = delete_at D (contents D s) k /\
    dtrace D s' = dtrace D s ++ (if also && has_destroy then [d] else []) /\
    cur' = nth_error (linked D s') (if (S k <? length (contents D s))%nat then k else (k - 1)%nat).
Proof.
  intros RU N. destruct (run_reach _ _ _ RU) as [al [sp H]].
  rewrite (linked_ok _ _ _ H) in N.
  destruct (cursor_remove_ok s al sp k also cur H N) as [s' [cur' [d [E1 [E2 [E3 [E4 E5]]]]]]].
  exists s', cur', d. rewrite (contents_ok _ _ _ H), (contents_ok _ _ _ E3), (linked_ok _ _ _ E3).
  split; auto. split; auto. split; [|split; auto].
  - unfold delete_at. rewrite map_app, firstn_map, skipn_map. reflexivity.
  - rewrite map_length, E5, map_app, firstn_map, skipn_map. reflexivity.
Qed.

Local Arguments cursor_remove : simpl never.
(** the filtering loop *)
Lemma filter_loop_tail drop also : forall fuel s al sp k,
  R s al sp -> (k <= length al)%nat -> (forall i d, (i < k)%nat -> nth_error (map snd al) i = Some d -> drop d = false) ->
  (2 * (length al - k) + 1 < fuel)%nat ->
  exists s', cursor_filter null has_destroy also drop fuel s (nth_error (map fst al) k) = Ok s' /\
    exists al' sp', R s' al' sp' /\ map snd al' = filter (fun d => negb (drop d)) (map snd al).
Proof.
  induction fuel as [|fuel IH]; intros s al sp k H KL BEF F; [lia|].
  simpl. destruct (nth_error (map fst al) k) as [cur|] eqn:N; simpl.
  - rewrite nth_error_map in N. destruct (nth_error al k) as [[a d]|] eqn:E; [|discriminate].
    simpl in N; inversion N; subst cur.
    assert (KL' : (k < length al)%nat) by (apply nth_error_Some; congruence).
    pose proof (lseg_cell _ _ _ _ _ _ _ _ (R_seg _ _ _ _ H) E) as C.
    rewrite (rd_ok _ _ _ _ C). simpl.
    change (match al with [] => None | _ :: l => nth_error l k end) with (nth_error al (S k)).
    destruct (drop d) eqn:DD.
    + assert (N2 : nth_error (map fst al) k = Some a) by (rewrite nth_error_map, E; reflexivity).
      destruct (cursor_remove_ok s al sp k also a H N2) as [s' [cur' [d' [E1 [E2 [E3 [E4 E5]]]]]]].
      rewrite E1. simpl. rewrite E5.
      assert (LF : length (firstn k al) = k) by (apply firstn_length_le; lia).
      set (al1 := firstn k al ++ skipn (S k) al) in *.
      assert (LA1 : length al1 = (length al - 1)%nat) by (unfold al1; rewrite app_length, skipn_length; lia).
      assert (M1 : firstn k (map fst al) ++ skipn (S k) (map fst al) = map fst al1).
      { unfold al1. rewrite map_app, firstn_map, skipn_map. reflexivity. }
      rewrite M1.
      assert (FI : filter (fun d => negb (drop d)) (map snd al1) = filter (fun d => negb (drop d)) (map snd al)).
      { assert (Q := f_equal (fun l => filter (fun d => negb (drop d)) (map snd l)) (nth_split_eq _ _ _ E)).
        cbv beta in Q. rewrite Q. unfold al1. rewrite !map_app, !filter_app. simpl. rewrite DD. reflexivity. }
      assert (BEF1 : forall i d0, (i < k)%nat -> nth_error (map snd al1) i = Some d0 -> drop d0 = false).
      { intros i d0 I D0. apply (BEF i d0 I). unfold al1 in D0.
        rewrite map_app, nth_error_app1 in D0 by (rewrite map_length; lia).
        rewrite <- (firstn_skipn k al), map_app, nth_error_app1 by (rewrite map_length; lia). exact D0. }
      destruct (Nat.ltb_spec (S k) (length al)).
      * destruct (IH s' al1 _ k E3) as [s2 [G1 [al2 [sp2 [G2 G3]]]]]; auto; try lia.
        exists s2. split; auto. exists al2, sp2. split; auto. rewrite G3. exact FI.
      * (* last one removed: the cursor steps back on a kept element, or nowhere *)
        destruct k as [|k].
        -- assert (al1 = []) by (destruct al1; auto; simpl in LA1; lia).
           rewrite H1. simpl. destruct fuel; [lia|]. simpl. exists s'. split; auto.
           exists al1, (sp ++ [a]). split; auto. rewrite <- FI, H1. reflexivity.
        -- replace (S k - 1)%nat with k by lia.
           (* one step of cursor_next leads to the end *)
           assert (KA : (k < length al1)%nat) by lia.
           destruct (nth_error al1 k) as [[b e]|] eqn:EB; [|apply nth_error_None in EB; lia].
           rewrite nth_error_map, EB. simpl option_map.
           destruct fuel as [|fuel]; [lia|].
           pose proof (lseg_cell _ _ _ _ _ _ _ _ (R_seg _ _ _ _ E3) EB) as C1.
           simpl. rewrite (rd_ok _ _ _ _ C1). simpl.
           rewrite (BEF1 k e); [|lia|rewrite nth_error_map, EB; reflexivity].
           simpl.
           change (match al1 with [] => None | _ :: l => nth_error l k end) with (nth_error al1 (S k)).
           destruct (nth_error al1 (S k)) as [|] eqn:EN; [exfalso; assert (S k < length al1)%nat by (apply nth_error_Some; congruence); lia|].
           destruct fuel as [|fuel]; [lia|]. simpl. exists s'. split; auto.
           exists al1, (sp ++ [a]). split; auto. rewrite <- FI.
           (* everything left is kept *)
           assert (forall l, (forall i d0, (i < length l)%nat -> nth_error l i = Some d0 -> drop d0 = false) ->
                     filter (fun d => negb (drop d)) l = l) as FID.
           { induction l as [|z l IHl]; intro Q; simpl; auto.
             rewrite (Q 0%nat z); simpl; auto; [|lia]. f_equal. apply IHl.
             intros i d0 I D0. apply (Q (S i) d0); simpl; auto. lia. }
           rewrite FID; auto. intros i d0 I D0. apply (BEF1 i d0); auto.
           rewrite map_length in I. lia.
    + simpl.
      change (match al with [] => None | _ :: l => nth_error l k end) with (nth_error al (S k)).
      replace (match nth_error al (S k) with Some (b, _) => Some b | None => None end)
        with (nth_error (map fst al) (S k)).
      2:{ rewrite nth_error_map. destruct (nth_error al (S k)) as [[? ?]|]; reflexivity. }
      apply (IH s al sp (S k)); auto; try lia.
      intros i d0 I D0. destruct (Nat.eq_dec i k) as [->|NE].
      * rewrite nth_error_map, E in D0. simpl in D0. inversion D0; subst; auto.
      * apply (BEF i d0); auto. lia.
  - exists s. split; auto. exists al, sp. split; auto.
    apply nth_error_None in N. rewrite map_length in N.
    assert (forall l, (forall i d0, (i < length l)%nat -> nth_error l i = Some d0 -> drop d0 = false) ->
                     filter (fun d => negb (drop d)) l = l) as FID.
    { induction l as [|z l IHl]; intro Q; simpl; auto.
      rewrite (Q 0%nat z); simpl; auto; [|lia]. f_equal. apply IHl.
      intros i d0 I D0. apply (Q (S i) d0); simpl; auto. lia. }
    rewrite FID; auto. intros i d0 I D0. apply (BEF i d0); auto.
    rewrite map_length in I. lia.
Qed.

Lemma C05_filter_lemma ops drop also :
  exists s ans, run D null deqb cmp has_destroy (list_new D) ops = Ok (s, ans) /\
    exists bound, forall fuel, (bound <= fuel)%nat ->
      exists s', cursor_filter null has_destroy also drop fuel s (cursor_first D s) = Ok s' /\
        contents D s' = filter (fun d => negb (drop d)) (contents D s).
Proof.
  destruct (run_ok ops _ _ _ (R_new D)) as [s [al [sp [a [d [E1 [E2 _]]]]]]].
  exists s, a. split; auto. exists (2 * length al + 2)%nat. intros fuel F.
  rewrite (contents_ok _ _ _ E2). unfold cursor_first.
  rewrite (R_len _ _ _ _ E2), (R_first _ _ _ _ E2).
  assert (EQ : (if Z.of_nat (length al) =? 0 then None else hd_or D al None) = nth_error (map fst al) 0).
  { destruct al as [|[x y] al]; [reflexivity|]. 
    destruct (Z.eqb_spec (Z.of_nat (length ((x, y) :: al))) 0); [simpl in *; lia|reflexivity]. }
  rewrite EQ.
  destruct (filter_loop_tail drop also fuel s al sp 0 E2) as [s' [G1 [al' [sp' [G2 G3]]]]]; try lia.
  exists s'. split; auto. rewrite (contents_ok _ _ _ G2). exact G3.
Qed.

End P.

(** ----- the comparison functions of the library ----- *)
Lemma equal_int_order : order_cmp list_equal_int (fun a b => b < a).
Proof.
  constructor; unfold list_equal_int; intros;
    repeat match goal with |- context [?a =? ?b] => destruct (Z.eqb_spec a b) end;
    repeat match goal with |- context [?a <? ?b] => destruct (Z.ltb_spec a b) end; lia.
Qed.

(** byte-wise lexicographic order *)
Inductive strlt : bytes -> bytes -> Prop :=
| strlt_nil c s : strlt [] (c :: s)
| strlt_lt c d s t : (N_of_ascii c < N_of_ascii d)%N -> strlt (c :: s) (d :: t)
| strlt_eq c s t : strlt s t -> strlt (c :: s) (c :: t).

Lemma N_of_ascii_inj a b : N_of_ascii a = N_of_ascii b -> a = b.
Proof. intro E. rewrite <- (ascii_N_embedding a), <- (ascii_N_embedding b). f_equal. auto. Qed.

Lemma strcmp_spec : forall a b,
  (strcmp a b = -1 /\ strlt a b) \/ (strcmp a b = 0 /\ a = b) \/ (strcmp a b = 1 /\ strlt b a).
Proof.
  induction a as [|x a IH]; intros [|y b]; simpl.
  - auto.
  - left; split; auto; constructor.
  - right; right; split; auto; constructor.
  - destruct (N.compare_spec (N_of_ascii x) (N_of_ascii y)) as [E|E|E].
    + apply N_of_ascii_inj in E. subst y. destruct (IH b) as [[-> H]|[[-> ->]|[-> H]]]; auto.
      * left; split; auto. apply strlt_eq; auto.
      * right; right; split; auto; apply strlt_eq; auto.
    + left; split; auto; constructor; auto.
    + right; right; split; auto; constructor; auto.
Qed.

Lemma strlt_irrefl a : ~ strlt a a.
Proof. induction a; intro H; inversion H; subst; auto. lia. Qed.
Lemma strlt_trans a b c : strlt a b -> strlt b c -> strlt a c.
Proof.
  intro H; revert c; induction H; intros z Z; inversion Z; subst; try (apply strlt_eq; auto; fail); try (apply strlt_lt; auto; lia); constructor.
Qed.

Lemma order_string_order : order_cmp list_order_string strlt.
Proof.
  assert (AS : forall a b, strlt a b -> ~ strlt b a).
  { intros a b H1 H2. apply (strlt_irrefl a). eapply strlt_trans; eauto. }
  constructor; unfold list_order_string; intros;
    try (eapply strlt_trans; eauto; fail);
    destruct (strcmp_spec a b) as [[E H]|[[E H]|[E H]]]; rewrite E; simpl; auto;
    split; intro X; try discriminate; auto; subst;
    exfalso; (eapply strlt_irrefl; eauto; fail) || (eapply AS; eauto; fail).
Qed.
