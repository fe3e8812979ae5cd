From Verif Require Import Prelude Arr StackModel StackSpec StackExec.

Section S.
Variable P : Type.

Record srep (s : stack P) (l : list P) : Prop := {
  sr_arr : exists junk, arr P s = map Some (rev l) ++ junk;
  sr_items : items P s = length l
}.

Lemma srep_new : srep (stack_new P) [].
Proof. split; [exists []; reflexivity|reflexivity]. Qed.

Lemma srep_push s l x : srep s l ->
  exists s', stack_push P s (Some x) = Ok s' /\ srep s' (x :: l) /\ sdtrace P s' = sdtrace P s.
Proof.
  intros [[junk Ha] Hi]. unfold stack_push.
  assert (Hl : length (map (@Some P) (rev l)) = items P s)
    by (rewrite map_length, rev_length; lia).
  assert (Hx : exists y junk', (if Nat.eqb (length (arr P s)) (items P s) then arr P s ++ [None] else arr P s)
                        = map Some (rev l) ++ y :: junk').
  { rewrite Ha. destruct (Nat.eqb_spec (length (map Some (rev l) ++ junk)) (items P s)) as [E|E].
    - rewrite app_length in E. destruct junk; simpl in E; [|lia].
      exists None, []. rewrite app_nil_r. reflexivity.
    - destruct junk as [|y j]; [rewrite app_nil_r in E; lia|]. exists y, j. reflexivity. }
  destruct Hx as (y & j & ->). rewrite <- Hl. rewrite aset_split. simpl.
  eexists; split; [reflexivity|]. split; [|reflexivity]. split; simpl.
  - exists j. rewrite map_app. simpl. rewrite <- app_assoc. reflexivity.
  - rewrite Hl, Hi; reflexivity.
Qed.

Lemma srep_get s x l : srep s (x :: l) -> aget (arr P s) (length l) = Ok (Some x).
Proof.
  intros [[junk Ha] Hi]. rewrite Ha. simpl. rewrite map_app. simpl. rewrite <- app_assoc. simpl.
  replace (length l) with (length (map (@Some P) (rev l))) by (rewrite map_length, rev_length; reflexivity).
  apply aget_split.
Qed.

Lemma srep_empty s l : srep s l -> stack_is_empty P s = match l with [] => true | _ => false end.
Proof. intros [_ Hi]. unfold stack_is_empty. rewrite Hi. destruct l; reflexivity. Qed.

Lemma srep_pop_cons s x l : srep s (x :: l) ->
  exists s', stack_pop P s = Ok (s', Some x) /\ srep s' l /\ sdtrace P s' = sdtrace P s.
Proof.
  intro R. unfold stack_pop. rewrite (srep_empty _ _ R).
  pose proof (srep_get _ _ _ R) as G. destruct R as [[junk Ha] Hi].
  rewrite Hi. simpl length. replace (S (length l) - 1) with (length l) by lia.
  rewrite G. simpl. eexists; split; [reflexivity|]. split; [|reflexivity]. split; simpl; [|reflexivity].
  exists (Some x :: junk). rewrite Ha. simpl. rewrite map_app, <- app_assoc. reflexivity.
Qed.

Lemma srep_peek s l : srep s l -> stack_peek P s = Ok (hd_error l).
Proof.
  intro R. unfold stack_peek. rewrite (srep_empty _ _ R). destruct l as [|x l]; [reflexivity|].
  pose proof (srep_get _ _ _ R) as G. destruct R as [_ Hi]. rewrite Hi. simpl length.
  replace (S (length l) - 1) with (length l) by lia. exact G.
Qed.

Lemma srep_nth s l i x : srep s l -> nth_error l i = Some x ->
  aget (arr P s) (items P s - i - 1) = Ok (Some x).
Proof.
  intros [[junk Ha] Hi] H. rewrite Hi, Ha. unfold aget.
  assert (i < length l) by (apply nth_error_Some; congruence).
  rewrite nth_error_app1 by (rewrite map_length, rev_length; lia).
  rewrite nth_error_map.
  assert (E : nth_error (rev l) (length l - i - 1) = Some x).
  { destruct (nth_error_split l i H) as (l1 & l2 & -> & El).
    rewrite rev_app_distr. simpl. rewrite app_length. simpl.
    replace (length l1 + S (length l2) - i - 1) with (length (rev l2)) by (rewrite rev_length; lia).
    rewrite <- app_assoc. simpl. rewrite nth_error_app2 by lia. rewrite Nat.sub_diag. reflexivity. }
  rewrite E. reflexivity.
Qed.

Lemma foreach_loop stop s l : srep s l ->
  forall l2 l1 acc, l = l1 ++ l2 ->
    stack_foreach_loop P (list (option P)) (fun x acc => (acc ++ [x], stop x)) (length l2) (length l1) s acc =
    Ok (acc ++ fst (walk P stop l2), snd (walk P stop l2)).
Proof.
  intros R. induction l2 as [|x l2 IH]; intros l1 acc E; simpl.
  - rewrite app_nil_r. reflexivity.
  - rewrite (srep_nth _ _ (length l1) x R).
    2:{ rewrite E. rewrite nth_error_app2 by lia. rewrite Nat.sub_diag. reflexivity. }
    simpl. destruct (stop (Some x)); [reflexivity|].
    specialize (IH (l1 ++ [x]) (acc ++ [Some x])).
    rewrite app_length in IH. simpl in IH. rewrite Nat.add_1_r in IH. rewrite IH.
    + destruct (walk P stop l2); simpl. rewrite <- app_assoc. reflexivity.
    + rewrite E, <- app_assoc. reflexivity.
Qed.

Lemma srep_foreach stop s l : srep s l ->
  stack_foreach P (list (option P)) (fun x acc => (acc ++ [x], stop x)) s [] = Ok (walk P stop l).
Proof.
  intro R. unfold stack_foreach. destruct R as [Ha Hi]. rewrite Hi.
  pose proof (foreach_loop stop s l (Build_srep _ _ Ha Hi) l [] [] eq_refl) as F.
  simpl in F. rewrite F. destruct (walk P stop l); reflexivity.
Qed.

Lemma sexec_spec s l o : srep s l ->
  exists s', sexec P s o = Ok (s', snd (sspec P l o)) /\ srep s' (fst (sspec P l o)).
Proof.
  intro R. destruct o as [[x|]| | | | |stop]; simpl.
  - destruct (srep_push _ _ x R) as (s' & E & R' & _). simpl in E. rewrite E. simpl. eauto.
  - eauto.
  - destruct l as [|x l].
    + unfold stack_pop. rewrite (srep_empty _ _ R). simpl. eauto.
    + destruct (srep_pop_cons _ _ _ R) as (s' & E & R' & _). rewrite E. simpl. eauto.
  - rewrite (srep_peek _ _ R). simpl. eauto.
  - unfold stack_size. rewrite (sr_items _ _ R). eauto.
  - rewrite (srep_empty _ _ R). eauto.
  - rewrite (srep_foreach _ _ _ R). simpl. destruct (walk P stop l). simpl. eauto.
Qed.

Lemma sexec_all_spec ops : forall s l, srep s l ->
  exists s', sexec_all P s ops = Ok (s', snd (srun P l ops)) /\ srep s' (fst (srun P l ops)).
Proof.
  induction ops as [|o ops IH]; intros s l R; simpl; [eauto|].
  destruct (sexec_spec s l o R) as (s1 & E & R1). rewrite E. simpl.
  destruct (sspec P l o) as [l1 a] eqn:Es. simpl in *.
  destruct (IH _ _ R1) as (s2 & E2 & R2). rewrite E2. simpl.
  destruct (srun P l1 ops) as [l2 as_]. simpl in *. eauto.
Qed.

Lemma C07_lemma ops :
  exists s, sexec_all P (stack_new P) ops = Ok (s, snd (srun P [] ops)).
Proof. destruct (sexec_all_spec ops _ _ srep_new) as (s & E & _). eauto. Qed.

Lemma free_loop l : forall s n, srep s l -> length l <= n ->
  exists s', stack_free_loop P n s = Ok s' /\ sdtrace P s' = sdtrace P s ++ map Some l.
Proof.
  induction l as [|x l IH]; intros s n R Hn.
  - destruct n; simpl; rewrite (srep_empty _ _ R); eexists; split; try reflexivity;
      rewrite app_nil_r; reflexivity.
  - destruct n as [|n]; [simpl in Hn; lia|]. simpl. rewrite (srep_empty _ _ R).
    destruct (srep_pop_cons _ _ _ R) as (s' & E & R' & T). rewrite E. simpl.
    destruct (IH (Stack P (arr P s') (items P s') (sdtrace P s' ++ [Some x])) n) as (s2 & E2 & T2).
    + destruct R' as [A I]. split; simpl; assumption.
    + simpl in Hn; lia.
    + exists s2. split; [exact E2|]. rewrite T2. simpl. rewrite T, <- app_assoc. reflexivity.
Qed.

(** everything left in the stack is destroyed once, top first *)
Lemma C07_free_lemma ops :
  exists s s' ans, sexec_all P (stack_new P) ops = Ok (s, ans) /\
    stack_free P true s = Ok s' /\ sdtrace P s' = sdtrace P s ++ map Some (fst (srun P [] ops)).
Proof.
  destruct (sexec_all_spec ops _ _ srep_new) as (s & E & R).
  destruct (free_loop _ s (items P s) R) as (s' & E' & T).
  - rewrite (sr_items _ _ R). lia.
  - exists s, s'. eauto.
Qed.
End S.

(** * the binary stack *)
Record brep (b : bstack) (ns : list (nat * bnode)) : Prop := {
  br_stack : srep nat (b_stack b) (map fst ns);
  br_trace : sdtrace nat (b_stack b) = [];
  br_last : b_last b = hd_error (map fst ns);
  br_heap : forall a n, In (a, n) ns -> b_heap b a = Some n;
  br_nodup : NoDup (map fst ns);
  br_none : forall a, ~ In a (map fst ns) -> b_heap b a = None;
  br_fresh : forall a, In a (map fst ns) -> a < b_fresh b;
  br_count : forall a n, In (a, n) ns -> 1 <= b_count n;
  br_total : b_total b = Z.of_nat (length (flat_map (fun p => repeat (b_state (snd p)) (b_count (snd p))) ns))
}.
Definition bden (ns : list (nat * bnode)) : list bool :=
  flat_map (fun p => repeat (b_state (snd p)) (b_count (snd p))) ns.

Lemma brep_new : brep bstack_new [].
Proof.
  split; simpl; auto; try tauto. apply srep_new. constructor.
Qed.

Lemma brep_create b ns st : brep b ns ->
  exists b' ns', bstack_push_create b st = Ok b' /\ brep b' ns' /\ bden ns' = st :: bden ns.
Proof.
  intro R. destruct R as [Rs Rt Rl Rh Rn Ro Rf Rc Rtot]. unfold bstack_push_create.
  destruct (srep_push _ _ _ (b_fresh b) Rs) as (s' & E & R' & T).
  simpl in E |- *. rewrite E. simpl.
  eexists _, ((b_fresh b, BNode 1 st) :: ns). split; [reflexivity|]. split; [|reflexivity].
  assert (NF : ~ In (b_fresh b) (map fst ns)) by (intro H; apply Rf in H; lia).
  split; simpl; auto.
  - congruence.
  - intros a n [H|H].
    + inversion H; subst. unfold bupd. rewrite Nat.eqb_refl. reflexivity.
    + unfold bupd. destruct (Nat.eqb_spec a (b_fresh b)) as [->|N]; [|eauto].
      exfalso; apply NF; apply (in_map fst) in H; exact H.
  - constructor; assumption.
  - intros a H. unfold bupd. destruct (Nat.eqb_spec a (b_fresh b)); [exfalso; apply H; left; congruence|].
    apply Ro; tauto.
  - intros a [H|H]; [lia|]. apply Rf in H; lia.
  - intros a n [H|H]; [inversion H; simpl; lia|eauto].
  - rewrite Rtot. lia.
Qed.

Lemma brep_update b a n ns c tot :
  brep b ((a, n) :: ns) -> 1 <= c ->
  tot = Z.of_nat (c + length (bden ns)) ->
  brep (BStack (b_last b) (b_stack b) tot (bupd (b_heap b) a (Some (BNode c (b_state n)))) (b_fresh b))
       ((a, BNode c (b_state n)) :: ns).
Proof.
  intros R Hc Ht. destruct R as [Rs Rt Rl Rh Rn Ro Rf Rc Rtot]. simpl in *.
  split; simpl; auto.
  - intros a' n' [H|H].
    + inversion H; subst. unfold bupd. rewrite Nat.eqb_refl. reflexivity.
    + unfold bupd. destruct (Nat.eqb_spec a' a) as [->|N].
      * inversion Rn as [|? ? Hni _]; subst. exfalso; apply Hni. apply (in_map fst) in H. exact H.
      * apply Rh; right; exact H.
  - intros a' H. unfold bupd. destruct (Nat.eqb_spec a' a); [exfalso; apply H; left; congruence|].
    apply Ro; exact H.
  - intros a' n' [H|H]; [inversion H; simpl; lia|]. apply (Rc a'); right; exact H.
  - rewrite Ht. rewrite app_length, repeat_length. reflexivity.
Qed.

Lemma brep_empty b ns : brep b ns ->
  bstack_is_empty b = match bden ns with [] => true | _ => false end.
Proof.
  intro R. unfold bstack_is_empty. rewrite (br_last _ _ R). destruct ns as [|[a n] ns]; simpl.
  - rewrite (srep_empty _ _ _ (br_stack _ _ R)). reflexivity.
  - pose proof (br_count _ _ R a n (or_introl eq_refl)). destruct (b_count n); [lia|reflexivity].
Qed.

Lemma bexec_spec b ns o : brep b ns ->
  exists b' ns', bexec b o = Ok (b', snd (bspec (bden ns) o)) /\ brep b' ns' /\
                 bden ns' = fst (bspec (bden ns) o).
Proof.
  intro R. destruct o as [st| | | | |]; simpl.
  - unfold bstack_push. rewrite (br_last _ _ R). destruct ns as [|[a n] ns]; simpl.
    + destruct (brep_create _ _ st R) as (b' & ns' & E & R' & D). rewrite E. simpl. eauto 10.
    + rewrite (br_heap _ _ R a n) by (left; reflexivity). simpl.
      destruct (Bool.eqb (b_state n) st) eqn:Eb.
      * apply Bool.eqb_prop in Eb. simpl.
        eexists _, ((a, BNode (S (b_count n)) (b_state n)) :: ns). split; [reflexivity|].
        rewrite <- (br_last _ _ R : b_last b = Some a). split.
        -- apply brep_update; [exact R|lia|].
           rewrite (br_total _ _ R). simpl. rewrite app_length, repeat_length. unfold bden. lia.
        -- simpl. rewrite Eb. reflexivity.
      * destruct (brep_create _ _ st R) as (b' & ns' & E & R' & D). rewrite E. simpl. eauto 10.
  - unfold bstack_push_the_same. rewrite (br_last _ _ R). destruct ns as [|[a n] ns]; simpl.
    + exists b, []. auto.
    + rewrite (br_heap _ _ R a n) by (left; reflexivity). simpl.
      eexists _, ((a, BNode (S (b_count n)) (b_state n)) :: ns). split; [reflexivity|].
      rewrite <- (br_last _ _ R : b_last b = Some a). split.
      * apply brep_update; [exact R|lia|].
        rewrite (br_total _ _ R). simpl. rewrite app_length, repeat_length. unfold bden. lia.
      * simpl. pose proof (br_count _ _ R a n (or_introl eq_refl)).
        destruct (b_count n); [lia|reflexivity].
  - unfold bstack_pop. rewrite (br_last _ _ R). destruct ns as [|[a n] ns]; simpl.
    + exists b, []. auto.
    + rewrite (br_heap _ _ R a n) by (left; reflexivity). simpl.
      pose proof (br_count _ _ R a n (or_introl eq_refl)) as Hc.
      destruct (Nat.ltb_spec 1 (b_count n)) as [L|L].
      * simpl. destruct (b_count n) as [|k] eqn:Ek; [lia|]. simpl.
        eexists _, ((a, BNode k (b_state n)) :: ns). split; [reflexivity|].
        rewrite <- (br_last _ _ R : b_last b = Some a). split.
        -- rewrite Nat.sub_0_r. apply brep_update; [exact R|lia|].
           rewrite (br_total _ _ R). simpl. rewrite Ek, app_length, repeat_length. unfold bden. lia.
        -- reflexivity.
      * assert (Ek : b_count n = 1) by lia. rewrite Ek. simpl.
        pose proof R as R0.
        destruct R as [Rs Rt Rl Rh Rn Ro Rf Rc Rtot]. simpl in *.
        destruct (srep_pop_cons _ _ _ _ Rs) as (s' & E & R' & T). rewrite E. simpl.
        rewrite (srep_peek _ _ _ R'). simpl.
        inversion Rn as [|? ? Hni Hnd]; subst.
        eexists _, ns. split; [reflexivity|]. split; [|reflexivity]. split; simpl; auto.
        -- congruence.
        -- intros a' n' H. unfold bupd. destruct (Nat.eqb_spec a' a) as [->|N].
           ++ exfalso; apply Hni. apply (in_map fst) in H. exact H.
           ++ apply Rh; right; exact H.
        -- intros a' H. unfold bupd. destruct (Nat.eqb_spec a' a); [reflexivity|].
           apply Ro. intros [E'|E']; [congruence|tauto].
        -- intros a' n' H. apply (Rc a'); right; exact H.
        -- rewrite Rtot, Ek, app_length, repeat_length. lia.
  - unfold bstack_peek. rewrite (br_last _ _ R). destruct ns as [|[a n] ns]; simpl.
    + exists b, []. auto.
    + rewrite (br_heap _ _ R a n) by (left; reflexivity). simpl.
      exists b, ((a, n) :: ns). split; [|auto].
      pose proof (br_count _ _ R a n (or_introl eq_refl)) as Hc.
      destruct (b_count n); [lia|]. reflexivity.
  - exists b, ns. unfold bstack_size. rewrite (br_total _ _ R). auto.
  - exists b, ns. rewrite (brep_empty _ _ R). auto.
Qed.

Lemma bexec_all_spec ops : forall b ns, brep b ns ->
  exists b' ns', bexec_all b ops = Ok (b', snd (bsrun (bden ns) ops)) /\ brep b' ns' /\
                 bden ns' = fst (bsrun (bden ns) ops).
Proof.
  induction ops as [|o ops IH]; intros b ns R; simpl; [exists b, ns; auto|].
  destruct (bexec_spec b ns o R) as (b1 & n1 & E & R1 & D1). rewrite E. simpl.
  destruct (bspec (bden ns) o) as [l1 a] eqn:Es. simpl in *. rewrite <- D1.
  destruct (IH _ _ R1) as (b2 & n2 & E2 & R2 & D2). rewrite E2. simpl.
  destruct (bsrun (bden n1) ops) as [l2 as_]. simpl in *. exists b2, n2. auto.
Qed.

Lemma C08_lemma ops : exists b, bexec_all bstack_new ops = Ok (b, snd (bsrun [] ops)).
Proof. destruct (bexec_all_spec ops _ _ brep_new) as (b & ns & E & _). eauto. Qed.

Lemma free_nodes ns : forall h,
  NoDup (map fst ns) -> (forall a n, In (a, n) ns -> h a = Some n) ->
  (forall a, ~ In a (map fst ns) -> h a = None) ->
  exists h', bstack_free_nodes h (map Some (map fst ns)) = Ok h' /\ forall a, h' a = None.
Proof.
  induction ns as [|[a n] ns IH]; intros h ND H1 H2; simpl in *.
  - exists h. split; auto.
  - rewrite (H1 a n) by auto. simpl. inversion ND as [|? ? Hni Hnd]; subst. apply IH.
    + exact Hnd.
    + intros a' n' H. unfold bupd. destruct (Nat.eqb_spec a' a) as [->|N]; [|auto].
      exfalso; apply Hni; apply (in_map fst) in H; exact H.
    + intros a' H. unfold bupd. destruct (Nat.eqb_spec a' a); [reflexivity|].
      apply H2. intros [E|E]; [congruence|tauto].
Qed.

Lemma C08_free_lemma ops : exists b h ans,
  bexec_all bstack_new ops = Ok (b, ans) /\ bstack_free b = Ok h /\ forall a, h a = None.
Proof.
  destruct (bexec_all_spec ops _ _ brep_new) as (b & ns & E & R & _).
  destruct (free_loop _ _ (b_stack b) (items nat (b_stack b)) (br_stack _ _ R)) as (s' & E' & T).
  - rewrite (sr_items _ _ _ (br_stack _ _ R)). lia.
  - rewrite (br_trace _ _ R) in T. simpl in T.
    destruct (free_nodes ns (b_heap b) (br_nodup _ _ R) (br_heap _ _ R) (br_none _ _ R)) as (h & Eh & Hn).
    exists b, h, (snd (bsrun [] ops)). split; [exact E|]. split; [|exact Hn].
    unfold bstack_free, stack_free. rewrite E'. simpl. rewrite T. exact Eh.
Qed.
