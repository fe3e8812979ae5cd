From Verif Require Import Prelude ListModel ListSpec ListExec.
Open Scope Z_scope.

Section P.
Variable D : Type.

Notation cell := (cell D).
Notation lst := (lst D).
Notation hp := (nat -> option cell).

Definition hd_or (l : list (nat * D)) (n : option nat) : option nat :=
  match l with [] => n | (a, _) :: _ => Some a end.
Fixpoint last_or (l : list (nat * D)) (p : option nat) : option nat :=
  match l with [] => p | (a, _) :: r => last_or r (Some a) end.

Fixpoint lseg (h : hp) (p : option nat) (l : list (nat * D)) (n : option nat) : Prop :=
  match l with
  | [] => True
  | (a, d) :: r => h a = Some (Cell p (hd_or r n) d) /\ lseg h (Some a) r n
  end.

Lemma last_or_app l1 l2 p : last_or (l1 ++ l2) p = last_or l2 (last_or l1 p).
Proof. revert p; induction l1 as [|[a d] l1 IH]; intro p; simpl; auto. Qed.

Lemma hd_or_app l1 l2 n : hd_or (l1 ++ l2) n = hd_or l1 (hd_or l2 n).
Proof. destruct l1 as [|[a d] l1]; reflexivity. Qed.

Lemma lseg_app h p l1 l2 n :
  lseg h p (l1 ++ l2) n <-> lseg h p l1 (hd_or l2 n) /\ lseg h (last_or l1 p) l2 n.
Proof.
  revert p; induction l1 as [|[a d] l1 IH]; intro p; simpl.
  - tauto.
  - rewrite IH, hd_or_app. tauto.
Qed.

Lemma lseg_ext h h' p l n :
  (forall a, In a (map fst l) -> h' a = h a) -> lseg h p l n -> lseg h' p l n.
Proof.
  revert p; induction l as [|[a d] l IH]; intros p E; simpl; auto.
  intros [H1 H2]; split.
  - rewrite E; [exact H1|left; reflexivity].
  - apply IH; [intros; apply E; right; assumption|assumption].
Qed.

Lemma last_or_none l : last_or l None = None -> l = [].
Proof.
  destruct l as [|[a d] l]; auto. simpl.
  assert (forall l b, last_or l (Some b) <> None) as X.
  { clear; induction l as [|[a d] l IH]; intros b; simpl; [discriminate|apply IH]. }
  intro E; exfalso; eapply X; eauto.
Qed.

Lemma hd_or_none l : hd_or l None = None -> l = [].
Proof. destruct l as [|[a d] l]; [auto|discriminate]. Qed.

Lemma last_or_some l a : last_or l None = Some a ->
  exists l' d, l = l' ++ [(a, d)].
Proof.
  intros H. destruct (@exists_last _ l) as [l' [[b d] E]].
  - intro; subst; discriminate.
  - subst. rewrite last_or_app in H. simpl in H. inversion H; subst. eauto.
Qed.

(** the heap obtained by linking a new cell between two consecutive cells *)
Definition ins_heap (h : hp) (p n : option nat) (a : nat) (x : D) : hp :=
  fun y => if Nat.eqb y a then Some (Cell p n x)
           else if (match p with Some b => Nat.eqb y b | None => false end)
           then option_map (w_next D (Some a)) (h y)
           else if (match n with Some b => Nat.eqb y b | None => false end)
           then option_map (w_prev D (Some a)) (h y)
           else h y.

Definition del_heap (h : hp) (p n : option nat) : hp :=
  fun y => if (match p with Some b => Nat.eqb y b | None => false end)
           then option_map (w_next D n) (h y)
           else if (match n with Some b => Nat.eqb y b | None => false end)
           then option_map (w_prev D p) (h y)
           else h y.

Lemma NoDup_app_inv {A} (l1 l2 : list A) :
  NoDup (l1 ++ l2) -> NoDup l1 /\ NoDup l2 /\ (forall x, In x l1 -> ~ In x l2).
Proof.
  induction l1 as [|a l1 IH]; simpl; intro H.
  - repeat split; auto. constructor.
  - inversion H as [|? ? N ND]; subst. destruct (IH ND) as [I1 [I2 I3]].
    repeat split; auto.
    + constructor; auto. intro; apply N, in_or_app; auto.
    + intros x [->|X]; [intro; apply N, in_or_app; auto|auto].
Qed.

Lemma NoDup_app_intro {A} (l1 l2 : list A) :
  NoDup l1 -> NoDup l2 -> (forall x, In x l1 -> ~ In x l2) -> NoDup (l1 ++ l2).
Proof.
  induction l1 as [|a l1 IH]; simpl; intros H1 H2 H3; auto.
  inversion H1; subst. constructor.
  - intro I; apply in_app_or in I; destruct I; [auto|eapply H3; eauto].
  - apply IH; auto.
Qed.

Ltac eqb_false := match goal with |- context [Nat.eqb ?x ?y] =>
  let E := fresh in destruct (Nat.eqb_spec x y) as [E|E]; [exfalso|] end.

(** generalised surgery: the cells before the cut point *)
Lemma lseg_relink_left (h h' : hp) p l n n' :
  lseg h p l n -> NoDup (map fst l) ->
  (forall y, In y (map fst l) -> last_or l None <> Some y -> h' y = h y) ->
  (forall y, last_or l None = Some y -> h' y = option_map (w_next D n') (h y)) ->
  lseg h' p l n'.
Proof.
  intros S ND E1 E2.
  destruct (last_or l None) as [b|] eqn:L.
  - destruct (last_or_some _ _ L) as [l' [d ->]].
    apply lseg_app in S. destruct S as [S1 S2]. apply lseg_app; simpl in *.
    destruct S2 as [S2 _].
    rewrite map_app in ND. apply NoDup_app_inv in ND. destruct ND as [N1 [N2 N3]].
    split.
    + eapply lseg_ext; [|exact S1]. intros y Y.
      apply E1; [rewrite map_app; apply in_or_app; auto|].
      intro X; inversion X; subst. eapply N3; [exact Y|simpl; auto].
    + split; auto. rewrite (E2 b eq_refl), S2. reflexivity.
  - apply last_or_none in L. subst; simpl; auto.
Qed.

Lemma lseg_relink_right (h h' : hp) p p' l n :
  lseg h p l n -> NoDup (map fst l) ->
  (forall y, In y (map fst l) -> hd_or l None <> Some y -> h' y = h y) ->
  (forall y, hd_or l None = Some y -> h' y = option_map (w_prev D p') (h y)) ->
  lseg h' p' l n.
Proof.
  intros S ND E1 E2. destruct l as [|[a d] l]; simpl in *; auto.
  destruct S as [S1 S2]. inversion ND; subst. split.
  - rewrite (E2 a eq_refl), S1. reflexivity.
  - eapply lseg_ext; [|exact S2]. intros y Y. apply E1; auto.
    intro X; inversion X; subst; auto.
Qed.

Lemma last_or_in l a : last_or l None = Some a -> In a (map fst l).
Proof. intro H. destruct (last_or_some _ _ H) as [l' [d ->]].
  rewrite map_app; apply in_or_app; simpl; auto. Qed.
Lemma hd_or_in l a : hd_or l None = Some a -> In a (map fst l).
Proof. destruct l as [|[b d] l]; simpl; [discriminate|intro H; inversion H; auto]. Qed.

Lemma last_or_hd_p l p : last_or l p = match last_or l None with Some a => Some a | None => p end.
Proof.
  destruct (last_or l None) as [b|] eqn:L.
  - destruct (last_or_some _ _ L) as [l' [d ->]]. rewrite last_or_app; reflexivity.
  - apply last_or_none in L; subst; reflexivity.
Qed.

Lemma lseg_insert h l1 l2 a x :
  lseg h None (l1 ++ l2) None ->
  NoDup (a :: map fst (l1 ++ l2)) ->
  lseg (ins_heap h (last_or l1 None) (hd_or l2 None) a x) None (l1 ++ (a, x) :: l2) None.
Proof.
  intros S ND. inversion ND as [|? ? N1 N2]; subst.
  rewrite map_app in *. apply NoDup_app_inv in N2. destruct N2 as [U1 [U2 U3]].
  apply lseg_app in S. destruct S as [S1 S2].
  assert (A1 : ~ In a (map fst l1)) by (intro; apply N1, in_or_app; auto).
  assert (A2 : ~ In a (map fst l2)) by (intro; apply N1, in_or_app; auto).
  apply lseg_app. split.
  - simpl. eapply lseg_relink_left; [exact S1|assumption| |].
    + intros y Y L. unfold ins_heap.
      destruct (Nat.eqb_spec y a) as [->|_]; [contradiction|].
      destruct (last_or l1 None) as [b|] eqn:LB;
        [destruct (Nat.eqb_spec y b) as [->|_]; [congruence|]|];
      (destruct (hd_or l2 None) as [c|] eqn:HC;
        [destruct (Nat.eqb_spec y c) as [->|_]; auto; exfalso; eapply U3; eauto; apply hd_or_in; auto|auto]).
    + intros y L. unfold ins_heap. rewrite L, Nat.eqb_refl.
      destruct (Nat.eqb_spec y a) as [->|_]; auto. exfalso; apply A1, last_or_in; auto.
  - split.
    + unfold ins_heap. rewrite Nat.eqb_refl. reflexivity.
    + eapply lseg_relink_right; [exact S2|assumption| |].
      * intros y Y L. unfold ins_heap.
        destruct (Nat.eqb_spec y a) as [->|_]; [contradiction|].
        destruct (last_or l1 None) as [b|] eqn:LB.
        -- destruct (Nat.eqb_spec y b) as [->|_].
           ++ exfalso; eapply U3; eauto. apply last_or_in; auto.
           ++ destruct (hd_or l2 None) as [c|] eqn:HC; auto.
              destruct (Nat.eqb_spec y c) as [->|_]; [congruence|auto].
        -- destruct (hd_or l2 None) as [c|] eqn:HC; auto.
           destruct (Nat.eqb_spec y c) as [->|_]; [congruence|auto].
      * intros y L. unfold ins_heap.
        destruct (Nat.eqb_spec y a) as [->|_]; [exfalso; apply A2, hd_or_in; auto|].
        rewrite L, Nat.eqb_refl.
        destruct (last_or l1 None) as [b|] eqn:LB; auto.
        destruct (Nat.eqb_spec y b) as [->|_]; auto.
        exfalso; eapply U3; [apply last_or_in; eauto|apply hd_or_in; eauto].
Qed.

Lemma lseg_delete h l1 l2 a x :
  lseg h None (l1 ++ (a, x) :: l2) None ->
  NoDup (map fst (l1 ++ (a, x) :: l2)) ->
  lseg (del_heap h (last_or l1 None) (hd_or l2 None)) None (l1 ++ l2) None.
Proof.
  intros S ND. rewrite map_app in ND. simpl in ND.
  apply NoDup_app_inv in ND. destruct ND as [U1 [U2 U3]].
  inversion U2 as [|? ? V1 V2]; subst.
  apply lseg_app in S. destruct S as [S1 [S2 S3]].
  apply lseg_app. split.
  - eapply lseg_relink_left; [exact S1|assumption| |].
    + intros y Y L. unfold del_heap.
      destruct (last_or l1 None) as [b|] eqn:LB;
        [destruct (Nat.eqb_spec y b) as [->|_]; [congruence|]|];
      (destruct (hd_or l2 None) as [c|] eqn:HC;
        [destruct (Nat.eqb_spec y c) as [->|_]; auto; exfalso; eapply U3; eauto; right; apply hd_or_in; auto|auto]).
    + intros y L. unfold del_heap. rewrite L, Nat.eqb_refl. reflexivity.
  - eapply lseg_relink_right; [exact S3|assumption| |].
    + intros y Y L. unfold del_heap.
      destruct (last_or l1 None) as [b|] eqn:LB.
      * destruct (Nat.eqb_spec y b) as [->|_].
        -- exfalso; eapply U3; [apply last_or_in; eauto|right; auto].
        -- destruct (hd_or l2 None) as [c|] eqn:HC; auto.
           destruct (Nat.eqb_spec y c) as [->|_]; [congruence|auto].
      * destruct (hd_or l2 None) as [c|] eqn:HC; auto.
        destruct (Nat.eqb_spec y c) as [->|_]; [congruence|auto].
    + intros y L. unfold del_heap. rewrite L, Nat.eqb_refl.
      destruct (last_or l1 None) as [b|] eqn:LB; auto.
      destruct (Nat.eqb_spec y b) as [->|_]; auto.
      exfalso; eapply U3; [apply last_or_in; eauto|right; apply hd_or_in; eauto].
Qed.

(** representation relation: [al] the linked cells, [sp] the spare ones *)
Record R (s : lst) (al : list (nat * D)) (sp : list nat) : Prop := {
  R_seg : lseg (heap D s) None al None;
  R_first : first D s = hd_or al None;
  R_last : last_ D s = last_or al None;
  R_len : len D s = Z.of_nat (length al);
  R_nodup : NoDup (map fst al ++ sp);
  R_pool : firstn (avail D s) (pool D s) = map Some sp;
  R_avail : length sp = avail D s;
  R_cap : (avail D s + length al <= length (pool D s))%nat;
  R_fresh : forall a, In a (map fst al ++ sp) -> (a < fresh D s)%nat;
  R_mapped : forall a, In a sp -> heap D s a <> None;
  R_fp : fresh D s = length (pool D s)
}.

Lemma R_new : R (list_new D) [] [].
Proof. constructor; simpl; auto; try tauto; constructor. Qed.

Lemma wr_ok (s : lst) a c f : heap D s a = Some c ->
  wr D s a f = Ok (set_heap D s (upd D (heap D s) a (f c))).
Proof. intro H. unfold wr, rd. rewrite H. reflexivity. Qed.
Lemma rd_ok (s : lst) a c : heap D s a = Some c -> rd D s a = Ok c.
Proof. intro H. unfold rd. rewrite H. reflexivity. Qed.

Lemma set_nth_spec {A} (l : list A) n v : (n < length l)%nat ->
  set_nth l n v = Some (firstn n l ++ v :: skipn (S n) l).
Proof.
  revert n; induction l as [|x l IH]; intros [|n]; simpl; intro H; try lia; auto.
  rewrite IH by lia. reflexivity.
Qed.

Lemma firstn_snoc {A} (l : list A) n v r :
  length l = n -> firstn (S n) (l ++ v :: r) = l ++ [v].
Proof.
  intros <-. induction l as [|x l IH]; simpl; [reflexivity|].
  f_equal. exact IH.
Qed.

(** what get_node delivers: a zeroed cell that is neither linked nor spare *)
Record R' (s : lst) (a : nat) (al : list (nat * D)) (sp : list nat) : Prop := {
  R'_seg : lseg (heap D s) None al None;
  R'_first : first D s = hd_or al None;
  R'_last : last_ D s = last_or al None;
  R'_len : len D s = Z.of_nat (length al);
  R'_nodup : NoDup (a :: map fst al ++ sp);
  R'_pool : firstn (avail D s) (pool D s) = map Some sp;
  R'_avail : length sp = avail D s;
  R'_cap : (S (avail D s + length al) <= length (pool D s))%nat;
  R'_fresh : forall b, In b (a :: map fst al ++ sp) -> (b < fresh D s)%nat;
  R'_mapped : forall b, In b sp -> heap D s b <> None;
  R'_fp : fresh D s = length (pool D s)
}.

Lemma firstn_last_some (p : list (option nat)) n sp a :
  firstn (S n) p = map Some (sp ++ [a]) -> length sp = n ->
  nth_error p n = Some (Some a) /\ firstn n p = map Some sp.
Proof.
  revert p sp; induction n as [|n IH]; intros p sp H L.
  - destruct sp; [|discriminate]. destruct p as [|x p]; [discriminate|].
    simpl in *. inversion H; subst. auto.
  - destruct sp as [|b sp]; [discriminate|]. destruct p as [|x p]; [discriminate|].
    remember (S n) as m. simpl in H. inversion H; subst. simpl in L.
    destruct (IH p sp) as [I1 I2]; auto.
    split; [exact I1|]. simpl. f_equal; auto.
Qed.

Variable null : D.

Lemma get_node_ok s al sp : R s al sp ->
  exists a s' sp', get_node D null s = Ok (a, s') /\ R' s' a al sp' /\
    heap D s' a = Some (Cell None None null) /\ dtrace D s' = dtrace D s /\
    (sp = [] /\ sp' = [] /\ length (pool D s') = S (length (pool D s)) \/
     sp = sp' ++ [a] /\ length (pool D s') = length (pool D s)).
Proof.
  intros H. unfold get_node.
  destruct (Nat.eqb_spec (avail D s) 0) as [E|E].
  - (* allocate *)
    assert (SP : sp = []) by (destruct sp; auto; pose proof (R_avail _ _ _ H) as L; simpl in L; lia).
    subst sp.
    unfold allocate_nodes.
    rewrite (set_nth_spec (pool D s ++ [None]) 0) by (rewrite app_length; simpl; lia).
    simpl.
    unfold wr, rd; simpl. unfold upd at 1; rewrite Nat.eqb_refl. simpl.
    eexists _, _, []. split; [reflexivity|].
    pose proof (R_cap _ _ _ H) as CAP.
    split; [|split; [simpl; unfold upd; rewrite Nat.eqb_refl; reflexivity|split; [reflexivity|left]]].
    + assert (FR : forall b, In b (map fst al) -> (b < fresh D s)%nat).
      { intros b B. apply (R_fresh _ _ _ H). rewrite app_nil_r; auto. }
      constructor; simpl.
      * eapply lseg_ext; [|exact (R_seg _ _ _ H)].
        intros b B. apply FR in B. unfold upd.
        destruct (Nat.eqb_spec b (fresh D s)); [lia|reflexivity].
      * apply (R_first _ _ _ H).
      * apply (R_last _ _ _ H).
      * apply (R_len _ _ _ H).
      * rewrite app_nil_r. constructor.
        -- intro I; apply FR in I; lia.
        -- pose proof (R_nodup _ _ _ H) as N. rewrite app_nil_r in N; exact N.
      * reflexivity.
      * reflexivity.
      * destruct (pool D s) as [|x p]; simpl in *; [lia|].
        rewrite app_length; simpl. lia.
      * rewrite app_nil_r. intros b [<-|B]; [lia|]. apply FR in B; lia.
      * tauto.
      * rewrite (R_fp _ _ _ H). destruct (pool D s) as [|x p]; simpl; [auto|].
        rewrite app_length; simpl. lia.
    + simpl. destruct (pool D s) as [|x p]; simpl; [auto|].
      rewrite app_length; simpl. repeat split; lia.
  - (* reuse *)
    simpl.
    destruct (@exists_last _ sp) as [sp' [a ->]].
    { intro; subst. pose proof (R_avail _ _ _ H) as L; simpl in L; lia. }
    pose proof (R_avail _ _ _ H) as L. rewrite app_length in L; simpl in L.
    assert (AV : avail D s = S (length sp')) by lia.
    pose proof (R_pool _ _ _ H) as PL. rewrite AV in PL.
    destruct (firstn_last_some _ _ _ _ PL eq_refl) as [PN PF].
    replace (avail D s - 1)%nat with (length sp') by lia.
    rewrite PN. simpl.
    assert (MA : heap D s a <> None) by (apply (R_mapped _ _ _ H), in_or_app; simpl; auto).
    unfold wr, rd; simpl.
    destruct (heap D s a) as [c|] eqn:HA; [|congruence]. simpl.
    assert (ND : NoDup (a :: map fst al ++ sp')).
    { pose proof (R_nodup _ _ _ H) as N. rewrite app_assoc in N.
      apply NoDup_app_inv in N. destruct N as [N1 [_ N3]].
      constructor; auto. intro I. eapply N3; [exact I|simpl; auto]. }
    eexists _, _, sp'. split; [reflexivity|].
    split; [|split; [simpl; unfold upd; rewrite Nat.eqb_refl; reflexivity|split; [reflexivity|right]]].
    + constructor; simpl.
      * eapply lseg_ext; [|exact (R_seg _ _ _ H)].
        intros b B. unfold upd.
        destruct (Nat.eqb_spec b a) as [->|]; [|reflexivity].
        exfalso. inversion ND; subst. apply H2, in_or_app; auto.
      * apply (R_first _ _ _ H).
      * apply (R_last _ _ _ H).
      * apply (R_len _ _ _ H).
      * exact ND.
      * exact PF.
      * reflexivity.
      * pose proof (R_cap _ _ _ H). lia.
      * intros b B. apply (R_fresh _ _ _ H). rewrite app_assoc.
        destruct B as [<-|B]; apply in_or_app; simpl; auto.
      * intros b B. unfold upd. destruct (Nat.eqb b a); [discriminate|].
        apply (R_mapped _ _ _ H), in_or_app; auto.
      * apply (R_fp _ _ _ H).
    + simpl. auto.
Qed.

(** closing an insertion *)
Lemma R_of_insert s s' a x l1 l2 sp :
  R' s a (l1 ++ l2) sp ->
  (forall y, heap D s' y = ins_heap (heap D s) (last_or l1 None) (hd_or l2 None) a x y) ->
  first D s' = hd_or (l1 ++ (a, x) :: l2) None ->
  last_ D s' = last_or (l1 ++ (a, x) :: l2) None ->
  len D s' = len D s + 1 ->
  pool D s' = pool D s -> avail D s' = avail D s -> fresh D s' = fresh D s ->
  R s' (l1 ++ (a, x) :: l2) sp.
Proof.
  intros H HH F L LE P A FR.
  pose proof (R'_nodup _ _ _ _ H) as ND. inversion ND as [|? ? N1 N2]; subst.
  constructor.
  - eapply lseg_ext; [intros; apply HH|]. apply lseg_insert.
    + apply (R'_seg _ _ _ _ H).
    + apply NoDup_app_inv in N2. destruct N2 as [N2 _]. constructor; auto.
      intro; apply N1, in_or_app; auto.
  - exact F.
  - exact L.
  - rewrite LE, (R'_len _ _ _ _ H), !app_length. simpl. lia.
  - rewrite map_app in *. simpl. rewrite <- app_assoc in *. simpl.
    apply NoDup_Add with (a := a) (l := map fst l1 ++ map fst l2 ++ sp).
    + apply Add_app.
    + split; auto.
  - rewrite P, A. apply (R'_pool _ _ _ _ H).
  - rewrite A. apply (R'_avail _ _ _ _ H).
  - rewrite A, P. pose proof (R'_cap _ _ _ _ H) as C. rewrite app_length in *. simpl. lia.
  - intros b B. rewrite FR. apply (R'_fresh _ _ _ _ H).
    rewrite map_app in *. simpl in *. repeat (rewrite ?in_app_iff in *; simpl in *). tauto.
  - intros b B. rewrite HH. unfold ins_heap.
    pose proof (R'_mapped _ _ _ _ H _ B) as M.
    destruct (Nat.eqb b a); [discriminate|].
    destruct (heap D s b); [|congruence].
    destruct (last_or l1 None); [destruct (Nat.eqb b n)|]; simpl; try discriminate;
    (destruct (hd_or l2 None) as [m|]; [destruct (Nat.eqb b m)|]; simpl; discriminate).
  - rewrite FR, P. apply (R'_fp _ _ _ _ H).
Qed.

Lemma R'_notin s a al sp : R' s a al sp -> ~ In a (map fst al).
Proof.
  intro H. pose proof (R'_nodup _ _ _ _ H) as ND. inversion ND; subst.
  intro; apply H2, in_or_app; auto.
Qed.

Lemma R'_data s a al sp x c : R' s a al sp -> heap D s a = Some c ->
  R' (set_heap D s (upd D (heap D s) a (w_data D x c))) a al sp.
Proof.
  intros H HA. constructor; simpl; try apply H.
  - eapply lseg_ext; [|apply (R'_seg _ _ _ _ H)]. intros b B. unfold upd.
    destruct (Nat.eqb_spec b a) as [->|]; auto. exfalso; eapply R'_notin; eauto.
  - intros b B. unfold upd. destruct (Nat.eqb b a); [discriminate|].
    apply (R'_mapped _ _ _ _ H); auto.
Qed.

Lemma lseg_last h l a d n : lseg h None (l ++ [(a, d)]) n ->
  h a = Some (Cell (last_or l None) n d).
Proof. intro S. apply lseg_app in S. destruct S as [_ [S _]]. exact S. Qed.

Lemma last_or_cons_some l a d p : last_or (l ++ [(a, d)]) p = Some a.
Proof. rewrite last_or_app. reflexivity. Qed.

(** simplify heap lookups *)
Ltac hsimp := repeat (
  match goal with
  | |- context [Nat.eqb ?x ?x] => rewrite Nat.eqb_refl
  | H : ?x <> ?y |- context [Nat.eqb ?x ?y] => rewrite (proj2 (Nat.eqb_neq x y) H)
  | H : ?y <> ?x |- context [Nat.eqb ?x ?y] => rewrite (proj2 (Nat.eqb_neq x y) (not_eq_sym H))
  | H : ?h ?x = _ |- context [?h ?x] => rewrite H
  end; simpl).

Ltac hcase := repeat (hsimp;
  match goal with
  | |- context [Nat.eqb ?x ?y] => destruct (Nat.eqb_spec x y); [subst|]
  end); hsimp; try congruence; auto.

(** balance of cells: what get_node takes comes from the pool or is new *)
Definition bal (s s' : lst) (sp sp' : list nat) : Prop :=
  (length (pool D s') + length sp = length (pool D s) + S (length sp'))%nat.

Lemma bal_get s s1 (sp sp' : list nat) (a : nat) :
  (sp = [] /\ sp' = [] /\ length (pool D s1) = S (length (pool D s)) \/
   sp = sp' ++ [a] /\ length (pool D s1) = length (pool D s)) ->
  bal s s1 sp sp'.
Proof.
  unfold bal. intros [[-> [-> P]]|[-> P]]; rewrite P, ?app_length; simpl; lia.
Qed.

Lemma prepend_ok s al sp x : R s al sp ->
  exists s' a sp', list_prepend D null s x = Ok s' /\ R s' ((a, x) :: al) sp' /\
    dtrace D s' = dtrace D s /\ bal s s' sp sp'.
Proof.
  intro H. unfold list_prepend.
  destruct (get_node_ok _ _ _ H) as [a [s1 [sp' [G [H1 [HA [DT PL]]]]]]]. apply bal_get in PL.
  rewrite G; simpl. rewrite (wr_ok _ _ _ _ HA); simpl.
  pose proof (R'_first _ _ _ _ H1) as F. pose proof (R'_last _ _ _ _ H1) as L.
  pose proof (R'_notin _ _ _ _ H1) as NI.
  rewrite F. destruct al as [|[f d] al]; simpl.
  - eexists _, a, sp'. split; [reflexivity|]. split; [|exact (conj DT PL)].
    apply (R_of_insert s1 _ a x [] [] sp'); simpl; auto;
      try (intro y; unfold ins_heap, upd; hcase).
  - pose proof (R'_seg _ _ _ _ H1) as [S1 S2]. simpl in NI.
    assert (f <> a) by tauto.
    erewrite wr_ok; [|simpl; unfold upd; hsimp; reflexivity]. simpl.
    erewrite wr_ok; [|simpl; unfold upd; hsimp; reflexivity]. simpl.
    eexists _, a, sp'. split; [reflexivity|]. split; [|exact (conj DT PL)].
    apply (R_of_insert s1 _ a x [] ((f, d) :: al) sp'); simpl; auto;
      try (intro y; unfold ins_heap, upd; hcase).
Qed.

Lemma append_ok s al sp x : R s al sp ->
  exists s' a sp', list_append D null s x = Ok s' /\ R s' (al ++ [(a, x)]) sp' /\
    dtrace D s' = dtrace D s /\ bal s s' sp sp'.
Proof.
  intro H. unfold list_append.
  destruct (get_node_ok _ _ _ H) as [a [s1 [sp' [G [H1 [HA [DT PL]]]]]]]. apply bal_get in PL.
  rewrite G; simpl. rewrite (wr_ok _ _ _ _ HA); simpl.
  pose proof (R'_first _ _ _ _ H1) as F. pose proof (R'_last _ _ _ _ H1) as L.
  pose proof (R'_notin _ _ _ _ H1) as NI.
  rewrite L. destruct (last_or al None) as [b|] eqn:LB.
  - destruct (last_or_some _ _ LB) as [l [d ->]].
    pose proof (R'_seg _ _ _ _ H1) as S. apply lseg_last in S.
    assert (b <> a) by (intro; subst; apply NI; rewrite map_app; apply in_or_app; simpl; auto).
    erewrite wr_ok; [|simpl; unfold upd; hsimp; reflexivity]. simpl.
    erewrite wr_ok; [|simpl; unfold upd; hsimp; reflexivity]. simpl.
    eexists _, a, sp'. split; [reflexivity|]. split; [|exact (conj DT PL)].
    apply (R_of_insert s1 _ a x (l ++ [(b, d)]) [] sp'); simpl; auto.
    + rewrite app_nil_r; auto.
    + rewrite LB. intro y. unfold ins_heap, upd. hcase.
    + rewrite F, hd_or_app, !hd_or_app. destruct l as [|[? ?] ?]; reflexivity.
    + rewrite last_or_cons_some. reflexivity.
  - apply last_or_none in LB. subst al. simpl.
    eexists _, a, sp'. split; [reflexivity|]. split; [|exact (conj DT PL)].
    apply (R_of_insert s1 _ a x [] [] sp'); simpl; auto;
      try (intro y; unfold ins_heap, upd; hcase).
Qed.

Lemma hd_or_app_ne l1 l2 l2' n : l1 <> [] -> hd_or (l1 ++ l2) n = hd_or (l1 ++ l2') n.
Proof. destruct l1 as [|[? ?] ?]; [congruence|reflexivity]. Qed.
Lemma last_or_app_ne l1 l1' l2 n : l2 <> [] -> last_or (l1 ++ l2) n = last_or (l1' ++ l2) n.
Proof. intro N. rewrite !last_or_app. destruct l2 as [|[? ?] ?]; [congruence|reflexivity]. Qed.

(** insert before/after a given cell, from a state where [a] is prepared *)
Lemma insert_before_ok s a b d l1 l2 sp x c :
  R' s a (l1 ++ (b, d) :: l2) sp -> heap D s a = Some c -> c_data D c = x ->
  exists s', insert_before D s a b = Ok s' /\ R s' (l1 ++ (a, x) :: (b, d) :: l2) sp /\
    dtrace D s' = dtrace D s /\ length (pool D s') = length (pool D s).
Proof.
  intros H HA CX. unfold insert_before.
  pose proof (R'_notin _ _ _ _ H) as NI. rewrite map_app in NI; simpl in NI.
  assert (b <> a) by (intro; subst; apply NI, in_or_app; simpl; auto).
  pose proof (R'_seg _ _ _ _ H) as S. apply lseg_app in S. destruct S as [S1 [S2 S3]].
  pose proof (R'_nodup _ _ _ _ H) as ND. inversion ND as [|? ? _ ND2]; subst.
  apply NoDup_app_inv in ND2. destruct ND2 as [ND2 _]. rewrite map_app in ND2.
  apply NoDup_app_inv in ND2. destruct ND2 as [_ [_ DJ]].
  erewrite wr_ok by exact HA. simpl.
  erewrite rd_ok by (simpl; unfold upd; hsimp; reflexivity). simpl.
  erewrite wr_ok by (simpl; unfold upd; hsimp; reflexivity). simpl.
  erewrite wr_ok by (simpl; unfold upd; hsimp; reflexivity). simpl.
  erewrite rd_ok by (simpl; unfold upd; hsimp; reflexivity). simpl.
  destruct (last_or l1 None) as [p|] eqn:LP.
  - destruct (last_or_some _ _ LP) as [l1' [dp ->]].
    assert (PB : p <> b) by (intro; subst; eapply (DJ b); [rewrite map_app; apply in_or_app; simpl; auto|simpl; auto]).
    assert (PA : p <> a) by (intro; subst; apply NI, in_or_app; left; rewrite map_app; apply in_or_app; simpl; auto).
    apply lseg_last in S1.
    erewrite wr_ok by (simpl; unfold upd; hsimp; reflexivity). simpl.
    eexists; split; [reflexivity|]. split; [|split; reflexivity].
    eapply (R_of_insert s _ a _ _ _ _ H); simpl; auto.
    + rewrite LP. intro y. unfold ins_heap, upd; simpl. hcase.
    + rewrite (R'_first _ _ _ _ H). apply hd_or_app_ne. destruct l1'; discriminate.
    + rewrite (R'_last _ _ _ _ H), !last_or_app. reflexivity.
  - apply last_or_none in LP. subst l1. simpl.
    eexists; split; [reflexivity|]. split; [|split; reflexivity].
    eapply (R_of_insert s _ a _ [] _ _ H); simpl; auto.
    + intro y. unfold ins_heap, upd; simpl. hcase.
    + rewrite (R'_last _ _ _ _ H). reflexivity.
Qed.

Lemma insert_after_ok s a b d l1 l2 sp x c :
  R' s a (l1 ++ (b, d) :: l2) sp -> heap D s a = Some c -> c_data D c = x ->
  exists s', insert_after D s a b = Ok s' /\ R s' (l1 ++ (b, d) :: (a, x) :: l2) sp /\
    dtrace D s' = dtrace D s /\ length (pool D s') = length (pool D s).
Proof.
  intros H HA CX. unfold insert_after.
  pose proof (R'_notin _ _ _ _ H) as NI. rewrite map_app in NI; simpl in NI.
  assert (b <> a) by (intro; subst; apply NI, in_or_app; simpl; auto).
  pose proof (R'_seg _ _ _ _ H) as S. apply lseg_app in S. destruct S as [S1 [S2 S3]].
  pose proof (R'_nodup _ _ _ _ H) as ND. inversion ND as [|? ? _ ND2]; subst.
  apply NoDup_app_inv in ND2. destruct ND2 as [ND2 _]. rewrite map_app in ND2.
  apply NoDup_app_inv in ND2. destruct ND2 as [_ [ND3 DJ]]. inversion ND3 as [|? ? NB _]; subst.
  erewrite wr_ok by exact HA. simpl.
  erewrite rd_ok by (simpl; unfold upd; hsimp; reflexivity). simpl.
  erewrite wr_ok by (simpl; unfold upd; hsimp; reflexivity). simpl.
  erewrite wr_ok by (simpl; unfold upd; hsimp; reflexivity). simpl.
  erewrite rd_ok by (simpl; unfold upd; hsimp; reflexivity). simpl.
  replace (l1 ++ (b, d) :: (a, c_data D c) :: l2) with ((l1 ++ [(b, d)]) ++ (a, c_data D c) :: l2)
    by (rewrite <- app_assoc; reflexivity).
  assert (H' : R' s a ((l1 ++ [(b, d)]) ++ l2) sp) by (rewrite <- app_assoc; exact H).
  destruct l2 as [|[n dn] l2]; simpl.
  - eexists; split; [reflexivity|]. split; [|split; reflexivity].
    eapply (R_of_insert s _ a _ _ _ _ H'); simpl; auto.
    + rewrite last_or_cons_some. intro y. unfold ins_heap, upd; simpl. hcase.
    + rewrite (R'_first _ _ _ _ H'). apply hd_or_app_ne. destruct l1; discriminate.
    + rewrite !last_or_app. reflexivity.
  - assert (NB' : n <> b) by (intro; subst; apply NB; simpl; auto).
    assert (NA : n <> a) by (intro; subst; apply NI, in_or_app; right; simpl; auto).
    simpl in S3. destruct S3 as [S3 S4].
    erewrite wr_ok by (simpl; unfold upd; hsimp; reflexivity). simpl.
    eexists; split; [reflexivity|]. split; [|split; reflexivity].
    eapply (R_of_insert s _ a _ _ _ _ H'); simpl; auto.
    + rewrite last_or_cons_some. intro y. unfold ins_heap, upd; simpl. hcase.
    + rewrite (R'_first _ _ _ _ H'). apply hd_or_app_ne. destruct l1; discriminate.
    + rewrite (R'_last _ _ _ _ H'), !last_or_app. reflexivity.
Qed.

(** splitting at an index *)
Lemma advance_ok s l1 l2 (p : option nat) :
  lseg (heap D s) p (l1 ++ l2) None ->
  advance D s (length l1) (hd_or (l1 ++ l2) None) = Ok (hd_or l2 None).
Proof.
  revert p; induction l1 as [|[a d] l1 IH]; intros p S; simpl.
  - destruct l2 as [|[? ?] ?]; reflexivity.
  - simpl in S. destruct S as [S1 S2]. rewrite (rd_ok _ _ _ S1). simpl.
    apply (IH (Some a)). exact S2.
Qed.

Lemma add_at_ok s al sp x pos : R s al sp ->
  exists s' a sp', list_add_at D null s x pos = Ok s' /\
    R s' (firstn (clamp pos (length al)) al ++ (a, x) :: skipn (clamp pos (length al)) al) sp' /\
    dtrace D s' = dtrace D s /\ bal s s' sp sp'.
Proof.
  intro H. unfold list_add_at.
  destruct (Z.leb_spec pos 0) as [P|P].
  - replace (clamp pos (length al)) with 0%nat by (unfold clamp; lia). simpl.
    eapply prepend_ok; eauto.
  - rewrite (R_len _ _ _ H).
    destruct (Z.leb_spec (Z.of_nat (length al)) pos) as [Q|Q].
    + replace (clamp pos (length al)) with (length al) by (unfold clamp; lia).
      rewrite firstn_all, skipn_all. eapply append_ok; eauto.
    + replace (clamp pos (length al)) with (Z.to_nat pos) by (unfold clamp; lia).
      remember (Z.to_nat pos) as k.
      destruct (get_node_ok _ _ _ H) as [a [s1 [sp' [G [H1 [HA [DT PL]]]]]]]. apply bal_get in PL.
      rewrite G; simpl. rewrite (wr_ok _ _ _ _ HA); simpl.
      pose proof (R'_first _ _ _ _ H1) as F. rewrite F.
      pose proof (R'_data _ _ _ _ x _ H1 HA) as H2. simpl in H2.
      pose proof (R'_notin _ _ _ _ H1) as NI.
      assert (K : (0 < k < length al)%nat) by lia.
      destruct al as [|[f d] al]; [simpl in K; lia|]. simpl.
      pose proof (R'_seg _ _ _ _ H2) as S.
      rewrite <- (firstn_skipn k ((f, d) :: al)) in S, H1, H2, NI.
      assert (LK : length (firstn k ((f, d) :: al)) = k) by (apply firstn_length_le; lia).
      destruct k as [|k]; [lia|].
      replace (Z.to_nat (pos - 1)) with k by lia.
      simpl in K, LK.
      assert (S0 := S). simpl in S0. destruct S0 as [S1 S2]. simpl in S1.
      erewrite rd_ok by exact S1. simpl.
      simpl. rewrite firstn_skipn in S1. rewrite firstn_skipn.
      pose proof (advance_ok (set_heap D s1 (upd D (heap D s1) a (w_data D x (Cell None None null))))
                 (firstn k al) (skipn k al) _ S2) as AD.
      injection LK as LK. rewrite LK, firstn_skipn in AD. rewrite AD. simpl.
      destruct (skipn k al) as [|[b db] l2] eqn:SK.
      { exfalso. pose proof (f_equal (@length _) SK) as E. rewrite skipn_length in E. simpl in E. lia. }
      simpl.
      simpl in NI. rewrite SK in NI.
      assert (BA : b <> a).
      { intro; subst. apply NI. right. rewrite map_app. apply in_or_app; simpl; auto. }
      apply lseg_app in S2. destruct S2 as [S2 [S3 S4]].
      erewrite rd_ok by exact S3. simpl.
      simpl in S3. unfold upd in S3. hsimp. rewrite (proj2 (Nat.eqb_neq b a) BA) in S3.
      remember ((f, d) :: firstn k al) as l1 eqn:EL1.
      assert (LL : last_or (firstn k al) (Some f) = last_or l1 None) by (subst l1; reflexivity).
      rewrite LL in *.
      change (firstn (Datatypes.S k) ((f, d) :: al)) with ((f, d) :: firstn k al) in *.
      change (skipn (Datatypes.S k) ((f, d) :: al)) with (skipn k al) in *.
      rewrite SK in *. rewrite <- EL1 in *.
      destruct (last_or l1 None) as [p|] eqn:LP;
        [|apply last_or_none in LP; subst; discriminate].
      pose proof (R'_seg _ _ _ _ H1) as SS. apply lseg_app in SS. destruct SS as [SS _].
      destruct (last_or_some _ _ LP) as [l1' [dp E1]].
      assert (PLH : heap D s1 p = Some (Cell (last_or l1' None) (Some b) dp)).
      { rewrite E1 in SS. apply lseg_last in SS. exact SS. }
      pose proof (R'_nodup _ _ _ _ H1) as ND. apply NoDup_cons_iff in ND; destruct ND as [_ ND2].
      apply NoDup_app_inv in ND2. destruct ND2 as [ND2 _]. rewrite map_app in ND2.
      apply NoDup_app_inv in ND2. destruct ND2 as [_ [_ DJ]].
      assert (PI : In p (map fst l1)) by (apply last_or_in; auto).
      assert (PA : p <> a).
      { intro; subst p. apply (R'_notin _ _ _ _ H1). rewrite map_app; apply in_or_app; auto. }
      assert (PB : p <> b) by (intro; subst p; eapply DJ; [exact PI|simpl; auto]).
      erewrite wr_ok by (simpl; unfold upd; hsimp; reflexivity). simpl.
      erewrite wr_ok by (simpl; unfold upd; hsimp; reflexivity). simpl.
      erewrite wr_ok by (simpl; unfold upd; hsimp; reflexivity). simpl.
      erewrite wr_ok by (simpl; unfold upd; hsimp; reflexivity). simpl.
      eexists _, a, sp'. split; [reflexivity|]. split; [|exact (conj DT PL)].
      change ((f, d) :: firstn k al ++ (a, x) :: (b, db) :: l2)
        with (((f, d) :: firstn k al) ++ (a, x) :: (b, db) :: l2). rewrite <- EL1.
      eapply (R_of_insert s1 _ a _ _ _ _ H1); simpl; auto.
      * rewrite LP. intro y. unfold ins_heap, upd; simpl. hcase.
      * rewrite (R'_first _ _ _ _ H1). apply hd_or_app_ne. subst l1; discriminate.
      * rewrite (R'_last _ _ _ _ H1), !last_or_app. reflexivity.
Qed.

Local Arguments firstn : simpl never.
Local Arguments skipn : simpl never.
Local Arguments Z.of_nat : simpl never.
Local Arguments Z.add : simpl never.

Variable has_destroy : bool.

(** removal of a linked cell *)
Lemma remove_selected_ok s l1 a d l2 sp also :
  R s (l1 ++ (a, d) :: l2) sp ->
  exists s', remove_selected D has_destroy s a also = Ok s' /\ R s' (l1 ++ l2) (sp ++ [a]) /\
    dtrace D s' = dtrace D s ++ (if also && has_destroy then [d] else []) /\
    length (pool D s') = length (pool D s).
Proof.
  intro H. unfold remove_selected.
  pose proof (R_seg _ _ _ H) as S. assert (S0 := S). apply lseg_app in S. destruct S as [S1 [S2 S3]].
  pose proof (R_nodup _ _ _ H) as ND.
  assert (NDA : NoDup (map fst (l1 ++ (a, d) :: l2))) by (apply NoDup_app_inv in ND; tauto).
  assert (ND' := NDA).
  rewrite map_app in ND'. simpl in ND'. apply NoDup_app_inv in ND'. destruct ND' as [D1 [D2 D3]].
  inversion D2 as [|? ? D4 D5]; subst.
  rewrite (rd_ok _ _ _ S2). simpl.
  (* first write *)
  assert (exists s1, match last_or l1 None with
            | None => Ok (set_first D s (hd_or l2 None))
            | Some p => wr D s p (w_next D (hd_or l2 None))
            end = Ok s1 /\
            (forall y, heap D s1 y = if match last_or l1 None with Some b => Nat.eqb y b | None => false end
                                     then option_map (w_next D (hd_or l2 None)) (heap D s y) else heap D s y) /\
            first D s1 = hd_or (l1 ++ l2) None /\ last_ D s1 = last_ D s /\ len D s1 = len D s /\
            pool D s1 = pool D s /\ avail D s1 = avail D s /\ fresh D s1 = fresh D s /\ dtrace D s1 = dtrace D s)
    as [s1 [E1 [HS1 [F1 [L1 [N1 [P1 [A1 [FR1 T1]]]]]]]]].
  { destruct (last_or l1 None) as [p|] eqn:LP.
    - destruct (last_or_some _ _ LP) as [l1' [dp ->]]. apply lseg_last in S1.
      erewrite wr_ok by exact S1. eexists; split; [reflexivity|]. simpl.
      split; [intro y; unfold upd; hcase|].
      repeat split; auto. rewrite (R_first _ _ _ H), !hd_or_app.
      destruct l1' as [|[? ?] ?]; reflexivity.
    - apply last_or_none in LP. subst l1. eexists; split; [reflexivity|]. simpl.
      repeat split; auto. }
  rewrite E1. simpl. clear E1.
  assert (exists s2, match hd_or l2 None with
            | None => Ok (set_last D s1 (last_or l1 None))
            | Some n => wr D s1 n (w_prev D (last_or l1 None))
            end = Ok s2 /\
            (forall y, heap D s2 y = del_heap (heap D s) (last_or l1 None) (hd_or l2 None) y) /\
            first D s2 = hd_or (l1 ++ l2) None /\ last_ D s2 = last_or (l1 ++ l2) None /\ len D s2 = len D s /\
            pool D s2 = pool D s /\ avail D s2 = avail D s /\ fresh D s2 = fresh D s /\ dtrace D s2 = dtrace D s)
    as [s2 [E2 [HS2 [F2 [L2 [N2 [P2 [A2 [FR2 T2]]]]]]]]].
  { destruct l2 as [|[n dn] l2]; simpl.
    - eexists; split; [reflexivity|]. simpl.
      rewrite app_nil_r in *. repeat split; auto.
    - simpl in S3. destruct S3 as [S3 _].
      assert (HN : heap D s1 n = Some (Cell (Some a) (hd_or l2 None) dn)).
      { rewrite HS1. destruct (last_or l1 None) as [p|] eqn:LP; auto.
        destruct (Nat.eqb_spec n p) as [->|]; auto.
        exfalso. eapply D3; [apply last_or_in; exact LP|simpl; auto]. }
      erewrite wr_ok by exact HN. eexists; split; [reflexivity|]. simpl.
      repeat split; auto.
      + intro y. unfold upd. rewrite HS1. unfold del_heap. simpl.
        destruct (Nat.eqb_spec y n) as [->|].
        * rewrite S3. destruct (last_or l1 None) as [p|] eqn:LP; auto.
          destruct (Nat.eqb_spec n p) as [->|]; auto.
          exfalso. eapply D3; [apply last_or_in; exact LP|simpl; auto].
        * destruct (last_or l1 None) as [p|] eqn:LP; auto.
      + rewrite L1, (R_last _ _ _ H), !last_or_app. reflexivity. }
  rewrite E2. simpl. clear E2.
  set (s3 := if also && has_destroy then set_trace D s2 (dtrace D s2 ++ [d]) else s2).
  assert (HS3 : heap D s3 = heap D s2 /\ first D s3 = first D s2 /\ last_ D s3 = last_ D s2 /\
     len D s3 = len D s2 /\ pool D s3 = pool D s2 /\ avail D s3 = avail D s2 /\ fresh D s3 = fresh D s2 /\
     dtrace D s3 = dtrace D s2 ++ (if also && has_destroy then [d] else [])).
  { unfold s3. destruct (also && has_destroy); simpl; rewrite ?app_nil_r; repeat split; auto. }
  clearbody s3. destruct HS3 as [X1 [X2 [X3 [X4 [X5 [X6 [X7 X8]]]]]]].
  unfold dispose_node.
  pose proof (R_cap _ _ _ H) as CAP. rewrite app_length in CAP. simpl in CAP.
  rewrite set_nth_spec by (rewrite X5, P2, X6, A2; lia). simpl.
  eexists; split; [reflexivity|]. simpl. split; [|split].
  - constructor; simpl.
    + eapply lseg_ext; [intros; rewrite X1; apply HS2|].
      eapply lseg_delete; eauto.
    + rewrite X2; auto.
    + rewrite X3; auto.
    + rewrite X4, N2, (R_len _ _ _ H), !app_length. simpl. lia.
    + rewrite map_app in *. simpl in ND.
      rewrite <- !app_assoc in *. simpl in ND.
      apply NoDup_remove in ND. destruct ND as [ND NI].
      rewrite !app_assoc in *. apply NoDup_app_intro; auto.
      * repeat constructor; simpl; tauto.
      * intros z Z1 [<-|[]]. contradiction.
    + rewrite X6, X5, A2, P2.
      rewrite <- (R_avail _ _ _ H).
      rewrite firstn_snoc.
      * rewrite map_app. simpl. f_equal. rewrite (R_avail _ _ _ H). apply (R_pool _ _ _ H).
      * apply firstn_length_le. rewrite (R_avail _ _ _ H). lia.
    + rewrite app_length, (R_avail _ _ _ H), X6, A2. simpl. lia.
    + rewrite !app_length. simpl length. rewrite firstn_length, skipn_length.
      rewrite X6, X5, A2, P2. lia.
    + intros b B. rewrite X7, FR2. apply (R_fresh _ _ _ H).
      rewrite !map_app in *. simpl in *. rewrite !in_app_iff in *. simpl in *. tauto.
    + intros b B. rewrite X1, HS2. unfold del_heap.
      assert (M : heap D s b <> None).
      { apply in_app_or in B. destruct B as [B|[<-|[]]]; [apply (R_mapped _ _ _ H); auto|].
        rewrite S2; discriminate. }
      destruct (heap D s b); [|congruence].
      destruct (last_or l1 None) as [p|]; [destruct (Nat.eqb b p)|]; simpl; try discriminate;
      (destruct (hd_or l2 None) as [m|]; [destruct (Nat.eqb b m)|]; simpl; discriminate).
    + rewrite X7, FR2, (R_fp _ _ _ H).
      rewrite app_length. simpl length. rewrite firstn_length, skipn_length.
      rewrite X6, X5, A2, P2. lia.
  - rewrite X8, T2. reflexivity.
  - rewrite app_length. simpl length. rewrite firstn_length, skipn_length.
    rewrite X6, X5, A2, P2. lia.
Qed.

(** linear searches *)
Lemma linear_ok s (test : D -> bool) : forall al p fuel,
  lseg (heap D s) p al None -> (length al < fuel)%nat ->
  linear_lookup D fuel s test (hd_or al None) =
  Ok (match index_of D test (map snd al) with
      | Some k => option_map fst (nth_error al k) | None => None end).
Proof.
  induction al as [|[a d] al IH]; intros p fuel S F; destruct fuel as [|fuel]; simpl in *; try lia; auto.
  destruct S as [S1 S2]. rewrite (rd_ok _ _ _ S1). simpl.
  destruct (test d); simpl; auto.
  rewrite (IH (Some a)) by (auto; lia).
  destruct (index_of D test (map snd al)); reflexivity.
Qed.

Lemma at_ok s pos : forall al p fuel it,
  lseg (heap D s) p al None -> (length al < fuel)%nat ->
  at_loop D fuel s it pos (hd_or al None) =
  Ok (if (it <=? pos) && (pos <? it + Z.of_nat (length al))
      then option_map fst (nth_error al (Z.to_nat (pos - it))) else None).
Proof.
  induction al as [|[a d] al IH]; intros p fuel it S F; destruct fuel as [|fuel]; simpl in *; try lia; auto.
  - destruct (Z.leb_spec it pos), (Z.ltb_spec pos (it + Z.of_nat 0)); simpl; auto; lia.
  - destruct S as [S1 S2]. destruct (Z.eqb_spec it pos) as [->|N].
    + rewrite Z.leb_refl. destruct (Z.ltb_spec pos (pos + Z.of_nat (S (length al)))); [|lia].
      simpl. rewrite Z.sub_diag. reflexivity.
    + rewrite (rd_ok _ _ _ S1). simpl. rewrite (IH (Some a)) by (auto; lia).
      destruct (Z.leb_spec (it + 1) pos), (Z.leb_spec it pos); try lia; simpl; auto.
      destruct (Z.ltb_spec pos (it + 1 + Z.of_nat (length al))),
        (Z.ltb_spec pos (it + Z.of_nat (S (length al)))); try lia; auto.
      replace (Z.to_nat (pos - it)) with (S (Z.to_nat (pos - (it + 1)))) by lia. reflexivity.
Qed.

Lemma nth_loop_ok s : forall al p k,
  lseg (heap D s) p al None ->
  nth_loop D s k (hd_or al None) = Ok (option_map fst (nth_error al k)).
Proof.
  induction al as [|[a d] al IH]; intros p [|k] S; simpl in *; auto.
  destruct S as [S1 S2]. rewrite (rd_ok _ _ _ S1). simpl. eapply IH; eauto.
Qed.

Lemma lseg_nth h : forall al p n k a d, lseg h p al n -> nth_error al k = Some (a, d) ->
  exists c, h a = Some c /\ c_data D c = d.
Proof.
  induction al as [|[b e] al IH]; intros p n [|k] a d S E; simpl in *; try discriminate.
  - inversion E; subst. destruct S as [S _]. eauto.
  - destruct S as [_ S]. eapply IH; eauto.
Qed.

Lemma nth_split_eq {A} (l : list A) k x : nth_error l k = Some x ->
  l = firstn k l ++ x :: skipn (S k) l.
Proof.
  revert k; induction l as [|y l IH]; intros [|k] E; simpl in *; try discriminate.
  - inversion E; reflexivity.
  - f_equal. apply IH; auto.
Qed.

Lemma skipn_nth {A} (l : list A) k x : nth_error l k = Some x ->
  skipn k l = x :: skipn (S k) l.
Proof.
  revert k; induction l as [|y l IH]; intros [|k] E; simpl in *; try discriminate.
  - inversion E; reflexivity.
  - change (skipn k l = x :: skipn (S k) l). apply IH; auto.
Qed.
Lemma firstn_S_nth {A} (l : list A) k x : nth_error l k = Some x ->
  firstn (S k) l = firstn k l ++ [x].
Proof.
  revert k; induction l as [|y l IH]; intros [|k] E; simpl in *; try discriminate.
  - inversion E; reflexivity.
  - change (y :: firstn (S k) l = y :: (firstn k l ++ [x])). f_equal. apply IH; auto.
Qed.

Lemma index_of_lt f l k : index_of D f l = Some k -> (k < length l)%nat.
Proof.
  revert k; induction l as [|x l IH]; simpl; intros k E; [discriminate|].
  destruct (f x); [inversion E; lia|].
  destruct (index_of D f l); [|discriminate]. inversion E. specialize (IH _ eq_refl). lia.
Qed.

Definition Rs (s : lst) (l : list D) (sp : list nat) := exists al, R s al sp /\ map snd al = l.

(** removal through an index option *)
Lemma remove_index_ok s al sp o also :
  R s al sp -> (forall k, o = Some k -> (k < length al)%nat) ->
  exists s' al' sp',
    remove_found D has_destroy s (match o with Some k => option_map fst (nth_error al k) | None => None end) also = Ok s' /\
    R s' al' sp' /\
    (length al' + length sp' = length al + length sp)%nat /\ length (pool D s') = length (pool D s) /\
    map snd al' = fst (remove_index D has_destroy (map snd al) o also) /\
    dtrace D s' = dtrace D s ++ snd (remove_index D has_destroy (map snd al) o also).
Proof.
  intros H K. destruct o as [k|]; simpl.
  - specialize (K k eq_refl).
    destruct (nth_error al k) as [[a d]|] eqn:E; [|apply nth_error_None in E; lia].
    simpl. pose proof (nth_split_eq _ _ _ E) as SP.
    rewrite SP in H.
    destruct (remove_selected_ok _ _ _ _ _ _ also H) as [s' [E1 [E2 [E3 E4]]]].
    eexists _, _, _. split; [exact E1|]. split; [exact E2|].
    split; [|split; [exact E4|split]].
    + apply (f_equal (@length _)) in SP. rewrite !app_length in *. simpl in *. lia.
    + unfold delete_at. rewrite map_app, firstn_map, skipn_map. reflexivity.
    + rewrite E3. f_equal. destruct (also && has_destroy); auto.
      rewrite nth_error_map, E. reflexivity.
  - eexists _, _, _. split; [reflexivity|]. split; [exact H|].
    rewrite app_nil_r. auto.
Qed.

Lemma walk_fuel_ok s al sp : R s al sp -> (length al < walk_fuel D s)%nat.
Proof. intro H. unfold walk_fuel. pose proof (R_cap _ _ _ H). lia. Qed.

Lemma in_range_lt pos n k : in_range pos n = Some k -> (k < n)%nat.
Proof.
  unfold in_range. destruct (Z.leb_spec 0 pos), (Z.ltb_spec pos (Z.of_nat n)); simpl; try discriminate.
  intro E; inversion E; lia.
Qed.

Lemma internal_nth_ok s al sp pos : R s al sp ->
  internal_get_nth D s pos =
  Ok (match in_range pos (length al) with Some k => option_map fst (nth_error al k) | None => None end).
Proof.
  intro H. unfold internal_get_nth, in_range. rewrite (R_len _ _ _ H), (R_first _ _ _ H).
  destruct ((0 <=? pos) && (pos <? Z.of_nat (length al))); auto.
  eapply nth_loop_ok, R_seg; eauto.
Qed.

Lemma data_nth_ok s al sp k d : R s al sp -> nth_error (map snd al) k = Some d ->
  data_of D null s (option_map fst (nth_error al k)) = Ok d.
Proof.
  intros H E. rewrite nth_error_map in E. destruct (nth_error al k) as [[a d']|] eqn:N; [|discriminate].
  simpl in E; inversion E; subst. simpl.
  destruct (lseg_nth _ _ _ _ _ _ _ (R_seg _ _ _ H) N) as [c [C1 C2]].
  rewrite (rd_ok _ _ _ C1). simpl. congruence.
Qed.

Variable cmp : D -> D -> Z.

(** ----- axl_list_add at the level of sequences ----- *)

(** round [i] looks at element [i] from the head and element [i] from the tail *)
Fixpoint add_scan (fuel : nat) (l : list D) (x : D) (i : nat) : list D :=
  match fuel with
  | O => l
  | S fuel' =>
    match nth_error l i with
    | None => l
    | Some d =>
      if cmp d x =? -1 then insert_at D l i x
      else if cmp d x =? 0 then l
      else
        match nth_error l (length l - 1 - i) with
        | None => l
        | Some e =>
          if cmp e x =? 0 then l
          else if cmp e x =? 1 then insert_at D l (length l - i) x
          else add_scan fuel' l x (S i)
        end
    end
  end.
Definition seq_add (l : list D) (x : D) : list D :=
  match l with [] => [x] | _ => add_scan (S (length l)) l x 0 end.

Definition addr_at (al : list (nat * D)) (i : nat) : option nat := option_map fst (nth_error al i).

Lemma lseg_cell h : forall al p n k a d, lseg h p al n -> nth_error al k = Some (a, d) ->
  h a = Some (Cell (match k with O => p | S k' => addr_at al k' end)
                   (match nth_error al (S k) with Some (b, _) => Some b | None => n end) d).
Proof.
  induction al as [|[b e] al IH]; intros p n [|k] a d S E; try discriminate.
  - inversion E; subst. destruct S as [S _]. rewrite S. simpl.
    destruct al as [|[? ?] ?]; reflexivity.
  - destruct S as [_ S]. simpl in E.
    rewrite (IH _ _ _ _ _ S E). simpl. destruct k; reflexivity.
Qed.

(** tail cursor: position [j], counted from the head; [None] once it fell off *)
Definition tail_at (al : list (nat * D)) (i : nat) : option nat :=
  if (i <? length al)%nat then addr_at al (length al - 1 - i) else None.

Lemma R_final_leak s a al sp : R' s a al sp -> R s al sp.
Proof.
  intro H. constructor; try apply H.
  - pose proof (R'_nodup _ _ _ _ H) as N. inversion N; auto.
  - pose proof (R'_cap _ _ _ _ H). lia.
  - intros b B. apply (R'_fresh _ _ _ _ H). right; auto.
Qed.

Lemma addr_at_some (al : list (nat * D)) k : (k < length al)%nat -> exists a d, nth_error al k = Some (a, d).
Proof.
  intro K. destruct (nth_error al k) as [[a d]|] eqn:E; [eauto|].
  apply nth_error_None in E; lia.
Qed.

Lemma add_loop_ok s a al sp x c : forall fuel i,
  R' s a al sp -> heap D s a = Some c -> c_data D c = x -> (length al - i < fuel)%nat -> (i <= length al)%nat ->
  exists s' al',
    add_loop D cmp fuel s a x (addr_at al i) (tail_at al i) = Ok s' /\
    R s' al' sp /\ map snd al' = add_scan fuel (map snd al) x i /\ dtrace D s' = dtrace D s /\
    length (pool D s') = length (pool D s) /\
    (length al' = S (length al) \/ al' = al).
Proof.
  induction fuel as [|fuel IH]; intros i H HA CX F IL; [lia|].
  unfold addr_at at 1, tail_at. simpl. rewrite nth_error_map.
  pose proof (R'_seg _ _ _ _ H) as S.
  destruct (nth_error al i) as [[b d]|] eqn:E; simpl.
  - assert (IL' : (i < length al)%nat) by (apply nth_error_Some; congruence).
    rewrite (rd_ok _ _ _ (lseg_cell _ _ _ _ _ _ _ S E)). simpl.
    pose proof (nth_split_eq _ _ _ E) as SP.
    destruct (cmp d x =? -1) eqn:C1.
    { rewrite SP in H.
      destruct (insert_before_ok _ _ _ _ _ _ _ _ _ H HA CX) as [s' [I1 [I2 [I3 I4]]]].
      rewrite I1. simpl. eexists _, _. split; [reflexivity|]. split; [exact I2|].
      split; [|split; [auto|split; [auto|left]]].
      - unfold insert_at. rewrite map_app. simpl. rewrite firstn_map, skipn_map. f_equal. f_equal.
        rewrite (skipn_nth _ _ _ E). reflexivity.
      - apply (f_equal (@length _)) in SP. rewrite app_length in *. simpl in *. lia. }
    destruct (cmp d x =? 0) eqn:C2.
    { simpl. exists s, al. pose proof (R_final_leak _ _ _ _ H). auto 10. }
    simpl. destruct (Nat.ltb_spec i (length al)); [|lia].
    unfold addr_at. rewrite map_length.
    destruct (addr_at_some al (length al - 1 - i)) as [t [e T]]; [lia|].
    rewrite T. simpl. rewrite nth_error_map, T. simpl.
    rewrite (rd_ok _ _ _ (lseg_cell _ _ _ _ _ _ _ S T)). simpl.
    destruct (cmp e x =? 0) eqn:C3.
    { simpl. exists s, al. pose proof (R_final_leak _ _ _ _ H). auto 10. }
    pose proof (nth_split_eq _ _ _ T) as SPT.
    destruct (cmp e x =? 1) eqn:C4.
    { rewrite SPT in H.
      destruct (insert_after_ok _ _ _ _ _ _ _ _ _ H HA CX) as [s' [I1 [I2 [I3 I4]]]].
      rewrite I1. simpl. eexists _, _. split; [reflexivity|]. split; [exact I2|].
      split; [|split; [auto|split; [auto|left]]].
      - unfold insert_at. rewrite map_app. simpl. rewrite firstn_map, skipn_map.
        replace (length al - i)%nat with (Datatypes.S (length al - 1 - i)) by lia.
        rewrite (firstn_S_nth _ _ _ T), map_app. simpl. rewrite <- app_assoc. reflexivity.
      - apply (f_equal (@length _)) in SPT. rewrite app_length in *. simpl in *. lia. }
    simpl.
    destruct (IH (Datatypes.S i)) as [s' [al' IHs]]; auto; try lia.
    exists s', al'.
    assert (TE : (match length al - 1 - i with O => None | Datatypes.S k' => addr_at al k' end)%nat = tail_at al (Datatypes.S i)).
    { unfold tail_at. destruct (Nat.ltb_spec (Datatypes.S i) (length al)).
      - replace (length al - 1 - i)%nat with (Datatypes.S (length al - 1 - Datatypes.S i)) by lia. reflexivity.
      - replace (length al - 1 - i)%nat with 0%nat by lia. reflexivity. }
    rewrite TE.
    assert (HE : (match nth_error al (Datatypes.S i) with Some (b0, _) => Some b0 | None => None end)
                 = addr_at al (Datatypes.S i)).
    { unfold addr_at. destruct (nth_error al (Datatypes.S i)) as [[? ?]|]; reflexivity. }
    change (match al with [] => None | _ :: l => nth_error l i end) with (nth_error al (Datatypes.S i)).
    rewrite HE. exact IHs.
  - apply nth_error_None in E.
    destruct (Nat.ltb_spec i (length al)); [lia|].
    exists s, al. pose proof (R_final_leak _ _ _ _ H). auto 10.
Qed.

Lemma add_scan_fuel l x : forall f1 f2 i, (length l - i < f1)%nat -> (length l - i < f2)%nat ->
  add_scan f1 l x i = add_scan f2 l x i.
Proof.
  induction f1 as [|f1 IH]; intros [|f2] i F1 F2; try lia. simpl.
  destruct (nth_error l i) eqn:E; auto.
  assert (i < length l)%nat by (apply nth_error_Some; congruence).
  destruct (cmp d x =? -1); auto. destruct (cmp d x =? 0); auto.
  destruct (nth_error l (length l - 1 - i)); auto.
  destruct (cmp d0 x =? 0); auto. destruct (cmp d0 x =? 1); auto.
  apply IH; lia.
Qed.

Lemma last_or_nth al : last_or al None = tail_at al 0.
Proof.
  unfold tail_at. destruct al as [|[a d] al] using rev_ind; [reflexivity|].
  rewrite app_length. simpl. rewrite last_or_app.
  destruct (Nat.ltb_spec 0 (length al + 1)); [|lia].
  unfold addr_at. rewrite nth_error_app2 by lia.
  replace (length al + 1 - 1 - 0 - length al)%nat with 0%nat by lia. reflexivity.
Qed.

Local Arguments add_loop : simpl never.
Local Arguments walk_fuel : simpl never.

(** [lost]: cells taken from the pool and then forgotten *)
Lemma add_ok s al sp x : R s al sp ->
  exists s' al' sp', list_add D null cmp s x = Ok s' /\ R s' al' sp' /\
    map snd al' = seq_add (map snd al) x /\ dtrace D s' = dtrace D s /\
    (length al' = S (length al) \/ al' = al) /\ bal s s' sp sp'.
Proof.
  intro H. unfold list_add.
  destruct (get_node_ok _ _ _ H) as [a [s1 [sp' [G [H1 [HA [DT PL]]]]]]]. apply bal_get in PL.
  rewrite G; simpl. rewrite (wr_ok _ _ _ _ HA); simpl.
  pose proof (R'_first _ _ _ _ H1) as F. pose proof (R'_last _ _ _ _ H1) as L.
  rewrite F. destruct al as [|[f d] al].
  - simpl. eexists _, [(a, x)], sp'. split; [reflexivity|]. split; [|split; [reflexivity|split; [exact DT|]]].
    + apply (R_of_insert s1 _ a x [] [] sp'); simpl; auto.
      rewrite (R'_len _ _ _ _ H1). reflexivity.
    + simpl. split; [auto|exact PL].
  - remember ((f, d) :: al) as al0.
    pose proof (R'_data _ _ _ _ x _ H1 HA) as H2.
    remember (set_heap D s1 (upd D (heap D s1) a (w_data D x (Cell None None null)))) as s2.
    assert (HA2 : heap D s2 a = Some (w_data D x (Cell None None null))).
    { subst s2; simpl. unfold upd. rewrite Nat.eqb_refl. reflexivity. }
    assert (FA : hd_or al0 None = addr_at al0 0) by (subst al0; reflexivity).
    rewrite FA.
    assert (FS : addr_at al0 0 = Some f) by (subst al0; reflexivity).
    rewrite FS, <- FS.
    destruct (add_loop_ok s2 a al0 sp' x _ (walk_fuel D s2) 0 H2 HA2 eq_refl) as [s' [al' [E1 [E2 [E3 [E4 [E5 E6]]]]]]]; try lia.
    { unfold walk_fuel. pose proof (R'_cap _ _ _ _ H2). lia. }
    assert (LT : last_ D s2 = tail_at al0 0) by (rewrite (R'_last _ _ _ _ H2); apply last_or_nth).
    exists s', al', sp'.
    replace (last_ D s1) with (last_ D s2) by (subst s2; reflexivity).
    rewrite LT. split; [exact E1|]. split; [exact E2|]. split; [|split].
    + rewrite E3. unfold seq_add. subst al0. simpl map. apply add_scan_fuel; simpl; try lia.
      unfold walk_fuel. pose proof (R'_cap _ _ _ _ H2). rewrite map_length. simpl in *. lia.
    + rewrite E4. subst s2; simpl. exact DT.
    + split; [exact E6|]. unfold bal in *. rewrite E5.
      replace (pool D s2) with (pool D s1) by (subst s2; reflexivity). exact PL.
Qed.

End P.
