From Verif Require Import Prelude StrModel StrSpec StrProofs.
Open Scope Z_scope.

Local Arguments Z.of_nat : simpl never.
Local Arguments Z.add : simpl never.
Local Arguments Ascii.eqb : simpl never.

(** ** trim *)
Lemma lead_split s : exists l m, s = l ++ m /\ forallb white l = true /\
  match m with [] => True | c :: _ => white c = false end.
Proof.
  induction s as [|c s IH].
  - exists [], []. simpl; auto.
  - destruct (white c) eqn:E.
    + destruct IH as (l & m & -> & H1 & H2). exists (c :: l), m. simpl. rewrite E. auto.
    + exists [], (c :: s). simpl; auto.
Qed.
Lemma trail_split m : exists t r, m = t ++ r /\ forallb white r = true /\
  (t = [] \/ exists t' c, t = t' ++ [c] /\ white c = false).
Proof.
  induction m as [|c m IH] using rev_ind.
  - exists [], []. simpl; auto.
  - destruct (white c) eqn:E.
    + destruct IH as (t & r & -> & H1 & H2). exists t, (r ++ [c]). rewrite app_assoc. split; [reflexivity|].
      rewrite forallb_app. simpl. rewrite H1, E. auto.
    + exists (m ++ [c]), []. rewrite app_nil_r. simpl. split; [reflexivity|]. split; [reflexivity|].
      right. exists m, c. auto.
Qed.
Lemma forallb_ext' {A} (f g : A -> bool) l : (forall x, f x = g x) -> forallb f l = forallb g l.
Proof. intro H. induction l; simpl; [reflexivity|]. rewrite H, IHl. reflexivity. Qed.

(** writing the terminator over whatever follows [d] *)
Lemma wr_end d q rest : nul_free d ->
  exists b', wr (d ++ q ++ NUL :: rest) (Z.of_nat (length d)) NUL = Ok b' /\ holds b' d /\
    length b' = length (d ++ q ++ NUL :: rest) /\ skipn (length d + length q + 1) b' = rest.
Proof.
  intro Hd. destruct q as [|c q]; simpl.
  - rewrite wr_app by reflexivity. eexists. split; [reflexivity|]. split; [split; [assumption|eauto]|].
    split; [reflexivity|]. replace (length d + 0 + 1)%nat with (length (d ++ [NUL])) by (rewrite app_length; simpl; lia).
    replace (d ++ NUL :: rest) with ((d ++ [NUL]) ++ rest) by (rewrite <- app_assoc; reflexivity).
    apply skipn_app_len.
  - rewrite wr_app by reflexivity. eexists. split; [reflexivity|]. split; [split; [assumption|eauto]|].
    split; [rewrite !app_length; reflexivity|].
    replace (length d + S (length q) + 1)%nat with (length (d ++ NUL :: q ++ [NUL]))
      by (rewrite app_length; simpl; rewrite app_length; simpl; lia).
    replace (d ++ NUL :: q ++ NUL :: rest) with ((d ++ NUL :: q ++ [NUL]) ++ rest)
      by (rewrite <- app_assoc; simpl; rewrite <- app_assoc; reflexivity).
    apply skipn_app_len.
Qed.

Definition rest_kept (b b' s : bytes) : Prop :=
  length b' = length b /\ skipn (length s + 1) b' = skipn (length s + 1) b.
Lemma skipn_hold s rest : skipn (length s + 1) (s ++ NUL :: rest) = rest.
Proof.
  replace (length s + 1)%nat with (length (s ++ [NUL])) by (rewrite app_length; simpl; lia).
  replace (s ++ NUL :: rest) with ((s ++ [NUL]) ++ rest) by (rewrite <- app_assoc; reflexivity).
  apply skipn_app_len.
Qed.

Lemma trim_ok b s : holds b s ->
  exists b' t, stream_trim_with_size b = Ok (b', Z.of_nat (length s) - Z.of_nat (length t)) /\
    trimmed s t /\ holds b' t /\ rest_kept b b' s.
Proof.
  intros [Hs [rest ->]]. unfold stream_trim_with_size. rewrite strlen_ok by assumption. cbn [bind].
  destruct (Z.eqb_spec (Z.of_nat (length s)) 0) as [E|E].
  { destruct s; [|simpl in E; lia]. exists (NUL :: rest), []. simpl. split; [f_equal; f_equal; lia|].
    split; [exists [], []; simpl; auto|]. split; [split; [exact nul_free_nil|exists rest; reflexivity]|].
    split; reflexivity. }
  destruct (lead_split s) as (l & m & -> & Hl & Hm).
  assert (Hl' : forallb is_ws l = true) by (rewrite <- Hl; apply forallb_ext', is_ws_white).
  destruct m as [|c m].
  - (* all white *)
    rewrite app_nil_r in *.
    pose proof (skip_ws_ok l [] (NUL :: rest) (S (length (l ++ NUL :: rest)))) as K.
    simpl app in K. simpl length in K. change (Z.of_nat 0) with 0 in K. rewrite K; [|rewrite app_length; simpl; lia|assumption|reflexivity].
    cbn [bind]. simpl plus. rewrite Z.eqb_refl.
    destruct (wr_end [] l rest nul_free_nil) as (b' & W & Hb & L & Sk). simpl in W. change (Z.of_nat 0) with 0 in W.
    rewrite W. cbn [bind]. exists b', []. split; [f_equal; f_equal; simpl; lia|].
    split; [exists l, []; rewrite app_nil_r; simpl; auto|]. split; [exact Hb|].
    split; [exact L|]. rewrite skipn_hold. simpl in Sk. exact Sk.
  - destruct (trail_split (c :: m)) as (t & r & Em & Hr & Ht). rewrite Em in *.
    assert (Hr' : forallb is_ws r = true) by (rewrite <- Hr; apply forallb_ext', is_ws_white).
    destruct t as [|c0 t0] eqn:Et.
    { exfalso. simpl in Em. subst r. simpl in Hr. rewrite Hm in Hr. discriminate. }
    assert (c0 = c) by (simpl in Em; congruence). subst c0. rewrite <- Et in *.
    destruct Ht as [Ht|(t' & d & Ht & Hd)]; [congruence|].
    assert (Lt : (0 < length t)%nat) by (rewrite Et; simpl; lia).
    replace ((l ++ t ++ r) ++ NUL :: rest) with ([] ++ l ++ (t ++ r ++ NUL :: rest)) by (rewrite <- !app_assoc; reflexivity).
    pose proof (skip_ws_ok l [] (t ++ r ++ NUL :: rest) (S (length ([] ++ l ++ t ++ r ++ NUL :: rest)))) as K.
    change (Z.of_nat (length (@nil ascii))) with 0 in K. rewrite K;
      [|rewrite !app_length; simpl; lia|assumption|rewrite Et; simpl; rewrite is_ws_white; exact Hm].
    cbn [bind]. simpl plus.
    destruct (Z.eqb_spec (Z.of_nat (length l)) (Z.of_nat (length (l ++ t ++ r)))) as [F|F];
      [rewrite !app_length in F; lia|].
    pose proof (skip_ws_back_ok r (l ++ t') d (NUL :: rest) (S (length ([] ++ l ++ t ++ r ++ NUL :: rest)))) as K2.
    replace ((l ++ t') ++ d :: r ++ NUL :: rest) with ([] ++ l ++ t ++ r ++ NUL :: rest) in K2
      by (rewrite Ht, <- !app_assoc; reflexivity).
    assert (Lt' : length t = (length t' + 1)%nat) by (rewrite Ht, app_length; reflexivity).
    replace (Z.of_nat (length (l ++ t') + length r)) with (Z.of_nat (length (l ++ t ++ r)) - 1) in K2
      by (rewrite !app_length; lia).
    rewrite K2; [|rewrite !app_length; simpl; lia|assumption|rewrite is_ws_white; exact Hd].
    cbn [bind].
    replace (Z.to_nat (Z.of_nat (length (l ++ t')) - Z.of_nat (length l) + 1)) with (length t)
      by (rewrite app_length; lia).
    pose proof (move_ok t [] l (r ++ NUL :: rest)) as K3. simpl plus in K3.
    change (Z.of_nat (length (@nil ascii))) with 0 in K3. rewrite K3. cbn [bind]. simpl app at 1.
    replace (Z.of_nat (length (l ++ t')) - Z.of_nat (length l) + 1) with (Z.of_nat (length t))
      by (rewrite app_length; lia).
    assert (Nt : nul_free t).
    { apply nul_free_app in Hs. destruct Hs as [_ Hs]. apply nul_free_app in Hs. tauto. }
    destruct (wr_end t (skipn (length t) (l ++ t) ++ r) rest Nt) as (b' & W & Hb & L & Sk).
    rewrite <- app_assoc in W. rewrite W. cbn [bind].
    assert (Lq : length (skipn (length t) (l ++ t) ++ r) = (length l + length r)%nat)
      by (rewrite app_length, skipn_length, app_length; lia).
    exists b', t. split.
    { f_equal. f_equal. rewrite !app_length. lia. }
    split; [|split; [exact Hb|split]].
    + exists l, r. split; [reflexivity|]. split; [assumption|]. split; [assumption|].
      split; [rewrite Et; exact Hm|]. rewrite Ht, rev_app_distr. simpl. exact Hd.
    + rewrite L. simpl. rewrite !app_length, Lq || idtac.
      rewrite !app_length in *. lia.
    + simpl app. replace (l ++ t ++ r ++ NUL :: rest) with ((l ++ t ++ r) ++ NUL :: rest)
        by (rewrite <- !app_assoc; reflexivity).
      rewrite skipn_hold. rewrite <- Sk. f_equal. rewrite Lq, !app_length. lia.
Qed.

(** ** pieces *)
Lemma cut_single v s : cut_at [v] s =
  match v with [] => None | _ => match after v s with Some r => Some (v, r) | None => None end end.
Proof. destruct v; reflexivity. Qed.
Lemma cut_at_Some seps s p r : cut_at seps s = Some (p, r) -> In p seps /\ p <> [] /\ s = p ++ r.
Proof.
  induction seps as [|q seps IH]; simpl; [discriminate|]. destruct q as [|x q].
  - intro H. destruct (IH H) as (H1 & H2). auto.
  - destruct (after (x :: q) s) as [r'|] eqn:E.
    + intro H; inversion H; subst. split; [auto|]. split; [discriminate|]. apply after_Some; exact E.
    + intro H. destruct (IH H) as (H1 & H2). auto.
Qed.
Lemma pieces_cons seps s l : pieces seps s l -> l <> [].
Proof. destruct 1; discriminate. Qed.
Lemma pieces_exist seps s : exists l, pieces seps s l.
Proof.
  remember (length s) as n eqn:E. assert (L : (length s <= n)%nat) by lia. clear E. revert s L.
  induction n as [|n IH]; intros s L.
  - destruct s; [exists [[]]; constructor|simpl in L; lia].
  - destruct s as [|c s]; [exists [[]]; constructor|].
    destruct (cut_at seps (c :: s)) as [[p r]|] eqn:E.
    + destruct (cut_at_Some _ _ _ _ E) as (_ & Hp & Es).
      destruct (IH r) as (l & Hl).
      { apply (f_equal (@length ascii)) in Es. rewrite app_length in Es. destruct p; [contradiction|]. simpl in *. lia. }
      exists ([] :: l). econstructor; eassumption.
    + destruct (IH s) as (l & Hl); [simpl in L; lia|]. destruct l as [|x l]; [exfalso; eapply pieces_cons; eauto|].
      exists ((c :: x) :: l). constructor; assumption.
Qed.
Lemma cut_nil seps : cut_at seps [] = None.
Proof. induction seps as [|[|x q] seps IH]; simpl; auto. Qed.
Lemma pieces_fun seps s l : pieces seps s l -> forall l', pieces seps s l' -> l' = l.
Proof.
  induction 1; intros l' H'; inversion H'; subst; try reflexivity; try (rewrite cut_nil in *; discriminate); try congruence.
  - f_equal. apply IHpieces. replace r with r0 by congruence. assumption.
  - match goal with H : pieces seps s (?y :: ?m) |- _ => pose proof (IHpieces _ H) end. congruence.
Qed.
Lemma joined_cons sep s l : l <> [] -> joined sep (s :: l) = s ++ sep ++ joined sep l.
Proof. destruct l; [contradiction|reflexivity]. Qed.
Lemma joined_head sep c x l : joined sep ((c :: x) :: l) = c :: joined sep (x :: l).
Proof. destruct l; reflexivity. Qed.
Lemma pieces_joined v s l : pieces [v] s l -> joined v l = s.
Proof.
  induction 1.
  - reflexivity.
  - apply cut_at_Some in H. destruct H as (Hp & _ & ->). destruct Hp as [->|[]].
    rewrite joined_cons by (eapply pieces_cons; eauto). rewrite IHpieces. reflexivity.
  - etransitivity; [apply joined_head|]. f_equal. exact IHpieces.
Qed.
Lemma pieces_prefix v s x l : pieces [v] s (x :: l) -> exists s', s = x ++ s'.
Proof.
  intro H. pose proof (pieces_joined _ _ _ H) as J. destruct l.
  - exists []. rewrite app_nil_r. symmetry; exact J.
  - simpl in J. eauto.
Qed.
Lemma pieces_clean v s l : v <> [] -> pieces [v] s l -> Forall (fun x => ~ occurs v x) l.
Proof.
  intros Hv. induction 1.
  - constructor; [|constructor]. intros (a & b & E). symmetry in E. apply app_eq_nil in E.
    destruct E as [_ E]. apply app_eq_nil in E. tauto.
  - constructor; [|assumption]. intros (a & b & E). symmetry in E. apply app_eq_nil in E.
    destruct E as [_ E]. apply app_eq_nil in E. tauto.
  - inversion IHpieces; subst. constructor; [|assumption]. intros (a & b & E).
    destruct a as [|a0 a].
    + destruct (pieces_prefix _ _ _ _ H0) as [s' ->].
      rewrite cut_single in H. destruct v as [|v0 v]; [contradiction|].
      change (c :: x ++ s') with ((c :: x) ++ s') in H. rewrite E in H. simpl app in H.
      change (v0 :: (v ++ b) ++ s') with ((v0 :: v) ++ b ++ s') in H || rewrite <- app_assoc in H.
      change (v0 :: v ++ b ++ s') with ((v0 :: v) ++ b ++ s') in H.
      rewrite after_app in H. discriminate.
    + apply H3. exists a, b. simpl in E. congruence.
Qed.
Lemma pieces_short v s l : (length s < length v)%nat -> pieces [v] s l -> l = [s].
Proof.
  intros L H. induction H.
  - reflexivity.
  - apply cut_at_Some in H. destruct H as ([->|[]] & _ & ->). rewrite app_length in L. lia.
  - simpl in L. specialize (IHpieces ltac:(lia)). inversion IHpieces; subst. reflexivity.
Qed.
Lemma pieces_same_len v s l : length s = length v -> s <> v -> pieces [v] s l -> l = [s].
Proof.
  intros L N H. inversion H; subst.
  - reflexivity.
  - apply cut_at_Some in H0. destruct H0 as ([->|[]] & _ & ->). rewrite app_length in L.
    destruct r; [|simpl in L; lia]. rewrite app_nil_r in N. contradiction.
  - apply pieces_short in H1; [|simpl in L; lia]. inversion H1; subst. reflexivity.
Qed.

(** ** remove *)
Lemma len_app_Z (a b : bytes) : Z.of_nat (length (a ++ b)) = Z.of_nat (length a) + Z.of_nat (length b).
Proof. rewrite app_length. lia. Qed.

Lemma after_split v a q : after v (a ++ q) = None \/
  (exists a', after v a = Some a') \/ (exists v', v' <> [] /\ v = a ++ v').
Proof.
  revert a. induction v as [|x v IH]; intros a.
  - right; left. exists a. reflexivity.
  - destruct a as [|y a]; simpl.
    + right; right. exists (x :: v). split; [discriminate|reflexivity].
    + destruct (Ascii.eqb_spec x y) as [->|]; [|left; reflexivity].
      destruct (IH a) as [H|[[a' H]|(v' & H1 & H2)]]; [left; exact H|right; left; eauto|].
      right; right. exists v'. split; [exact H1|]. subst. reflexivity.
Qed.
Lemma after_app_r v a q a' : after v a = Some a' -> after v (a ++ q) = Some (a' ++ q).
Proof. intro H. apply after_Some in H. subst. rewrite <- app_assoc. apply after_app. Qed.

(** no end of [s] is a proper beginning of [v] *)
Definition no_straddle (v s : bytes) : Prop :=
  forall a b c, s = a ++ b -> v = b ++ c -> b = [] \/ c = [].

Lemma cut_stale v s q : no_straddle v s -> s <> [] ->
  cut_at [v] (s ++ q) = match cut_at [v] s with Some (p, r) => Some (p, r ++ q) | None => None end.
Proof.
  intros Hn Hs. rewrite !cut_single. destruct v as [|x v]; [reflexivity|].
  destruct (after_split (x :: v) s q) as [H|[[a' H]|(v' & H1 & H2)]].
  - rewrite H. destruct (after (x :: v) s) eqn:E; [|reflexivity]. rewrite (after_app_r _ _ q _ E) in H. discriminate.
  - rewrite H, (after_app_r _ _ q _ H). reflexivity.
  - exfalso. destruct (Hn [] s v' eq_refl H2); contradiction.
Qed.
Lemma no_straddle_suffix v a s : no_straddle v (a ++ s) -> no_straddle v s.
Proof. intros H x y z E1 E2. subst. apply (H (a ++ x) y z); [apply app_assoc|reflexivity]. Qed.

Lemma memcmp_cut s rs v : nul_free s -> nul_free v ->
  axl_memcmp (s ++ NUL :: rs) (v ++ [NUL]) (Z.of_nat (length v)) =
  Ok (match cut_at [v] s with Some _ => true | None => false end).
Proof.
  intros Hs Hv. rewrite memcmp_prefix by assumption. rewrite cut_single.
  destruct v as [|x v]; [reflexivity|]. destruct (after (x :: v) s); reflexivity.
Qed.

Lemma remove_S fuel b v vlen first it length :
  remove_loop (S fuel) b v vlen first it length =
    if it <? length then
      p <- ptr_at b it ;;
      m <- axl_memcmp p v vlen ;;
      if (m : bool) then
        b <- move_loop (Z.to_nat (length - it - vlen)) 0 b it (it + vlen) ;;
        let length := length - vlen in
        if first then wr b length NUL
        else remove_loop fuel b v vlen first it length
      else remove_loop fuel b v vlen first (it + 1) length
    else wr b length NUL.
Proof. reflexivity. Qed.

Lemma remove_all_loop v : nul_free v -> forall todo l, pieces [v] todo l ->
  forall d q rest fuel, no_straddle v todo -> nul_free (d ++ todo ++ q) -> (length todo < fuel)%nat ->
  exists b', remove_loop fuel (d ++ todo ++ q ++ NUL :: rest) (v ++ [NUL]) (Z.of_nat (length v)) false
      (Z.of_nat (length d)) (Z.of_nat (length d + length todo)) = Ok b' /\
    holds b' (d ++ concat l) /\ length b' = length (d ++ todo ++ q ++ NUL :: rest) /\
    skipn (length d + length todo + length q + 1) b' = rest.
Proof.
  intros Hv todo l P. induction P as [|s p r l C P IH|c s x l C P IH]; intros d q rest fuel Hn Hf Hfuel;
    destruct fuel as [|fuel]; try lia; rewrite remove_S; cbv zeta.
  - destruct (Z.ltb_spec (Z.of_nat (length d)) (Z.of_nat (length d + length (@nil ascii)))) as [L|L]; [simpl in L; lia|].
    replace (length d + length (@nil ascii))%nat with (length d) by (simpl; lia).
    apply nul_free_app in Hf. destruct Hf as [Hd _]. simpl app. rewrite app_nil_r.
    apply wr_end. exact Hd.
  - pose proof (cut_at_Some _ _ _ _ C) as (Hp & Hne & Es). destruct Hp as [->|[]].
    destruct (Z.ltb_spec (Z.of_nat (length d)) (Z.of_nat (length d + length s))) as [L|L];
      [|subst s; rewrite app_length in L; destruct p; [contradiction|simpl in L; lia]].
    rewrite ptr_at_app by reflexivity. cbn [bind].
    assert (Hsq : nul_free (s ++ q)) by (apply nul_free_app in Hf; tauto).
    rewrite app_assoc, memcmp_cut by assumption.
    assert (Hsne : s <> []) by (subst s; destruct p; [contradiction|discriminate]).
    rewrite cut_stale, C by assumption.
    cbn [bind].
    assert (Ls : length s = (length p + length r)%nat) by (subst s; apply app_length).
    replace (Z.to_nat (Z.of_nat (length d + length s) - Z.of_nat (length d) - Z.of_nat (length p))) with (length r) by lia.
    rewrite Es. rewrite <- !app_assoc.
    pose proof (move_ok r d p (q ++ NUL :: rest)) as M.
    replace (Z.of_nat (length d) + Z.of_nat (length p)) with (Z.of_nat (length d + length p)) by lia.
    rewrite M. cbn [bind].
    replace (Z.of_nat (length d + length (p ++ r)) - Z.of_nat (length p)) with (Z.of_nat (length d + length r))
      by (rewrite app_length; lia).
    set (q' := skipn (length r) (p ++ r) ++ q).
    replace (d ++ r ++ skipn (length r) (p ++ r) ++ q ++ NUL :: rest) with (d ++ r ++ q' ++ NUL :: rest)
      by (unfold q'; rewrite <- app_assoc; reflexivity).
    assert (Lq : length q' = (length p + length q)%nat)
      by (unfold q'; rewrite app_length, skipn_length, app_length; lia).
    destruct (IH d q' rest fuel) as (b' & W & Hb & Lb & Sk).
    + subst s. eapply no_straddle_suffix; eauto.
    + subst s. unfold q'. rewrite !nul_free_app in *.
      assert (nul_free (skipn (length r) (p ++ r))).
      { intro I. assert (nul_free (p ++ r)) as F by (apply nul_free_app; tauto). apply F.
        rewrite <- (firstn_skipn (length r) (p ++ r)). apply in_app_iff. right; exact I. }
      tauto.
    + rewrite Ls in Hfuel. destruct p; [contradiction|simpl in Hfuel; lia].
    + exists b'. split; [exact W|]. split; [simpl concat; exact Hb|]. split.
      * rewrite Lb, !app_length, Lq. simpl. lia.
      * etransitivity; [|exact Sk]. f_equal. rewrite app_length, Lq. lia.
  - destruct (Z.ltb_spec (Z.of_nat (length d)) (Z.of_nat (length d + length (c :: s)))) as [L|L]; [|simpl in L; lia].
    rewrite ptr_at_app by reflexivity. cbn [bind].
    assert (Hsq : nul_free ((c :: s) ++ q)) by (apply nul_free_app in Hf; tauto).
    rewrite app_assoc, memcmp_cut by assumption.
    rewrite cut_stale, C by (try assumption; discriminate). cbn [bind].
    destruct (IH (d ++ [c]) q rest fuel) as (b' & W & Hb & Lb & Sk).
    + apply (no_straddle_suffix v [c]). exact Hn.
    + rewrite <- app_assoc. exact Hf.
    + simpl in Hfuel; lia.
    + exists b'. rewrite app_length in W. simpl length in *.
      replace (Z.of_nat (length d) + 1) with (Z.of_nat (length d + 1)) by lia.
      replace (Z.of_nat (length d + S (length s))) with (Z.of_nat (length d + 1 + length s)) by lia.
      rewrite <- !app_assoc in *. simpl app in *. split; [exact W|].
      split; [exact Hb|]. split; [exact Lb|].
      etransitivity; [|exact Sk]. f_equal. rewrite app_length. simpl. lia.
Qed.

Lemma remove_first_loop v : nul_free v -> forall todo l, pieces [v] todo l ->
  forall d rest fuel, nul_free (d ++ todo) -> (length todo < fuel)%nat ->
  exists b' x m, l = x :: m /\ remove_loop fuel (d ++ todo ++ NUL :: rest) (v ++ [NUL]) (Z.of_nat (length v)) true
      (Z.of_nat (length d)) (Z.of_nat (length d + length todo)) = Ok b' /\
    holds b' (d ++ x ++ joined v m) /\ length b' = length (d ++ todo ++ NUL :: rest) /\
    skipn (length d + length todo + 1) b' = rest.
Proof.
  intros Hv todo l P. induction P as [|s p r l C P IH|c s x l C P IH]; intros d rest fuel Hf Hfuel;
    destruct fuel as [|fuel]; try lia; rewrite remove_S; cbv zeta.
  - destruct (Z.ltb_spec (Z.of_nat (length d)) (Z.of_nat (length d + length (@nil ascii)))) as [L|L]; [simpl in L; lia|].
    replace (length d + length (@nil ascii))%nat with (length d) by (simpl; lia).
    rewrite app_nil_r in Hf. destruct (wr_end d [] rest Hf) as (b' & W & Hb & Lb & Sk).
    exists b', [], []. simpl. rewrite app_nil_r. simpl in W. split; [reflexivity|]. split; [exact W|].
    split; [exact Hb|]. split; [exact Lb|]. etransitivity; [|exact Sk]. f_equal. simpl. lia.
  - pose proof (cut_at_Some _ _ _ _ C) as (Hp & Hne & Es). destruct Hp as [->|[]].
    destruct (Z.ltb_spec (Z.of_nat (length d)) (Z.of_nat (length d + length s))) as [L|L];
      [|subst s; rewrite app_length in L; destruct p; [contradiction|simpl in L; lia]].
    rewrite ptr_at_app by reflexivity. cbn [bind].
    assert (Hsq : nul_free s) by (apply nul_free_app in Hf; tauto).
    rewrite memcmp_cut, C by assumption. cbn [bind].
    assert (Ls : length s = (length p + length r)%nat) by (subst s; apply app_length).
    replace (Z.to_nat (Z.of_nat (length d + length s) - Z.of_nat (length d) - Z.of_nat (length p))) with (length r) by lia.
    rewrite Es. rewrite <- !app_assoc.
    pose proof (move_ok r d p (NUL :: rest)) as M.
    replace (Z.of_nat (length d) + Z.of_nat (length p)) with (Z.of_nat (length d + length p)) by lia.
    rewrite M. cbn [bind].
    replace (Z.of_nat (length d + length (p ++ r)) - Z.of_nat (length p)) with (Z.of_nat (length (d ++ r)))
      by (rewrite !app_length; lia).
    rewrite (app_assoc d r).
    assert (Hdr : nul_free (d ++ r)) by (subst s; rewrite !nul_free_app in *; tauto).
    destruct (wr_end (d ++ r) (skipn (length r) (p ++ r)) rest Hdr) as (b' & W & Hb & Lb & Sk).
    rewrite W. exists b', [], l. split; [reflexivity|]. split; [reflexivity|].
    rewrite (pieces_joined _ _ _ P). simpl. split; [exact Hb|].
    assert (Lq : length (skipn (length r) (p ++ r)) = length p) by (rewrite skipn_length, app_length; lia).
    split; [rewrite Lb, !app_length, Lq; simpl; lia|].
    etransitivity; [|exact Sk]. f_equal. rewrite Lq, !app_length. lia.
  - destruct (Z.ltb_spec (Z.of_nat (length d)) (Z.of_nat (length d + length (c :: s)))) as [L|L]; [|simpl in L; lia].
    rewrite ptr_at_app by reflexivity. cbn [bind].
    assert (Hsq : nul_free (c :: s)) by (apply nul_free_app in Hf; tauto).
    rewrite memcmp_cut, C by assumption. cbn [bind].
    destruct (IH (d ++ [c]) rest fuel) as (b' & x' & m & El & W & Hb & Lb & Sk).
    + rewrite <- app_assoc. exact Hf.
    + simpl in Hfuel; lia.
    + injection El as <- <-.
      exists b', (c :: x), l. split; [reflexivity|]. rewrite app_length in W. simpl length in *.
      replace (Z.of_nat (length d) + 1) with (Z.of_nat (length d + 1)) by lia.
      replace (Z.of_nat (length d + S (length s))) with (Z.of_nat (length d + 1 + length s)) by lia.
      rewrite <- !app_assoc in *. simpl app in *. split; [exact W|]. split; [exact Hb|].
      split; [exact Lb|]. etransitivity; [|exact Sk]. f_equal. rewrite app_length. simpl. lia.
Qed.

Lemma holds_refl s rest : nul_free s -> holds (s ++ NUL :: rest) s.
Proof. split; [assumption|eauto]. Qed.

Lemma remove_short b s v first l : holds b s -> nul_free v -> (length s <= length v)%nat -> pieces [v] s l ->
  exists b' t, stream_remove b (cs v) first = Ok b' /\ holds b' t /\ rest_kept b b' s /\
    t = concat l /\ exists x m, l = x :: m /\ t = x ++ joined v m.
Proof.
  intros [Hs [rest ->]] Hv L P. unfold stream_remove.
  rewrite strlen_ok, strlen_cs by assumption. cbn [bind].
  destruct (Z.eqb_spec (Z.of_nat (length s)) (Z.of_nat (length v))) as [E|E].
  - unfold cs. rewrite cmp_ok by assumption. cbn [bind].
    destruct (bytes_eqb s v) eqn:B.
    + apply bytes_eqb_eq in B. subst v.
      destruct (wr_end [] s rest nul_free_nil) as (b' & W & Hb & Lb & Sk). simpl in W. change (Z.of_nat 0) with 0 in W.
      exists b', []. split; [exact W|]. split; [exact Hb|]. split; [split; [exact Lb|rewrite skipn_hold; exact Sk]|].
      assert (El : l = [[]] \/ l = [[]; []]).
      { destruct s as [|c s]; [left; inversion P; subst; [reflexivity|discriminate]|].
        right. inversion P; subst.
        - pose proof (cut_at_Some _ _ _ _ H) as ([<-|[]] & _ & Es).
          assert (r = []) by (apply (f_equal (@length ascii)) in Es; rewrite app_length in Es; destruct r; [reflexivity|simpl in Es; lia]).
          subst r. inversion H0; subst; [reflexivity|]. rewrite cut_nil in H1; discriminate.
        - exfalso. rewrite cut_single in H1. pose proof (after_app (c :: s) []) as A. rewrite app_nil_r in A.
          rewrite A in H1. discriminate. }
      destruct El as [->| ->]; (split; [reflexivity|]); eexists _, _; split; reflexivity.
    + apply bytes_eqb_neq in B. assert (l = [s]) by (apply (pieces_same_len v); [lia|assumption|assumption]). subst l.
      exists (s ++ NUL :: rest), s. split; [reflexivity|]. split; [apply holds_refl; assumption|].
      split; [split; reflexivity|]. simpl. rewrite app_nil_r. split; [reflexivity|].
      exists s, []. simpl. rewrite app_nil_r. auto.
  - destruct (Z.ltb_spec (Z.of_nat (length s)) (Z.of_nat (length v))); [|lia].
    assert (l = [s]) by (apply (pieces_short v); [lia|assumption]). subst l.
    exists (s ++ NUL :: rest), s. split; [reflexivity|]. split; [apply holds_refl; assumption|].
    split; [split; reflexivity|]. simpl. rewrite app_nil_r. split; [reflexivity|].
    exists s, []. simpl. rewrite app_nil_r. auto.
Qed.

Lemma remove_first_ok b s v l x m : holds b s -> nul_free v -> pieces [v] s l -> l = x :: m ->
  exists b', stream_remove b (cs v) true = Ok b' /\ holds b' (x ++ joined v m) /\ rest_kept b b' s.
Proof.
  intros Hb Hv P El. destruct (Nat.le_gt_cases (length s) (length v)) as [L|L].
  - destruct (remove_short b s v true l Hb Hv L P) as (b' & t & W & H & R & _ & x' & m' & E1 & E2).
    exists b'. split; [exact W|]. rewrite E1 in El. inversion El; subst. auto.
  - destruct Hb as [Hs [rest ->]]. unfold stream_remove. rewrite strlen_ok, strlen_cs by assumption. cbn [bind].
    destruct (Z.eqb_spec (Z.of_nat (length s)) (Z.of_nat (length v))); [lia|].
    destruct (Z.ltb_spec (Z.of_nat (length s)) (Z.of_nat (length v))); [lia|].
    destruct (remove_first_loop v Hv s l P [] rest (S (S (Z.to_nat (Z.of_nat (length s)))))) as (b' & x' & m' & E & W & Hh & Lb & Sk);
      [exact Hs|lia|].
    exists b'. rewrite E in El. injection El as -> ->. split; [exact W|]. split; [exact Hh|].
    split; [exact Lb|]. rewrite skipn_hold. exact Sk.
Qed.
Lemma remove_all_ok b s v l : holds b s -> nul_free v -> no_straddle v s -> pieces [v] s l ->
  exists b', stream_remove b (cs v) false = Ok b' /\ holds b' (concat l) /\ rest_kept b b' s.
Proof.
  intros Hb Hv Hn P. destruct (Nat.le_gt_cases (length s) (length v)) as [L|L].
  - destruct (remove_short b s v false l Hb Hv L P) as (b' & t & W & H & R & -> & _). eauto.
  - destruct Hb as [Hs [rest ->]]. unfold stream_remove. rewrite strlen_ok, strlen_cs by assumption. cbn [bind].
    destruct (Z.eqb_spec (Z.of_nat (length s)) (Z.of_nat (length v))); [lia|].
    destruct (Z.ltb_spec (Z.of_nat (length s)) (Z.of_nat (length v))); [lia|].
    destruct (remove_all_loop v Hv s l P [] [] rest (S (S (Z.to_nat (Z.of_nat (length s)))))) as (b' & W & Hh & Lb & Sk);
      [exact Hn|rewrite app_nil_r; exact Hs|lia|].
    exists b'. split; [exact W|]. split; [exact Hh|]. split; [exact Lb|]. rewrite skipn_hold.
    etransitivity; [|exact Sk]. f_equal. simpl. lia.
Qed.
