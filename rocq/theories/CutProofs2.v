(** Documents that are cut off: elements, content and the prolog. *)
From Coq Require Import Permutation.
From Verif Require Import Prelude StrModel StrSpec StrProofs EscProofs StrProofs2 StrProofs3 AttrModel AttrSpec AttrProofs
  TreeModel StreamModel StreamProofs ParseModel ParseProofs ParseProofs2 XmlSpec GramProofs GramProofs2 GramProofs3 CutSpec CutProofs.
Open Scope Z_scope.
Open Scope list_scope.
Local Arguments Z.of_nat : simpl never.
Local Arguments Z.eqb : simpl never.

(** ** the parts of a text without [>] *)
Lemma blank_low w : blank w -> low w.
Proof.
  unfold blank, low, has. induction w as [|c w IH]; cbn [forallb existsb]; [reflexivity|]. intros H. apply andb_true_iff in H. destruct H as [H1 H2].
  rewrite (IH H2), orb_false_r. destruct (Ascii.eqb_spec ">" c) as [<-|]; [discriminate|reflexivity].
Qed.
Lemma name_low n : is_name n -> low n.
Proof. intros [_ H]. apply name_has; [reflexivity|exact H]. Qed.
Lemma quote_low q : quote q -> low [q].
Proof. intros [->| ->]; reflexivity. Qed.
Lemma attrs_text_low t ats : attrs_text t ats -> Forall (fun p => forall v, snd p = Some v -> has ">" v = false) ats -> low t.
Proof.
  induction 1 as [|w k q v t l Hw Nw Hk _ Hq Hv Hh _ IH _]; intros F; [reflexivity|]. apply Forall_cons_iff in F. destruct F as [F1 F2].
  rewrite !low_app. repeat split; try (apply blank_low; assumption); try (apply name_low; assumption); try (apply quote_low; assumption); [apply (F1 v eq_refl)|apply IH, F2].
Qed.
Lemma low_cut s c p z : low s -> s ++ [c] = p ++ z -> z <> [] -> low p.
Proof.
  intros L E Nz. destruct (exists_last Nz) as (z' & y & ->). rewrite app_assoc in E. apply app_inj_tail in E. destruct E as [-> _]. apply low_app in L. tauto.
Qed.
Lemma pi_cases s n c : pi_text s n c -> s = s2b "<?" ++ n ++ s2b "?>" /\ is_target n \/
  exists w k, c = Some k /\ s = s2b "<?" ++ n ++ [w] ++ k ++ s2b "?>" /\ is_target n /\ white w = true /\ is_pi_content k.
Proof. destruct 1; [left|right]; eauto 10. Qed.

(** a processing instruction that is cut *)
Lemma comments_pi_cut x n c p z d : p_header d = true -> pi_text x n c -> x = p ++ z -> z <> [] -> low p \/ a_comments p d = None.
Proof.
  intros Hh Hp E Nz. destruct (pi_cases _ _ _ Hp) as [[-> Ht]|(w & k & _ & -> & Ht & Hw & Ho)].
  - left. rewrite app_assoc in E. change (s2b "?>") with (["?"%char] ++ [">"%char]) in E. rewrite app_assoc in E. refine (low_cut _ _ _ _ _ E Nz). rewrite !low_app; repeat split; apply name_low, Ht.
  - assert (E' : (s2b "<?" ++ n ++ [w]) ++ k ++ s2b "?>" = p ++ z) by (rewrite <- E, <- !app_assoc; reflexivity).
    destruct (cut_two _ _ _ _ E') as [(p2 & -> & E2)|(a2 & Ea & _)].
    + right. rewrite a_comments_eq. rewrite <- !app_assoc. change (skip (s2b "<?" ++ n ++ [w] ++ p2)) with (s2b "<?" ++ n ++ [w] ++ p2).
      unfold a_comment. change (after (s2b "<!--") (s2b "<?" ++ n ++ [w] ++ p2)) with (@None bytes). cbv iota. rewrite Hh.
      change (skip (s2b "<?" ++ n ++ [w] ++ p2)) with (s2b "<?" ++ n ++ [w] ++ p2). rewrite after_app. unfold a_pi. rewrite after_app.
      destruct Ht as [[Hne Hch] Hx]. rewrite (until_target n w p2 Hch Hw). rewrite (cstr_id n) by (apply name_nul, Hch).
      rewrite target_not_xml by (split; [split|]; assumption). change ((2 =? 0) || (2 =? 1)) with false. change (2 =? 2) with true. cbv iota.
      destruct Ho as (_ & Ho & _). rewrite (pi_cut k p2 z Ho E2 Nz). reflexivity.
    + left. assert (L : low (s2b "<?" ++ n ++ [w])).
      { rewrite !low_app. split; [reflexivity|]. split; [apply name_low, Ht|]. apply blank_low. unfold blank. cbn [forallb]. rewrite Hw. reflexivity. }
      rewrite Ea in L. apply low_app in L. tauto.
Qed.
(** a comment that is cut *)
Lemma comments_comment_cut s p z d : is_comment s -> str "<!--" ++ s ++ str "-->" = p ++ z -> z <> [] -> low p \/ a_comments p d = None.
Proof.
  intros Hc E Nz. destruct (cut_two _ _ _ _ E) as [(p2 & -> & E2)|(a2 & Ea & _)].
  - right. rewrite a_comments_eq. change (skip (str "<!--" ++ p2)) with (str "<!--" ++ p2). unfold a_comment, str. rewrite after_app.
    rewrite (until_cut (s2b "-->") s [] p2 z eq_refl (until_comment s [] Hc) E2 Nz). reflexivity.
  - left. assert (L : low (str "<!--")) by reflexivity. rewrite Ea in L. apply low_app in L. tauto.
Qed.
Lemma low_comments_none p d : fine d -> low p \/ a_comments p d = None -> a_comments p d = None \/ a_comments p d = Some (skip p, d).
Proof. intros _ [L|H]; [|left; exact H]. destruct (comments_low p d L) as [H|(H & _)]; auto. Qed.

(** ** entering an element *)
Lemma enter_elem p w c0 z d : gap p w -> fine d -> name_char c0 = true ->
  enter p (w ++ "<"%char :: c0 :: z) d = match a_open (c0 :: z) d with None => None | Some (s, d, _) => A s d end.
Proof.
  intros G Hd Hc0.
  assert (Nq : forall q, name_char q = false -> q <> c0) by (intros q Hq ->; congruence).
  rewrite (enter_markup p w c0 z d G Hd); [|intros ->; discriminate|apply (after_ne "!"), Nq; reflexivity].
  rewrite A_eq by (try assumption; discriminate).
  change (skip ("<"%char :: c0 :: z)) with ("<"%char :: c0 :: z).
  assert (F6 : starts (s2b "<?") ("<"%char :: c0 :: z) = false).
  { unfold starts. change (after (s2b "<?") ("<"%char :: c0 :: z)) with (after ["?"%char] (c0 :: z)). rewrite after_ne by (apply Nq; reflexivity). reflexivity. }
  assert (F3 : starts (s2b "<!--") ("<"%char :: c0 :: z) = false).
  { unfold starts. change (after (s2b "<!--") ("<"%char :: c0 :: z)) with (after ("!"%char :: s2b "--") (c0 :: z)). rewrite after_ne by (apply Nq; reflexivity). reflexivity. }
  assert (F4 : after (s2b "</") ("<"%char :: c0 :: z) = None).
  { change (after (s2b "</") ("<"%char :: c0 :: z)) with (after ["/"%char] (c0 :: z)). apply after_ne, Nq. reflexivity. }
  assert (F5 : after (s2b "<![CDATA[") ("<"%char :: c0 :: z) = None).
  { change (after (s2b "<![CDATA[") ("<"%char :: c0 :: z)) with (after ("!"%char :: s2b "[CDATA[") (c0 :: z)). apply after_ne, Nq. reflexivity. }
  rewrite F6, F3, F4, F5. cbn [orb]. change (after (s2b "<") ("<"%char :: c0 :: z)) with (Some (c0 :: z)). cbv iota.
  assert (Sk : skip (c0 :: z) = c0 :: z) by (apply skip_here, name_white, Hc0).
  rewrite a_node_eq, a_comments_plain.
  + rewrite Sk. replace (after (s2b "<") (c0 :: z)) with (@None bytes) by (symmetry; apply after_ne, Nq; reflexivity). reflexivity.
  + unfold plain. rewrite Sk. split; [apply (after_ne "<" (s2b "!--"))|apply (after_ne "<" (s2b "?"))]; apply Nq; reflexivity.
Qed.

(** ** elements and content *)
Definition elem_cut (e : bytes) (x : xnode) : Prop :=
  tame x -> forall p z, e = ("<"%char :: p) ++ z -> z <> [] -> forall d, fine d ->
  unfinished (match a_open p d with None => None | Some (s, d, _) => A s d end) /\
  unfinished (match a_open p d with None => None | Some (s, d, true) => Some (s, d) | Some (s, d, false) => A s d end).
Definition content_cut (ph : phase) (t : bytes) (l : list xitem) : Prop :=
  tame_items l -> forall p z, t ++ ["<"%char] = p ++ z -> forall d n r, fine d -> p_stack d = n :: r -> unfinished (enter ph p d).

Lemma after_text_head t l p z : content_text AfterText t l -> t ++ ["<"%char] = p ++ z -> p = [] \/ exists p', p = "<"%char :: p'.
Proof.
  intros T E. destruct p as [|c p]; [left; reflexivity|right]. exists p. f_equal. destruct (after_text_start _ _ [] T) as [y Ey].
  destruct t as [|c' t]; cbn in E, Ey; injection E as <- E; [reflexivity|]. injection Ey as -> _. reflexivity.
Qed.
Lemma tame_inv name ats l : tame (XNode name ats l) -> Forall (fun p => forall v, snd p = Some v -> has ">" v = false) ats /\ tame_items l.
Proof. inversion 1; subst; auto. Qed.
Lemma tame_tail i l : tame_items (i :: l) -> tame_items l.
Proof. inversion 1; subst; assumption. Qed.
Lemma tame_head x l : tame_items (XElem x :: l) -> tame x.
Proof. inversion 1 as [|? ? H1 H2|i ? H1 H2]; subst; [exact H1|]. exfalso. exact (H1 x eq_refl). Qed.

Lemma cuts : (forall e x, elem_text e x -> elem_cut e x) /\ (forall ph t l, content_text ph t l -> content_cut ph t l).
Proof.
  apply texts_both.
  - (* empty element *)
    intros name t ats w Hn T Hw Ta p z E Nz d Hd. apply tame_inv in Ta. destruct Ta as [Ta _].
    assert (L : low p).
    { assert (E0 : (name ++ t ++ w ++ ["/"%char]) ++ [">"%char] = p ++ z) by (cbn in E; injection E as E; rewrite <- E, <- !app_assoc; reflexivity).
      refine (low_cut _ _ _ _ _ E0 Nz). rewrite !low_app; repeat split; [apply name_low, Hn|apply (attrs_text_low _ _ T Ta)|apply blank_low, Hw]. }
    rewrite (open_low p d L). split; left; reflexivity.
  - (* element with content *)
    intros name t ats w c items w' Hn T Hw Ct IH Hw' Lw Ta p z E Nz d Hd. apply tame_inv in Ta. destruct Ta as [Ta Tc].
    cbn in E. injection E as E.
    assert (E1 : ((name ++ t ++ w) ++ [">"%char]) ++ c ++ str "</" ++ name ++ w' ++ str ">" = p ++ z) by (rewrite <- E, <- !app_assoc; reflexivity).
    assert (L : low (name ++ t ++ w)) by (rewrite !low_app; repeat split; [apply name_low, Hn|apply (attrs_text_low _ _ T Ta)|apply blank_low, Hw]).
    destruct (cut_two _ _ _ _ E1) as [(p2 & -> & E2)|(a2 & Ea & Na & _)].
    2: { pose proof (low_cut _ _ _ _ L Ea Na) as Lp. rewrite (open_low p d Lp). split; left; reflexivity. }
    destruct (tag_ok name t ats w (s2b ">") false p2 d Hn T Hw ltac:(right; auto) Hd) as (d1 & a & m & Eo & _ & _ & F & _ & St).
    rewrite <- !app_assoc. unfold a_open. change ([">"%char] ++ p2) with (s2b ">" ++ p2). rewrite Eo.
    set (d2 := with_stack d1 (Node name a [] :: p_stack d1)). assert (F2 : fine d2) by exact F.
    assert (U : unfinished (A p2 d2)).
    { assert (E3 : (c ++ ["<"%char]) ++ (("/"%char :: name ++ w') ++ [">"%char]) = p2 ++ z) by (rewrite <- E2, <- !app_assoc; cbn [app]; rewrite <- !app_assoc; reflexivity).
      destruct (cut_two _ _ _ _ E3) as [(p3 & -> & E4)|(a2 & Ea & _)].
      - destruct p3 as [|c3 p3].
        + apply (IH Tc (c ++ ["<"%char]) [] ltac:(rewrite app_nil_r; reflexivity) d2 _ _ F2 eq_refl) || (rewrite app_nil_r; exact (IH Tc (c ++ ["<"%char]) [] ltac:(rewrite app_nil_r; reflexivity) d2 _ _ F2 eq_refl)).
        + cbn [app] in E4. injection E4 as <- E4.
          destruct texts_ok as [_ TC]. destruct (TC _ _ _ Ct p3 d2 (Node name a []) (p_stack d1) F2 eq_refl) as (d3 & its & _ & F3 & _ & St3 & E5). cbn [enter] in E5.
          rewrite <- app_assoc. change (["<"%char] ++ "/"%char :: p3) with (s2b "</" ++ p3). rewrite E5. eapply A_low'; [exact F3| |exact St3].
          apply low_app. split; [reflexivity|]. refine (low_cut _ _ _ _ _ E4 Nz). apply low_app; split; [apply name_low, Hn|apply blank_low, Hw'].
      - exact (IH Tc p2 a2 Ea d2 _ _ F2 eq_refl). }
    split; exact U.
  - (* end of the content *)
    intros ph w G _ p z E d n r Hd Es. eapply enter_low; [exact Hd| |exact Es].
    assert (L : low (w ++ ["<"%char])) by (apply low_app; split; [apply blank_low, G|reflexivity]). rewrite E in L. apply low_app in L. tauto.
  - (* element *)
    intros ph w e x t l G He IHe Ct IHt Ta p z E d n r Hd Es. rewrite <- !app_assoc in E.
    destruct (cut_two _ _ _ _ E) as [(p1 & -> & E1)|(a2 & Ea & _)].
    2: { eapply enter_low; [exact Hd| |exact Es]. pose proof (blank_low _ (proj1 G)) as L. rewrite Ea in L. apply low_app in L. tauto. }
    destruct (elem_text_start _ _ He) as (c0 & z0 & Ee & Hc0).
    destruct (cut_two _ _ _ _ E1) as [(p2 & -> & E2)|(a2 & Ea & Na & _)].
    + destruct texts_ok as [TE _]. destruct (TE _ _ He) as (e' & Ee' & H). rewrite Ee in Ee'. injection Ee' as <-.
      rewrite Ee. cbn [app]. rewrite (enter_elem ph w c0 (z0 ++ p2) d G Hd Hc0).
      destruct (H p2 d Hd) as [H1 _]. destruct (H1 n r Es) as (d1 & n1 & _ & F1 & _ & St1 & E3). cbn [app] in E3. rewrite E3.
      exact (IHt (tame_tail _ _ Ta) p2 z E2 d1 _ _ F1 St1).
    + rewrite Ea in Ee. destruct p1 as [|c1 [|c2 p1]].
      * rewrite app_nil_r. eapply enter_low; [exact Hd|apply blank_low, G|exact Es].
      * eapply enter_low; [exact Hd| |exact Es]. cbn in Ee. injection Ee as -> _. apply low_app. split; [apply blank_low, G|reflexivity].
      * cbn in Ee. injection Ee as -> -> Ee. rewrite (enter_elem ph w c0 p1 d G Hd Hc0).
        exact (proj1 (IHe (tame_head _ _ Ta) (c0 :: p1) a2 Ea Na d Hd)).
  - (* text *)
    intros x t l Hn Hb Hl T IH Ta p z E d n r Hd Es. cbn [enter]. rewrite <- app_assoc in E.
    assert (In : forall q y, x = q ++ y -> unfinished (A q d)).
    { intros q y Eq. destruct q as [|c q]; [right; exists d; split; [reflexivity|rewrite Es; discriminate]|]. left. apply A_no_lt; [exact Hd| |discriminate].
      rewrite Eq, has_app in Hl. apply orb_false_iff in Hl. tauto. }
    destruct (cut_two _ _ _ _ E) as [(p1 & -> & E1)|(a2 & Ea & _)]; [|eapply In, Ea].
    destruct (after_text_head _ _ _ _ T E1) as [->|[p' ->]]; [apply (In (x ++ []) []); rewrite !app_nil_r; reflexivity|].
    rewrite A_text by assumption. exact (IH (tame_tail _ _ Ta) _ z E1 _ _ _ (fine_item _ _ Hd) (stack_item _ _ _ _ Es)).
  - (* text after a comment *)
    intros w x t l Hw Hn Hx Hh Hl T IH Ta p z E d n r Hd Es. cbn [enter]. rewrite <- !app_assoc in E.
    destruct (cut_two _ _ _ _ E) as [(p1 & -> & E1)|(a2 & Ea & _)].
    2: { pose proof (blank_low _ Hw) as L. rewrite Ea in L. apply low_app in L. exact (enter_low AfterMisc p d n r Hd (proj1 L) Es). }
    unfold B. rewrite a_comments_blank by assumption.
    assert (Pl : forall c q, white c = false -> c <> "<"%char -> a_comments (c :: q) d = Some (c :: q, d)).
    { intros c q W Nc. assert (Sk : skip (c :: q) = c :: q) by (apply skip_here, W). rewrite a_comments_plain.
      - rewrite Sk. reflexivity.
      - unfold plain. rewrite Sk. split; [apply (after_ne "<" (s2b "!--"))|apply (after_ne "<" (s2b "?"))]; congruence. }
    destruct x as [|c x]; [contradiction|]. cbn [hd] in Hh. pose proof (has_in "<" [] c x Hl) as Nc.
    destruct (cut_two _ _ _ _ E1) as [(p2 & -> & E2)|(a2 & Ea & _)].
    + cbn [app]. rewrite Pl by assumption.
      destruct (after_text_head _ _ _ _ T E2) as [->|[p' ->]].
      * left. apply A_no_lt; [exact Hd|rewrite app_nil_r; exact Hl|discriminate].
      * change (c :: x ++ "<"%char :: p') with ((c :: x) ++ "<"%char :: p'). rewrite A_text; [|exact Hd|exact Hn| |exact Hl].
        -- exact (IH (tame_tail _ _ Ta) _ z E2 _ _ _ (fine_item _ _ Hd) (stack_item _ _ _ _ Es)).
        -- unfold blank. cbn [forallb]. rewrite Hh. discriminate.
    + destruct p1 as [|c1 p1].
      * rewrite a_comments_plain by (split; reflexivity). right. exists d. split; [reflexivity|rewrite Es; discriminate].
      * cbn in Ea. injection Ea as <- Ea. rewrite Pl by assumption. left. apply A_no_lt; [exact Hd| |discriminate].
        rewrite Ea in Hl. change (c :: p1 ++ a2) with ((c :: p1) ++ a2) in Hl. rewrite has_app in Hl. apply orb_false_iff in Hl. tauto.
  - (* CDATA *)
    intros ph w x t l G Hn Ho Ct IH Ta p z E d n r Hd Es.
    assert (E0 : (w ++ str "<![CDATA[") ++ (x ++ str "]]>") ++ t ++ ["<"%char] = p ++ z) by (rewrite <- E, <- !app_assoc; reflexivity).
    assert (En : forall q, enter ph ((w ++ str "<![CDATA[") ++ q) d = match until [s2b "]]>"] q with None => None | Some (t, _, _, s) => A s (add_item d (ICdata (cstr t))) end).
    { intros q. rewrite <- app_assoc. change (str "<![CDATA[" ++ q) with ("<"%char :: "!"%char :: s2b "[CDATA[" ++ q).
      rewrite (enter_markup ph w "!" _ d G Hd); [|discriminate|reflexivity]. rewrite A_eq by (try assumption; discriminate).
      change ("<"%char :: "!"%char :: s2b "[CDATA[" ++ q) with (s2b "<![CDATA[" ++ q).
      change (skip (s2b "<![CDATA[" ++ q)) with (s2b "<![CDATA[" ++ q).
      change (starts (s2b "<?") (s2b "<![CDATA[" ++ q)) with false. change (starts (s2b "<!--") (s2b "<![CDATA[" ++ q)) with false.
      change (after (s2b "</") (s2b "<![CDATA[" ++ q)) with (@None bytes). cbn [orb]. rewrite after_app. reflexivity. }
    destruct (cut_two _ _ _ _ E0) as [(p1 & -> & E1)|(a2 & Ea & _)].
    2: { eapply enter_low; [exact Hd| |exact Es]. assert (L : low (w ++ str "<![CDATA[")) by (apply low_app; split; [apply blank_low, G|reflexivity]). rewrite Ea in L. apply low_app in L. tauto. }
    rewrite En. destruct (cut_two _ _ _ _ E1) as [(p2 & -> & E2)|(a2 & Ea & Na & _)].
    + rewrite <- app_assoc. unfold str. rewrite until_cdata by assumption. rewrite (cstr_id x) by assumption.
      exact (IH (tame_tail _ _ Ta) _ z E2 _ _ _ (fine_item _ _ Hd) (stack_item _ _ _ _ Es)).
    + left. rewrite (until_cut (s2b "]]>") x [] p1 a2 eq_refl (until_cdata x [] Ho) Ea Na). reflexivity.
  - (* comment *)
    intros ph w x t l G Hc Ct IH Ta p z E d n r Hd Es.
    assert (E0 : w ++ (str "<!--" ++ x ++ str "-->") ++ t ++ ["<"%char] = p ++ z) by (rewrite <- E, <- !app_assoc; reflexivity).
    destruct (cut_two _ _ _ _ E0) as [(p1 & -> & E1)|(a2 & Ea & _)].
    2: { eapply enter_low; [exact Hd| |exact Es]. pose proof (blank_low _ (proj1 G)) as L. rewrite Ea in L. apply low_app in L. tauto. }
    destruct (cut_two _ _ _ _ E1) as [(p2 & -> & E2)|(a2 & Ea & Na & _)].
    + rewrite <- !app_assoc. rewrite enter_misc; [|assumption|assumption|reflexivity]. unfold B, str. rewrite a_comments_comment by assumption.
      exact (IH (tame_tail _ _ Ta) _ z E2 _ _ _ (fine_item _ _ Hd) (stack_item _ _ _ _ Es)).
    + destruct (comments_comment_cut x p1 a2 d Hc Ea Na) as [L|Cn].
      * eapply enter_low; [exact Hd|apply low_app; split; [apply blank_low, G|exact L]|exact Es].
      * destruct (cut_two (str "<!--") (x ++ str "-->") p1 a2 Ea) as [(p2 & -> & E2)|(a3 & Eb & _)].
        -- rewrite enter_misc; [|assumption|assumption|reflexivity]. unfold B. rewrite Cn. left. reflexivity.
        -- eapply enter_low; [exact Hd| |exact Es]. apply low_app. split; [apply blank_low, G|]. assert (L : low (str "<!--")) by reflexivity. rewrite Eb in L. apply low_app in L. tauto.
  - (* processing instruction *)
    intros ph w x nm c t l G Hp Ct IH Ta p z E d n r Hd Es. pose proof Hd as [Hh _]. rewrite <- !app_assoc in E.
    destruct (cut_two _ _ _ _ E) as [(p1 & -> & E1)|(a2 & Ea & _)].
    2: { eapply enter_low; [exact Hd| |exact Es]. pose proof (blank_low _ (proj1 G)) as L. rewrite Ea in L. apply low_app in L. tauto. }
    destruct (pi_text_start _ _ _ Hp) as (y & Ey).
    destruct (cut_two _ _ _ _ E1) as [(p2 & -> & E2)|(a2 & Ea & Na & _)].
    + rewrite enter_misc; [|assumption|assumption|rewrite Ey; reflexivity]. unfold B. rewrite (a_comments_pi x nm c _ d Hh Hp), (add_pi_item d (Pi nm c) n r Es).
      exact (IH (tame_tail _ _ Ta) _ z E2 _ _ _ (fine_item _ _ Hd) (stack_item _ _ _ _ Es)).
    + destruct (comments_pi_cut x nm c p1 a2 d Hh Hp Ea Na) as [L|Cn].
      * eapply enter_low; [exact Hd|apply low_app; split; [apply blank_low, G|exact L]|exact Es].
      * rewrite Ea in Ey. destruct (cut_two _ _ _ _ (eq_sym Ey)) as [(p2 & -> & E2)|(a3 & Eb & _)].
        -- rewrite enter_misc; [|assumption|assumption|reflexivity]. unfold B. rewrite Cn. left. reflexivity.
        -- eapply enter_low; [exact Hd| |exact Es]. apply low_app. split; [apply blank_low, G|]. assert (L : low (s2b "<?")) by reflexivity. rewrite Eb in L. apply low_app in L. tauto.
Qed.
