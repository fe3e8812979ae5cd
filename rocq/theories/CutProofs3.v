(** Documents that are cut off: whole documents. *)
From Verif Require Import Prelude StrModel StrSpec StrProofs EscProofs StrProofs2 StrProofs3 AttrModel AttrSpec AttrProofs
  TreeModel StreamModel StreamProofs ParseModel ParseProofs ParseProofs2 XmlSpec GramProofs GramProofs2 GramProofs3 CutSpec CutProofs CutProofs2.
Open Scope Z_scope.
Open Scope list_scope.
Local Arguments Z.of_nat : simpl never.
Local Arguments Z.eqb : simpl never.

(** everything after the declaration *)
Definition tail (s : bytes) (d : pdoc) : option doc :=
  match a_doctype s d with
  | None => None
  | Some (s, d) => match a_body s d with None => None | Some (_, d) => a_done d end
  end.
Definition head (s : bytes) (d : pdoc) : res (option (bytes * pdoc)) :=
  if insp s (s2b "<?") =? 0 then Ok (Some (s, d)) else a_decl (rest_of s (s2b "<?")) d.
Lemma parse_head content : doc_parse content =
  (x <- head (rest_of content BOM) pdoc_new ;; match x with None => Ok None | Some (s, d) => Ok (tail s d) end).
Proof.
  rewrite parse_ok. unfold a_parse, a_header, head, tail. cbv zeta.
  match goal with |- context [bind (if ?c then ?a else ?b) _] => set (X := if c then a else b) end.
  destruct X as [[[s d]|]| |]; cbn [bind]; try reflexivity. destruct (a_doctype s d) as [[s2 d2]|]; reflexivity.
Qed.

Lemma unfinished_done r : unfinished r -> match r with None => None | Some (_, d) => a_done d end = None.
Proof. intros [->|(d & -> & N)]; [reflexivity|]. unfold a_done. destruct (p_stack d); [contradiction|reflexivity]. Qed.
Lemma body_low s d : low s -> a_body s d = None.
Proof. intros L. unfold a_body. rewrite node_low by exact L. reflexivity. Qed.
Lemma tail_low s d : low s -> tail s d = None.
Proof.
  intros L. unfold tail, a_doctype. destruct (after (s2b "<!DOCTYPE") s) as [s1|] eqn:A1; [|rewrite body_low by exact L; reflexivity].
  pose proof (low_after _ _ _ L A1) as L1. rewrite until_gt by (assumption || reflexivity).
  destruct (comments_low s1 d L1) as [->|(-> & _)]; [reflexivity|]. rewrite body_low by (apply low_skip, L1). reflexivity.
Qed.

(** the text before the root, cut *)
Definition idle (d : pdoc) : Prop := p_stack d = [] /\ p_preserve d = [].
Lemma misc_cut b m l : misc_text b m l -> forall p z d, m = p ++ z -> p_stack d = [] -> (b = true -> p_header d = true) ->
  a_comments p d = None \/ exists s d', a_comments p d = Some (s, d') /\ low s.
Proof.
  assert (Low : forall p d, low p -> a_comments p d = None \/ exists s d', a_comments p d = Some (s, d') /\ low s).
  { intros p d L. destruct (comments_low p d L) as [H|(H & _)]; [auto|]. right. exists (skip p), d. split; [exact H|apply low_skip, L]. }
  assert (Wh : forall w p a2 d, blank w -> w = p ++ a2 -> a_comments p d = None \/ exists s d', a_comments p d = Some (s, d') /\ low s).
  { intros w p a2 d Hw E. apply Low. pose proof (blank_low _ Hw) as L. rewrite E in L. apply low_app in L. tauto. }
  induction 1 as [w Hw|w c t l Hw Hc M IH|w x n c t l Hb Hw Hp M IH]; intros p z d E Es Hh.
  - eapply Wh; eassumption.
  - assert (E0 : w ++ (str "<!--" ++ c ++ str "-->") ++ t = p ++ z) by (rewrite <- E, <- !app_assoc; reflexivity).
    destruct (cut_two _ _ _ _ E0) as [(p1 & -> & E1)|(a2 & Ea & _)]; [|eapply Wh; eassumption]. rewrite a_comments_blank by assumption.
    destruct (cut_two _ _ _ _ E1) as [(p2 & -> & E2)|(a2 & Ea & Na & _)].
    + rewrite <- !app_assoc. unfold str. rewrite a_comments_comment, add_item_none by assumption. eapply IH; eassumption.
    + destruct (comments_comment_cut c p1 a2 d Hc Ea Na) as [L|H]; [apply Low, L|auto].
  - destruct (cut_two _ _ _ _ E) as [(p1 & -> & E1)|(a2 & Ea & _)]; [|eapply Wh; eassumption]. rewrite a_comments_blank by assumption.
    destruct (cut_two _ _ _ _ E1) as [(p2 & -> & E2)|(a2 & Ea & Na & _)].
    + rewrite (a_comments_pi x n c _ d (Hh Hb) Hp), add_pi_none by assumption. eapply IH; [exact E2|exact Es|exact Hh].
    + destruct (comments_pi_cut x n c p1 a2 d (Hh Hb) Hp Ea Na) as [L|H]; [apply Low, L|auto].
Qed.
Definition dead (s : bytes) : Prop := low s \/ exists m l z, misc_text true m l /\ m = s ++ z.
Lemma dead_body s d : dead s -> p_stack d = [] -> a_body s d = None.
Proof.
  intros [L|(m & l & z & M & E)] Es; [apply body_low, L|]. unfold a_body. rewrite a_node_eq.
  destruct (misc_cut true m l M s z (with_header d) E Es ltac:(reflexivity)) as [->|(s' & d' & -> & L)]; [reflexivity|].
  destruct (after (s2b "<") s') eqn:A1; [rewrite open_low; [reflexivity|eapply low_after; eassumption]|]. destruct s'; [reflexivity|rewrite open_low by exact L; reflexivity].
Qed.
Lemma misc_head b m l : misc_text b m l -> m = [] \/ (exists c r, m = c :: r /\ white c = true) \/ (exists z, m = s2b "<!--" ++ z) \/ (exists z, m = s2b "<?" ++ z).
Proof.
  assert (Wh : forall w y, blank w -> w = [] \/ exists c r, w ++ y = c :: r /\ white c = true).
  { intros [|c w] y H; [auto|]. right. exists c, (w ++ y). split; [reflexivity|]. unfold blank in H. cbn [forallb] in H. apply andb_true_iff in H. tauto. }
  destruct 1 as [w Hw|w c t l Hw Hc M|w x n c t l Hb Hw Hp M].
  - destruct (Wh w [] Hw) as [H|(c & r & E & H)]; [auto|]. rewrite app_nil_r in E. right. left. eauto.
  - match goal with |- context [w ++ ?y] => destruct (Wh w y Hw) as [->|(k & r & E & H)] end; [right; right; left; eexists; reflexivity|]. rewrite E. right. left. eauto.
  - match goal with |- context [w ++ ?y] => destruct (Wh w y Hw) as [->|(k & r & E & H)] end; [|rewrite E; right; left; eauto].
    destruct (pi_text_start _ _ _ Hp) as [z ->]. right; right; right. exists (z ++ t). rewrite <- app_assoc. reflexivity.
Qed.
Lemma misc_no_doctype b m l s z : misc_text b m l -> m = s ++ z -> after (s2b "<!DOCTYPE") s = None.
Proof.
  intros M E. destruct (after (s2b "<!DOCTYPE") s) as [r|] eqn:A1; [exfalso|reflexivity]. apply after_Some in A1. subst s.
  destruct (misc_head _ _ _ M) as [H|[(c & y & H & W)|[(y & H)|(y & H)]]]; rewrite H in E; try discriminate. cbn in E. injection E as -> _. discriminate.
Qed.
Lemma misc_root_doctype b m l s : misc_text b m l -> after (s2b "<!DOCTYPE") s = None -> after (s2b "<!DOCTYPE") (m ++ s) = None.
Proof.
  intros M N. destruct (misc_head _ _ _ M) as [->|[(c & y & -> & W)|[(y & ->)|(y & ->)]]]; [exact N| |reflexivity|reflexivity].
  cbn [app]. apply after_ne. intros <-. discriminate.
Qed.
Lemma tail_dead s d : dead s -> p_stack d = [] -> tail s d = None.
Proof.
  intros D Es. pose proof D as [L|(m & l & z & M & E)]; [apply tail_low, L|]. unfold tail, a_doctype. rewrite (misc_no_doctype _ _ _ _ _ M E).
  rewrite dead_body by assumption. reflexivity.
Qed.
(** the same before the root is allowed *)
Lemma misc_cut2 m l : misc_text true m l -> forall p z d, m = p ++ z -> p_stack d = [] -> p_header d = false ->
  a_comments p d = None \/ exists s, a_comments p d = Some (s, d) /\ dead s.
Proof.
  assert (Low : forall p d, low p -> a_comments p d = None \/ exists s, a_comments p d = Some (s, d) /\ dead s).
  { intros p d L. destruct (comments_low p d L) as [H|(H & _)]; [auto|]. right. exists (skip p). split; [exact H|left; apply low_skip, L]. }
  assert (Wh : forall w p a2 d, blank w -> w = p ++ a2 -> a_comments p d = None \/ exists s, a_comments p d = Some (s, d) /\ dead s).
  { intros w p a2 d Hw E. apply Low. pose proof (blank_low _ Hw) as L. rewrite E in L. apply low_app in L. tauto. }
  induction 1 as [w Hw|w c t l Hw Hc M IH|w x n c t l Hb Hw Hp M IH]; intros p z d E Es Hh.
  - eapply Wh; eassumption.
  - assert (E0 : w ++ (str "<!--" ++ c ++ str "-->") ++ t = p ++ z) by (rewrite <- E, <- !app_assoc; reflexivity).
    destruct (cut_two _ _ _ _ E0) as [(p1 & -> & E1)|(a2 & Ea & _)]; [|eapply Wh; eassumption]. rewrite a_comments_blank by assumption.
    destruct (cut_two _ _ _ _ E1) as [(p2 & -> & E2)|(a2 & Ea & Na & _)].
    + rewrite <- !app_assoc. unfold str. rewrite a_comments_comment, add_item_none by assumption. eapply IH; eassumption.
    + destruct (comments_comment_cut c p1 a2 d Hc Ea Na) as [L|H]; [apply Low, L|auto].
  - destruct (cut_two _ _ _ _ E) as [(p1 & -> & E1)|(a2 & Ea & _)]; [|eapply Wh; eassumption]. rewrite a_comments_blank by assumption.
    destruct (pi_text_start _ _ _ Hp) as [y Ey].
    assert (Hd : low p1 \/ exists q, p1 = s2b "<?" ++ q).
    { rewrite Ey in E1. rewrite <- app_assoc in E1. destruct (cut_two _ _ _ _ E1) as [(q & -> & _)|(a3 & Eb & _)]; [right; eauto|].
      left. assert (L : low (s2b "<?")) by reflexivity. rewrite Eb in L. apply low_app in L. tauto. }
    destruct Hd as [L|(q & Eq)]; [apply Low, L|]. right. exists p1. split.
    + rewrite a_comments_eq. rewrite Eq. change (skip (s2b "<?" ++ q)) with (s2b "<?" ++ q).
      unfold a_comment. change (after (s2b "<!--") (s2b "<?" ++ q)) with (@None bytes). cbv iota. rewrite Hh. reflexivity.
    + right. exists (x ++ t), (Pi n c :: l), z. split; [apply (misc_pi true [] x n c t l); auto; constructor|exact E1].
Qed.
Lemma misc_part' m l s d : misc_text true m l -> plain s -> skip s = s -> p_stack d = [] -> p_header d = false ->
  exists m', a_comments (m ++ s) d = Some (m' ++ s, d) /\ misc_text true m' l.
Proof.
  intros M P Sk Ds Dh. induction M as [w Hw|w c t l Hw Hs M IH|w x n c t l _ Hw Hp M IH].
  - exists []. rewrite a_comments_blank by assumption. rewrite a_comments_plain by assumption. rewrite Sk. split; [reflexivity|constructor; reflexivity].
  - destruct IH as (m' & H1 & H2). exists m'. split; [|exact H2]. rewrite <- !app_assoc, a_comments_blank by assumption. unfold str.
    rewrite a_comments_comment by assumption. rewrite add_item_none by assumption. exact H1.
  - exists (x ++ t). split.
    + rewrite <- !app_assoc, a_comments_blank by assumption. destruct (pi_text_start _ _ _ Hp) as [z ->].
      rewrite <- !app_assoc. rewrite a_comments_eq. change (skip (s2b "<?" ++ z ++ t ++ s)) with (s2b "<?" ++ z ++ t ++ s).
      unfold a_comment. change (after (s2b "<!--") (s2b "<?" ++ z ++ t ++ s)) with (@None bytes). cbv iota. rewrite Dh. reflexivity.
    + apply (misc_pi true [] x n c t l); auto. constructor.
Qed.

(** ** the root, cut *)
Lemma root_start te x p z : elem_text te x -> te = p ++ z -> p <> [] -> plain p /\ skip p = p /\ after (s2b "<!DOCTYPE") p = None /\ exists p', p = "<"%char :: p'.
Proof.
  intros E Ep Np. destruct (elem_text_start _ _ E) as (c & y & -> & Hc). destruct p as [|c1 p]; [contradiction|]. cbn in Ep. injection Ep as <- Ep.
  assert (Sk : skip ("<"%char :: p) = "<"%char :: p) by reflexivity.
  assert (Nq : forall q r, name_char q = false -> after (q :: r) p = None).
  { intros q r Hq. destruct p as [|c2 p]; [reflexivity|]. cbn in Ep. injection Ep as -> _. apply after_ne. intros ->. congruence. }
  split; [|split; [exact Sk|split; [|eauto]]].
  - unfold plain. rewrite Sk. split; [apply (Nq "!"%char (s2b "--"))|apply (Nq "?"%char [])]; reflexivity.
  - apply (Nq "!"%char (s2b "DOCTYPE")). reflexivity.
Qed.
Lemma body_cut m l te x p z d : misc_text true m l -> elem_text te x -> tame x -> te = p ++ z -> z <> [] -> p <> [] -> idle d ->
  match a_body (m ++ p) d with None => None | Some (_, d) => a_done d end = None.
Proof.
  intros M E Ta Ep Nz Np [Es Epr]. destruct (root_start te x p z E Ep Np) as (P & Sk & _ & p' & ->). unfold a_body. rewrite a_node_eq.
  rewrite (misc_ok true m l M (with_header d)) by (cbn; auto). rewrite a_comments_plain by exact P. rewrite Sk.
  change (after (s2b "<") ("<"%char :: p')) with (Some p'). cbv iota.
  assert (F : fine (add_pis (with_header d) l)) by (split; [reflexivity|cbn; rewrite Epr; constructor]).
  destruct cuts as [C _]. destruct (C te x E Ta p' z Ep Nz _ F) as [_ U]. apply unfinished_done in U.
  destruct (a_open p' (add_pis (with_header d) l)) as [[[s1 d1] []]|]; exact U.
Qed.
Lemma tail_root m l te x p z d : misc_text true m l -> elem_text te x -> tame x -> te = p ++ z -> z <> [] -> p <> [] -> idle d -> tail (m ++ p) d = None.
Proof.
  intros M E Ta Ep Nz Np D. unfold tail, a_doctype. destruct (root_start te x p z E Ep Np) as (_ & _ & N & _). rewrite (misc_root_doctype _ _ _ _ M N).
  eapply body_cut; eassumption.
Qed.
(** after the declaration and its comments, or at the beginning *)
Lemma tail_cut tt m l te x p z d : doctype_text tt -> misc_text true m l -> elem_text te x -> tame x -> tt ++ m ++ te = p ++ z -> z <> [] -> idle d -> p_header d = false ->
  tail p d = None.
Proof.
  intros Ht M E Ta Ep Nz D Dh. pose proof D as [Es _].
  assert (MT : forall q, m ++ te = q ++ z -> (exists z', m = q ++ z') \/ exists q', q = m ++ q' /\ q' <> [] /\ te = q' ++ z).
  { intros q Eq. destruct (cut_two _ _ _ _ Eq) as [(q' & -> & E2)|(a2 & Ea & _)]; [|left; eauto]. destruct q' as [|c q']; [left; exists []; rewrite !app_nil_r; reflexivity|].
    right. exists (c :: q'). split; [reflexivity|]. split; [discriminate|exact E2]. }
  destruct Ht as [|t Ht].
  - cbn [app] in Ep. destruct (MT p Ep) as [(z' & Em)|(q' & -> & Nq & Et)].
    + apply tail_dead; [|exact Es]. right. exists m, l, z'. auto.
    + eapply tail_root; eassumption.
  - assert (E1 : ((str "<!DOCTYPE" ++ t) ++ [">"%char]) ++ m ++ te = p ++ z) by (rewrite <- Ep, <- !app_assoc; reflexivity).
    destruct (cut_two _ _ _ _ E1) as [(p1 & -> & E2)|(a2 & Ea & Na & _)].
    2: { apply tail_low. refine (low_cut _ _ _ _ _ Ea Na). apply low_app. split; [reflexivity|exact Ht]. }
    unfold tail, a_doctype. rewrite <- !app_assoc. unfold str. rewrite after_app. cbn [app]. rewrite (until_char ">" t) by (assumption || reflexivity). cbv iota.
    destruct (MT p1 E2) as [(z' & Em)|(q' & -> & Nq & Et)].
    + destruct (misc_cut2 m l M p1 z' d Em Es Dh) as [->|(s & -> & Ds)]; [reflexivity|]. rewrite dead_body by assumption. reflexivity.
    + destruct (root_start te x q' z E Et Nq) as (P & Sk & _). destruct (misc_part' m l q' d M P Sk Es Dh) as (m' & -> & M'). eapply body_cut; eassumption.
Qed.
(** the same where comments were skipped before *)
Lemma skipped_cut tt m l te x p z d : doctype_text tt -> misc_text true m l -> elem_text te x -> tame x -> tt ++ m ++ te = p ++ z -> z <> [] -> idle d -> p_header d = false ->
  match a_comments p d with None => None | Some (s, d) => tail s d end = None.
Proof.
  intros Ht M E Ta Ep Nz D Dh. pose proof D as [Es _]. destruct Ht as [|t Ht].
  - cbn [app] in Ep. destruct (cut_two _ _ _ _ Ep) as [(q' & -> & E2)|(a2 & Ea & _)].
    + destruct q' as [|c q'].
      * destruct (misc_cut2 m l M (m ++ []) [] d ltac:(rewrite !app_nil_r; reflexivity) Es Dh) as [->|(s & -> & Ds)]; [reflexivity|]. apply tail_dead; assumption.
      * destruct (root_start te x (c :: q') z E E2 ltac:(discriminate)) as (P & Sk & _). destruct (misc_part' m l (c :: q') d M P Sk Es Dh) as (m' & -> & M').
        eapply tail_root; try eassumption. discriminate.
    + destruct (misc_cut2 m l M p a2 d Ea Es Dh) as [->|(s & -> & Ds)]; [reflexivity|]. apply tail_dead; assumption.
  - assert (Hd : low p \/ exists q, p = s2b "<!DOCTYPE" ++ q).
    { rewrite <- app_assoc in Ep. destruct (cut_two _ _ _ _ Ep) as [(q & -> & _)|(a3 & Eb & _)]; [right; eauto|]. left.
      assert (L : low (str "<!DOCTYPE")) by reflexivity. rewrite Eb in L. apply low_app in L. tauto. }
    destruct Hd as [L|(q & Eq)].
    + destruct (comments_low p d L) as [->|(-> & _)]; [reflexivity|]. apply tail_low, low_skip, L.
    + rewrite Eq. rewrite a_comments_plain by (split; reflexivity). change (skip (s2b "<!DOCTYPE" ++ q)) with (s2b "<!DOCTYPE" ++ q). rewrite <- Eq.
      eapply (tail_cut (str "<!DOCTYPE" ++ t ++ str ">")); try eassumption. constructor. exact Ht.
Qed.

(** ** the declaration, cut *)
Lemma low_rest s c : low s -> low (rest_of s c).
Proof. intros L. unfold rest_of. destruct (after c s) eqn:A1; [eapply low_after; eassumption|exact L]. Qed.
Lemma low_rest2 s c1 c2 : low s -> low (rest2 s c1 c2).
Proof. intros L. unfold rest2. destruct (after c1 s) eqn:A1; [eapply low_after; eassumption|apply low_rest, L]. Qed.
Lemma low_field name s e r : low s -> a_field name s = Some (e, r) -> low r.
Proof.
  intros L. unfold a_field. destruct (0 <? _).
  - destruct (until quotes _) as [[[[t it] a] b]|] eqn:U; [|discriminate]. intros H. injection H as _ <-. exact (proj1 (low_until _ _ _ _ _ _ (low_rest2 _ _ _ L) U)).
  - intros H. injection H as _ <-. apply low_rest2, L.
Qed.
Lemma decl_low s d x : low s -> a_decl s d <> Ok (Some x).
Proof.
  intros L. unfold a_decl. destruct (after (s2b "xml") s) as [s1|] eqn:A1; [|discriminate]. apply (low_after _ _ _ L) in A1. cbv zeta.
  destruct (insp _ _ =? 0); [discriminate|]. destruct (several _ _ _ =? 0); [discriminate|].
  destruct (a_field (s2b "encoding=") _) as [[e s2]|] eqn:F1; [|discriminate].
  apply low_field in F1; [|apply low_skip, low_rest2, low_skip, low_rest, low_skip, A1].
  destruct (a_field (s2b "standalone=") _) as [[e3 s3]|] eqn:F2; [|discriminate]. apply low_field in F2; [|apply low_skip, F1].
  match goal with |- context [bind ?a _] => destruct a; cbn [bind]; try discriminate end. rewrite after_gt by (reflexivity || apply low_skip, F2). discriminate.
Qed.
Lemma head_low s d y : low s -> (x <- head s d ;; match x with None => Ok None | Some (s, d) => Ok (tail s d) end) = Ok (Some y) -> False.
Proof.
  intros L H. unfold head in H. destruct (insp s (s2b "<?") =? 0).
  - cbn [bind] in H. rewrite tail_low in H by exact L. discriminate.
  - destruct (a_decl _ d) as [[[s1 d1]|]| |] eqn:D; cbn [bind] in H; try discriminate. exact (decl_low _ _ _ (low_rest _ _ L) D).
Qed.
Lemma decl_text_low td e sa : decl_text td e sa -> (forall v, e = Some v -> has ">" v = false) -> exists z, td = z ++ [">"%char] /\ low z.
Proof.
  destruct 1 as [w1 w2 q w3 te e w4 ts s w5 H1 H2 Hq H3 He H4 Hs Hv H5]. intros Le.
  exists (str "<?xml" ++ w1 ++ str "version=" ++ w2 ++ [q] ++ str "1.0" ++ [q] ++ w3 ++ te ++ w4 ++ ts ++ w5 ++ ["?"%char]). split; [rewrite <- !app_assoc; reflexivity|].
  assert (L1 : low te). { destruct He as [|q' v Hq' Hn _ _]; [reflexivity|]. rewrite !low_app. repeat split; try (apply quote_low; assumption). exact (Le v eq_refl). }
  assert (L2 : low ts). { destruct Hs as [|q' v Hq' Hn _ _]; [reflexivity|]. rewrite !low_app. repeat split; try (apply quote_low; assumption). destruct (Hv v eq_refl) as [->| ->]; reflexivity. }
  rewrite !low_app. repeat split; try (apply blank_low; assumption); try (apply quote_low; assumption); assumption.
Qed.

(** ** whole documents, cut *)
Lemma rest_bom b s : b = [] \/ b = bom -> match s with c :: _ => c <> "239"%char | [] => True end -> rest_of (b ++ s) BOM = s.
Proof.
  intros [->| ->] H; [|reflexivity]. cbn [app]. unfold rest_of. destruct s as [|c s]; [reflexivity|]. unfold BOM. rewrite after_ne by congruence. reflexivity.
Qed.
Lemma bom_cut b p a2 : b = [] \/ b = bom -> b = p ++ a2 -> a2 <> [] -> low (rest_of p BOM).
Proof.
  intros [->| ->] E N; [destruct p; [|discriminate]; destruct a2; [contradiction|discriminate]|]. apply low_rest.
  assert (L : low bom) by reflexivity. rewrite E in L. apply low_app in L. tauto.
Qed.
Theorem cut_ok t e sa l x p z : whole t e sa l x -> tame x -> (forall v, e = Some v -> has ">" v = false) -> t = p ++ z -> z <> [] -> forall r, doc_parse p <> Ok (Some r).
Proof.
  intros W Ta Le Et Nz r H. rewrite parse_head in H.
  destruct W as [b td e sa m1 tt m2 l te x Hb Hd M1 Ht M2 E|b tt m2 l te x Hb Ht M2 E Hp].
  - destruct (cut_two _ _ _ _ Et) as [(p1 & -> & E1)|(a2 & Ea & Na & _)]; [|exact (head_low _ _ _ (bom_cut _ _ _ Hb Ea Na) H)].
    destruct (decl_text_low _ _ _ Hd Le) as (zd & Ezd & Lz).
    destruct (decl_here td e sa [] pdoc_new Hd eq_refl) as (z0 & Ez0 & _).
    rewrite rest_bom in H; [|exact Hb|rewrite Ez0 in E1; destruct p1 as [|c p1]; [exact I|cbn in E1; injection E1 as <- _; discriminate]].
    destruct (cut_two _ _ _ _ E1) as [(p2 & -> & E2)|(a2 & Ea & Na & _)].
    2: { rewrite Ezd in Ea. exact (head_low _ _ _ (low_cut _ _ _ _ Lz Ea Na) H). }
    destruct (decl_here td e sa p2 pdoc_new Hd eq_refl) as (z1 & Ez1 & Dz). rewrite Ez1, <- app_assoc in H. unfold head, insp, rest_of in H. rewrite after_app in H.
    change (1 =? 0) with false in H. cbv iota in H. rewrite Dz in H. cbn [bind] in H. set (d := with_standalone (with_encoding pdoc_new e) sa) in *.
    assert (Di : idle d) by (split; reflexivity). assert (Dh : p_header d = false) by reflexivity.
    assert (X : match a_comments p2 d with None => None | Some (s, d) => tail s d end = None).
    { destruct (cut_two _ _ _ _ E2) as [(p3 & -> & E3)|(a2 & Ea & _)].
      - rewrite (misc_ok false m1 []) by (assumption || reflexivity || discriminate). rewrite add_pis_nil. eapply skipped_cut; eassumption.
      - destruct (misc_cut false m1 [] M1 p2 a2 d Ea eq_refl ltac:(discriminate)) as [->|(s & d' & -> & L)]; [reflexivity|]. apply tail_low, L. }
    destruct (a_comments p2 d) as [[s d']|]; [|discriminate]. rewrite X in H. discriminate.
  - destruct (cut_two _ _ _ _ Et) as [(p1 & -> & E1)|(a2 & Ea & Na & _)]; [|exact (head_low _ _ _ (bom_cut _ _ _ Hb Ea Na) H)].
    assert (N : p1 = [] \/ p1 = ["<"%char] \/ (exists c y, p1 = c :: y /\ white c = true /\ after (s2b "<?") p1 = None /\ c <> "239"%char) \/ (exists c1 y, p1 = "<"%char :: c1 :: y /\ c1 <> "?"%char)).
    { destruct (elem_text_start _ _ E) as (c0 & y0 & Ee & Hc0).
      assert (Lt : forall c1 y s, ("<"%char :: c1 :: y) ++ s = p1 ++ z -> c1 <> "?"%char -> p1 = [] \/ p1 = ["<"%char] \/ (exists c y, p1 = c :: y /\ white c = true /\ after (s2b "<?") p1 = None /\ c <> "239"%char) \/ (exists c1 y, p1 = "<"%char :: c1 :: y /\ c1 <> "?"%char)).
      { intros c1 y s Eq Nq. destruct p1 as [|a [|a' p1]]; [auto| |]; cbn in Eq; injection Eq; intros; subst; auto. right. right. right. eauto. }
      destruct Ht as [|t Ht]; [|eapply (Lt "!"%char (s2b "DOCTYPE" ++ t ++ str ">")); [exact E1|discriminate]]. cbn [app] in E1.
      destruct (misc_head _ _ _ M2) as [->|[(c & y & -> & Wc)|[(y & ->)|(y & ->)]]].
      - rewrite Ee in E1. eapply (Lt c0 y0 []); [rewrite app_nil_r; exact E1|]. intros ->. discriminate.
      - destruct p1 as [|a p1]; [auto|]. cbn in E1. injection E1 as <- _. right. right. left. exists c, p1. split; [reflexivity|]. split; [exact Wc|]. split; [apply after_ne; intros <-; discriminate|intros ->; discriminate].
      - rewrite <- app_assoc in E1. eapply (Lt "!"%char (s2b "--") (y ++ te)); [exact E1|discriminate].
      - exfalso. exact (Hp eq_refl y eq_refl). }
    assert (Nb : match p1 with c :: _ => c <> "239"%char | [] => True end).
    { destruct N as [->|[->|[(c & y & -> & _ & _ & Nc)|(c1 & y & -> & _)]]]; try exact I; try discriminate. exact Nc. }
    rewrite rest_bom in H by assumption.
    assert (Lw : low p1 -> False) by (intros L; exact (head_low _ _ _ L H)).
    assert (Hh : head p1 pdoc_new = Ok (Some (p1, pdoc_new)) -> False).
    { intros Eh. rewrite Eh in H. cbn [bind] in H. rewrite (tail_cut tt m2 l te x p1 z pdoc_new) in H by (assumption || (split; reflexivity) || reflexivity). discriminate. }
    destruct N as [->|[->|[(c & y & -> & Wc & Na & _)|(c1 & y & -> & Nc)]]]; try (apply Lw; reflexivity).
    + destruct y as [|c2 y]; [apply Lw, blank_low; unfold blank; cbn [forallb]; rewrite Wc; reflexivity|]. apply Hh. unfold head, insp. rewrite Na. reflexivity.
    + apply Hh. unfold head, insp. replace (after (s2b "<?") ("<"%char :: c1 :: y)) with (@None bytes); [reflexivity|].
      change (after (s2b "<?") ("<"%char :: c1 :: y)) with (after ["?"%char] (c1 :: y)). symmetry. apply after_ne. congruence.
Qed.
Lemma whole_doc t e sa l x rest : whole t e sa l x -> doc_text (t ++ rest) e sa l x.
Proof.
  destruct 1 as [b td e sa m1 tt m2 l te x Hb Hd M1 Ht M2 E|b tt m2 l te x Hb Ht M2 E Hp]; rewrite <- !app_assoc; constructor; assumption.
Qed.
Theorem cuts_ok t e sa l x rest p z : whole t e sa l x -> tame x -> (forall v, e = Some v -> has ">" v = false) -> t ++ rest = p ++ z ->
  ((exists r, doc_parse p = Ok (Some r)) <-> (length t <= length p)%nat).
Proof.
  intros W Ta Le E. destruct (cut_two _ _ _ _ E) as [(p2 & -> & _)|(a2 & Ea & Na & _)].
  - split; [intros _; rewrite app_length; lia|]. intros _. destruct (doc_text_ok _ _ _ _ _ (whole_doc _ _ _ _ _ p2 W)) as (r & n & H & _). eauto.
  - split.
    + intros (r & H). exfalso. exact (cut_ok t e sa l x p a2 W Ta Le Ea Na r H).
    + rewrite Ea, app_length. destruct a2; [contradiction|]. cbn [length]. lia.
Qed.
