(** The page shows the tree. *)
From Coq Require Import Permutation.
From Verif Require Import Prelude StrModel StrSpec StrProofs StrProofs2 StrProofs3 EscModel EscSpec EscProofs EscProofs2 AttrSpec AttrModel AttrExec AttrProofs
  TreeModel ParseModel XmlSpec ParseProofs DumpProofs GramProofs GramProofs3 GramProofs4 GramProofs5 EqModel EqSpec EqProofs EqProofs2 HtmlModel HtmlSpec HtmlProofs.
Open Scope nat_scope.
Open Scope list_scope.

Fixpoint html_items (skip : bool) (level : nat) (l : list item) : res bytes :=
  match l with
  | [] => Ok []
  | i :: r => x <- html_item skip level i ;; y <- html_items skip level r ;; Ok (x ++ y)
  end.
Lemma html_items_ok skip level l :
  (fix go (l : list item) : res bytes :=
               match l with
               | [] => Ok []
               | i :: r => x <- html_item skip level i ;; y <- go r ;; Ok (x ++ y)
               end) l = html_items skip level l.
Proof. induction l as [|i r IH]; [reflexivity|]. cbn [html_items]. rewrite IH. reflexivity. Qed.

Lemma displays_skip g s t : displays g [] -> displays s t -> displays (g ++ s) t.
Proof. intros H H'. exact (displays_app g [] s t H H'). Qed.
(** white space before a tag *)
Lemma content_after p w t m : content_text AfterText t m -> p <> AfterText -> blank w -> content_text p (w ++ t) m.
Proof.
  intros H N B. inversion H as [? w0 G|? w0 e x t0 l G E C|? ? ? ? ? ? ?|? ? ? ? ? ? ? ? ?|? w0 s t0 l G F O C|? w0 s t0 l G F C|? w0 s n c t0 l G F C]; subst.
  all: destruct G as [_ G]; rewrite (G eq_refl); cbn [app].
  - rewrite app_nil_r. constructor. split; [exact B|intros; contradiction].
  - apply content_elem; auto. split; [exact B|intros; contradiction].
  - apply content_cdata; auto. split; [exact B|intros; contradiction].
  - apply content_comment; auto. split; [exact B|intros; contradiction].
  - apply (content_pi p w s n c); auto. split; [exact B|intros; contradiction].
Qed.

Definition tree_shown (x : xnode) : Prop := forall n skip level, showable x -> regular n -> shows n x ->
  exists out t w y, html_node skip level n = Ok out /\ displays out (indentation level ++ t ++ w) /\ blank w /\ elem_text t y /\ same true x y.
(** what the items are read as: after a text the white space belongs to the text *)
Definition read_as (p : phase) (l : list xitem) (u : bytes) : Prop :=
  match p with
  | AfterText => exists w0 t m, u = w0 ++ t /\ blank w0 /\ content_text AfterText t m /\ same_items true l m
  | _ => forall w, blank w -> exists m, content_text p (w ++ u) m /\ same_items true l m
  end.
Definition items_shown (p : phase) (l : list xitem) : Prop := forall ns skip level, showable_items l -> regular_items ns -> shows_items ns l ->
  exists out u, html_items skip level ns = Ok out /\ displays out u /\ forall e, blank e -> read_as p l (u ++ e).

Lemma read_tag p l u : (exists w0 t m, u = w0 ++ t /\ blank w0 /\ content_text AfterText t m /\ same_items true l m) -> read_as p l u.
Proof.
  intros (w0 & t & m & -> & B & C & E). destruct p; cbn [read_as]; [| |].
  - intros w Hw. exists m. split; [|exact E]. rewrite app_assoc. apply content_after; [exact C|discriminate|apply blank_app; assumption].
  - eauto 8.
  - intros w Hw. exists m. split; [|exact E]. rewrite app_assoc. apply content_after; [exact C|discriminate|apply blank_app; assumption].
Qed.

Lemma name_plain k c : is_name k -> name_char c = false -> has c k = false.
Proof.
  intros [_ Nk] Hc. unfold has. induction k as [|x k IH]; [reflexivity|]. cbn [forallb existsb] in *. apply andb_true_iff in Nk. destruct Nk as [N1 N2]. rewrite (IH N2), orb_false_r.
  apply Ascii.eqb_neq. intros ->. congruence.
Qed.
Lemma name_displays k : is_name k -> displays k k.
Proof. intros H. apply displays_plain; apply name_plain; trivial; reflexivity. Qed.
Lemma open_shown name : is_name name -> displays (s2b "&lt;" ++ span "node" ++ name ++ s2b "</span>") (str "<" ++ name).
Proof.
  intros H. apply displays_app; [apply displays_lt0|]. apply displays_skip; [apply span_node|].
  rewrite <- (app_nil_r name) at 2. apply displays_app; [apply name_displays, H|apply span_end].
Qed.
Lemma close_shown name : is_name name -> displays (s2b "&lt;/" ++ span "node" ++ name ++ s2b "</span>>" ++ [LF]) (str "</" ++ name ++ str ">" ++ [LF]).
Proof.
  intros H. change (s2b "&lt;/") with (str "&lt;" ++ s2b "/"). rewrite <- app_assoc. change (str "</" ++ name ++ str ">" ++ [LF]) with (str "<" ++ str "/" ++ name ++ str ">" ++ [LF]).
  apply displays_app; [apply displays_lt0|]. apply displays_app; [apply displays_plain; reflexivity|]. apply displays_skip; [apply span_node|].
  apply displays_app; [apply name_displays, H|]. change (s2b "</span>>" ++ [LF]) with (s2b "</span>" ++ (str ">" ++ [LF])). apply displays_skip; [apply span_end|].
  apply displays_plain; reflexivity.
Qed.
Lemma proper_given ats : Forall is_attr ats -> Forall given ats.
Proof. apply Forall_impl. intros p (_ & _ & v & E & _). exists v. exact E. Qed.
Lemma perm_forall {A} (P : A -> Prop) l l' : Permutation l l' -> Forall P l' -> Forall P l.
Proof. intros H F. rewrite Forall_forall in *. intros x X. apply F. eapply Permutation_in; eauto. Qed.
Lemma perm_nodup {A B} (f : A -> B) l l' : Permutation l l' -> NoDup (map f l') -> NoDup (map f l).
Proof. intros H N. eapply Permutation_NoDup; [apply Permutation_map, Permutation_sym, H|exact N]. Qed.
Lemma childs_bool ns l : shows_items ns l -> items_childs ns = existsb (fun i => match i with XElem _ => true | _ => false end) l.
Proof. intros H. induction H; cbn [items_childs existsb]; auto. Qed.

Lemma comment_around s : is_comment s -> is_comment (s2b " " ++ s ++ s2b " ").
Proof.
  intros [H1 H2]. split; [discriminate|]. intros O. apply H2. apply (occurs_sp_r (str "-->")); [cbn; intuition discriminate|discriminate|].
  apply (occurs_sp_l (str "-->")); [cbn; intuition discriminate|discriminate|exact O].
Qed.

Lemma all_shown : (forall x, proper x -> tree_shown x) /\ (forall p l, proper_items p l -> items_shown p l).
Proof.
  apply proper_both.
  - (* an element *)
    intros name ats l Hn Ha Nd Hl IH n skip level Sx Rn Sn. inversion Sx as [? ? ? Pa Ne Sl]; subst. inversion Sn as [? a items ? la ? Ef Pe Si]; subst.
    inversion Rn as [? ? ? Nn Ma Ri]; subst.
    destruct (attrs_of a ats la Ma Ef Pe) as (c & num & C1 & C2 & C3 & C4).
    assert (Ha' : Forall is_attr la) by (eapply perm_forall; eauto). assert (Pa' : Forall plain_attr la) by (eapply perm_forall; eauto).
    assert (Nd' : NoDup (map fst la)) by (eapply perm_nodup; eauto). assert (Pe' : Permutation ats la) by (apply Permutation_sym, Pe).
    destruct (IH items skip level Sl Ri Si) as (body & u & B1 & B2 & B3).
    cbn [html_node]. rewrite html_items_ok, B1.
    set (e := if node_have_childs (Node name a items) then indentation level else []).
    assert (He : blank e) by (unfold e; destruct (node_have_childs _); [apply blank_indentation|reflexivity]).
    assert (De : displays e e) by (apply blank_displays, He).
    destruct (has_attributes a) eqn:Ea; cbn [andb].
    + (* with attributes *)
      rewrite C1, C2. cbn [bind].
      assert (X : exists sep, blank sep /\ (if (num <? 3)%Z then attrs_short (S (Z.to_nat num)) a c else attrs_long (S (Z.to_nat num)) skip level name a c) = Ok (apart sep la)).
      { destruct (num <? 3)%Z.
        - exists []. split; [reflexivity|]. apply walk_short; [exact C3|apply proper_given, Ha'].
        - exists (separation skip level name). split; [|apply walk_long; [exact C3|apply proper_given, Ha']].
          apply blank_app; [apply blank_enter|]. apply blank_app; [apply blank_indentation|apply blank_repeat]. }
      destruct X as (sep & Hs & ->). cbn [bind]. destruct (attrs_shown sep la Hs Ha' Nd' Pa') as (t & w & D & T & Bw).
      assert (Dh : displays (s2b "&lt;" ++ span "node" ++ name ++ s2b "</span> " ++ apart sep la) (str "<" ++ name ++ t ++ w)).
      { change (s2b "</span> ") with (s2b "</span>" ++ s2b " ").
        replace (s2b "&lt;" ++ span "node" ++ name ++ (s2b "</span>" ++ s2b " ") ++ apart sep la) with ((s2b "&lt;" ++ span "node" ++ name ++ s2b "</span>") ++ (s2b " " ++ apart sep la)) by (rewrite <- !app_assoc; reflexivity).
        replace (str "<" ++ name ++ t ++ w) with ((str "<" ++ name) ++ (t ++ w)) by (rewrite <- !app_assoc; reflexivity).
        apply displays_app; [apply open_shown, Hn|exact D]. }
      destruct items as [|i0 items].
      * inversion Si; subst. exists (indentation level ++ s2b "&lt;" ++ span "node" ++ name ++ s2b "</span> " ++ apart sep la ++ s2b "/>" ++ (if skip then [] else [LF])).
        exists (str "<" ++ name ++ t ++ w ++ str "/>"), (if skip then [] else [LF]), (XNode name la []). split; [reflexivity|].
        split; [|split; [apply blank_enter|split; [apply elem_empty; assumption|constructor; [exact Pe'|constructor]]]].
        apply displays_app; [apply blank_displays, blank_indentation|].
        replace (s2b "&lt;" ++ span "node" ++ name ++ s2b "</span> " ++ apart sep la ++ s2b "/>" ++ (if skip then [] else [LF]))
          with ((s2b "&lt;" ++ span "node" ++ name ++ s2b "</span> " ++ apart sep la) ++ (s2b "/>" ++ (if skip then [] else [LF]))) by (rewrite <- !app_assoc; reflexivity).
        replace ((str "<" ++ name ++ t ++ w ++ str "/>") ++ (if skip then [] else [LF])) with ((str "<" ++ name ++ t ++ w) ++ (s2b "/>" ++ (if skip then [] else [LF]))) by (rewrite <- !app_assoc; reflexivity).
        apply displays_app; [exact Dh|]. apply displays_app; [apply displays_plain; reflexivity|apply blank_displays, blank_enter].
      * cbn [bind]. destruct (B3 e He (if skip then [] else [LF]) (blank_enter skip)) as (m & Cm & Em).
        eexists _, (str "<" ++ name ++ t ++ w ++ str ">" ++ ((if skip then [] else [LF]) ++ u ++ e) ++ str "</" ++ name ++ [] ++ str ">"), [LF], (XNode name la m).
        split; [reflexivity|]. split; [|split; [reflexivity|split; [apply elem_full; trivial; [reflexivity|cbn; lia]|constructor; [exact Pe'|exact Em]]]].
        match goal with |- context [@app ascii ?z (s2b "&lt;/" ++ _)] => change z with e end. apply displays_app; [apply blank_displays, blank_indentation|].
        replace ((s2b "&lt;" ++ span "node" ++ name ++ s2b "</span> " ++ apart sep la ++ s2b ">" ++ (if skip then [] else [LF])) ++ body ++ e ++ s2b "&lt;/" ++ span "node" ++ name ++ s2b "</span>>" ++ [LF])
          with ((s2b "&lt;" ++ span "node" ++ name ++ s2b "</span> " ++ apart sep la) ++ (s2b ">" ++ (if skip then [] else [LF])) ++ body ++ e ++ (s2b "&lt;/" ++ span "node" ++ name ++ s2b "</span>>" ++ [LF])) by (rewrite <- !app_assoc; reflexivity).
        replace ((str "<" ++ name ++ t ++ w ++ str ">" ++ ((if skip then [] else [LF]) ++ u ++ e) ++ str "</" ++ name ++ [] ++ str ">") ++ [LF])
          with ((str "<" ++ name ++ t ++ w) ++ (s2b ">" ++ (if skip then [] else [LF])) ++ u ++ e ++ (str "</" ++ name ++ str ">" ++ [LF])) by (rewrite <- !app_assoc; reflexivity).
        apply displays_app; [exact Dh|]. apply displays_app; [apply displays_app; [apply displays_plain; reflexivity|apply blank_displays, blank_enter]|].
        apply displays_app; [exact B2|]. apply displays_app; [exact De|apply close_shown, Hn].
    + (* without attributes *)
      specialize (C4 eq_refl). subst la. apply Permutation_nil in Pe. subst ats. destruct Ne as [Ne|Ne]; [contradiction|].
      destruct items as [|i0 items]; [inversion Si; subst; contradiction|]. cbn [bind].
      set (f := if node_have_childs (Node name a (i0 :: items)) && negb skip then [LF] else []).
      assert (Hf : blank f) by (unfold f; destruct (node_have_childs _ && negb skip); reflexivity).
      destruct (B3 e He f Hf) as (m & Cm & Em).
      eexists _, (str "<" ++ name ++ [] ++ [] ++ str ">" ++ (f ++ u ++ e) ++ str "</" ++ name ++ [] ++ str ">"), [LF], (XNode name [] m).
      split; [reflexivity|]. split; [|split; [reflexivity|split; [apply elem_full; trivial; [constructor|reflexivity|reflexivity|cbn; lia]|constructor; [constructor|exact Em]]]].
      match goal with |- context [@app ascii ?z (s2b "&lt;/" ++ _)] => change z with e end. match goal with |- context [@app ascii (s2b "</span>>") ?z] => change z with f end. apply displays_app; [apply blank_displays, blank_indentation|].
      change (s2b "</span>>") with (s2b "</span>" ++ s2b ">").
      replace ((s2b "&lt;" ++ span "node" ++ name ++ (s2b "</span>" ++ s2b ">") ++ f) ++ body ++ e ++ s2b "&lt;/" ++ span "node" ++ name ++ (s2b "</span>" ++ s2b ">") ++ [LF])
        with ((s2b "&lt;" ++ span "node" ++ name ++ s2b "</span>") ++ (s2b ">" ++ f) ++ body ++ e ++ (s2b "&lt;/" ++ span "node" ++ name ++ s2b "</span>>" ++ [LF])) by (rewrite <- !app_assoc; reflexivity).
      replace ((str "<" ++ name ++ [] ++ [] ++ str ">" ++ (f ++ u ++ e) ++ str "</" ++ name ++ [] ++ str ">") ++ [LF])
        with ((str "<" ++ name) ++ (s2b ">" ++ f) ++ u ++ e ++ (str "</" ++ name ++ str ">" ++ [LF])) by (rewrite <- !app_assoc; reflexivity).
      apply displays_app; [apply open_shown, Hn|]. apply displays_app; [apply displays_app; [apply displays_plain; reflexivity|apply blank_displays, Hf]|].
      apply displays_app; [exact B2|]. apply displays_app; [exact De|apply close_shown, Hn].
  - (* nothing *)
    intros p ns skip level _ _ Sn. inversion Sn; subst. exists [], []. split; [reflexivity|]. split; [constructor|]. intros e He. apply read_tag. exists e, [], []. cbn [app]. rewrite app_nil_r.
    repeat split; trivial; [|constructor]. constructor. split; [reflexivity|auto].
  - (* an element and more *)
    intros p x l _ IHx _ IH ns skip level Sl Rn Sn. inversion Sl; subst. inversion Sn as [|n0 ? ns0 ? Sn1 Sn2| | | | |]; subst. inversion Rn; subst.
    destruct (IHx n0 skip (S level)) as (out1 & t & w & y & E1 & D1 & Bw & T1 & Q1); auto.
    destruct (IH ns0 skip level) as (out2 & u & E2 & D2 & R2); auto. cbn [html_items html_item]. rewrite E1. cbn [bind]. rewrite E2. cbn [bind].
    exists (out1 ++ out2), ((indentation (S level) ++ t ++ w) ++ u). split; [reflexivity|]. split; [apply displays_app; assumption|]. intros e He. apply read_tag.
    destruct (R2 e He w Bw) as (m & Cm & Em). exists (indentation (S level)), (t ++ w ++ u ++ e), (XElem y :: m). split; [rewrite <- !app_assoc; reflexivity|].
    split; [apply blank_indentation|]. split; [|constructor; assumption]. apply (content_elem AfterText [] t y (w ++ u ++ e)); [split; [reflexivity|auto]|assumption..].
  - (* a text *)
    intros p s l Np Ns Nb Nl Nw _ IH ns skip level Sl Rn Sn. inversion Sl as [| |? ? Ps Sl'| |]; subst. inversion Sn as [| |? ns0 ? Sn'| | | |]; subst. inversion Rn; subst.
    destruct (IH ns0 skip level) as (out2 & u & E2 & D2 & R2); auto. cbn [html_items html_item]. rewrite translate_ok by assumption. cbn [bind]. rewrite E2. cbn [bind].
    exists (shown s ++ out2), (s ++ u). split; [reflexivity|]. split; [apply displays_app; [apply shown_displays, Ps|exact D2]|]. intros e He.
    destruct (R2 e He) as (w0 & t & m & Eu & Bw & Cm & Em). rewrite <- app_assoc, Eu.
    destruct p; cbn [read_as]; [|contradiction|]; intros w Hw.
    + exists (XText (w ++ s ++ w0) :: m). split; [|constructor; [apply strip_around_same; assumption|exact Em]].
      replace (w ++ s ++ w0 ++ t) with ((w ++ s ++ w0) ++ t) by (rewrite <- !app_assoc; reflexivity). apply content_text_fresh; [| | |exact Cm].
      * intros X. apply in_app_iff in X. destruct X as [X|X]; [exact (blank_nul_free w Hw X)|]. apply in_app_iff in X. destruct X as [X|X]; [exact (Ns X)|exact (blank_nul_free w0 Bw X)].
      * apply blank_inside, Nb.
      * rewrite !has_app, Nl, (blank_without "<" w), (blank_without "<" w0) by (assumption || reflexivity). reflexivity.
    + exists (XText (s ++ w0) :: m). split; [|constructor; [exact (strip_around_same [] s w0 eq_refl Bw)|exact Em]].
      replace (w ++ s ++ w0 ++ t) with (w ++ (s ++ w0) ++ t) by (rewrite <- !app_assoc; reflexivity).
      assert (Ne : s <> []) by (intros ->; apply Nb; reflexivity). apply content_text_misc; trivial.
      * intros X. apply in_app_iff in X. destruct X as [X|X]; [exact (Ns X)|exact (blank_nul_free w0 Bw X)].
      * destruct s; [contradiction|discriminate].
      * specialize (Nw eq_refl). destruct s; [contradiction|exact Nw].
      * rewrite !has_app, Nl, (blank_without "<" w0) by (assumption || reflexivity). reflexivity.
  - (* a section *)
    intros p s l Ns No _ IH ns skip level Sl Rn Sn. inversion Sl as [| | |? ? Ps Sl'|]; subst. inversion Sn as [| | |? ns0 ? Sn'| | |]; subst. inversion Rn; subst.
    destruct (IH ns0 skip level) as (out2 & u & E2 & D2 & R2); auto. cbn [html_items html_item]. rewrite translate_ok by assumption. cbn [bind]. rewrite E2. cbn [bind].
    eexists _, ((str "<![CDATA[" ++ s ++ str "]]>") ++ u). split; [reflexivity|]. split.
    + apply displays_app; [|exact D2]. apply displays_skip; [apply span_cdata|].
      change (s2b "&lt;![CDATA[</span>") with (str "&lt;" ++ s2b "![CDATA[" ++ s2b "</span>"). rewrite <- !app_assoc.
      change (str "<![CDATA[") with (str "<" ++ s2b "![CDATA["). rewrite <- !app_assoc. apply displays_app; [apply displays_lt0|]. apply displays_app; [apply displays_plain; reflexivity|].
      apply displays_skip; [apply span_end|]. apply displays_app; [apply shown_displays, Ps|]. apply displays_skip; [apply span_cdata|].
      change (s2b "]]></span>") with (str "]]>" ++ s2b "</span>"). rewrite <- (app_nil_r (str "]]>")) at 2. apply displays_app; [apply displays_plain; reflexivity|apply span_end].
    + intros e He. apply read_tag. destruct (R2 e He [] eq_refl) as (m & Cm & Em). cbn [app] in Cm. exists [], (str "<![CDATA[" ++ s ++ str "]]>" ++ u ++ e), (XCdata s :: m).
      split; [rewrite <- !app_assoc; reflexivity|]. split; [reflexivity|]. split; [|constructor; [reflexivity|exact Em]].
      apply (content_cdata AfterText [] s (u ++ e)); trivial. split; [reflexivity|auto].
  - (* processing instructions are not shown *)
    intros p n c l _ _ _ IH ns skip level Sl Rn Sn. inversion Sl.
  - (* a comment *)
    intros p s l Hc _ IH ns skip level Sl Rn Sn. inversion Sl as [| | | |? ? Ps Sl']; subst. inversion Sn as [| | | | |? ns0 ? Sn'|]; subst. inversion Rn; subst.
    destruct (IH ns0 skip level) as (out2 & u & E2 & D2 & R2); auto. cbn [html_items html_item]. rewrite translate_ok by assumption. cbn [bind]. rewrite E2. cbn [bind].
    eexists _, ((indentation (S level) ++ str "<!--" ++ (s2b " " ++ s ++ s2b " ") ++ str "-->" ++ [LF]) ++ u). split; [reflexivity|]. split.
    + apply displays_app; [|exact D2]. apply displays_app; [apply blank_displays, blank_indentation|]. apply displays_skip; [apply span_comment|].
      change (s2b "&lt;!-- ") with (str "&lt;" ++ s2b "!-- "). replace (str "<!--" ++ (s2b " " ++ s ++ s2b " ") ++ str "-->" ++ [LF]) with (str "<" ++ s2b "!-- " ++ s ++ s2b " -->" ++ [LF]) by (cbn; rewrite <- !app_assoc; reflexivity).
      rewrite <- !app_assoc. apply displays_app; [apply displays_lt0|]. apply displays_app; [apply displays_plain; reflexivity|]. apply displays_app; [apply shown_displays, Ps|].
      change (s2b " --></span>") with (s2b " -->" ++ s2b "</span>"). rewrite <- app_assoc. apply displays_app; [apply displays_plain; reflexivity|].
      apply displays_skip; [apply span_end|apply displays_plain; reflexivity].
    + intros e He. apply read_tag. destruct (R2 e He [LF] eq_refl) as (m & Cm & Em). exists (indentation (S level)), (str "<!--" ++ (s2b " " ++ s ++ s2b " ") ++ str "-->" ++ [LF] ++ u ++ e), (XComment (s2b " " ++ s ++ s2b " ") :: m).
      split; [rewrite <- !app_assoc; reflexivity|]. split; [apply blank_indentation|]. split; [|constructor; [apply strip_around_same; reflexivity|exact Em]].
      apply (content_comment AfterText [] (s2b " " ++ s ++ s2b " ") ([LF] ++ u ++ e)); [split; [reflexivity|auto]|apply comment_around, Hc|exact Cm].
Qed.

Lemma page_shown skip cls d n x : class_ok cls -> d_root d = Some n -> regular n -> shows n x -> proper x -> showable x ->
  exists page w t w' y, htmlize skip cls d = Ok page /\ displays page (w ++ t ++ w') /\ blank w /\ blank w' /\ elem_text t y /\ same true x y.
Proof.
  intros Hc Er Rn Sn Px Sx. destruct (proj1 all_shown x Px n skip 0 Sx Rn Sn) as (out & t & w & y & E & D & Bw & T & Q). unfold htmlize. rewrite Er. cbn [of_option bind]. rewrite E. cbn [bind].
  eexists _, [LF], t, (w ++ [LF]), y. split; [reflexivity|]. split; [|split; [reflexivity|split; [apply blank_app; [exact Bw|reflexivity]|split; assumption]]].
  apply displays_app; [apply (displays_app _ [] [LF] [LF]); [apply pre_start, Hc|apply displays_plain; reflexivity]|].
  replace (t ++ w ++ [LF]) with ((t ++ w) ++ [LF]) by (rewrite <- app_assoc; reflexivity). apply displays_app; [exact D|]. apply displays_skip; [apply pre_end|apply displays_plain; reflexivity].
Qed.
