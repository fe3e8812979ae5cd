(** Elements, content and whole documents of well-formed texts. *)
From Coq Require Import Permutation.
From Verif Require Import Prelude StrModel StrSpec StrProofs EscProofs StrProofs2 StrProofs3 AttrModel AttrSpec AttrProofs
  TreeModel StreamModel StreamProofs ParseModel ParseProofs ParseProofs2 XmlSpec GramProofs GramProofs2.
Open Scope Z_scope.
Local Arguments Z.of_nat : simpl never.
Local Arguments Z.to_nat : simpl never.
Local Arguments Z.add : simpl never.
Local Arguments Z.sub : simpl never.
Local Arguments Z.eqb : simpl never.
Local Arguments Z.ltb : simpl never.
Local Arguments Z.leb : simpl never.

Scheme elem_text_mut := Induction for elem_text Sort Prop
with content_text_mut := Induction for content_text Sort Prop.
Combined Scheme texts_both from elem_text_mut, content_text_mut.

(** ** the content loop without fuel *)
Definition A (s : bytes) (d : pdoc) := a_content (S (length s)) s d.
Definition B (s : bytes) (d : pdoc) := match a_comments s d with None => None | Some (s, d) => A s d end.

Lemma A_eq s d : fine d -> s <> [] -> A s d =
      if starts (s2b "<?") (skip s) || starts (s2b "<!--") (skip s) then B (skip s) d
      else
        match after (s2b "</") (skip s) with
        | Some s =>
          match a_close s d with
          | None => None
          | Some s =>
            match p_stack d with
            | [] => None
            | n :: [] => Some (s, closed n [] d)
            | n :: r => A s (closed n r d)
            end
          end
        | None =>
          match after (s2b "<![CDATA[") (skip s) with
          | Some s =>
            match until [s2b "]]>"] s with
            | None => None
            | Some (t, _, _, s) => A s (add_item d (ICdata (cstr t)))
            end
          | None =>
            match after (s2b "<") (skip s) with
            | Some s => match a_node s d with None => None | Some (s, d, _) => A s d end
            | None =>
              match until [s2b "<"] s with
              | None => None
              | Some (t, _, s, _) => A s (add_item d (IContent (cstr t)))
              end
            end
          end
        end.
Proof.
  intros Hf Hs. destruct Hf as [Hd Hp]. pose proof (fine_hd d (conj Hd Hp)) as Hh.
  assert (K : forall f s' d', p_header d' = true -> (length s' < f)%nat -> a_content f s' d' = A s' d').
  { intros f s' d' H1 H2. apply (a_content_fuel (length s')); [exact H1|lia|lia|lia]. }
  unfold A at 1. cbn [a_content]. rewrite Hh.
  destruct s as [|c s0] eqn:Es; [contradiction|]. rewrite <- Es in *. clear Hs.
  pose proof (skip_len s) as Ks.
  destruct (starts (s2b "<?") (skip s) || starts (s2b "<!--") (skip s)) eqn:St.
  - unfold B. destruct (a_comments (skip s) d) as [[s1 d1]|] eqn:C; [|reflexivity].
    pose proof (a_comments_progress _ _ _ _ Hd St C).
    apply K; [rewrite (header_comments _ _ _ _ _ (le_n _) C); exact Hd|lia].
  - destruct (after (s2b "</") (skip s)) as [s1|] eqn:A1.
    + destruct (a_close s1 d) as [s2|] eqn:C; [|reflexivity]. apply after_len in A1. simpl in A1. apply a_close_len in C.
      destruct (p_stack d) as [|n [|n' r]]; try reflexivity. apply K; [rewrite header_closed; exact Hd|lia].
    + destruct (after (s2b "<![CDATA[") (skip s)) as [s1|] eqn:A2.
      * apply after_len in A2. simpl in A2. destruct (until [s2b "]]>"] s1) as [[[[t it] x] y]|] eqn:U; [|reflexivity].
        pose proof (until_shorter [s2b "]]>"] s1 _ _ _ _ ltac:(gc) U). apply K; [rewrite header_item; exact Hd|lia].
      * destruct (after (s2b "<") (skip s)) as [s1|] eqn:A3.
        { apply after_len in A3. simpl in A3. destruct (a_node s1 d) as [[[s2 d2] e]|] eqn:N; [|reflexivity].
          pose proof (a_node_len _ _ _ _ _ N). apply K; [rewrite (header_a_node _ _ _ _ _ N); exact Hd|lia]. }
        { destruct (until [s2b "<"] s) as [[[[t it] x] y]|] eqn:U; [|reflexivity].
          apply no_lt_skip in A3. rewrite Es in U, A3. pose proof (text_progress _ _ _ _ _ _ A3 U).
          apply K; [rewrite header_item; exact Hd|]. rewrite <- Es in *. simpl. lia. }
Qed.

(** ** nodes under construction *)
Definition add_all (n : node) (l : list item) : node := let '(Node s a m) := n in Node s a (m ++ l).
Lemma add_all_nil n : add_all n [] = n.
Proof. destruct n. cbn. rewrite app_nil_r. reflexivity. Qed.
Lemma add_all_cons n i l : add_all (add_to n i) l = add_all n (i :: l).
Proof. destruct n. cbn. rewrite <- app_assoc. reflexivity. Qed.
Lemma fine_item d i : fine d -> fine (add_item d i).
Proof. intros [H1 H2]. unfold fine. rewrite header_item. split; [exact H1|]. unfold add_item. destruct (p_stack d); exact H2. Qed.
Lemma fine_pi d i : fine d -> fine (add_pi d i).
Proof. intros H. unfold add_pi. destruct (p_stack d); [exact H|apply fine_item, H]. Qed.
Lemma alike_item d i : alike d (add_item d i).
Proof. unfold add_item. destruct (p_stack d); repeat split. Qed.
Lemma stack_item d i n r : p_stack d = n :: r -> p_stack (add_item d i) = add_to n i :: r.
Proof. unfold add_item. intros ->. reflexivity. Qed.
Lemma add_pi_item d p n r : p_stack d = n :: r -> add_pi d p = add_item d (IPi p).
Proof. unfold add_pi. intros ->. reflexivity. Qed.

(** how the parser enters the content of an element again *)
Definition enter (p : phase) := match p with AfterMisc => B | _ => A end.
(** markup other than comments and processing instructions *)
Lemma enter_markup p w c z d : gap p w -> fine d -> c <> "?"%char -> after (s2b "!--") (c :: z) = None ->
  enter p (w ++ "<"%char :: c :: z) d = A ("<"%char :: c :: z) d.
Proof.
  intros [Hw _] Hd N1 N2.
  assert (Sk : skip (w ++ "<"%char :: c :: z) = "<"%char :: c :: z) by (apply skip_app_here; [exact Hw|reflexivity]).
  assert (S2 : skip ("<"%char :: c :: z) = "<"%char :: c :: z) by reflexivity.
  assert (F1 : after (s2b "<?") ("<"%char :: c :: z) = None).
  { change (after (s2b "<?") ("<"%char :: c :: z)) with (after ["?"%char] (c :: z)). apply after_ne. congruence. }
  assert (F2 : after (s2b "<!--") ("<"%char :: c :: z) = None).
  { change (after (s2b "<!--") ("<"%char :: c :: z)) with (after (s2b "!--") (c :: z)). exact N2. }
  assert (X : A (w ++ "<"%char :: c :: z) d = A ("<"%char :: c :: z) d).
  { rewrite !A_eq by (try assumption; try discriminate; destruct w; discriminate). rewrite Sk, S2. unfold starts. rewrite F1, F2. cbn [orb].
    destruct (after (s2b "</") _); [reflexivity|]. destruct (after (s2b "<![CDATA[") _); [reflexivity|].
    replace (after (s2b "<") ("<"%char :: c :: z)) with (Some (c :: z)) by reflexivity. reflexivity. }
  destruct p; cbn [enter]; try exact X. unfold B. rewrite a_comments_plain by (unfold plain; rewrite Sk; auto). rewrite Sk. reflexivity.
Qed.
(** comments and processing instructions *)
Lemma enter_misc p w z d : gap p w -> fine d ->
  starts (s2b "<?") z || starts (s2b "<!--") z = true -> enter p (w ++ z) d = B z d.
Proof.
  intros [Hw _] Hd H.
  assert (Z : exists c r, z = c :: r /\ white c = false).
  { unfold starts in H. destruct (after (s2b "<?") z) eqn:E; [apply after_Some in E; subst; eexists _, _; split; reflexivity|].
    destruct (after (s2b "<!--") z) eqn:E2; [apply after_Some in E2; subst; eexists _, _; split; reflexivity|discriminate]. }
  destruct Z as (c & r & -> & Wc).
  assert (Sk : skip (w ++ c :: r) = c :: r) by (apply skip_app_here; assumption).
  assert (X : A (w ++ c :: r) d = B (c :: r) d).
  { rewrite A_eq by (try assumption; destruct w; discriminate). rewrite Sk, H. reflexivity. }
  destruct p; cbn [enter]; try exact X. unfold B. rewrite a_comments_blank by assumption. reflexivity.
Qed.
(** text *)
Lemma has_lt_skip s z : has "<" s = false -> ~ blank s ->
  exists c r, skip (s ++ z) = c :: r /\ c <> "<"%char.
Proof.
  intros H N. destruct (not_blank s N) as (w & c & r & -> & Hw & Hc). rewrite <- app_assoc. cbn [app].
  exists c. eexists. split; [apply skip_app_here; assumption|]. eapply has_in, H.
Qed.
Lemma A_text s z d : fine d -> nul_free s -> ~ blank s -> has "<" s = false ->
  A (s ++ "<"%char :: z) d = A ("<"%char :: z) (add_item d (IContent s)).
Proof.
  intros Hd Hn Hb Hl. rewrite A_eq by (try assumption; destruct s; discriminate).
  destruct (has_lt_skip s ("<"%char :: z) Hl Hb) as (c & r & Sk & Nc). rewrite Sk. unfold starts.
  assert (F : forall p, after ("<"%char :: p) (c :: r) = None) by (intros p; apply after_ne; congruence).
  change (s2b "<?") with ("<"%char :: s2b "?"). change (s2b "<!--") with ("<"%char :: s2b "!--").
  change (s2b "</") with ("<"%char :: s2b "/"). change (s2b "<![CDATA[") with ("<"%char :: s2b "![CDATA[").
  change (s2b "<") with ["<"%char]. rewrite !F. cbn [orb].
  rewrite until_char by (try assumption; reflexivity). rewrite (cstr_id s) by assumption. reflexivity.
Qed.

Lemma elem_text_start e x : elem_text e x -> exists c z, e = "<"%char :: c :: z /\ name_char c = true.
Proof.
  destruct 1 as [name t ats w H|name t ats w c items w' H]; destruct (is_name_start _ H) as (c0 & r & -> & Hc);
    eexists c0, _; (split; [reflexivity|exact Hc]).
Qed.
Lemma after_text_start t l s : content_text AfterText t l -> exists z, t ++ s2b "</" ++ s = "<"%char :: z.
Proof.
  intros H. inversion H as [p w [_ G]|p w e x t' l' [_ G] E|? | ? |p w c t' l' [_ G]|p w c t' l' [_ G]|p w c n cc t' l' [_ G] P]; subst;
    rewrite (G eq_refl) in *; cbn [app]; try (eexists; reflexivity).
  - destruct (elem_text_start _ _ E) as (c & z & -> & _). eexists. reflexivity.
  - destruct (pi_text_start _ _ _ P) as (z & ->). eexists. reflexivity.
Qed.

(** ** end tags *)
Lemma close_here name w' s d n r : is_name name -> blank w' -> (length w' <= 1)%nat -> fine d ->
  p_stack d = n :: r -> n_name n = name ->
  A (s2b "</" ++ name ++ w' ++ s2b ">" ++ s) d =
  match r with [] => Some (s, closed n [] d) | _ => A s (closed n r d) end.
Proof.
  intros Hn Hw Lw Hd Es En. rewrite A_eq by (try assumption; discriminate).
  change (skip (s2b "</" ++ name ++ w' ++ s2b ">" ++ s)) with (s2b "</" ++ name ++ w' ++ s2b ">" ++ s).
  change (starts (s2b "<?") (s2b "</" ++ name ++ w' ++ s2b ">" ++ s)) with false.
  change (starts (s2b "<!--") (s2b "</" ++ name ++ w' ++ s2b ">" ++ s)) with false. cbn [orb]. rewrite after_app.
  unfold a_close. rewrite app_assoc. change (s2b ">" ++ s) with (">"%char :: s). change [s2b ">"] with [[">"%char]].
  assert (Nw : has ">" w' = false).
  { unfold blank in Hw. destruct w' as [|c [|c' w']]; [reflexivity| |cbn in Lw; lia]. unfold has. cbn [existsb forallb] in Hw |- *.
    destruct (Ascii.eqb_spec ">" c) as [<-|]; [discriminate|reflexivity]. }
  pose proof Hn as [Hne Hch].
  rewrite until_char by (first [reflexivity | rewrite has_app, Nw, orb_false_r; apply name_has; [reflexivity|assumption]]).
  destruct (name ++ w') as [|c0 r0] eqn:E; [destruct name; [contradiction|discriminate]|]. rewrite <- E. clear c0 r0 E.
  rewrite Es, En. assert (Nn : nul_free name) by (apply name_nul; assumption).
  assert (T : (if is_ws (last (name ++ w') NUL) then removelast (name ++ w') else name ++ w') = name).
  { unfold blank in Hw. destruct w' as [|c [|c' w']]; [| |cbn in Lw; lia].
    - rewrite app_nil_r. rewrite is_ws_white, (name_white _ (name_last _ Hn)). reflexivity.
    - rewrite last_last, removelast_last. cbn [forallb] in Hw. rewrite andb_true_r in Hw. rewrite is_ws_white, Hw. reflexivity. }
  rewrite T, !(cstr_id name), bytes_eqb_refl by assumption. destruct r; reflexivity.
Qed.

(** ** elements and content *)
Lemma fine_closed n r d : fine d -> fine (closed n r d).
Proof.
  intros [H1 H2]. unfold fine. rewrite header_closed. split; [exact H1|]. unfold closed, add_node, add_item.
  destruct r; cbn; [|]; destruct (p_preserve d) as [|x l]; cbn; try constructor; apply Forall_inv_tail in H2; exact H2.
Qed.
Lemma shows_add name a m items ats xs : arep a m -> Permutation m ats -> shows_items items xs ->
  shows (Node name a items) (XNode name ats xs).
Proof.
  intros R P S. destruct (enumerate_ok a m R) as (order & Po & E & _).
  apply (Shows name a items ats order xs); [|etransitivity; eassumption|exact S].
  rewrite E. f_equal. clear. induction order as [|[k v] o IH]; cbn; [reflexivity|]. rewrite IH. reflexivity.
Qed.

Definition elem_claim (e : bytes) (x : xnode) : Prop :=
  exists e', e = "<"%char :: e' /\ forall s d, fine d ->
  (forall n r, p_stack d = n :: r -> exists d' n', shows n' x /\ fine d' /\ alike d d' /\
     p_stack d' = add_to n (INode n') :: r /\
     match a_open (e' ++ s) d with None => None | Some (s, d, _) => A s d end = A s d') /\
  (p_stack d = [] -> exists d' n', shows n' x /\ p_stack d' = [] /\ p_root d' = Some n' /\
     p_encoding d' = p_encoding d /\ p_standalone d' = p_standalone d /\ p_pis d' = p_pis d /\
     match a_open (e' ++ s) d with None => None | Some (s, d, true) => Some (s, d) | Some (s, d, false) => A s d end = Some (s, d')).
Definition content_claim (p : phase) (t : bytes) (l : list xitem) : Prop :=
  forall s d n r, fine d -> p_stack d = n :: r ->
  exists d' items, shows_items items l /\ fine d' /\ alike d d' /\ p_stack d' = add_all n items :: r /\
    enter p (t ++ s2b "</" ++ s) d = A (s2b "</" ++ s) d'.

Lemma texts_ok :
  (forall e x, elem_text e x -> elem_claim e x) /\ (forall p t l, content_text p t l -> content_claim p t l).
Proof.
  apply texts_both.
  - (* empty element *)
    intros name t ats w Hn T Hw. exists (name ++ t ++ w ++ str "/>"). split; [reflexivity|]. intros s d Hd.
    destruct (tag_ok name t ats w (s2b "/>") true s d Hn T Hw ltac:(left; auto) Hd) as (d1 & a & m & E & R & P & F & Al & St).
    rewrite <- !app_assoc. unfold a_open. unfold str. rewrite E. split.
    + intros n r Es. exists (add_node d1 (Node name a [])), (Node name a []). rewrite Es in St.
      split; [eapply shows_add; [exact R|exact P|constructor]|]. unfold add_node. rewrite St.
      split; [apply fine_item, F|]. split; [eapply alike_trans; [exact Al|apply alike_item]|].
      split; [apply stack_item, St|reflexivity].
    + intros Es. rewrite Es in St. exists (add_node d1 (Node name a [])), (Node name a []).
      split; [eapply shows_add; [exact R|exact P|constructor]|]. unfold add_node. rewrite St.
      destruct Al as (A1 & A2 & A3 & A4). cbn. auto 10.
  - (* element with content *)
    intros name t ats w c items w' Hn T Hw _ IH Hw' Lw. exists (name ++ t ++ w ++ str ">" ++ c ++ str "</" ++ name ++ w' ++ str ">").
    split; [reflexivity|]. intros s d Hd.
    destruct (tag_ok name t ats w (s2b ">") false (c ++ str "</" ++ name ++ w' ++ str ">" ++ s) d Hn T Hw ltac:(right; auto) Hd)
      as (d1 & a & m & E & R & P & F & Al & St).
    rewrite <- !app_assoc. unfold a_open. unfold str in *. rewrite E.
    set (d2 := with_stack d1 (Node name a [] :: p_stack d1)).
    assert (F2 : fine d2) by exact F.
    destruct (IH (name ++ w' ++ s2b ">" ++ s) d2 (Node name a []) (p_stack d1) F2 eq_refl) as (d3 & its & Sh & F3 & Al3 & St3 & E3).
    cbn [enter] in E3. rewrite E3.
    assert (Al' : alike d d3) by (eapply alike_trans; [exact Al|]; eapply alike_trans; [|exact Al3]; repeat split).
    rewrite (close_here name w' s d3 _ _ Hn Hw' Lw F3 St3 eq_refl).
    assert (Shn : shows (add_all (Node name a []) its) (XNode name ats items)) by (eapply shows_add; [exact R|exact P|exact Sh]).
    split.
    + intros n r Es. rewrite Es in St. rewrite St in St3 |- *.
      exists (closed (add_all (Node name a []) its) (n :: r) d3), (add_all (Node name a []) its).
      split; [exact Shn|]. split; [apply fine_closed, F3|]. split; [|split; reflexivity].
      eapply alike_trans; [exact Al'|]. repeat split.
    + intros Es. rewrite Es in St. rewrite St in St3 |- *.
      exists (closed (add_all (Node name a []) its) [] d3), (add_all (Node name a []) its).
      split; [exact Shn|]. destruct Al' as (A1 & A2 & A3 & A4). cbn. auto 10.
  - (* end of the content *)
    intros p w G s d n r Hd Es. exists d, []. split; [constructor|]. split; [exact Hd|]. split; [apply alike_refl|].
    rewrite add_all_nil. split; [exact Es|]. apply (enter_markup p w "/" s d G Hd); [discriminate|reflexivity].
  - (* element *)
    intros p w e x t l G He IHe _ IHt. destruct (elem_text_start _ _ He) as (c0 & z0 & Ee & Hc0). destruct IHe as (e' & -> & IHe).
    intros s d n r Hd Es. destruct (IHe (t ++ s2b "</" ++ s) d Hd) as [H _].
    destruct (H n r Es) as (d1 & n1 & Sh & F1 & Al1 & St1 & E1).
    destruct (IHt s d1 _ r F1 St1) as (d2 & its & Sh2 & F2 & Al2 & St2 & E2).
    exists d2, (INode n1 :: its). split; [constructor; assumption|]. split; [exact F2|].
    split; [eapply alike_trans; eassumption|]. rewrite add_all_cons in St2. split; [exact St2|].
    cbn [enter] in E2. rewrite <- E2, <- E1. clear E1 E2 H.
    injection Ee as ->. rewrite <- !app_assoc. cbn [app].
    set (z := z0 ++ t ++ s2b "</" ++ s).
    assert (Nq : forall q, name_char q = false -> q <> c0) by (intros q Hq ->; congruence).
    rewrite (enter_markup p w c0 z d G Hd); [|intros ->; discriminate|apply (after_ne "!"), Nq; reflexivity].
    rewrite A_eq by (try assumption; discriminate).
    change (skip ("<"%char :: c0 :: z)) with ("<"%char :: c0 :: z).
    assert (F6 : starts (s2b "<?") ("<"%char :: c0 :: z) = false).
    { unfold starts. change (after (s2b "<?") ("<"%char :: c0 :: z)) with (after ["?"%char] (c0 :: z)). rewrite after_ne by (apply Nq; reflexivity). reflexivity. }
    assert (F3 : starts (s2b "<!--") ("<"%char :: c0 :: z) = false).
    { unfold starts. change (after (s2b "<!--") ("<"%char :: c0 :: z)) with (after ("!"%char :: s2b "--") (c0 :: z)). rewrite after_ne by (apply Nq; reflexivity). reflexivity. }
    assert (F4 : after (s2b "</") ("<"%char :: c0 :: z) = None).
    { change (after (s2b "</") ("<"%char :: c0 :: z)) with (after ["/"%char] (c0 :: z)). apply after_ne, Nq. reflexivity. }
    assert (F5 : after (s2b "<![CDATA[") ("<"%char :: c0 :: z) = None).
    { change (after (s2b "<![CDATA[") ("<"%char :: c0 :: z)) with (after ("!"%char :: s2b "[CDATA[") (c0 :: z)). apply after_ne, Nq. reflexivity. }
    rewrite F6, F3, F4, F5. cbn [orb]. change (after (s2b "<") ("<"%char :: c0 :: z)) with (Some (c0 :: z)). cbv iota.
    assert (Sk : skip (c0 :: z) = c0 :: z) by (apply skip_here, name_white, Hc0).
    rewrite a_node_eq, a_comments_plain.
    + rewrite Sk. replace (after (s2b "<") (c0 :: z)) with (@None bytes) by (symmetry; apply after_ne, Nq; reflexivity). reflexivity.
    + unfold plain. rewrite Sk. split; [apply (after_ne "<" (s2b "!--"))|apply (after_ne "<" (s2b "?"))]; apply Nq; reflexivity.
  - (* text *)
    intros x t l Hn Hb Hl T IH s d n r Hd Es.
    destruct (after_text_start _ _ s T) as [z Ez].
    destruct (IH s (add_item d (IContent x)) (add_to n (IContent x)) r (fine_item _ _ Hd) (stack_item _ _ _ _ Es))
      as (d' & its & Sh & F & Al & St & E).
    exists d', (IContent x :: its). split; [constructor; assumption|]. split; [exact F|].
    split; [eapply alike_trans; [apply alike_item|exact Al]|]. rewrite add_all_cons in St. split; [exact St|].
    cbn [enter] in *. rewrite <- E, <- app_assoc, Ez. apply A_text; assumption.
  - (* text after a comment *)
    intros w x t l Hw Hn Hx Hh Hl T IH s d n r Hd Es.
    destruct (after_text_start _ _ s T) as [z Ez].
    destruct (IH s (add_item d (IContent x)) (add_to n (IContent x)) r (fine_item _ _ Hd) (stack_item _ _ _ _ Es))
      as (d' & its & Sh & F & Al & St & E).
    exists d', (IContent x :: its). split; [constructor; assumption|]. split; [exact F|].
    split; [eapply alike_trans; [apply alike_item|exact Al]|]. rewrite add_all_cons in St. split; [exact St|].
    cbn [enter] in *. rewrite <- E, <- !app_assoc, Ez. unfold B. rewrite a_comments_blank by assumption.
    destruct x as [|c x]; [contradiction|]. cbn [hd] in Hh.
    assert (Nb : ~ blank (c :: x)) by (unfold blank; cbn [forallb]; rewrite Hh; discriminate).
    assert (Sk : skip ((c :: x) ++ "<"%char :: z) = (c :: x) ++ "<"%char :: z) by (apply skip_here, Hh).
    rewrite a_comments_plain.
    + rewrite Sk. apply A_text; assumption.
    + unfold plain. rewrite Sk. pose proof (has_in "<" [] c x Hl). split.
      * apply (after_ne "<" (s2b "!--")). congruence.
      * apply (after_ne "<" (s2b "?")). congruence.
  - (* CDATA *)
    intros p w x t l G Hn Ho _ IH s d n r Hd Es.
    destruct (IH s (add_item d (ICdata x)) (add_to n (ICdata x)) r (fine_item _ _ Hd) (stack_item _ _ _ _ Es))
      as (d' & its & Sh & F & Al & St & E).
    exists d', (ICdata x :: its). split; [constructor; assumption|]. split; [exact F|].
    split; [eapply alike_trans; [apply alike_item|exact Al]|]. rewrite add_all_cons in St. split; [exact St|].
    cbn [enter] in E. rewrite <- E, <- !app_assoc.
    change (str "<![CDATA[" ++ ?z) with ("<"%char :: "!"%char :: s2b "[CDATA[" ++ z).
    rewrite (enter_markup p w "!" _ d G Hd); [|discriminate|reflexivity].
    rewrite A_eq by (try assumption; discriminate).
    set (z := x ++ str "]]>" ++ t ++ s2b "</" ++ s). change ("<"%char :: "!"%char :: s2b "[CDATA[" ++ z) with (s2b "<![CDATA[" ++ z).
    change (skip (s2b "<![CDATA[" ++ z)) with (s2b "<![CDATA[" ++ z).
    change (starts (s2b "<?") (s2b "<![CDATA[" ++ z)) with false. change (starts (s2b "<!--") (s2b "<![CDATA[" ++ z)) with false.
    change (after (s2b "</") (s2b "<![CDATA[" ++ z)) with (@None bytes). cbn [orb]. rewrite after_app.
    unfold z, str. rewrite until_cdata by assumption. rewrite (cstr_id x) by assumption. reflexivity.
  - (* comment *)
    intros p w x t l G Hc _ IH s d n r Hd Es.
    destruct (IH s (add_item d (IComment x)) (add_to n (IComment x)) r (fine_item _ _ Hd) (stack_item _ _ _ _ Es))
      as (d' & its & Sh & F & Al & St & E).
    exists d', (IComment x :: its). split; [constructor; assumption|]. split; [exact F|].
    split; [eapply alike_trans; [apply alike_item|exact Al]|]. rewrite add_all_cons in St. split; [exact St|].
    rewrite <- E, <- !app_assoc. rewrite enter_misc; [|assumption|assumption|reflexivity].
    unfold B, str. rewrite a_comments_comment by assumption. reflexivity.
  - (* processing instruction *)
    intros p w x nm c t l G Hp _ IH s d n r Hd Es. pose proof Hd as [Hh _].
    pose proof (add_pi_item d (Pi nm c) n r Es) as Ep.
    destruct (IH s (add_item d (IPi (Pi nm c))) (add_to n (IPi (Pi nm c))) r (fine_item _ _ Hd) (stack_item _ _ _ _ Es))
      as (d' & its & Sh & F & Al & St & E).
    exists d', (IPi (Pi nm c) :: its). split; [apply (shows_pi (Pi nm c)); assumption|]. split; [exact F|].
    split; [eapply alike_trans; [apply alike_item|exact Al]|]. rewrite add_all_cons in St. split; [exact St|].
    rewrite <- E, <- !app_assoc. destruct (pi_text_start _ _ _ Hp) as (z & Ez).
    rewrite enter_misc; [|assumption|assumption|rewrite Ez; reflexivity].
    unfold B. rewrite (a_comments_pi x nm c _ d Hh Hp), Ep. reflexivity.
Qed.

(** ** the prolog *)
Definition empty_stack (d : pdoc) : Prop := p_stack d = [].
Definition add_pis (d : pdoc) (l : list pi) : pdoc := with_pis d (p_pis d ++ l).
Lemma add_pis_nil d : add_pis d [] = d.
Proof. unfold add_pis. rewrite app_nil_r. destruct d; reflexivity. Qed.
Lemma add_item_none d i : p_stack d = [] -> add_item d i = d.
Proof. unfold add_item. intros ->. reflexivity. Qed.
Lemma add_pi_none d p : p_stack d = [] -> add_pi d p = add_pis d [p].
Proof. unfold add_pi. intros ->. reflexivity. Qed.
Lemma misc_ok b t l : misc_text b t l -> forall d s, p_stack d = [] -> (b = true -> p_header d = true) ->
  a_comments (t ++ s) d = a_comments s (add_pis d l).
Proof.
  induction 1 as [w Hw|w c t l Hw Hc _ IH|w x n c t l Hb Hw Hp _ IH]; intros d s Es Hh.
  - rewrite a_comments_blank, add_pis_nil by assumption. reflexivity.
  - rewrite <- !app_assoc. rewrite a_comments_blank by assumption. unfold str. rewrite a_comments_comment by assumption.
    rewrite add_item_none by assumption. apply IH; assumption.
  - rewrite <- !app_assoc. rewrite a_comments_blank by assumption. rewrite (a_comments_pi x n c _ d (Hh Hb) Hp).
    rewrite add_pi_none by assumption. rewrite IH by (cbn; assumption || auto).
    f_equal. unfold add_pis. cbn. rewrite <- app_assoc. reflexivity.
Qed.

(** what comes before the root element: a tag, or something skipped *)
Lemma elem_plain te x s : elem_text te x -> plain (te ++ s) /\ skip (te ++ s) = te ++ s.
Proof.
  intros H. destruct (elem_text_start _ _ H) as (c & z & -> & Hc).
  assert (Nq : forall q, name_char q = false -> q <> c) by (intros q Hq ->; congruence).
  assert (Sk : skip (("<"%char :: c :: z) ++ s) = ("<"%char :: c :: z) ++ s) by reflexivity.
  split; [|exact Sk]. unfold plain. rewrite Sk. cbn [app]. split.
  - change (after (s2b "<!--") ("<"%char :: c :: z ++ s)) with (after ("!"%char :: s2b "--") (c :: z ++ s)). apply after_ne, Nq. reflexivity.
  - change (after (s2b "<?") ("<"%char :: c :: z ++ s)) with (after ["?"%char] (c :: z ++ s)). apply after_ne, Nq. reflexivity.
Qed.

Lemma body_ok m2 l te x rest d : misc_text true m2 l -> elem_text te x -> p_stack d = [] -> p_preserve d = [] ->
  exists s' d' n, a_body (m2 ++ te ++ rest) d = Some (s', d') /\ shows n x /\ p_stack d' = [] /\ p_root d' = Some n /\
    p_encoding d' = p_encoding d /\ p_standalone d' = p_standalone d /\ p_pis d' = p_pis d ++ l.
Proof.
  intros M E Es Ep. unfold a_body. rewrite a_node_eq.
  rewrite (misc_ok true m2 l M (with_header d) (te ++ rest)) by (cbn; auto).
  destruct (elem_plain te x rest E) as [P Sk]. rewrite a_comments_plain by exact P. rewrite Sk.
  destruct texts_ok as [T _]. destruct (T te x E) as (e' & -> & H).
  change (after (s2b "<") (("<"%char :: e') ++ rest)) with (Some (e' ++ rest)). cbv iota.
  destruct (H rest (add_pis (with_header d) l)) as [_ H'].
  { split; [reflexivity|]. cbn. rewrite Ep. constructor. }
  destruct (H' Es) as (d' & n & Sh & St & R & E1 & E2 & E3 & E4).
  exists rest, d', n. split; [|cbn in *; auto 10].
  destruct (a_open (e' ++ rest) (add_pis (with_header d) l)) as [[[s1 d1] []]|]; exact E4.
Qed.

Lemma several_first s c1 c2 : several (c1 ++ s) c1 c2 = 1 /\ rest2 (c1 ++ s) c1 c2 = s.
Proof. unfold several, rest2. rewrite after_app. auto. Qed.
Lemma several_second s c1 c2 : after c1 (c2 ++ s) = None -> several (c2 ++ s) c1 c2 = 2 /\ rest2 (c2 ++ s) c1 c2 = s.
Proof. unfold several, rest2, rest_of. intros ->. rewrite after_app. auto. Qed.

Lemma until_quotes q v s : quote q -> has "'" v = false -> has "034" v = false ->
  exists it x, until quotes (v ++ q :: s) = Some (v, it, x, s).
Proof.
  intros Hq H1 H2.
  assert (N : forall a c b z, v = a ++ c :: b -> stop_at quotes (c :: z) = None).
  { intros a c b z ->. unfold stop_at. change (existsb ws_chunk quotes) with false. cbn [andb quotes hit]. change (s2b "'") with ["'"%char].
    change (ws_chunk ["'"%char]) with false. change (ws_chunk ["034"%char]) with false. cbv iota.
    rewrite !after_ne; [reflexivity| |]; intros EE; subst c; [apply (has_in _ _ _ _ H2)|apply (has_in _ _ _ _ H1)]; reflexivity. }
  destruct Hq as [->| ->].
  - eexists _, _. rewrite (until_after _ v ("'"%char :: s) ([], 0, "'"%char :: s, s)); [rewrite app_nil_r; reflexivity| |reflexivity].
    intros a c b E. eapply N, E.
  - eexists _, _. rewrite (until_after _ v ("034"%char :: s) ([], 1, "034"%char :: s, s)); [rewrite app_nil_r; reflexivity| |reflexivity].
    intros a c b E. eapply N, E.
Qed.

Lemma field_here name t e q v s : field_text name t e -> e = Some v -> name <> [] -> white (hd NUL name) = false -> nul_free name ->
  quote q -> forall w, blank w -> a_field (name ++ s2b "=") (skip (w ++ t ++ s)) = Some (e, s).
Proof.
  intros F He Hne Hh Hn _ w Hw. destruct F as [|q' v' Hq Hv H1 H2]; [discriminate|].
  rewrite skip_blank by assumption. rewrite <- !app_assoc. cbn [app].
  destruct name as [|c name]; [contradiction|]. cbn [app]. rewrite (skip_here c) by exact Hh.
  set (nm := c :: name) in *.
  change (c :: name ++ str "=" ++ q' :: v' ++ q' :: s) with (nm ++ s2b "=" ++ q' :: v' ++ q' :: s).
  change (c :: name ++ s2b "=") with (nm ++ s2b "=").
  unfold a_field. unfold Q1, Q2. rewrite <- !app_assoc. cbn [app].
  destruct (until_quotes q' v' s Hq H1 H2) as (it & x & U).
  destruct Hq as [->| ->].
  - replace (nm ++ s2b "=" ++ "'"%char :: v' ++ "'"%char :: s) with ((nm ++ s2b "=" ++ ["'"%char]) ++ v' ++ "'"%char :: s)
      by (rewrite <- !app_assoc; reflexivity).
    destruct (several_second (v' ++ "'"%char :: s) (nm ++ s2b "=" ++ ["034"%char]) (nm ++ s2b "=" ++ ["'"%char])) as [S1 S2].
    { rewrite !app_assoc, <- (app_assoc (nm ++ s2b "=")). cbn [app]. generalize (nm ++ s2b "="). clear.
      intros l. induction l as [|y l IH]; cbn [app after]; [reflexivity|]. rewrite Ascii.eqb_refl. exact IH. }
    rewrite S1, S2. change (0 <? 2) with true. cbv iota. rewrite U. reflexivity.
  - replace (nm ++ s2b "=" ++ "034"%char :: v' ++ "034"%char :: s) with ((nm ++ s2b "=" ++ ["034"%char]) ++ v' ++ "034"%char :: s)
      by (rewrite <- !app_assoc; reflexivity).
    destruct (several_first (v' ++ "034"%char :: s) (nm ++ s2b "=" ++ ["034"%char]) (nm ++ s2b "=" ++ ["'"%char])) as [S1 S2].
    rewrite S1, S2. change (0 <? 1) with true. cbv iota. rewrite U. reflexivity.
Qed.
Lemma field_absent c name z : match z with x :: _ => x <> c | [] => True end -> a_field (c :: name) z = Some (None, z).
Proof.
  intros H. unfold a_field, several, rest2, rest_of, Q1, Q2. cbn [app].
  assert (N : forall p, after (c :: p) z = None) by (intros p; destruct z as [|x z]; [reflexivity|apply after_ne; congruence]).
  rewrite !N. destruct (_ || _); reflexivity.
Qed.

Lemma decl_here td e sa s d : decl_text td e sa -> d = pdoc_new -> exists z, td = s2b "<?" ++ z /\
  a_decl (z ++ s) d = Ok (a_comments s (with_standalone (with_encoding d e) sa)).
Proof.
  intros D ->. destruct D as [w1 w2 q w3 te e w4 ts sv w5 H1 H2 Hq H3 He H4 Hs Hyn H5].
  exists (s2b "xml" ++ w1 ++ str "version=" ++ w2 ++ [q] ++ str "1.0" ++ [q] ++ w3 ++ te ++ w4 ++ ts ++ w5 ++ str "?>"). split; [reflexivity|].
  rewrite <- !app_assoc. unfold a_decl. rewrite after_app. cbv zeta.
  rewrite skip_blank by assumption. unfold str.
  change (skip (s2b "version=" ++ ?z)) with (s2b "version=" ++ z). unfold insp, rest_of. rewrite after_app.
  change (1 =? 0) with false. cbv iota. rewrite skip_blank by assumption.
  set (R1 := w3 ++ te ++ w4 ++ ts ++ w5 ++ s2b "?>" ++ s).
  assert (V : (several (skip ([q] ++ s2b "1.0" ++ [q] ++ R1)) V1 V2 =? 0) = false /\
              rest2 (skip ([q] ++ s2b "1.0" ++ [q] ++ R1)) V1 V2 = R1).
  { destruct Hq as [->| ->]; split; reflexivity. }
  destruct V as [V1' V2']. rewrite V1', V2'. unfold R1. clear V1' V2' R1.
  set (R2 := ts ++ w5 ++ s2b "?>" ++ s).
  assert (R2h : exists y r, skip (w4 ++ R2) = y :: r /\ y <> "e"%char /\ (sv = None -> y <> "s"%char)).
  { rewrite skip_blank by assumption. unfold R2. destruct Hs as [|q' v Hq' Hv Ha Hb].
    - cbn [app]. rewrite skip_blank by assumption. eexists _, _. split; [reflexivity|]. split; intros; discriminate.
    - eexists _, _. split; [reflexivity|]. split; intros; discriminate. }
  destruct R2h as (y & r & Ey & Ny & Ny').
  assert (F1 : exists z1, a_field (s2b "encoding=") (skip (w3 ++ te ++ w4 ++ R2)) = Some (e, z1) /\ skip z1 = skip (w4 ++ R2)).
  { destruct e as [v|].
    - exists (w4 ++ R2). split; [|reflexivity]. change (s2b "encoding=") with (s2b "encoding" ++ s2b "=").
      apply (field_here (s2b "encoding") te (Some v) "'" v (w4 ++ R2) He eq_refl); [discriminate|reflexivity|nf|left; reflexivity|assumption].
    - exists (skip (w4 ++ R2)). split; [|apply skip_skip].
      inversion He; subst. cbn [app]. rewrite skip_blank by assumption. rewrite Ey. apply (field_absent "e" (s2b "ncoding=")). exact Ny. }
  destruct F1 as (z1 & F1 & Sk2). rewrite F1. cbv beta iota. rewrite Sk2.
  assert (F2 : exists z2, a_field (s2b "standalone=") (skip (w4 ++ R2)) = Some (sv, z2) /\ skip z2 = s2b "?>" ++ s).
  { destruct sv as [v|].
    - exists (w5 ++ s2b "?>" ++ s). split; [|rewrite skip_blank by assumption; reflexivity]. change (s2b "standalone=") with (s2b "standalone" ++ s2b "=").
      apply (field_here (s2b "standalone") ts (Some v) "'" v (w5 ++ s2b "?>" ++ s) Hs eq_refl); [discriminate|reflexivity|nf|left; reflexivity|assumption].
    - exists (skip (w4 ++ R2)). split; [rewrite Ey; apply (field_absent "s" (s2b "tandalone=")); apply Ny'; reflexivity|].
      rewrite skip_skip, skip_blank by assumption. unfold R2. inversion Hs; subst. cbn [app]. rewrite skip_blank by assumption. reflexivity. }
  destruct F2 as (z2 & F2 & Sk3). rewrite F2. cbv beta iota. rewrite Sk3.
  assert (En : match e with None => pdoc_new | Some v => with_encoding pdoc_new (Some (cstr v)) end = with_encoding pdoc_new e).
  { destruct e as [v|]; [|reflexivity]. inversion He; subst. rewrite cstr_id by assumption. reflexivity. }
  rewrite En. destruct sv as [v|].
  - assert (Y : is_yes v = Ok (bytes_eqb v (s2b "yes"))) by (destruct (Hyn v eq_refl) as [->| ->]; reflexivity).
    rewrite Y. cbn [bind]. rewrite after_app. reflexivity.
  - cbn [bind]. rewrite after_app. reflexivity.
Qed.

Lemma bom_rest b s : b = [] \/ b = bom -> (exists c s', s = c :: s' /\ c <> "239"%char) -> rest_of (b ++ s) BOM = s.
Proof.
  intros [->| ->] (c & s' & -> & Hc); unfold rest_of; [cbn [app]; unfold BOM; rewrite after_ne by congruence; reflexivity|]. change (after BOM (bom ++ ?x)) with (after BOM (BOM ++ x)).
  rewrite after_app. reflexivity.
Qed.

Lemma misc_part m l te x rest d : misc_text true m l -> elem_text te x -> p_stack d = [] -> p_header d = false ->
  exists m', a_comments (m ++ te ++ rest) d = Some (m' ++ te ++ rest, d) /\ misc_text true m' l /\ (m' = [] \/ exists z, m' = s2b "<?" ++ z).
Proof.
  intros M E Ds Dh. induction M as [w Hw|w s t l Hw Hs M IH|w s n c t l _ Hw Hp M IH].
  - exists []. rewrite a_comments_blank by assumption. destruct (elem_plain te x rest E) as [P1 P2].
    rewrite a_comments_plain by assumption. rewrite P2. split; [reflexivity|]. split; [constructor; constructor|auto].
  - destruct IH as (m' & H1 & H2). exists m'. split; [|exact H2]. rewrite <- !app_assoc, a_comments_blank by assumption. unfold str.
    rewrite a_comments_comment by assumption. rewrite add_item_none by assumption. exact H1.
  - exists (s ++ t). split; [|split].
    + rewrite <- !app_assoc, a_comments_blank by assumption. destruct (pi_text_start _ _ _ Hp) as [z ->].
      rewrite <- !app_assoc. rewrite a_comments_eq. change (skip (s2b "<?" ++ z ++ t ++ te ++ rest)) with (s2b "<?" ++ z ++ t ++ te ++ rest).
      unfold a_comment. change (after (s2b "<!--") (s2b "<?" ++ z ++ t ++ te ++ rest)) with (@None bytes).
      cbv iota. rewrite Dh. reflexivity.
    + apply (misc_pi true [] s n c t l); auto. constructor.
    + right. destruct (pi_text_start _ _ _ Hp) as [z ->]. exists (z ++ t). rewrite <- app_assoc. reflexivity.
Qed.
Lemma no_doctype m te x rest : elem_text te x -> (m = [] \/ exists z, m = s2b "<?" ++ z) -> after (s2b "<!DOCTYPE") (m ++ te ++ rest) = None.
Proof.
  intros E [->|[z ->]]; [|reflexivity]. destruct (elem_text_start _ _ E) as (c & z & -> & Hc). cbn [app].
  change (after (s2b "<!DOCTYPE") ("<"%char :: c :: z ++ rest)) with (after ("!"%char :: s2b "DOCTYPE") (c :: z ++ rest)).
  apply after_ne. intros <-. discriminate.
Qed.
Lemma doctype_here t m l te x rest d : has ">" t = false -> misc_text true m l -> elem_text te x -> p_stack d = [] -> p_header d = false ->
  exists m', a_doctype (s2b "<!DOCTYPE" ++ t ++ s2b ">" ++ m ++ te ++ rest) d = Some (m' ++ te ++ rest, d) /\ misc_text true m' l.
Proof.
  intros Ht M E Ds Dh. unfold a_doctype. rewrite after_app.
  change (s2b ">") with [">"%char]. cbn [app]. rewrite (until_char ">" t) by (assumption || reflexivity). cbv iota.
  destruct (misc_part _ _ _ _ rest d M E Ds Dh) as (m' & H1 & H2 & _). exists m'. auto.
Qed.

Lemma finish m l te x rest : misc_text true m l -> elem_text te x -> forall d, p_stack d = [] -> p_preserve d = [] -> p_pis d = [] ->
  exists r n, match a_body (m ++ te ++ rest) d with None => None | Some (_, d) => a_done d end = Some r /\
    d_root r = Some n /\ shows n x /\ d_encoding r = p_encoding d /\ d_standalone r = p_standalone d /\ d_pis r = l.
Proof.
  intros M E d D1 D2 D3. destruct (body_ok m l te x rest d M E D1 D2) as (s' & d' & n & -> & Sh & St & R & E1 & E2 & E3).
  unfold a_done. rewrite St. eexists _, n. split; [reflexivity|]. cbn. rewrite E3, D3. auto.
Qed.

Lemma misc_start m l te x rest : misc_text true m l -> elem_text te x -> (forall z, m <> str "<?" ++ z) ->
  exists c y, m ++ te ++ rest = c :: y /\ c <> "239"%char /\ after (s2b "<?") (m ++ te ++ rest) = None /\ after (s2b "<!DOCTYPE") (m ++ te ++ rest) = None.
Proof.
  intros M E Hp.
  assert (W : forall w z, blank w -> w <> [] -> exists c y, w ++ z = c :: y /\ c <> "239"%char /\ after (s2b "<?") (w ++ z) = None /\ after (s2b "<!DOCTYPE") (w ++ z) = None).
  { intros [|c w] z Hw N; [contradiction|]. unfold blank in Hw; cbn [forallb] in Hw; apply andb_true_iff in Hw; destruct Hw as [Hw _]. exists c, (w ++ z). split; [reflexivity|].
    split; [intros ->; discriminate|]. cbn [app]. split; apply after_ne; intros <-; discriminate. }
  destruct M as [w Hw|w s t l Hw Hs M|w s n c t l _ Hw Hp' M].
  - destruct w as [|w0 w]; [|apply W; [assumption|discriminate]]. cbn [app]. destruct (elem_text_start _ _ E) as (c & z & -> & Hc).
    exists "<"%char, (c :: z ++ rest). split; [reflexivity|]. split; [discriminate|]. cbn [app]. split.
    + change (after (s2b "<?") ("<"%char :: c :: z ++ rest)) with (after ("?"%char :: []) (c :: z ++ rest)). apply after_ne. intros <-. discriminate.
    + change (after (s2b "<!DOCTYPE") ("<"%char :: c :: z ++ rest)) with (after ("!"%char :: s2b "DOCTYPE") (c :: z ++ rest)). apply after_ne. intros <-. discriminate.
  - destruct w as [|w0 w]; [|rewrite <- app_assoc; apply W; [assumption|discriminate]].
    eexists _, _. split; [reflexivity|]. split; [discriminate|]. split; reflexivity.
  - destruct w as [|w0 w]; [|rewrite <- app_assoc; apply W; [assumption|discriminate]].
    exfalso. destruct (pi_text_start _ _ _ Hp') as [z ->]. apply (Hp (z ++ t)). reflexivity.
Qed.

Theorem doc_text_ok t e sa l x : doc_text t e sa l x ->
  exists r n, doc_parse t = Ok (Some r) /\ d_root r = Some n /\ shows n x /\ d_encoding r = e /\ d_standalone r = sa /\ d_pis r = l.
Proof.
  intros D. rewrite parse_ok. unfold a_parse, a_header.
  destruct D as [b td e sa m1 tt m2 l te x rest Hb Hd M1 Ht M2 E|b tt m2 l te x rest Hb Ht M2 E Hp].
  - destruct (decl_here td e sa (m1 ++ tt ++ m2 ++ te ++ rest) pdoc_new Hd eq_refl) as (z & -> & Dz).
    rewrite bom_rest; [|assumption|eexists _, _; split; [reflexivity|discriminate]]. rewrite <- !app_assoc. unfold insp. rewrite after_app. change (1 =? 0) with false. cbv iota.
    unfold rest_of. rewrite after_app. rewrite Dz. cbn [bind]. set (d := with_standalone (with_encoding pdoc_new e) sa).
    rewrite (misc_ok false m1 []) by (assumption || reflexivity || discriminate). rewrite add_pis_nil.
    destruct Ht as [|t Ht].
    + cbn [app]. destruct (misc_part _ _ _ _ rest d M2 E eq_refl eq_refl) as (m' & H1 & H2 & H3). rewrite H1.
      unfold a_doctype. rewrite (no_doctype m' te x) by assumption. cbn [bind].
      destruct (finish m' l te x rest H2 E d eq_refl eq_refl eq_refl) as (r & n & -> & H). exists r, n. auto.
    + rewrite <- !app_assoc. rewrite a_comments_plain by (split; reflexivity).
      change (skip (str "<!DOCTYPE" ++ t ++ str ">" ++ m2 ++ te ++ rest)) with (str "<!DOCTYPE" ++ t ++ str ">" ++ m2 ++ te ++ rest).
      destruct (doctype_here t m2 l te x rest d Ht M2 E eq_refl eq_refl) as (m' & H1 & H2). unfold str. rewrite H1. cbn [bind].
      destruct (finish m' l te x rest H2 E d eq_refl eq_refl eq_refl) as (r & n & -> & H). exists r, n. auto.
  - destruct Ht as [|t Ht].
    + cbn [app]. destruct (misc_start m2 l te x rest M2 E (Hp eq_refl)) as (c & y & Ec & Nc & N1 & N2).
      rewrite bom_rest; [|assumption|exists c, y; auto]. unfold insp. rewrite N1.
      replace (length (m2 ++ te ++ rest) <? length (s2b "<?"))%nat with false.
      2: { symmetry. apply Nat.ltb_ge. destruct (elem_text_start _ _ E) as (c1 & z1 & -> & _). rewrite !app_length. cbn [length s2b list_ascii_of_string]. lia. }
      change (0 =? 0) with true. cbv iota. cbn [bind].
      unfold a_doctype. rewrite N2. cbn [bind].
      destruct (finish m2 l te x rest M2 E pdoc_new eq_refl eq_refl eq_refl) as (r & n & -> & H). exists r, n. auto.
    + rewrite <- !app_assoc. rewrite bom_rest; [|assumption|eexists _, _; split; [reflexivity|discriminate]].
      change (insp (str "<!DOCTYPE" ++ t ++ str ">" ++ m2 ++ te ++ rest) (s2b "<?") =? 0) with true. cbv iota. cbn [bind].
      destruct (doctype_here t m2 l te x rest pdoc_new Ht M2 E eq_refl eq_refl) as (m' & H1 & H2). unfold str. rewrite H1. cbn [bind].
      destruct (finish m' l te x rest H2 E pdoc_new eq_refl eq_refl eq_refl) as (r & n & -> & H). exists r, n. auto.
Qed.
