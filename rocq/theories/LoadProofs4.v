(** Loading reads nothing outside the buffer, and ends when there is no "%". *)
From Verif Require Import Prelude StrModel StrSpec StrProofs StrProofs2 StrProofs3 TreeModel StreamModel StreamProofs ParseModel ParseProofs
  DtdModel DtdDocModel LoadModel LoadProofs LoadProofs2 LoadProofs3.
Open Scope Z_scope.
Local Arguments Z.of_nat : simpl never.
Local Arguments Z.to_nat : simpl never.
Local Arguments Z.add : simpl never.
Local Arguments Z.sub : simpl never.
Local Arguments Z.eqb : simpl never.
Local Arguments Z.ltb : simpl never.
Local Arguments Z.leb : simpl never.

(** [s'] is what [s] ends with *)
Definition tail_of (s' s : bytes) : Prop := exists a, s = a ++ s'.
Lemma tail_refl s : tail_of s s.
Proof. exists []. reflexivity. Qed.
Lemma tail_trans a b c : tail_of a b -> tail_of b c -> tail_of a c.
Proof. intros [x ->] [y ->]. exists (y ++ x). apply app_assoc. Qed.
Lemma tail_len a b : tail_of a b -> (length a <= length b)%nat.
Proof. intros [x ->]. rewrite app_length. lia. Qed.
Lemma tail_skip s : tail_of (skip s) s.
Proof. destruct (skip_split s) as (w & E & _). exists w. exact E. Qed.
Lemma tail_after c s r : after c s = Some r -> tail_of r s.
Proof. intros H. exists c. apply after_split, H. Qed.
Lemma tail_rest_of s c : tail_of (rest_of s c) s.
Proof. unfold rest_of. destruct (after c s) eqn:E; [eapply tail_after; exact E|apply tail_refl]. Qed.
Lemma tail_until chunks s t it a b : Forall good_chunk chunks -> until chunks s = Some (t, it, a, b) -> tail_of a s /\ tail_of b s.
Proof. intros G H. destruct (until_split _ G _ _ _ _ _ H) as (m & -> & -> & _). split; [exists t; reflexivity|exists (t ++ m); apply app_assoc]. Qed.
Ltac tl := repeat (first [assumption | apply tail_refl |
  match goal with |- tail_of (skip ?z) _ => eapply tail_trans; [apply tail_skip|] | T : tail_of ?x _ |- tail_of ?x _ => eapply tail_trans; [exact T|] end]).

Lemma tail_which {A} (l : list (bytes * A)) : forall s d s' x, t_which s l d = (s', x) -> tail_of s' s.
Proof.
  induction l as [|[c v] l IH]; intros s d s' x H; cbn [t_which] in H; [inversion H; subst; apply tail_refl|].
  destruct (after c s) eqn:E; [inversion H; subst; eapply tail_after; exact E|eapply IH; exact H].
Qed.
Lemma tail_close : forall stack s chunk cur s' c o k, t_close s chunk cur stack = (s', c, o, k) -> tail_of s' s.
Proof.
  induction stack as [|up stack IH]; intros s chunk cur s' c o k H; cbn [t_close] in H;
    (destruct (t_which (skip s) reps_of TOne) as [s1 t] eqn:E1; apply tail_which in E1);
    (destruct (t_which (skip s1) seps_of chunk) as [s2 c2] eqn:E2; apply tail_which in E2).
  - inversion H; subst. eapply tail_trans; [apply tail_rest_of|]. tl.
  - destruct (after (s2b ")") (skip s2)) as [s3|] eqn:E; [apply tail_after in E; apply IH in H|inversion H; subst]; tl.
Qed.
Lemma tail_name s ty cur stack x chunk s' c ty' o k : t_name s ty cur stack x chunk = Some (s', c, ty', o, k) -> tail_of s' s.
Proof.
  unfold t_name. assert (tail_of (fst (if (chunk =? 0)%Z then t_which (skip s) chunks_of chunk else (s, chunk))) s) as L0.
  { destruct (chunk =? 0); [|apply tail_refl]. destruct (t_which (skip s) chunks_of chunk) eqn:E. apply tail_which in E. tl. }
  destruct (if chunk =? 0 then t_which (skip s) chunks_of chunk else (s, chunk)) as [s1 c1]. cbn [fst] in L0. intros H1.
  assert (forall s2 c2, (if (c1 =? 4) || (c1 =? 5) || (c1 =? 6) then t_separator s1 else Some (s1, c1)) = Some (s2, c2) -> tail_of s2 s1) as L2.
  { intros s2 c2. destruct (_ || _ || _); [|intros E; inversion E; apply tail_refl]. unfold t_separator.
    destruct (t_which (skip s1) ends_of None) as [s3 [c3|]] eqn:E; [|discriminate]. apply tail_which in E. intros X; inversion X; subst. tl. }
  destruct (if (c1 =? 4) || (c1 =? 5) || (c1 =? 6) then t_separator s1 else Some (s1, c1)) as [[s2 c2]|]; [|discriminate]. specialize (L2 _ _ eq_refl).
  destruct (retype _ c2) as [nt|]; [|discriminate].
  destruct (c2 =? 3); [|inversion H1; subst; tl].
  destruct (t_close _ _ _ _) as [[[s4 c4] o4] k4] eqn:E. apply tail_close in E. inversion H1; subst. tl.
Qed.
Lemma tail_spec : forall f s ty cur stack s' x, t_spec f s ty cur stack = Ok (Some (s', x)) -> tail_of s' s.
Proof.
  induction f as [|f IH]; intros s ty cur stack s' x H; [discriminate|]. cbn [t_spec] in H.
  destruct (after (s2b "(") (skip s)) as [s1|] eqn:E; [apply tail_after in E; apply IH in H; tl|].
  destruct (until particle_stops (skip s)) as [[[[y c] a] b]|] eqn:U; [|discriminate].
  apply tail_until in U as [_ U]; [|apply stops_good].
  destruct (c =? 8); [discriminate|]. destruct (t_name b ty cur stack (cstr y) c) as [[[[[s2 c2] ty2] o2] k2]|] eqn:N; [|discriminate].
  apply tail_name in N. destruct (_ || _); [apply IH in H; tl|]. inversion H; subst. tl.
Qed.
Lemma tail_content s s' x : t_content s = Ok (Some (s', x)) -> tail_of s' s.
Proof.
  unfold t_content. destruct (after (s2b "EMPTY") s) eqn:E1; [intros H; inversion H; subst; eapply tail_after; exact E1|].
  destruct (after (s2b "ANY") s) eqn:E2; [intros H; inversion H; subst; eapply tail_after; exact E2|]. intros H. apply bindo_ok in H as ([s1 [ty p]] & H & E). inversion E; subst.
  unfold t_read_spec in H. destruct (_ =? 0); [discriminate|]. apply tail_spec in H. eapply tail_trans; [exact H|]. eapply tail_trans; [apply tail_rest_of|apply tail_skip].
Qed.
Lemma content_total s : exists o, t_content s = Ok o.
Proof.
  unfold t_content. destruct (after (s2b "EMPTY") s); [eauto|]. destruct (after (s2b "ANY") s); [eauto|].
  destruct (read_spec_total s) as ([[s' [ty p]]|] & ->); cbn [bindo]; eauto.
Qed.
(** a declaration takes away at least its first byte *)
Definition eats (s' s : bytes) : Prop := tail_of s' s /\ (length s' < length s)%nat.
Lemma eats_after c s r s' : after c s = Some r -> c <> [] -> tail_of s' r -> eats s' s.
Proof.
  intros H N T. split; [eapply tail_trans; [exact T|eapply tail_after; exact H]|]. apply after_len in H. apply tail_len in T. destruct c; [contradiction|]. simpl in H. lia.
Qed.
Lemma eats_skip s' s : eats s' (skip s) -> eats s' s.
Proof. intros [T L]. split; [tl|]. pose proof (skip_len s). lia. Qed.
Lemma element_eats s l : exists o, t_element s l = Ok o /\ forall s' l', o = Some (s', l') -> eats s' s.
Proof.
  unfold t_element. destruct (after (s2b "<!ELEMENT") (skip s)) as [s1|] eqn:E; [|eexists; split; [reflexivity|discriminate]].
  destruct (until _ (skip s1)) as [[[[x m] a] b]|] eqn:U; [|eexists; split; [reflexivity|discriminate]].
  apply tail_until in U as [U _]; [|gc]. destruct (_ || _); [eexists; split; [reflexivity|discriminate]|].
  destruct (content_total (skip a)) as ([[s2 [ty p]]|] & EC); rewrite EC; cbn [bindo]; [|eexists; split; [reflexivity|discriminate]].
  apply tail_content in EC. destruct (existsb _ _); [eexists; split; [reflexivity|discriminate]|].
  destruct (_ =? 0); [eexists; split; [reflexivity|discriminate]|]. eexists. split; [reflexivity|]. intros s' l' X. inversion X; subst.
  apply eats_skip. eapply eats_after; [exact E|discriminate|]. eapply tail_trans; [apply tail_rest_of|]. tl.
Qed.
Lemma which_eats {A} (l : list (bytes * option A)) : forall s s' x, Forall good_chunk (map fst l) -> t_which s l None = (s', Some x) -> eats s' s.
Proof.
  induction l as [|[c v] l IH]; intros s s' x G H; cbn [t_which] in H; [discriminate|]. inversion G as [|? ? [_ N] G']; subst.
  destruct (after c s) eqn:E; [|eapply IH; eassumption]. inversion H; subst. eapply eats_after; [exact E|exact N|apply tail_refl].
Qed.
Lemma eats_tail a b c : tail_of a b -> eats b c -> eats a c.
Proof. intros T [T' L]. split; [tl|]. apply tail_len in T. lia. Qed.
Lemma att_type_eats s : exists o, t_att_type s = Ok o /\ forall s' ty, o = Some (s', ty) -> eats s' s.
Proof.
  unfold t_att_type. destruct (t_which s att_types None) as [s1 o] eqn:E.
  destruct o as [ty|]; [|eexists; split; [reflexivity|discriminate]]. apply which_eats in E; [|apply att_types_good].
  assert (forall ty, exists o, Ok (Some (s1, ty : at_type)) = Ok o /\ forall s' ty, o = Some (s', ty) -> eats s' s) as G.
  { intros t. eexists. split; [reflexivity|]. intros ? ? X. inversion X; subst. exact E. }
  destruct ty; try apply G. destruct (until [s2b ")"] s1) as [[[[x i] a] b]|] eqn:U; [|eexists; split; [reflexivity|discriminate]].
  apply tail_until in U as [_ U]; [|gc]. destruct (enum_total (cstr x) (cstr_nul_free x)) as (l & ->). cbn [bind]. eexists. split; [reflexivity|].
  intros ? ? X. inversion X; subst. eapply eats_tail; eassumption.
Qed.
Lemma tail_default s s' d : t_default s = Some (s', d) -> tail_of s' s.
Proof.
  unfold t_default. destruct (t_which s _ None) as [s1 o] eqn:E. apply tail_which in E. destruct o; [intros X; inversion X; subst; exact E|].
  destruct (after (s2b "#FIXED") s1) as [s2|] eqn:F; [apply tail_after in F|]; intros X;
  (destruct (after dquote _); [inversion X; subst|destruct (after (s2b "'") _); [inversion X; subst|discriminate]]); tl.
Qed.
Lemma tail_value s s' v : t_value s = (s', v) -> tail_of s' s.
Proof.
  unfold t_value. destruct (t_which s _ None) as [s1 o] eqn:E. assert (forall q, o = Some q -> good_chunk q) as G.
  { intros q ->. cbn [t_which] in E. destruct (after dquote s); [inversion E; subst; split; [nf|discriminate]|]. destruct (after (s2b "'") s); [inversion E; subst; split; [nf|discriminate]|discriminate]. }
  apply tail_which in E. destruct o as [q|]; [|intros X; inversion X; subst; exact E].
  destruct (until [q] s1) as [[[[x i] a] b]|] eqn:U; intros X; inversion X; subst; [|exact E]. apply tail_until in U as [_ U]; [|repeat constructor; apply G; reflexivity].
  tl.
Qed.
Lemma no_percent c s ents : tail_of s c -> ~ In "%"%char c -> t_expand s ents = Some s.
Proof.
  intros [a ->] N. unfold t_expand. destruct (after (s2b "%") s) as [r|] eqn:E; [|reflexivity]. apply after_split in E. subst. destruct N. apply in_or_app. right. left. reflexivity.
Qed.
Lemma atts_total ents c : ~ In "%"%char c -> forall n s f decls id idref, tail_of s c -> (length s <= n)%nat -> (n < f)%nat ->
  exists o, t_atts f ents s decls id idref = Ok o /\ forall s' x, o = Some (s', x) -> tail_of s' s.
Proof.
  intros NP. induction n as [n IH] using lt_wf_ind. intros s [|f] decls id idref T L Lf; [lia|]. cbn [t_atts].
  destruct (after (s2b ">") (skip s)) as [s1|] eqn:E.
  { eexists. split; [reflexivity|]. intros ? ? X. inversion X; subst. apply tail_after in E. tl. }
  destruct (until [s2b " "] (skip s)) as [[[[x i] a] b]|] eqn:U; [|eexists; split; [reflexivity|discriminate]].
  apply tail_until in U as [T1 _]; [|gc]. rewrite (no_percent c) by (assumption || tl).
  destruct (att_type_eats (skip a)) as ([[s2 ty]|] & E2 & T2); rewrite E2; cbn [bindo]; [|eexists; split; [reflexivity|discriminate]].
  specialize (T2 _ _ eq_refl). destruct T2 as [T2 L2]. destruct (t_default (skip s2)) as [[s3 df]|] eqn:E3; [|eexists; split; [reflexivity|discriminate]].
  apply tail_default in E3. destruct (bad_id _ _ _ _); [eexists; split; [reflexivity|discriminate]|].
  destruct (t_value (skip s3)) as [s4 v] eqn:E4. apply tail_value in E4. destruct (bad_enum _ _); [eexists; split; [reflexivity|discriminate]|].
  assert (L5 : (length s4 < length s)%nat).
  { assert (tail_of s4 s2) as T6 by tl. assert (tail_of (skip a) s) as T7 by tl. apply tail_len in T6, T7. lia. }
  destruct (IH (n - 1)%nat ltac:(lia) s4 f (decls ++ [AtDecl (cstr x) ty df v]) (flag_id id ty) (idref || is_idrefs ty)) as (o & E5 & T6); [tl|lia|lia|].
  exists o. split; [exact E5|]. intros ? ? X. apply T6 in X. tl.
Qed.
Lemma attlist_total c f s l : ~ In "%"%char c -> tail_of s c -> (length s < f)%nat ->
  exists o, t_attlist f s l = Ok o /\ forall s' x, o = Some (s', x) -> tail_of s' s.
Proof.
  intros NP T L. unfold t_attlist. destruct (until [s2b " "] (skip s)) as [[[[x i] a] b]|] eqn:U; [|eexists; split; [reflexivity|discriminate]].
  apply tail_until in U as [U _]; [|gc]. assert (tail_of a s) as T1 by tl. pose proof (tail_len _ _ T1).
  destruct (atts_total (l_entities l) c NP (length s) a f (decls_of (l_attrs l) (cstr x)) (l_id l) (l_idref l)) as (o & E & To); [tl|lia|lia|].
  rewrite E. destruct o as [[s' [[ds id] idref]]|]; cbn [bindo]; [|eexists; split; [reflexivity|discriminate]]. specialize (To _ _ eq_refl).
  eexists. split; [reflexivity|]. intros ? ? X. inversion X; subst. tl.
Qed.
Lemma entity_eats s l s' l' : t_entity s l = Some (s', l') -> eats s' s.
Proof.
  unfold t_entity. destruct (after (s2b "<!ENTITY") (skip s)) as [s1|] eqn:E; [|discriminate]. intros H.
  assert (exists s2 ty, match after (s2b "%") (skip s1) with Some s => (skip s, EParameter) | None => (skip s1, EGeneral) end = (s2, ty) /\ tail_of s2 s1) as (s2 & ty & E2 & T2).
  { destruct (after (s2b "%") (skip s1)) as [r|] eqn:A; [apply tail_after in A|]; do 2 eexists; (split; [reflexivity|]); tl. }
  rewrite E2 in H. destruct (until [s2b " "] s2) as [[[[x i] a] b]|] eqn:U; [|discriminate]. apply tail_until in U as [U _]; [|gc].
  destruct (t_which (skip a) ent_starts None) as [s3 o] eqn:E3. assert (forall q, o = Some (Some q) -> good_chunk q) as G.
  { intros q ->. unfold ent_starts in E3. cbn [t_which] in E3. destruct (after (s2b "PUBLIC") _); [discriminate|]. destruct (after (s2b "SYSTEM") _); [discriminate|].
    destruct (after dquote _); [inversion E3; split; [nf|discriminate]|]. destruct (after (s2b "'") _); [inversion E3; split; [nf|discriminate]|discriminate]. }
  apply tail_which in E3. destruct o as [q|]; [|discriminate].
  assert (exists s4 v, match q with None => (s3, None) | Some q => match until [q] s3 with Some (y, _, _, s) => (s, Some (cstr y)) | None => (s3, None) end end = (s4, v) /\ tail_of s4 s3)
    as (s4 & v & E4 & T4).
  { destruct q as [q|]; [|do 2 eexists; split; [reflexivity|apply tail_refl]]. destruct (until [q] s3) as [[[[y j] a'] b']|] eqn:U2; do 2 eexists; (split; [reflexivity|]); [|apply tail_refl].
    apply tail_until in U2 as [_ U2]; [exact U2|]. repeat constructor; apply G; reflexivity. }
  rewrite E4 in H. destruct (after (s2b ">") (skip s4)) as [s5|] eqn:E5; [|discriminate]. apply tail_after in E5. inversion H; subst.
  apply eats_skip. eapply eats_after; [exact E|discriminate|]. tl.
Qed.
Lemma comments_tail : forall n s s' d', (length s <= n)%nat -> forall d, p_header d = false -> a_comments s d = Some (s', d') -> tail_of s' s.
Proof.
  induction n as [n IH] using lt_wf_ind. intros s s' d' L d Hd H. rewrite a_comments_eq in H.
  destruct (a_comment (skip s) d) as [[[s1 d1] found]|] eqn:C; [|discriminate]. pose proof (a_comment_header _ _ _ _ _ C) as H1. destruct (a_comment_len _ _ _ _ _ C) as [L1 L2].
  rewrite H1, Hd in H. assert (tail_of s1 s) as T1.
  { unfold a_comment in C. destruct (after (s2b "<!--") (skip s)) as [r|] eqn:A; [|inversion C; subst; tl]. apply tail_after in A.
    destruct (until [s2b "-->"] r) as [[[[t i] a] b]|] eqn:U; [|discriminate]. apply tail_until in U as [_ U]; [|gc].
    destruct t; inversion C; subst; tl. }
  destruct found; [|inversion H; subst; tl]. specialize (L2 eq_refl). pose proof (skip_len s). pose proof (skip_len s1).
  apply (IH (n - 1)%nat) in H; [tl|lia|lia|congruence].
Qed.
(** the loop ends: each round takes something, but for the four allowed not to *)
Lemma dtd_total c : ~ In "%"%char c -> forall n s f l it, tail_of s c -> (0 <= it <= 3) -> (length s + Z.to_nat (3 - it) < n)%nat -> (n <= f)%nat ->
  exists o, t_dtd f s l it = Ok o.
Proof.
  intros NP. induction n as [n IH] using lt_wf_ind. intros s [|f] l it T Hit L Lf; [lia|]. cbn [t_dtd]. destruct s as [|x s]; [eauto|].
  set (s0 := x :: s) in *. clearbody s0. destruct (a_comments s0 pdoc_new) as [[s1 d1]|] eqn:C; [|eauto]. apply (comments_tail (length s0)) in C; [|lia|reflexivity].
  pose proof (tail_len _ _ C) as L1.
  destruct (after (s2b "<!ELEMENT") s1).
  { destruct (element_eats s1 l) as ([[s2 l2]|] & E & T2); rewrite E; cbn [bindo]; [|eauto]. destruct (T2 _ _ eq_refl) as [T3 L3].
    apply (IH (n - 1)%nat); [lia|tl|lia|lia|lia]. }
  destruct (after (s2b "<!ATTLIST") s1) as [s2|] eqn:A.
  { apply after_len in A as LA. cbn in LA. apply tail_after in A. destruct (attlist_total c f s2 l NP) as ([[s3 l3]|] & E & T2); [tl|lia| |]; rewrite E; cbn [bindo]; [|eauto].
    specialize (T2 _ _ eq_refl). apply tail_len in T2 as L3. apply (IH (n - 1)%nat); [lia|tl|lia|lia|lia]. }
  destruct (after (s2b "<!ENTITY") s1).
  { destruct (t_entity s1 l) as [[s2 l2]|] eqn:E; cbn [bindo]; [|eauto]. apply entity_eats in E as [T3 L3]. apply (IH (n - 1)%nat); [lia|tl|lia|lia|lia]. }
  destruct (Z.eqb_spec it 3); [eauto|]. apply (IH (n - 1)%nat); [lia|tl|lia|lia|lia].
Qed.

(** ** what the caller sees *)
Lemma parse_text f content : dtd_parse f content =
  match t_dtd f content load_new 0 with Ok (Some (_, l)) => finish f l | Ok None => Ok None | NoFuel => NoFuel | UB => UB end.
Proof.
  unfold dtd_parse, parse_common. pose proof (dtd_ok f (stream_mem content) content load_new 0 (rest_new content)) as H. unfold simr in H.
  destruct (t_dtd f content load_new 0) as [[[s l]|]| |]; [destruct H as (st & -> & _); reflexivity|rewrite H; reflexivity|destruct H|rewrite H; reflexivity].
Qed.
Lemma text_no_ub f s l it : t_dtd f s l it <> UB.
Proof.
  intros H. pose proof (dtd_ok f (stream_mem s) s l it (rest_new s)) as X. rewrite H in X. exact X.
Qed.
