(** Validation against a loaded definition; when loading ends. *)
From Verif Require Import Prelude StrModel StrSpec StrProofs StrProofs2 StrProofs3 TreeModel StreamModel StreamProofs ParseModel ParseProofs
  XmlSpec GramProofs GramProofs2 DtdModel DtdSpec DtdProofs DtdDocModel DtdDocSpec DtdDocProofs3 DtdDocProofs4 LoadModel LoadSpec
  LoadProofs LoadProofs2 LoadProofs3 LoadProofs4 LoadProofs5 LoadProofs6 LoadProofs7 LoadProofs8.
Open Scope Z_scope.
Local Arguments Z.of_nat : simpl never.
Local Arguments Z.to_nat : simpl never.
Local Arguments Z.add : simpl never.
Local Arguments Z.sub : simpl never.
Local Arguments Z.eqb : simpl never.
Local Arguments Z.ltb : simpl never.
Local Arguments Z.leb : simpl never.

(** ** what was declared is what documents are checked against *)
Lemma loaded_ok ds d ents : loaded ds d ents -> declared_well ds -> elements_of ds <> [] -> (forall x, NoDup (map ad_name (atts_of ds x))) -> DtdDocSpec.dtd_ok d.
Proof.
  intros [L1 L2 L3 L4 L5 L6 L7] [W1 W2 W3 W4] Ne Na. split.
  - replace (map el_name (d_elements d)) with (map fst (elements_of ds)); [exact W1|]. clear -L1. induction L1 as [|x e l m H F IH]; [reflexivity|].
    cbn [map]. rewrite IH. destruct H as [-> _]. reflexivity.
  - destruct (d_top d) as [c|]; [|contradiction]. exists c. split; [reflexivity|apply L7].
  - exact L2.
  - intros x l I. apply L3 in I as [_ ->]. apply Na.
  - intros x l a b I. apply L3 in I as [_ ->]. apply (W2 x).
  - intros x l a I Ia T. apply L3 in I as [_ ->]. apply L5. unfold atts_of in Ia. apply in_flat_map in Ia as (dc & Id & Ia). destruct dc as [|y l|]; try destruct Ia.
    destruct (bytes_eqb y x); [|destruct Ia]. exists y, l, a. rewrite T. auto.
  - intros x l a I Ia T. apply L3 in I as [_ ->]. apply L6. unfold atts_of in Ia. apply in_flat_map in Ia as (dc & Id & Ia). destruct dc as [|y l|]; try destruct Ia.
    destruct (bytes_eqb y x); [|destruct Ia]. exists y, l, a. rewrite T. auto.
Qed.
Lemma shown_grouped : forall p, all_shown p = true -> grouped p = true.
Proof.
  fix IH 1. intros [x t|ty t ps] H; [reflexivity|]. cbn [all_shown] in H. apply andb_true_iff in H as [H1 H2]. cbn [grouped]. rewrite H1. cbn [orb andb]. clear H1.
  induction ps as [|p ps IHps]; [reflexivity|]. cbn [forallb] in *. apply andb_true_iff in H2 as [Hp H2]. rewrite (IH p Hp), (IHps H2). reflexivity.
Qed.
Lemma exact_grouped p : exact p = true -> grouped_top p = true.
Proof.
  destruct p as [x t|ty t ps]; [reflexivity|]. cbn [exact grouped_top]. intros H. apply andb_true_iff in H as [H1 H2]. rewrite H1. cbn [andb].
  rewrite forallb_forall in *. intros q I. apply shown_grouped, H2, I.
Qed.
Lemma every_all : forall e, every_elem e = all_elems e.
Proof. reflexivity. Qed.

Lemma mixed_safe xs : safe_top (mixed xs) = true.
Proof.
  assert (forallb safe (map (fun x => Leaf x TOne) xs) = true) as H1 by (induction xs; [reflexivity|assumption]).
  assert (forallb stays (map (fun x => Leaf x TOne) xs) = true) as H2 by (clear H1; induction xs; [reflexivity|assumption]).
  unfold mixed. cbn [safe_top map forallb]. rewrite H1, H2. reflexivity.
Qed.
Lemma dtd_toks text ds : dtd_text text ds -> forall x c, In (x, c) (elements_of ds) -> is_tok x.
Proof.
  intros D. induction D as [|m t d u l M T D IH]; intros x c I; [destruct I|]. change (elements_of (d :: l)) with (match d with DElement x c => [(x, c)] | _ => [] end ++ elements_of l) in I.
  apply in_app_or in I as [I|I]; [|eapply IH; exact I]. destruct T; try (destruct I; fail). destruct I as [E|[]]. injection E as -> ->. assumption.
Qed.
Lemma valid_as_written text ds : dtd_text text ds -> declared_well ds -> elements_of ds <> [] -> (forall x, NoDup (map ad_name (atts_of ds x))) ->
  (forall x p, In (x, CKids p) (elements_of ds) -> exact p = true /\ safe_top p = true) -> (forall x, ~ In (x, CAny) (elements_of ds)) ->
  exists n, forall fuel d ents, (n <= fuel)%nat -> dtd_parse fuel text = Ok (Some (d, ents)) ->
    forall f1 f2 root, validate f1 f2 d root = Ok true -> forall e, In e (every_elem root) ->
      exists c, In (e_name e, c) (elements_of ds) /\ follows c e /\ (listed ds (e_name e) -> atts_follow (atts_of ds (e_name e)) e).
Proof.
  intros D W Ne Na Ex An.
  destruct (load_ok text ds D W) as (n & L); [intros x p I; apply exact_grouped, (Ex x p I)|]. exists n. intros fuel d ents Lf E f1 f2 root V e I.
  destruct (L fuel Lf) as (d' & ents' & E' & Ld). rewrite E in E'. injection E' as <- <-. pose proof (loaded_ok ds d ents Ld W Ne Na) as Ok.
  assert (No : no_any d).
  { intros c Ic T. destruct Ld as [L1 _ _ _ _ _ _]. destruct (forall2_in _ _ _ c L1 Ic) as ([x k] & Ik & _ & R). cbn [snd] in R. destruct k; try (apply An in Ik; exact Ik).
    - destruct R as [R _]. congruence.
    - congruence.
    - destruct R as [R _]. congruence.
    - destruct R as [R _]. congruence. }
  assert (Ie : forall e, In e (every_elem root) -> In e (elems d root)) by (intros e0 I0; rewrite (elems_all d root No), <- every_all; exact I0).
  assert (Nm : forall e, In e (every_elem root) -> exists k, In (e_name e, k) (elements_of ds)).
  { intros e0 I0. destruct (doc_content_sound f1 f2 d root e0 Ok V (Ie e0 I0)) as (c & [Ic En] & _). destruct Ld as [L1 _ _ _ _ _ _].
    destruct (forall2_in _ _ _ c L1 Ic) as ([x k] & Ik & Ex0 & _). cbn [fst] in Ex0. exists k. rewrite <- En, Ex0. exact Ik. }
  destruct (doc_content_sound f1 f2 d root e Ok V (Ie e I)) as (c & [Ic En] & Cv). pose proof Ld as [L1 _ L3 _ _ _ _].
  destruct (forall2_in _ _ _ c L1 Ic) as ([x k] & Ik & Ex0 & R). cbn [fst snd] in Ex0, R. exists k. split; [rewrite <- En, Ex0; exact Ik|]. split.
  - unfold content_valid in Cv. destruct k as [| | |xs|p]; cbn [follows].
    + destruct R as [R _]. rewrite R in Cv. apply Cv. intros Q. congruence.
    + exact Logic.I.
    + rewrite R in Cv. apply Cv. intros Q. congruence.
    + destruct R as (R & Rl & Rm). rewrite R in Cv. destruct Cv as (p & Ep & Lp).
      { intros _. exists (mixed xs). split; [split; [exact Rl|exact Rm]|apply mixed_safe]. }
      rewrite Rl in Ep. injection Ep as <-.
      assert (Sub : forall k, In k (e_subs e) -> In k (every_elem root)).
      { clear -I. intros k Ik. revert e I k Ik. assert (G : forall r e k, In e (every_elem r) -> In k (e_subs e) -> In k (every_elem r)); [|intros; eapply G; eassumption].
        fix IH 1. intros [nm at_ em l] e k [<-|I] Ik.
        - cbn [e_subs] in Ik. right. cbn [e_subs]. apply in_flat_map. exists k. split; [exact Ik|]. destruct k; left; reflexivity.
        - right. cbn [e_subs] in *. clear nm at_ em. induction l as [|y l IHl]; [destruct I|]. cbn [flat_map] in *. apply in_app_or in I as [I|I]; apply in_or_app.
          + left. eapply IH; eassumption.
          + right. apply IHl. exact I. }
      intros y Iy. apply (proj1 (mixed_lang xs (map e_name (e_subs e)) ltac:(
        intros Q; apply in_map_iff in Q as (z & Ez & Iz); destruct (Nm z (Sub z Iz)) as (kz & Ikz); apply (dtd_toks text ds D) in Ikz;
        apply (tok_not_pcdata _ Ikz); exact Ez)) Lp). apply in_map. exact Iy.
    + destruct R as (R & q & Rl & Rm & _ & Rq). destruct (Ex x p Ik) as [Hx Hs]. rewrite (Rq Hx) in *. rewrite R in Cv. destruct Cv as (q' & Eq & Lq).
      { intros _. exists p. split; [split; [exact Rl|exact Rm]|exact Hs]. }
      rewrite Rl in Eq. injection Eq as <-. exact Lq.
  - intros Li. apply (doc_atts_sound f1 f2 d root e Ok V (Ie e I)). apply L3. split; [exact Li|reflexivity].
Qed.

(** ** no access outside the text *)
Lemma parent_no_ub fuel : forall stack x, parent_loop fuel stack x <> UB.
Proof. induction fuel as [|fuel IH]; intros stack x; [discriminate|]. cbn [parent_loop]. destruct stack as [|[y t|ty t ps] stack]; [discriminate| |apply IH]. destruct (bytes_eqb y x); [discriminate|apply IH]. Qed.
Lemma pass_no_ub fuel : forall l r ch, root_pass fuel l r ch <> UB.
Proof.
  induction l as [|e l IH]; intros r ch; [discriminate|]. cbn [root_pass]. assert (is_parent fuel e r <> UB) as N.
  { unfold is_parent. destruct (el_list e) as [[|]|]; try discriminate. apply parent_no_ub. }
  destruct (is_parent fuel e r) as [[]| |]; cbn [bind]; try congruence; apply IH.
Qed.
Lemma loop_no_ub pfuel l : forall fuel r, root_loop fuel pfuel l r <> UB.
Proof.
  induction fuel as [|fuel IH]; intros r; [discriminate|]. cbn [root_loop]. pose proof (pass_no_ub pfuel l r false) as N.
  destruct (root_pass pfuel l r false) as [[r' []]| |]; cbn [bind]; try congruence; try discriminate; apply IH.
Qed.
Lemma parse_no_ub fuel content : dtd_parse fuel content <> UB.
Proof.
  rewrite parse_text. pose proof (text_no_ub fuel content load_new 0) as N. destruct (t_dtd fuel content load_new 0) as [[[s l]|]| |]; try congruence; try discriminate.
  unfold finish. destruct (l_elements l) as [|e es] eqn:E; cbn [bind]; [destruct (_ && _); discriminate|].
  pose proof (loop_no_ub fuel (e :: es) fuel e) as N2. unfold new_root. destruct (root_loop fuel fuel (e :: es) e) as [r| |]; cbn [bind]; try congruence; try discriminate.
  destruct (_ && _); discriminate.
Qed.

(** ** the end of loading *)
Lemma loop_ends content : ~ In "%"%char content -> forall fuel, (length content + 4 <= fuel)%nat -> exists o, dtd_loop fuel (stream_mem content) load_new 0 = Ok o.
Proof.
  intros N fuel L. destruct (dtd_total content N (length content + 4) content fuel load_new 0) as (o & E); [apply tail_refl|lia|lia|lia|].
  pose proof (LoadProofs3.dtd_ok fuel (stream_mem content) content load_new 0 (rest_new content)) as H. rewrite E in H. unfold simr in H.
  destruct o as [[s l]|]; [destruct H as (st & -> & _)|rewrite H]; eauto.
Qed.

Lemma atts_mono ents : forall f g s decls id idref o, t_atts f ents s decls id idref = Ok o -> (f <= g)%nat -> t_atts g ents s decls id idref = Ok o.
Proof.
  induction f as [|f IH]; intros g s decls id idref o H L; [discriminate|]. destruct g as [|g]; [lia|]. cbn [t_atts] in *.
  destruct (after (s2b ">") (skip s)); [exact H|]. destruct (until [s2b " "] (skip s)) as [[[[x i] s1] s2]|]; [|exact H].
  destruct (t_expand (skip s1) ents) as [s3|]; [|exact H]. destruct (t_att_type s3) as [[[s4 ty]|]| |]; cbn [bindo bind] in *; try exact H.
  destruct (t_default (skip s4)) as [[s5 df]|]; [|exact H]. destruct (bad_id decls (cstr x) ty df); [exact H|]. destruct (t_value (skip s5)) as [s6 v].
  destruct (bad_enum ty v); [exact H|]. apply IH; [exact H|lia].
Qed.
Lemma attlist_mono f g s l o : t_attlist f s l = Ok o -> (f <= g)%nat -> t_attlist g s l = Ok o.
Proof.
  unfold t_attlist. intros H L. destruct (until [s2b " "] (skip s)) as [[[[x i] s1] s2]|]; [|exact H].
  destruct (t_atts f (l_entities l) s1 (decls_of (l_attrs l) (cstr x)) (l_id l) (l_idref l)) as [o1| |] eqn:E; cbn [bindo] in H; try discriminate.
  rewrite (atts_mono _ _ g _ _ _ _ _ E L). exact H.
Qed.
Lemma dtd_mono : forall f g s l it o, t_dtd f s l it = Ok o -> (f <= g)%nat -> t_dtd g s l it = Ok o.
Proof.
  induction f as [|f IH]; intros g s l it o H L; [discriminate|]. destruct g as [|g]; [lia|]. destruct s as [|c s]; [exact H|].
  rewrite dtd_t_S in * by discriminate. destruct (a_comments (c :: s) pdoc_new) as [[s1 d1]|]; [|exact H].
  destruct (after (s2b "<!ELEMENT") s1).
  { destruct (t_element s1 l) as [[[s2 l2]|]| |]; cbn [bindo] in *; try exact H. apply IH; [exact H|lia]. }
  destruct (after (s2b "<!ATTLIST") s1) as [s2|].
  { destruct (t_attlist f s2 l) as [o2| |] eqn:E; cbn [bindo] in H; try discriminate. rewrite (attlist_mono f g s2 l o2 E) by lia.
    destruct o2 as [[s3 l3]|]; cbn [bindo] in *; [|exact H]. apply IH; [exact H|lia]. }
  destruct (after (s2b "<!ENTITY") s1).
  { destruct (t_entity s1 l) as [[s2 l2]|]; cbn [bindo] in *; [|exact H]. apply IH; [exact H|lia]. }
  destruct (it =? 3); [exact H|]. apply IH; [exact H|lia].
Qed.
Lemma parent_mono : forall f g stack x b, parent_loop f stack x = Ok b -> (f <= g)%nat -> parent_loop g stack x = Ok b.
Proof.
  induction f as [|f IH]; intros g stack x b H L; [discriminate|]. destruct g as [|g]; [lia|]. cbn [parent_loop] in *. destruct stack as [|[y t|ty t ps] stack]; [exact H| |].
  - destruct (bytes_eqb y x); [exact H|apply IH; [exact H|lia]].
  - apply IH; [exact H|lia].
Qed.
Lemma pass_mono f g : (f <= g)%nat -> forall l r ch o, root_pass f l r ch = Ok o -> root_pass g l r ch = Ok o.
Proof.
  intros L. induction l as [|e l IH]; intros r ch o H; [exact H|]. cbn [root_pass] in *. destruct (is_parent f e r) as [b| |] eqn:E; cbn [bind] in H; try discriminate.
  assert (is_parent g e r = Ok b) as ->.
  { unfold is_parent in *. destruct (el_list e) as [[|ty t ps]|]; try exact E. eapply parent_mono; eassumption. }
  cbn [bind]. destruct b; apply IH; exact H.
Qed.
Lemma root_mono l : forall f g p q r o, root_loop f p l r = Ok o -> (f <= g)%nat -> (p <= q)%nat -> root_loop g q l r = Ok o.
Proof.
  induction f as [|f IH]; intros g p q r o H L1 L2; [discriminate|]. destruct g as [|g]; [lia|]. cbn [root_loop] in *.
  destruct (root_pass p l r false) as [[r' ch]| |] eqn:E; cbn [bind] in H; try discriminate. rewrite (pass_mono p q L2 _ _ _ _ E). cbn [bind].
  destruct ch; [|exact H]. eapply IH; [exact H|lia|exact L2].
Qed.
Definition loop_is (content : bytes) (fuel : nat) (o : option load) : Prop :=
  match o with None => dtd_loop fuel (stream_mem content) load_new 0 = Ok None | Some l => exists st, dtd_loop fuel (stream_mem content) load_new 0 = Ok (Some (st, l)) end.
Lemma load_ends content : ~ In "%"%char content ->
  exists o, (forall fuel, (length content + 4 <= fuel)%nat -> loop_is content fuel o) /\
    ((forall l, o = Some l -> acyclic (l_elements l)) -> exists n r, forall fuel, (n <= fuel)%nat -> dtd_parse fuel content = Ok r).
Proof.
  intros N. set (n := (length content + 4)%nat).
  destruct (dtd_total content N n content n load_new 0) as (o & E); [apply tail_refl|lia|subst n; lia|lia|].
  assert (E2 : forall fuel, (n <= fuel)%nat -> t_dtd fuel content load_new 0 = Ok o) by (intros fuel L; exact (dtd_mono n fuel _ _ _ _ E L)).
  exists (match o with Some (_, l) => Some l | None => None end). split.
  - intros fuel L. pose proof (LoadProofs3.dtd_ok fuel (stream_mem content) content load_new 0 (rest_new content)) as H. rewrite (E2 fuel L) in H. unfold simr in H.
    destruct o as [[s l]|]; [destruct H as (st & H & _); exists st; exact H|exact H].
  - intros A. destruct o as [[s l]|].
    2:{ exists n, None. intros fuel L. rewrite parse_text, (E2 fuel L). reflexivity. }
    specialize (A l eq_refl). destruct (l_elements l) as [|e es] eqn:El.
    + eexists n, _. intros fuel L. rewrite parse_text, (E2 fuel L). unfold finish. rewrite El. cbn [bind].
      instantiate (1 := if negb (l_id l) && l_idref l then None else Some (Dtd [] (l_attrs l) None (l_id l) (l_idref l), l_entities l)). destruct (_ && _); reflexivity.
    + destruct (new_root_ends (e :: es)) as (m & R); [discriminate|exact A|].
      destruct (R m m (le_n m) (le_n m)) as (r & Er & _).
      assert (Rm : forall fuel, (m <= fuel)%nat -> new_root fuel fuel (e :: es) = Ok r).
      { intros fuel L. unfold new_root in *. exact (root_mono _ _ _ _ _ _ _ Er L L). }
      eexists (n + m)%nat, _. intros fuel L. rewrite parse_text, (E2 fuel) by lia. unfold finish. rewrite El, (Rm fuel) by lia. cbn [bind].
      instantiate (1 := if negb (l_id l) && l_idref l then None else Some (Dtd (e :: es) (l_attrs l) (Some r) (l_id l) (l_idref l), l_entities l)). destruct (_ && _); reflexivity.
Qed.

(** ** an entity that names itself *)
Definition loop_value : bytes := s2b "CDATA #IMPLIED b %e;".
Definition loop_ents : list entity := [Entity (s2b "e") EParameter (Some loop_value)].
Lemma atts_never : forall f s decls id idref, t_atts f loop_ents (s2b " b %e;" ++ s) decls id idref = NoFuel.
Proof.
  induction f as [|f IH]; intros s decls id idref; [reflexivity|].
  change (t_atts (S f) loop_ents (s2b " b %e;" ++ s) decls id idref) with
    (t_atts f loop_ents (s2b "b %e;" ++ s2b " " ++ s) (decls ++ [AtDecl (s2b "b") ACdata AImplied None]) (flag_id id ACdata) (idref || is_idrefs ACdata)).
  rewrite (t_atts_skip f loop_ents (s2b "b %e;" ++ s2b " " ++ s) (s2b " b %e;" ++ s2b " " ++ s)) by reflexivity. apply IH.
Qed.
