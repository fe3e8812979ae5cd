(** Laying out declarations on one line keeps what they declare. *)
From Verif Require Import Prelude StrModel StrSpec XmlSpec DtdModel DtdDocModel LoadSpec LoadModel KnifeModel KnifeSpec KnifeProofs3.
From Verif Require LoadProofs8.
Open Scope nat_scope.
Open Scope list_scope.

Lemma flat_inv a b t : flat (a ++ b) t -> exists t1 t2, t = t1 ++ t2 /\ flat a t1 /\ flat b t2.
Proof.
  revert t. induction a as [|c a IH]; intros t H; [exists [], t; repeat split; [constructor|exact H]|].
  cbn [app] in H. inversion H as [|? ? u N F|w ? u Hw Hb F]; subst.
  - destruct (IH _ F) as (t1 & t2 & -> & F1 & F2). exists (flat_char c :: t1), t2. repeat split; auto. constructor; auto.
  - destruct (IH _ F) as (t1 & t2 & -> & F1 & F2). exists (w ++ t1), t2. rewrite app_assoc. repeat split; auto. constructor; auto.
Qed.
Definition steady_char (c : ascii) : bool := negb (Ascii.eqb c nl) && negb (Ascii.eqb c "009") && negb (Ascii.eqb c "034").
Lemma flat_steady x t : flat x t -> forallb steady_char x = true -> t = x.
Proof.
  induction 1 as [|c s t N F IH|w s t Hw Hb F IH]; intros S; [reflexivity| |].
  - cbn [forallb] in S. apply andb_true_iff in S. destruct S as [S1 S2]. rewrite (IH S2). f_equal.
    unfold steady_char in S1. apply andb_true_iff in S1. destruct S1 as [S1 S3]. apply andb_true_iff in S1. destruct S1 as [_ S1].
    unfold flat_char. apply negb_true_iff in S1, S3. rewrite S1, S3. reflexivity.
  - discriminate.
Qed.
Lemma flat_blank w t : flat w t -> blank w -> blank t.
Proof.
  unfold blank. induction 1 as [|c s t N F IH|w s t Hw Hb F IH]; intros B; [reflexivity| |]; cbn [forallb] in *; apply andb_true_iff in B; destruct B as [B1 B2].
  - rewrite IH by exact B2. rewrite andb_true_r. revert B1. destruct c as [[] [] [] [] [] [] [] []]; vm_compute; congruence.
  - rewrite forallb_app, IH by exact B2. rewrite andb_true_r. apply forallb_forall. intros x I. rewrite Forall_forall in Hb. rewrite <- (Hb _ I). reflexivity.
Qed.
Lemma flat_some w t : flat w t -> w <> [] -> t <> [].
Proof. intros F. destruct F as [|c s t N F|w s t Hw Hb F]; intros H; [exact H|discriminate|]. intros E. apply app_eq_nil in E. apply Hw, E. Qed.
Lemma flat_gap w t : flat w t -> gap1 w -> gap1 t.
Proof. intros F [A B]. split; [eapply flat_blank; eauto|eapply flat_some; eauto]. Qed.
Lemma name_steady c : name_char c = true -> steady_char c = true.
Proof. destruct c as [[] [] [] [] [] [] [] []]; vm_compute; congruence. Qed.
Lemma flat_name x t : flat x t -> is_name x -> t = x.
Proof.
  intros F [_ H]. apply flat_steady; [exact F|]. rewrite forallb_forall in *. intros c I. apply name_steady, H, I.
Qed.
Lemma flat_tok x t : flat x t -> is_tok x -> t = x.
Proof.
  intros F [_ H]. apply flat_steady; [exact F|]. rewrite forallb_forall in *. intros c I. apply name_steady.
  specialize (H c I). unfold tok_char in H. apply andb_true_iff in H. apply H.
Qed.
Lemma flat_rep r x t : flat r t -> rep_text r x -> t = r.
Proof. intros F R. apply flat_steady; [exact F|]. destruct R; reflexivity. Qed.

(** ** comments *)
Definition solid_char (c : ascii) : bool := negb (Ascii.eqb c " ") && negb (Ascii.eqb c "'").
Lemma solid_back c d : flat_char c = d -> solid_char d = true -> c = d.
Proof.
  unfold flat_char. destruct (Ascii.eqb c "009"); [intros <-; discriminate|]. destruct (Ascii.eqb c "034"); [intros <-; discriminate|]. auto.
Qed.
Lemma flat_split s t : flat s t -> forall u d v, t = u ++ d :: v -> solid_char d = true -> exists s1 s2, s = s1 ++ s2 /\ flat s2 (d :: v).
Proof.
  induction 1 as [|c s t N F IH|w s t Hw Hb F IH]; intros u d v E S.
  - destruct u; discriminate.
  - destruct u as [|x u]; cbn [app] in E.
    + injection E as E1 E2. exists [], (c :: s). split; [reflexivity|]. subst t. rewrite <- E1. constructor; auto.
    + injection E as _ E. destruct (IH _ _ _ E S) as (s1 & s2 & -> & G). exists (c :: s1), s2. auto.
  - assert (H : forall w u, Forall (eq " "%char) w -> w ++ t = u ++ d :: v -> exists u', t = u' ++ d :: v).
    { clear - S. induction w as [|x w IH]; intros u B E; [eauto|]. inversion B; subst. destruct u as [|y u]; cbn [app] in E; injection E as E1 E2.
      - subst d. discriminate.
      - eapply IH; eauto. }
    destruct (H _ _ Hb E) as (u' & E'). destruct (IH _ _ _ E' S) as (s1 & s2 & -> & G). exists (nl :: s1), s2. auto.
Qed.
Lemma flat_prefix x : forall s v, flat s (x ++ v) -> forallb solid_char x = true -> exists s', s = x ++ s'.
Proof.
  induction x as [|d x IH]; intros s v F S; [exists s; reflexivity|]. cbn [forallb app] in *. apply andb_true_iff in S. destruct S as [S1 S2].
  inversion F as [|c s' t N F' E1 E2|w s' t Hw Hb F' E1 E2]; subst.
  - rewrite <- (solid_back c _ eq_refl S1). destruct (IH _ _ F' S2) as (z & ->). exists z. reflexivity.
  - exfalso. destruct w as [|y w]; [congruence|]. inversion Hb; subst. injection E2 as E2 _. subst d. discriminate.
Qed.
Lemma flat_comment s t : flat s t -> is_comment s -> is_comment t.
Proof.
  intros F [A B]. split; [eapply flat_some; eauto|]. intros (u & v & E). apply B.
  destruct (flat_split s t F u "-"%char (str "->" ++ v) E eq_refl) as (s1 & s2 & -> & G).
  destruct (flat_prefix (str "-->") s2 v G eq_refl) as (z & ->). exists s1, z. reflexivity.
Qed.

Ltac fs := repeat match goal with
  | H : flat (_ ++ _) _ |- _ => apply flat_inv in H; destruct H as (? & ? & ? & ? & ?); subst
  | H : flat (str _) _ |- _ => apply flat_steady in H; [|reflexivity]; subst
  | H : flat [_] _ |- _ => apply flat_steady in H; [|reflexivity]; subst
  | H : flat [] _ |- _ => apply flat_steady in H; [|reflexivity]; subst
  | H : flat ?w _, B : blank ?w |- _ => apply flat_blank in H; [|exact B]
  | H : flat ?w _, B : gap1 ?w |- _ => apply flat_gap in H; [|exact B]
  | H : flat ?w _, B : is_tok ?w |- _ => apply flat_tok in H; [|exact B]; subst
  | H : flat ?w _, B : is_name ?w |- _ => apply flat_name in H; [|exact B]; subst
  | H : flat ?w _, B : rep_text ?w _ |- _ => apply (flat_rep _ _ _ H) in B as ?; subst; clear H
  end.
Lemma flat_misc s l : misc_text false s l -> forall t, flat s t -> misc_text false t l.
Proof.
  induction 1 as [w B|w c t l B C M IH|]; intros u F.
  - constructor. eapply flat_blank; eauto.
  - fs. match goal with H : flat c _ |- _ => apply flat_comment in H; [|exact C] end. constructor; auto.
  - discriminate.
Qed.
Lemma flat_quoted s v t : flat s t -> quoted s v -> plain_value v -> quoted t v.
Proof.
  intros F Q (P1 & P2 & P3 & P4). destruct Q as [q v Hq Nv Hv]. apply flat_inv in F. destruct F as (t1 & t2 & -> & F1 & F2).
  apply flat_inv in F2. destruct F2 as (t2' & t3 & -> & F2 & F3).
  assert (E1 : t1 = str "'" /\ t3 = str "'").
  { split; [inversion F1 as [|? ? ? ? G|? ? ? ? ? G]|inversion F3 as [|? ? ? ? G|? ? ? ? ? G]]; subst;
      try (destruct Hq; discriminate); inversion G; subst; destruct Hq; subst; reflexivity. }
  destruct E1 as [-> ->]. apply flat_steady in F2.
  - subst t2'. constructor; auto; [left; reflexivity|]. unfold XmlSpec.has. apply not_true_iff_false. intros H. apply existsb_exists in H. destruct H as (x & I & E).
    apply Ascii.eqb_eq in E. subst x. apply P4, I.
  - apply forallb_forall. intros c I. unfold steady_char.
    destruct (Ascii.eqb_spec c nl); [subst; contradiction|]. destruct (Ascii.eqb_spec c "009"); [subst; contradiction|].
    destruct (Ascii.eqb_spec c "034"); [subst; contradiction|]. reflexivity.
Qed.

(** ** content *)
Scheme cp_mind := Minimality for cp_text Sort Prop with items_mind := Minimality for items_text Sort Prop.
Combined Scheme cp_items_ind from cp_mind, items_mind.
Lemma flat_cp : (forall s p, cp_text s p -> forall t, flat s t -> cp_text t p) /\
  (forall c s ps, items_text c s ps -> (c = ","%char \/ c = "|"%char) -> forall t, flat s t -> items_text c t ps).
Proof.
  apply cp_items_ind.
  - intros x r t Hx Hr u F. fs. constructor; auto.
  - intros ty c b ps r t Hs Hi IH Hr u F. fs.
    match goal with H : flat b _ |- _ => apply IH in H; [|destruct Hs as [[_ ->]|[_ [-> _]]]; auto] end. econstructor; eauto.
  - intros c w b p w' B Hc IH B' Hc' u F. fs. constructor; auto.
  - intros c w b p w' v ps B Hc IH B' Hi IHi Hcc u F.
    assert (Hst : forallb steady_char [c] = true) by (destruct Hcc as [ -> | -> ]; reflexivity).
    apply flat_inv in F. destruct F as (t1 & t2 & -> & F1 & F2). apply flat_inv in F2. destruct F2 as (t3 & t4 & -> & F2 & F3).
    apply flat_inv in F3. destruct F3 as (t5 & t6 & -> & F3 & F4). apply flat_inv in F4. destruct F4 as (t7 & t8 & -> & F4 & F5).
    apply flat_steady in F4; [|exact Hst]. subst t7. constructor; auto; eapply flat_blank; eauto.
Qed.
Lemma flat_content s c t : flat s t -> content_text s c -> content_text t c.
Proof.
  intros F H. destruct H.
  - fs. constructor.
  - fs. constructor.
  - fs. match goal with G : flat r ?z |- _ => assert (z = r) by (destruct H1; subst; apply flat_steady; auto) end. subst. constructor; auto.
  - fs. match goal with G : flat u _ |- _ => apply (proj2 flat_cp _ _ _ H1) in G; [|auto] end. constructor; auto.
  - constructor. apply (proj1 flat_cp _ _ H), F.
Qed.
Lemma flat_values s l : values_text s l -> forall t, flat s t -> values_text t l.
Proof. induction 1; intros t F; fs; constructor; auto. Qed.
Lemma flat_type s y t : flat s t -> type_text s y -> type_text t y.
Proof.
  intros F H. destruct H; fs; try constructor. match goal with G : flat b _ |- _ => eapply flat_values in G; [|eassumption] end. assumption.
Qed.
Lemma flat_default s d v t : flat s t -> default_text s d v -> (forall x, v = Some x -> plain_value x) -> default_text t d v.
Proof.
  intros F H P. destruct H; fs; try constructor.
  - assumption.
  - eapply flat_quoted; eauto.
  - eapply flat_quoted; eauto.
Qed.
Lemma flat_atts s l : atts_text s l -> forall t, flat s t -> (forall a v, In a l -> ad_value a = Some v -> plain_value v) -> atts_text t l.
Proof.
  induction 1 as [|s a u l H A IH]; intros t F P; [fs; constructor|]. apply flat_inv in F. destruct F as (t1 & t2 & -> & F1 & F2).
  constructor; [|apply IH; auto; intros b v I; apply P; right; exact I]. destruct H. fs.
  match goal with G : flat t _ |- _ => eapply flat_type in G; [|eassumption] end.
  match goal with G : flat t' _ |- _ => eapply flat_default in G; [|eassumption|intros z Ez; apply (P (AtDecl x ty df v) z); [left; reflexivity|exact Ez]] end.
  constructor; auto.
Qed.
Lemma flat_decl s d t : flat s t -> LoadSpec.decl_text s d -> decl_plain d -> LoadSpec.decl_text t d.
Proof.
  intros F H P. destruct H.
  - fs. match goal with G : flat b _ |- _ => eapply flat_content in G; [|eassumption] end. constructor; auto.
  - apply flat_inv in F. destruct F as (t1 & t2 & -> & F1 & F2). apply flat_inv in F2. destruct F2 as (t3 & t4 & -> & F2 & F3).
    apply flat_inv in F3. destruct F3 as (t5 & t6 & -> & F3 & F4). apply flat_inv in F4. destruct F4 as (t7 & t8 & -> & F4 & F5).
    apply flat_inv in F5. destruct F5 as (t9 & t10 & -> & F5 & F6). pose proof (flat_some _ _ F5) as Fn. fs.
    eapply flat_atts in F4; [|eassumption|exact P].
    apply decl_attlist; auto.
  - fs. match goal with G : flat t0 _ |- _ => eapply flat_quoted in G; [|eassumption|apply P; reflexivity] end. constructor; auto.
  - fs. match goal with G : flat t0 _ |- _ => eapply flat_quoted in G; [|eassumption|apply P; reflexivity] end. apply decl_parameter; auto.
Qed.
Lemma flat_dtd s ds : dtd_text s ds -> Forall decl_plain ds -> forall t, flat s t -> dtd_text t ds.
Proof.
  induction 1 as [m M|m s d u l M D T IH]; intros P t F.
  - constructor. eapply flat_misc; eauto.
  - inversion P; subst. apply flat_inv in F. destruct F as (t1 & t2 & -> & F1 & F2). apply flat_inv in F2. destruct F2 as (t3 & t4 & -> & F2 & F3).
    constructor; [eapply flat_misc; eauto|eapply flat_decl; eauto|apply IH; auto].
Qed.
(** white space around *)
Lemma misc_before w s l : blank w -> misc_text false s l -> misc_text false (w ++ s) l.
Proof.
  intros B M. unfold blank in B. destruct M as [x X|x c t l X C M|]; [| |discriminate].
  - constructor. unfold blank in *. rewrite forallb_app, B, X. reflexivity.
  - rewrite app_assoc. constructor; auto. unfold blank in *. rewrite forallb_app, B, X. reflexivity.
Qed.
Lemma misc_after w s l : blank w -> misc_text false s l -> misc_text false (s ++ w) l.
Proof.
  intros B. induction 1 as [x X|x c t l X C M IH|]; [| |discriminate].
  - constructor. unfold blank in *. rewrite forallb_app, B, X. reflexivity.
  - rewrite <- !app_assoc. constructor; auto.
Qed.
Lemma dtd_around w w' s ds : blank w -> blank w' -> dtd_text s ds -> dtd_text (w ++ s ++ w') ds.
Proof.
  intros B B' T. assert (A : dtd_text (s ++ w') ds).
  { induction T as [m M|m s d u l M D T IH]; [constructor; apply misc_after; assumption|]. rewrite <- !app_assoc. constructor; auto. }
  destruct A as [m M|m t d u l M D A]; [constructor; apply misc_before; assumption|]. rewrite app_assoc. constructor; auto. apply misc_before; assumption.
Qed.
Theorem same_dtd_ok path content name ds : macro_name path name -> identifier name -> Forall kept_char content -> fits content ->
  dtd_text content ds -> Forall decl_plain ds ->
  exists h value, dtd_to_c path content = Ok h /\ defines h name value /\ dtd_text value ds.
Proof.
  intros Mn Id K Ft T P. destruct (header_ok path content name Mn Id K Ft) as (h & value & t & w & E & D & Ev & F & B).
  exists h, value. split; [exact E|]. split; [exact D|]. subst value. apply dtd_around; [reflexivity| |eapply flat_dtd; eauto].
  unfold blank. rewrite forallb_app. rewrite andb_true_r. apply forallb_forall. intros x I. rewrite Forall_forall in B. rewrite <- (B _ I). reflexivity.
Qed.
Theorem same_loaded_ok path content name ds : macro_name path name -> identifier name -> Forall kept_char content -> fits content ->
  dtd_text content ds -> Forall decl_plain ds -> declared_well ds -> groups_shown ds ->
  exists h value n, dtd_to_c path content = Ok h /\ defines h name value /\
    forall fuel, n <= fuel -> exists d ents, dtd_parse fuel value = Ok (Some (d, ents)) /\ loaded ds d ents.
Proof.
  intros Mn Id K Ft T P W G. destruct (same_dtd_ok path content name ds Mn Id K Ft T P) as (h & value & E & D & V).
  destruct (LoadProofs8.load_ok value ds V W G) as (n & H). exists h, value, n. auto.
Qed.
