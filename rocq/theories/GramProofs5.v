(** Trees of well-formed texts can be written; comments and processing instructions can
    be inserted. *)
From Coq Require Import Permutation.
From Verif Require Import Prelude StrModel StrSpec StrProofs EscProofs StrProofs2 StrProofs3 AttrModel AttrSpec AttrProofs
  TreeModel StreamModel StreamProofs ParseModel ParseProofs ParseProofs2 DumpModel XmlSpec DumpProofs GramProofs GramProofs2 GramProofs3 GramProofs4.

(** ** insertion *)
Lemma items_phase p q l : proper_items p l -> q <> AfterText -> (q = AfterMisc -> match l with XText s :: _ => white (hd NUL s) = false | _ => True end) ->
  proper_items q l.
Proof. intros P Q H. inversion P; subst; constructor; auto. Qed.
Lemma misc_step i p l : is_misc i -> proper_items AfterMisc l -> proper_items p (i :: l).
Proof. destruct i as [| | |n [c|]| |]; cbn; intros H P; try contradiction; constructor; tauto. Qed.
Lemma items_swap l1 : forall l l' p, (forall p, proper_items p l -> proper_items p l') -> proper_items p (l1 ++ l) -> proper_items p (l1 ++ l').
Proof. induction l1 as [|j l1 IH]; intros l l' p H P; [apply H; exact P|]. cbn [app] in *. inversion P; subst; constructor; eauto. Qed.
Lemma proper_inserted i x y : is_misc i -> inserted i x y -> proper x -> proper y.
Proof.
  intros M I. induction I as [name ats l1 l2 Hh|name ats l1 s t l2 Hs Ht Hw|name ats l1 x y l2 _ IH]; intros P;
    inversion P as [? ? ? P1 P2 P3 P4]; subst; constructor; auto; clear P P1 P2 P3; revert P4; apply items_swap; intros p P.
  - apply misc_step; [assumption|]. eapply items_phase; [eassumption|discriminate|auto].
  - inversion P as [| |? ? ? Q1 Q2 Q3 Q4 Q5 Q6| | |]; subst. rewrite has_app in Q4. apply orb_false_iff in Q4.
    assert (Na : nul_free s) by (intros X; apply Q2; apply in_or_app; auto).
    assert (Nb : nul_free t) by (intros X; apply Q2; apply in_or_app; auto).
    constructor; try tauto.
    + intros E. specialize (Q5 E). destruct s as [|c s]; [exfalso; apply Hs; reflexivity|]. exact Q5.
    + apply misc_step; [assumption|]. constructor; try tauto; [discriminate|].
      intros B. destruct t as [|c t]; [contradiction|]. unfold blank in B. cbn [forallb] in B. cbn [hd] in Hw. rewrite Hw in B. discriminate.
  - inversion P; subst. constructor; auto.
Qed.

(** ** the tree of a well-formed text *)
Lemma attrs_text_proper t ats : attrs_text t ats -> Forall is_attr ats /\ NoDup (map fst ats).
Proof.
  induction 1 as [|w k q v t l Hw Hw0 Hk Hx Hq Hv Hh _ [IH1 IH2] Hn]; [split; constructor|].
  split; constructor; auto. split; [exact Hk|]. split; [exact Hx|]. exists v. split; [reflexivity|]. split; [exact Hv|].
  destruct Hq as [->| ->]; auto.
Qed.
Lemma texts_proper : (forall t x, elem_text t x -> filled x -> proper x) /\
  (forall p t l, content_text p t l -> filled_items l -> proper_items p l).
Proof.
  assert (X : (forall t x (H : elem_text t x), filled x -> proper x) /\
    (forall p t l (H : content_text p t l), filled_items l -> proper_items p l)); [|exact X].
  apply texts_both.
  - intros name t ats w Hn Ha _ _. destruct (attrs_text_proper _ _ Ha). constructor; auto. constructor.
  - intros name t ats w c items w' Hn Ha _ _ IH _ _ F. destruct (attrs_text_proper _ _ Ha). inversion F; subst. constructor; auto.
  - intros. constructor.
  - intros p w e x t l _ _ IH1 _ IH2 F. inversion F as [|? ? F1 F2|? ? ? F1|? ? F1 F2 F3]; subst; [constructor; auto|]. exfalso. eapply F1. reflexivity.
  - intros s t l H1 H2 H3 _ IH F. inversion F; subst. constructor; auto; discriminate.
  - intros w s t l Hw H1 H2 H3 H4 _ IH F. inversion F; subst. constructor; auto; [discriminate|].
    intros B. destruct s as [|c s]; [contradiction|]. unfold blank in B. cbn [forallb] in B. cbn [hd] in H3. rewrite H3 in B. discriminate.
  - intros p w s t l _ H1 H2 _ IH F. inversion F; subst. constructor; auto.
  - intros p w s t l _ H1 _ IH F. inversion F; subst. constructor; auto.
  - intros p w s n c t l _ H1 _ IH F. inversion F as [|? ? F1 F2|? ? ? F1|? ? F1 F2 F3]; subst; [|exfalso; eapply F2; reflexivity].
    inversion H1; subst. constructor; auto.
Qed.
Lemma proper_no_blanks : (forall x, proper x -> no_blanks x) /\ (forall p l, proper_items p l -> no_blanks_items l).
Proof. apply proper_both; intros; (constructor; (assumption || discriminate)). Qed.
Lemma texts_no_blanks : (forall t x, elem_text t x -> no_blanks x) /\ (forall p t l, content_text p t l -> no_blanks_items l).
Proof.
  assert (X : (forall t x (H : elem_text t x), no_blanks x) /\ (forall p t l (H : content_text p t l), no_blanks_items l)); [|exact X].
  apply texts_both; intros; try (constructor; (assumption || discriminate)).
  - constructor. constructor.
  - constructor; [|assumption]. intros B. destruct s as [|x s]; [contradiction|]. unfold blank in B. cbn [forallb] in B. cbn [hd] in *.
    match goal with H : white x = false |- _ => rewrite H in B end. discriminate.
Qed.

Lemma doc_text_encoding t e sa l x : doc_text t e sa l x -> is_encoding e.
Proof.
  intros D v ->. inversion D as [? ? ? ? ? ? ? ? ? ? ? _ H|]; subst. inversion H as [? ? ? ? ? ? ? ? ? ? _ _ _ _ F]; subst. inversion F; subst. auto.
Qed.
Lemma doc_text_filled t e sa l x : doc_text t e sa l x -> filled x -> proper x.
Proof. intros D. inversion D; subst; eapply (proj1 texts_proper); eassumption. Qed.
Lemma doc_text_no_blanks t e sa l x : doc_text t e sa l x -> no_blanks x.
Proof. intros D. inversion D; subst; eapply (proj1 texts_no_blanks); eassumption. Qed.

Lemma again t e sa l x : doc_text t e sa l x -> filled x ->
  exists d text d' n', doc_parse t = Ok (Some d) /\
    doc_dump d = Ok (Some (text ++ [NUL], Z.of_nat (length text))) /\
    doc_parse text = Ok (Some d') /\ d_root d' = Some n' /\ shows n' (pad_tree x) /\ d_encoding d' = e /\ d_standalone d' = sa.
Proof.
  intros D F. destruct (doc_text_ok _ _ _ _ _ D) as ([r en s pis] & n & P & R1 & R2 & R3 & R4 & R5). cbn [d_root d_encoding d_standalone d_pis] in *. subst.
  destruct (round_trip None n x e sa l R2 (doc_text_filled _ _ _ _ _ D F) (or_introl eq_refl) (doc_text_encoding _ _ _ _ _ D))
    as (text & d' & n' & H1 & H2 & H3 & H4 & H5 & H6 & _).
  eexists _, text, d', n'. split; [exact P|]. auto 10.
Qed.

(** ** the size of a dump *)
Lemma dumps n x e sa pis : shows n x -> measurable x -> (forall v, e = Some v -> nul_free v) ->
  exists x', shows n x' /\
    doc_dump (Doc (Some n) e sa pis) = Ok (Some (doc_xml None e sa x' ++ [NUL], Z.of_nat (length (doc_xml None e sa x')))) /\
    (forall t, doc_dump_pretty (Doc (Some n) e sa pis) (Z.of_nat t) =
       Ok (Some (doc_xml (Some t) e sa x' ++ [NUL], Z.of_nat (length (doc_xml (Some t) e sa x'))))) /\
    node_dump n = Ok (Some (elem_xml None 0 x' ++ [NUL], Z.of_nat (length (elem_xml None 0 x')))) /\
    (forall t, node_dump_pretty n (Z.of_nat t) =
       Ok (Some (elem_xml (Some t) 0 x' ++ [NUL], Z.of_nat (length (elem_xml (Some t) 0 x'))))).
Proof.
  intros S M He. destruct (proj1 dump_shows n x S M) as (x' & S' & M' & K). exists x'. split; [exact S'|].
  split; [exact (doc_dump_common_ok n x' None e sa pis K He)|].
  split; [intros t; exact (doc_dump_common_ok n x' (Some t) e sa pis K He)|].
  split; [exact (node_dump_common_ok n x' None K)|intros t; exact (node_dump_common_ok n x' (Some t) K)].
Qed.

(** ** the only read outside *)
Open Scope Z_scope.
Lemma until_quotes_split s t it a b : until quotes s = Some (t, it, a, b) -> exists q, quote q /\ s = t ++ q :: b.
Proof.
  revert t it a b. induction s as [|c s IH]; intros t it a b H; [discriminate|]. cbn [until] in H.
  destruct (stop_at quotes (c :: s)) as [[i n]|] eqn:E.
  - injection H as <- <- <- <-. unfold stop_at in E. change (existsb ws_chunk quotes) with false in E. cbn [andb quotes hit] in E.
    change (s2b "'") with ["'"%char] in E.
    change (ws_chunk ["'"%char]) with false in E. change (ws_chunk ["034"%char]) with false in E. cbv iota in E. cbn [after] in E.
    destruct (Ascii.eqb_spec "'" c) as [<-|].
    + injection E as <- <-. exists "'"%char. split; [left|]; reflexivity.
    + destruct (Ascii.eqb_spec "034" c) as [<-|]; [|discriminate]. injection E as <- <-. exists "034"%char. split; [right|]; reflexivity.
  - destruct (until quotes s) as [[[[t' i'] a'] b']|]; [|discriminate]. injection H as <- <- <- <-.
    destruct (IH _ _ _ _ eq_refl) as (q & Hq & ->). exists q. split; [exact Hq|reflexivity].
Qed.
Lemma skip_split s : exists w, s = w ++ skip s.
Proof. induction s as [|c s [w IH]]; [exists []; reflexivity|]. cbn [skip]. destruct (is_ws c); [exists (c :: w); cbn; f_equal; exact IH|exists []; reflexivity]. Qed.
Definition suffix (a b : bytes) : Prop := exists p, b = p ++ a.
Lemma suffix_trans a b c : suffix a b -> suffix b c -> suffix a c.
Proof. intros [p ->] [q ->]. exists (q ++ p). rewrite app_assoc. reflexivity. Qed.
Lemma suffix_skip s : suffix (skip s) s.
Proof. destruct (skip_split s) as [w H]. exists w. exact H. Qed.
Lemma suffix_rest s c : suffix (rest_of s c) s.
Proof. unfold rest_of. destruct (after c s) as [r|] eqn:E; [|exists []; reflexivity]. apply after_Some in E. exists c. exact E. Qed.
Lemma suffix_rest2 s a b : suffix (rest2 s a b) s.
Proof. unfold rest2. destruct (after a s) as [r|] eqn:E; [|apply suffix_rest]. apply after_Some in E. exists a. exact E. Qed.
Lemma field_split name s e r : a_field name s = Some (e, r) -> suffix r s /\
  (forall v, e = Some v -> exists a q q' b, s = a ++ name ++ [q] ++ v ++ [q'] ++ b /\ quote q /\ quote q').
Proof.
  unfold a_field. destruct (0 <? several s (Q1 name) (Q2 name)) eqn:Sv.
  - destruct (until quotes _) as [[[[t it] x] y]|] eqn:U; [|discriminate]. intros H. injection H as <- <-.
    destruct (until_quotes_split _ _ _ _ _ U) as (q' & Hq' & E).
    split. { eapply suffix_trans; [|apply suffix_rest2]. rewrite E. exists (t ++ [q']). rewrite <- app_assoc. reflexivity. }
    intros v Hv. injection Hv as <-. unfold several, rest2, rest_of in *.
    destruct (after (Q1 name) s) as [r1|] eqn:A1.
    + apply after_Some in A1. subst s r1. exists [], "034"%char, q', y. split; [|split; [right; reflexivity|exact Hq']].
      unfold Q1. rewrite <- !app_assoc. reflexivity.
    + destruct (after (Q2 name) s) as [r2|] eqn:A2; [|destruct (_ || _) in Sv; discriminate].
      apply after_Some in A2. subst s r2. exists [], "'"%char, q', y. split; [|split; [left; reflexivity|exact Hq']].
      unfold Q2. rewrite <- !app_assoc. reflexivity.
  - intros H. injection H as <- <-. split; [apply suffix_rest2|discriminate].
Qed.

Lemma is_yes_cases v : is_yes v = if (2 <=? length v)%nat then Ok (bytes_eqb (firstn 3 (cs v)) (s2b "yes")) else UB.
Proof.
  unfold is_yes, mem_sub. assert (L : length (cs v) = S (length v)) by (unfold cs; rewrite app_length; cbn; lia).
  rewrite L. destruct (Nat.leb_spec 2 (length v)) as [H|H].
  - replace (Z.of_nat (S (length v)) <? 0 + 3) with false by (symmetry; apply Z.ltb_ge; lia). reflexivity.
  - replace (Z.of_nat (S (length v)) <? 0 + 3) with true by (symmetry; apply Z.ltb_lt; lia). reflexivity.
Qed.
Lemma is_yes_long v : (2 <= length v)%nat -> exists b, is_yes v = Ok b.
Proof. intros H. rewrite is_yes_cases. apply Nat.leb_le in H. rewrite H. eexists. reflexivity. Qed.
Lemma is_yes_fuel v : is_yes v <> NoFuel.
Proof. rewrite is_yes_cases. destruct (2 <=? length v)%nat; discriminate. Qed.

Lemma decl_cases s d : a_decl s d = UB \/ exists r, a_decl s d = Ok r.
Proof.
  unfold a_decl. repeat match goal with |- context[match ?x with _ => _ end] => destruct x; try (right; eexists; reflexivity) end;
  match goal with |- context[is_yes ?v] => pose proof (is_yes_fuel v); destruct (is_yes v) as [y| |]; cbn [bind]; [|auto|contradiction] | |- _ => cbn [bind] end;
  repeat match goal with |- context[match ?x with _ => _ end] => destruct x; try (right; eexists; reflexivity) end; right; eexists; reflexivity.
Qed.

Lemma decl_ub s d : (forall a q v q' b, s = a ++ s2b "standalone=" ++ [q] ++ v ++ [q'] ++ b -> quote q -> quote q' -> (2 <= length v)%nat) ->
  exists r, a_decl s d = Ok r.
Proof.
  intros H. unfold a_decl. destruct (after (s2b "xml") s) as [s1|] eqn:A1; [|eexists; reflexivity].
  assert (S1 : suffix s1 s) by (apply after_Some in A1; exists (s2b "xml"); exact A1). cbv zeta.
  destruct (insp _ _ =? 0); [eexists; reflexivity|].
  set (s2 := skip (rest_of (skip s1) (s2b "version="))) in *.
  assert (S2 : suffix s2 s).
  { unfold s2. eapply suffix_trans; [apply suffix_skip|]. eapply suffix_trans; [apply suffix_rest|]. eapply suffix_trans; [apply suffix_skip|exact S1]. }
  destruct (several _ _ _ =? 0); [eexists; reflexivity|].
  destruct (a_field (s2b "encoding=") _) as [[e s3]|] eqn:F1; [|eexists; reflexivity].
  assert (S3 : suffix s3 s).
  { eapply suffix_trans; [apply (field_split _ _ _ _ F1)|]. eapply suffix_trans; [apply suffix_skip|]. eapply suffix_trans; [apply suffix_rest2|exact S2]. }
  destruct (a_field (s2b "standalone=") _) as [[e' s4]|] eqn:F2; [|eexists; reflexivity].
  destruct e' as [v|].
  - destruct (field_split _ _ _ _ F2) as [_ X]. destruct (X v eq_refl) as (a & q & q' & b & E & Hq & Hq').
    assert (S4 : suffix (skip s3) s) by (eapply suffix_trans; [apply suffix_skip|exact S3]). destruct S4 as [p S4].
    destruct (is_yes_long v) as [y Y].
    { apply (H (p ++ a) q v q' b); auto. rewrite S4, E, <- app_assoc. reflexivity. }
    rewrite Y. cbn [bind]. destruct (after (s2b "?>") (skip s4)); eexists; reflexivity.
  - cbn [bind]. destruct (after (s2b "?>") (skip s4)); eexists; reflexivity.
Qed.

Lemma parse_cases content : doc_parse content = UB \/ exists r, doc_parse content = Ok r.
Proof.
  rewrite parse_ok. unfold a_parse, a_header. destruct (insp _ _ =? 0).
  - cbn [bind]. destruct (a_doctype _ _) as [[s d]|]; right; eexists; reflexivity.
  - destruct (decl_cases (rest_of (rest_of content BOM) (s2b "<?")) pdoc_new) as [->|[[[s d]|] ->]]; cbn [bind]; auto.
    + destruct (a_doctype _ _) as [[s' d']|]; right; eexists; reflexivity.
    + right. eexists. reflexivity.
Qed.
Lemma parse_inside content :
  (forall a q v q' b, content = a ++ s2b "standalone=" ++ [q] ++ v ++ [q'] ++ b -> quote q -> quote q' -> (2 <= length v)%nat) ->
  exists r, doc_parse content = Ok r.
Proof.
  intros H. rewrite parse_ok. unfold a_parse, a_header. destruct (insp _ _ =? 0).
  - cbn [bind]. destruct (a_doctype _ _) as [[s d]|]; eexists; reflexivity.
  - assert (S : suffix (rest_of (rest_of content BOM) (s2b "<?")) content) by (eapply suffix_trans; apply suffix_rest).
    destruct S as [p S].
    destruct (decl_ub (rest_of (rest_of content BOM) (s2b "<?")) pdoc_new) as [[[s d]|] ->]; cbn [bind].
    + intros a q v q' b E. apply (H (p ++ a) q v q' b). rewrite E in S. rewrite S, <- app_assoc. reflexivity.
    + destruct (a_doctype _ _) as [[s' d']|]; eexists; reflexivity.
    + eexists. reflexivity.
Qed.
