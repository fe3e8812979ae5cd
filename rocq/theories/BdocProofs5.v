(** The parser with Babel: documents in other encodings, in UTF-8 and in ASCII. *)
From Coq Require Import NArith.
From Verif Require Import Prelude Arr StrModel StrSpec StrProofs EscProofs StrProofs2 StrProofs3 AttrModel TreeModel
  StreamModel StreamProofs ParseModel ParseProofs ParseProofs2 XmlSpec GramProofs GramProofs2 GramProofs3
  CutSpec CutProofs CutProofs2 CutProofs3
  BabelModel BabelTables BabelPoints BabelSpec BabelExec BabelProofs BabelProofs2 BabelProofs3
  BdocModel BdocSpec BdocProofs BdocProofs2 BdocProofs3 BdocProofs4.
Open Scope Z_scope.
Open Scope list_scope.

(** ** rests of a text *)
Definition ends (s r : bytes) : Prop := exists p, s = p ++ r.
Lemma ends_refl s : ends s s.
Proof. exists []. reflexivity. Qed.
Lemma ends_trans a b c : ends a b -> ends b c -> ends a c.
Proof. intros (p & ->) (q & ->). exists (p ++ q). rewrite app_assoc. reflexivity. Qed.
Lemma ends_skip s : ends s (skip s).
Proof. induction s as [|c s IH]; cbn [skip]; [apply ends_refl|]. destruct (is_ws c); [destruct IH as (p & E); exists (c :: p); cbn [app]; congruence|apply ends_refl]. Qed.
Lemma ends_after k s r : after k s = Some r -> ends s r.
Proof. intros H. apply after_Some in H. exists k. exact H. Qed.
Lemma ends_until l : forall s t i a b, until l s = Some (t, i, a, b) -> ends s b.
Proof.
  induction s as [|c s IH]; intros t i a b H; [discriminate|]. cbn [until] in H. destruct (stop_at l (c :: s)) as [[i' n]|].
  - injection H as <- <- <- <-. exists (firstn n (c :: s)). symmetry. apply firstn_skipn.
  - destruct (until l s) as [[[[t' i'] a'] b']|]; [|discriminate]. injection H as <- <- <- <-. destruct (IH _ _ _ _ eq_refl) as (p & ->). exists (c :: p). reflexivity.
Qed.
Lemma ends_rest s c : ends s (rest_of s c).
Proof. unfold rest_of. destruct (after c s) eqn:E; [eapply ends_after, E|apply ends_refl]. Qed.
Lemma ends_rest2 s c1 c2 : ends s (rest2 s c1 c2).
Proof. unfold rest2. destruct (after c1 s) eqn:E; [eapply ends_after, E|apply ends_rest]. Qed.
Lemma ends_field name s e r : a_field name s = Some (e, r) -> ends s r.
Proof.
  unfold a_field. destruct (_ <? _).
  - destruct (until quotes _) as [[[[v i] a] b]|] eqn:U; [|discriminate]. intros H. injection H as _ <-. eapply ends_trans; [apply ends_rest2|eapply ends_until, U].
  - intros H. injection H as _ <-. apply ends_rest2.
Qed.
Lemma ends_a_pi s d s' d' : a_pi s d = Some (s', d') -> ends s s'.
Proof.
  unfold a_pi. destruct (after _ s) as [s0|] eqn:A1; [|intros H; injection H as <- _; apply ends_refl]. apply ends_after in A1. destruct (until _ s0) as [[[[t it] x] s1]|] eqn:U; [|discriminate].
  apply ends_until in U. destruct (bytes_eqb _ _); [discriminate|]. destruct (_ || _).
  - intros H. injection H as <- _. eapply ends_trans; eassumption.
  - destruct (it =? 2); [|discriminate]. destruct (until _ s1) as [[[[t2 it2] x2] s2]|] eqn:U2; [|discriminate]. apply ends_until in U2. intros H. injection H as <- _.
    eapply ends_trans; [exact A1|]. eapply ends_trans; eassumption.
Qed.
Lemma ends_comments : forall n s d s' d', (length s <= n)%nat -> a_comments s d = Some (s', d') -> ends s s'.
Proof.
  induction n as [|n IH]; intros s d s' d' L H; rewrite a_comments_eq in H.
  - destruct s; [|cbn in L; lia]. cbn in H. destruct (p_header d); injection H as <- _; apply ends_refl.
  - pose proof (skip_len s) as Ks. pose proof (ends_skip s) as Es. unfold a_comment in H. destruct (after (s2b "<!--") (skip s)) as [s1|] eqn:A1.
    + pose proof (after_shorter (s2b "<!--") _ _ ltac:(discriminate) A1). apply ends_after in A1.
      destruct (until _ s1) as [[[[t it] x] s2]|] eqn:U; [|discriminate]. destruct t as [|c t]; [discriminate|].
      pose proof (until_shorter [s2b "-->"] s1 _ _ _ _ ltac:(gc) U). apply ends_until in U. pose proof (skip_len s2). pose proof (ends_skip s2) as E2.
      assert (E3 : ends s (skip s2)) by (eapply ends_trans; [exact Es|]; eapply ends_trans; [exact A1|]; eapply ends_trans; eassumption).
      destruct (if p_header _ then _ else None) as [y|] eqn:P.
      * destruct (p_header _); [|discriminate]. destruct (a_pi (skip s2) _) as [[s3 d3]|] eqn:Q; [|discriminate]. pose proof (a_pi_len _ _ _ _ _ Q P). apply ends_a_pi in Q.
        eapply ends_trans; [exact E3|]. eapply ends_trans; [exact Q|]. eapply IH; [|exact H]. lia.
      * eapply ends_trans; [exact E3|]. eapply IH; [|exact H]. lia.
    + destruct (if p_header d then _ else None) as [y|] eqn:P.
      * destruct (p_header d); [|discriminate]. rewrite skip_skip in *. destruct (a_pi _ _) as [[s3 d3]|] eqn:Q; [|discriminate]. pose proof (a_pi_len _ _ _ _ _ Q P). apply ends_a_pi in Q.
        eapply ends_trans; [exact Es|]. eapply ends_trans; [exact Q|]. eapply IH; [|exact H]. lia.
      * injection H as <- _. rewrite skip_skip. exact Es.
Qed.
Lemma ends_decl s d s' d' : a_decl s d = Ok (Some (s', d')) -> ends s s'.
Proof.
  unfold a_decl. destruct (after (s2b "xml") s) as [s1|] eqn:A1; [|discriminate]. apply ends_after in A1. cbv zeta.
  destruct (insp _ _ =? 0); [discriminate|]. destruct (several _ _ _ =? 0); [discriminate|].
  match goal with |- context [a_field (s2b "encoding=") (skip ?z)] => set (s2 := z) end.
  assert (E2 : ends s s2).
  { eapply ends_trans; [exact A1|]. eapply ends_trans; [apply ends_skip|]. eapply ends_trans; [apply (ends_rest _ (s2b "version="))|]. eapply ends_trans; [apply ends_skip|]. apply ends_rest2. }
  clearbody s2. destruct (a_field _ (skip s2)) as [[e s3]|] eqn:F1; [|discriminate]. apply ends_field in F1.
  destruct (a_field _ (skip s3)) as [[sa s4]|] eqn:F2; [|discriminate]. apply ends_field in F2.
  assert (E4 : ends s (skip s4)).
  { eapply ends_trans; [exact E2|]. eapply ends_trans; [apply ends_skip|]. eapply ends_trans; [exact F1|]. eapply ends_trans; [apply ends_skip|]. eapply ends_trans; [exact F2|]. apply ends_skip. }
  match goal with |- bind ?X _ = _ -> _ => destruct X as [d1| |]; cbn [bind]; try discriminate end.
  destruct (after _ (skip s4)) as [s5|] eqn:A5; [|discriminate]. apply ends_after in A5. intros H. injection H as H. eapply ends_trans; [exact E4|]. eapply ends_trans; [exact A5|].
  eapply ends_comments; [apply le_n|exact H].
Qed.
Lemma ends_head s d s' d' : b_head s d = Ok (Some (s', d')) -> ends s s'.
Proof.
  unfold b_head. destruct (_ =? 0); intros H; [injection H as <- _; apply ends_refl|]. eapply ends_trans; [apply ends_rest|]. eapply ends_decl, H.
Qed.
Lemma ends_ascii s r : ends s r -> Forall is_ascii s -> Forall is_ascii r.
Proof. intros (p & ->) F. apply Forall_app in F. tauto. Qed.

(** ** without conversion *)
Definition UTF : bytes := s2b "utf-8".
Lemma tail_recoded s d : Ok (b_tail s (enc d UTF)) = recoded_result UTF (Ok (b_tail s d)).
Proof. rewrite enc_tail. destruct (b_tail s d); reflexivity. Qed.
Lemma begins_start content : begins content -> b_start content = Some content /\ rest_of content BOM = content.
Proof.
  intros (L & c & r & -> & N1 & N2). unfold b_start. destruct (Nat.ltb_spec (length ("<"%char :: c :: r)) 4); [lia|]. split; [|reflexivity].
  change (after BOM ("<"%char :: c :: r)) with (@None bytes). change (after U16 ("<"%char :: c :: r)) with (@None bytes). cbv iota.
  rewrite Ascii.eqb_refl. destruct (Ascii.eqb_spec c "<"); [contradiction|]. destruct (Ascii.eqb_spec c ">"); [contradiction|]. reflexivity.
Qed.
Lemma ascii_row s : Forall is_ascii s -> row shape s.
Proof.
  intros F. exists (map (fun c => [c]) s). split.
  - apply Forall_forall. intros x I. apply in_map_iff in I. destruct I as (c & <- & I). constructor. rewrite Forall_forall in F. specialize (F c I). unfold is_ascii, rng in *. lia.
  - clear. induction s; cbn; congruence.
Qed.
Lemma ascii_text n s : Forall is_ascii s -> b_text n s = Some s.
Proof.
  intros F. unfold b_text. destruct n as [n|]; [|reflexivity]. destruct (bytes_eqb n _).
  - rewrite (proj2 (checked_row s) (ascii_row s F)). reflexivity.
  - destruct (picked encodings n None) as [t|] eqn:P; [|reflexivity]. apply picked_in in P. destruct P as [P|(name & I & _)]; [discriminate|].
    rewrite (fit_ascii t (encodings_clean name t I)) by (auto using le_n). reflexivity.
Qed.
Theorem ascii_ok content : begins content -> Forall is_ascii content -> babel_parse content = recoded_result UTF (doc_parse content).
Proof.
  intros Bg F. destruct (begins_start content Bg) as [B1 B2]. rewrite babel_parse_ok, plain_parse, B2. unfold b_parse. rewrite B1.
  destruct (b_head content pdoc_new) as [[[s d]|]| |] eqn:H; cbn [bind]; try reflexivity.
  apply ends_head in H. unfold b_configure. rewrite ascii_text by (eapply ends_ascii; eassumption). apply tail_recoded.
Qed.
Theorem undeclared_ok content : begins content -> (forall r, content <> s2b "<?" ++ r) -> babel_parse content = recoded_result UTF (doc_parse content).
Proof.
  intros Bg N. destruct (begins_start content Bg) as [B1 B2]. rewrite babel_parse_ok, plain_parse, B2. unfold b_parse. rewrite B1.
  assert (X : insp content (s2b "<?") = 0).
  { unfold insp. destruct (after (s2b "<?") content) as [r|] eqn:E; [apply after_Some in E; destruct (N r E)|]. destruct Bg as (L & _).
    destruct (Nat.ltb_spec (length content) (length (s2b "<?"))); [cbn in *; lia|reflexivity]. }
  unfold b_head. rewrite X. change (0 =? 0) with true. cbv iota. cbn [bind b_configure name_of pdoc_new p_encoding b_text]. apply tail_recoded.
Qed.

(** ** with a declaration *)
Lemma decl_start b td e sa s : b = [] \/ b = bom -> decl_text td e sa ->
  b_start (b ++ td ++ s) = Some (td ++ s) /\ rest_of (b ++ td ++ s) BOM = td ++ s /\
  b_head (td ++ s) pdoc_new = Ok (a_comments s (with_standalone (with_encoding pdoc_new e) sa)).
Proof.
  intros Hb D. assert (L : (4 <= length (td ++ s))%nat).
  { destruct D as [w1 w2 q w3 te e' w4 ts s' w5]. rewrite !app_length. cbn. lia. }
  destruct (decl_here td e sa s pdoc_new D eq_refl) as (z & -> & Dz).
  split; [|split].
  - unfold b_start. destruct (Nat.ltb_spec (length (b ++ (s2b "<?" ++ z) ++ s)) 4) as [H|_]; [rewrite (app_length b) in H; lia|].
    destruct Hb as [->| ->]; [reflexivity|]. change (bom ++ ?x) with (BOM ++ x). rewrite after_app. reflexivity.
  - apply bom_rest; [exact Hb|]. eexists _, _. split; [reflexivity|discriminate].
  - unfold b_head. rewrite <- app_assoc. unfold insp. rewrite after_app. change (1 =? 0) with false. cbv iota. unfold rest_of. rewrite after_app. exact Dz.
Qed.
Lemma decl_nul td e sa : decl_text td (Some e) sa -> nul_free e.
Proof. intros H. inversion H as [w1 w2 q w3 te e' w4 ts sv w5 H1 H2 Hq H3 He]. inversion He. assumption. Qed.
Lemma cstr_before n r : nul_free n -> cstr (n ++ NUL :: r) = n.
Proof. intros Nf. induction n as [|c l IH]; [reflexivity|]. apply nul_free_cons in Nf. destruct Nf as [Hc Nf]. cbn [app cstr]. rewrite Hc. f_equal. apply IH, Nf. Qed.
Lemma name_reads e name sa : nul_free e -> reads e name -> map to_lower name = name -> name_of (with_standalone (with_encoding pdoc_new (Some e)) sa) = Some name.
Proof.
  intros Ne R L. destruct (normalise_reads e name Ne R L) as (r & E & Nf). unfold name_of. cbn [with_standalone with_encoding p_encoding pdoc_new]. rewrite E, cstr_before by assumption. reflexivity.
Qed.
(** *** UTF-8 *)
Theorem utf8_ok b td e sa m s : b = [] \/ b = bom -> decl_text td (Some e) sa -> reads e (s2b "utf8") -> misc_text false m [] ->
  (exists s', s = "<"%char :: s') -> (forall r, s <> s2b "<!--" ++ r) ->
  (row shape s -> babel_parse (b ++ td ++ m ++ s) = recoded_result UTF (doc_parse (b ++ td ++ m ++ s))) /\
  (~ row shape s -> babel_parse (b ++ td ++ m ++ s) = Ok None).
Proof.
  intros Hb D R M (s' & Es) N. destruct (decl_start b td (Some e) sa (m ++ s) Hb D) as (B1 & B2 & B3). rewrite babel_parse_ok, plain_parse, B2, B3. unfold b_parse. rewrite B1, B3. cbn [bind].
  set (d := with_standalone (with_encoding pdoc_new (Some e)) sa).
  assert (C : a_comments (m ++ s) d = Some (s, d)).
  { rewrite (misc_ok false m [] M d s eq_refl ltac:(discriminate)), add_pis_nil. assert (Sk : skip s = s) by (rewrite Es; reflexivity).
    rewrite a_comments_eq. rewrite Sk. unfold a_comment. destruct (after (s2b "<!--") s) as [r|] eqn:A1; [apply after_Some in A1; destruct (N r A1)|]. cbn. rewrite Sk. reflexivity. }
  rewrite C. unfold b_configure. assert (Nd : name_of d = Some (s2b "utf8")) by exact (name_reads e (s2b "utf8") sa (decl_nul _ _ _ D) R eq_refl). rewrite Nd. unfold b_text. rewrite bytes_eqb_refl.
  pose proof (checked_row s) as K. destruct (checked s); split; intros H; try reflexivity.
  - apply tail_recoded.
  - destruct H. apply K. reflexivity.
  - apply K in H. discriminate.
Qed.
(** *** encodings that are not known *)
Lemma small_names : forallb (fun p => bytes_eqb (map to_lower (fst p)) (fst p)) encodings = true.
Proof. reflexivity. Qed.
Lemma charset_names : map fst encodings = map fst charsets.
Proof. reflexivity. Qed.
Theorem unknown_ok b td e sa s : b = [] \/ b = bom -> decl_text td (Some e) sa -> ~ reads e (s2b "utf8") -> (forall p, ~ charset e p) ->
  babel_parse (b ++ td ++ s) = recoded_result UTF (doc_parse (b ++ td ++ s)).
Proof.
  intros Hb D Nu Nc. destruct (decl_start b td (Some e) sa s Hb D) as (B1 & B2 & B3). rewrite babel_parse_ok, plain_parse, B2, B3. unfold b_parse. rewrite B1, B3. cbn [bind].
  set (d := with_standalone (with_encoding pdoc_new (Some e)) sa).
  destruct (a_comments s d) as [[s1 d1]|] eqn:C; [|reflexivity].
  assert (En : p_encoding d1 = Some e).
  { assert (G : forall n s d s' d', (length s <= n)%nat -> p_header d = false -> p_stack d = [] -> a_comments s d = Some (s', d') -> d' = d).
    { clear. induction n as [|n IH]; intros s d s' d' L Hh Hs H; rewrite a_comments_eq in H.
      - destruct s; [|cbn in L; lia]. cbn in H. rewrite Hh in H. congruence.
      - pose proof (skip_len s) as Ks. unfold a_comment in H. destruct (after (s2b "<!--") (skip s)) as [s1|] eqn:A1.
        + pose proof (after_shorter (s2b "<!--") _ _ ltac:(discriminate) A1). destruct (until _ s1) as [[[[x it] y] s2]|] eqn:U; [|discriminate].
          pose proof (until_shorter [s2b "-->"] s1 _ _ _ _ ltac:(gc) U). pose proof (skip_len s2). destruct x as [|c x]; [discriminate|].
          rewrite add_item_none in H by exact Hs. rewrite Hh in H. eapply IH; [|exact Hh|exact Hs|exact H]. lia.
        + rewrite Hh in H. congruence. }
    rewrite (G (length s) s d s1 d1 (le_n _) eq_refl eq_refl C). reflexivity. }
  assert (Bt : b_text (name_of d1) s1 = Some s1).
  { unfold name_of. rewrite En. destruct (normalise_ok e) as (t & r & E & T & Nf). rewrite cstr_id in T by exact (decl_nul _ _ _ D). rewrite E, cstr_before by exact Nf.
    assert (Rd : reads e (map to_lower (filter kept t))).
    { exists t. split; [exact T|]. clear. induction (filter kept t) as [|c l IH]; cbn [map]; constructor; [|exact IH]. apply same_letter_ok. symmetry.
      destruct c as [[] [] [] [] [] [] [] []]; reflexivity. }
    unfold b_text. destruct (bytes_eqb _ _) eqn:Eb; [apply bytes_eqb_eq in Eb; rewrite Eb in Rd; contradiction|].
    destruct (picked encodings _ None) as [tb|] eqn:P; [|reflexivity]. apply picked_in in P. destruct P as [P|(name & I & En2)]; [discriminate|]. rewrite En2 in Rd.
    apply (in_map fst) in I. rewrite charset_names in I. apply in_map_iff in I. destruct I as ([n p] & Ef & I). cbn [fst] in Ef. subst n.
    destruct (Nc p). exists name. auto. }
  unfold b_configure. rewrite Bt. apply tail_recoded.
Qed.

(** *** the single byte encodings *)
Lemma charset_table e p : charset e p -> exists name t, reads e name /\ map to_lower name = name /\ bytes_eqb name (s2b "utf8") = false /\
  picked encodings name None = Some t /\ In (name, t) encodings /\ In (t, p) shipped.
Proof.
  intros (name & I & R). unfold charsets in I. cbn [In] in I.
  repeat (destruct I as [I|I]; [injection I as <- <-; eexists _, _; split; [exact R|]; split; [reflexivity|]; split; [reflexivity|]; split; [reflexivity|];
    split; [cbv [encodings In]; tauto|cbv [shipped In]; tauto]|]).
  destruct I.
Qed.
Lemma doctype_head tt : doctype_text tt -> tt <> [] -> exists t, tt = s2b "<!DOCTYPE" ++ t.
Proof. intros [|t H] N; [contradiction|]. eauto. Qed.
(** the comments after the declaration: what is left is a DOCTYPE, more comments and
    processing instructions, and the root *)
Lemma head_part m1 tt m2 l te x rest d : misc_text false m1 [] -> doctype_text tt -> misc_text true m2 l -> elem_text te x -> p_stack d = [] -> p_header d = false ->
  exists tt' m', a_comments (m1 ++ tt ++ m2 ++ te ++ rest) d = Some (tt' ++ m' ++ te ++ rest, d) /\ doctype_text tt' /\ misc_text true m' l /\
    (tt' = [] -> m' = [] \/ exists z, m' = s2b "<?" ++ z).
Proof.
  intros M1 Ht M2 E Ds Dh. rewrite (misc_ok false m1 [] M1 d _ Ds ltac:(discriminate)), add_pis_nil. destruct Ht as [|t Ht].
  - cbn [app]. destruct (misc_part _ _ _ _ rest d M2 E Ds Dh) as (m' & H1 & H2 & H3). exists [], m'. split; [exact H1|]. split; [constructor|]. split; [exact H2|auto].
  - exists (str "<!DOCTYPE" ++ t ++ str ">"), m2. split; [|split; [constructor; exact Ht|split; [exact M2|discriminate]]].
    rewrite <- !app_assoc. rewrite a_comments_plain by (split; reflexivity). reflexivity.
Qed.
Lemma tail_ok tt m l te x rest d : doctype_text tt -> misc_text true m l -> elem_text te x -> p_stack d = [] -> p_header d = false -> p_preserve d = [] -> p_pis d = [] ->
  (tt = [] -> m = [] \/ exists z, m = s2b "<?" ++ z) ->
  exists r n, b_tail (tt ++ m ++ te ++ rest) d = Some r /\ d_root r = Some n /\ shows n x /\ d_encoding r = p_encoding d /\ d_standalone r = p_standalone d /\ d_pis r = l.
Proof.
  intros Ht M E Ds Dh Dp Di Nd. unfold b_tail. destruct Ht as [|t Ht].
  - cbn [app]. unfold a_doctype. rewrite (no_doctype m te x) by auto. apply finish; assumption.
  - rewrite <- !app_assoc. unfold str. destruct (doctype_here t m l te x rest d Ht M E Ds Dh) as (m' & -> & M'). apply finish; assumption.
Qed.
(** what is left of [body ++ more] after the comments ends in [more] *)
Lemma raw_split t pre raw body more H te : clean t -> body ++ more = pre ++ raw -> transcode t raw = H ++ te ++ transcode t more -> te <> [] ->
  exists body', raw = body' ++ more /\ body = pre ++ body' /\ transcode t body' = H ++ te.
Proof.
  intros Ct E T N. assert (L : (length more <= length raw)%nat).
  { destruct (Nat.le_gt_cases (length more) (length raw)) as [|G]; [assumption|exfalso].
    assert (X : ends more raw).
    { exists (skipn (length body) pre). assert (Lp : (length body <= length pre)%nat) by (apply (f_equal (@length _)) in E; rewrite !app_length in E; lia).
      apply (f_equal (skipn (length body))) in E. rewrite skipn_app, skipn_all, Nat.sub_diag in E. cbn [app skipn] in E. rewrite E, skipn_app.
      replace (length body - length pre)%nat with 0%nat by lia. reflexivity. }
    destruct X as (q & Eq). rewrite Eq, transcode_app in T. apply (f_equal (@length _)) in T. rewrite !app_length in T. destruct te; [contradiction|]. cbn [length] in T. lia. }
  assert (Lp : (length pre <= length body)%nat) by (apply (f_equal (@length _)) in E; rewrite !app_length in E; lia).
  exists (skipn (length pre) body).
  assert (Er : raw = skipn (length pre) body ++ more).
  { apply (f_equal (skipn (length pre))) in E. rewrite !skipn_app, skipn_all, Nat.sub_diag in E. cbn [app skipn] in E. rewrite <- E.
    replace (length pre - length body)%nat with 0%nat by lia. reflexivity. }
  split; [exact Er|]. split.
  - rewrite Er, app_assoc in E. apply app_inv_tail in E. exact E.
  - rewrite Er, transcode_app, app_assoc in T. apply app_inv_tail in T. exact T.
Qed.
Lemma app_split {A} (a b p q : list A) : a ++ b = p ++ q -> (exists z, z <> [] /\ b = z ++ q) \/ (exists q', q = q' ++ b /\ a = p ++ q').
Proof.
  revert p. induction a as [|x a IH]; intros p E.
  - cbn [app] in E. destruct p as [|y p]; [right; exists []; cbn in *; auto|left; exists (y :: p); split; [discriminate|exact E]].
  - destruct p as [|y p]; [right; exists (x :: a); cbn in *; auto|]. cbn [app] in E. injection E as -> E.
    destruct (IH p E) as [H|(q' & -> & ->)]; [left; exact H|right; exists q'; auto].
Qed.
Lemma elem_nonempty te x : elem_text te x -> te <> [].
Proof. intros E. destruct (elem_text_start _ _ E) as (c & z & -> & _). discriminate. Qed.
Theorem converted_ok b td e sa p body more us l x : b = [] \/ b = bom -> decl_text td (Some e) sa -> charset e p -> code_points p body = Some us ->
  body_text (encode_all us) l x -> (length (encode_all us) <= length body + length more)%nat ->
  exists r n, babel_parse (b ++ td ++ body ++ more) = Ok (Some r) /\ d_root r = Some n /\ shows n x /\ d_encoding r = Some UTF /\ d_standalone r = sa /\ d_pis r = l.
Proof.
  intros Hb D C P T L. destruct (charset_table e p C) as (name & t & R & Lw & Nu & Pk & Ie & Is). pose proof (encodings_clean name t Ie) as Ct.
  destruct (tables_ok t p Is) as (_ & Tr & _). destruct (Tr _ _ P) as [Et _].
  destruct (decl_start b td (Some e) sa (body ++ more) Hb D) as (B1 & _ & B3). rewrite babel_parse_ok. unfold b_parse. rewrite B1, B3. cbn [bind].
  set (d := with_standalone (with_encoding pdoc_new (Some e)) sa).
  rewrite <- Et in L. inversion T as [m1 tt m2 l' te x' M1 Ht M2 El Eb]. subst l' x'. rewrite <- Et in Eb.
  destruct (head_part m1 tt m2 l te x (transcode t more) d M1 Ht M2 El eq_refl eq_refl) as (tt' & m' & Hc & Ht' & M' & Nd).
  assert (X : m1 ++ tt ++ m2 ++ te ++ transcode t more = transcode t (body ++ more)) by (rewrite transcode_app, <- Eb, <- !app_assoc; reflexivity).
  rewrite X, (tr_comments t Ct _ (body ++ more) d (le_n _) eq_refl eq_refl) in Hc. destruct (a_comments (body ++ more) d) as [[raw d1]|] eqn:Ca; [|discriminate]. injection Hc as Er ->.
  destruct (ends_comments _ _ _ _ _ (le_n _) Ca) as (pre & Ep). rewrite (app_assoc tt') in Er.
  destruct (raw_split t pre raw body more (tt' ++ m') te Ct Ep Er (elem_nonempty te x El)) as (body' & -> & -> & Tb).
  unfold b_configure. assert (Nn : name_of d = Some name) by exact (name_reads e name sa (decl_nul _ _ _ D) R Lw). rewrite Nn. unfold b_text. rewrite Nu, Pk.
  assert (L2 : (length (transcode t body') <= length (body' ++ more))%nat).
  { rewrite transcode_app, !app_length in *. pose proof (tr_len t Ct pre). lia. }
  rewrite fit_app by exact L2. rewrite Tb, <- !app_assoc.
  match goal with |- context [te ++ ?z] => destruct (tail_ok tt' m' l te x z (enc d (s2b "utf-8")) Ht' M' El eq_refl eq_refl eq_refl eq_refl Nd) as (r & n & -> & H1 & H2 & H3 & H4 & H5) end.
  exists r, n. auto 10.
Qed.
(** not everything fits *)
Lemma fit_less t a b room : (room < length (transcode t a))%nat -> fit t (a ++ b) room = fit t a room.
Proof.
  revert room. induction a as [|c a IH]; intros room L; [cbn in L; lia|]. cbn [app fit]. rewrite transcode_cons, app_length in L.
  destruct (Nat.ltb_spec room (length (written t c))); [reflexivity|]. rewrite IH by lia. reflexivity.
Qed.
Theorem lost_ok b td e sa p front root more us vs m1 tt m2 l x : b = [] \/ b = bom -> decl_text td (Some e) sa -> charset e p ->
  code_points p front = Some us -> code_points p root = Some vs ->
  encode_all us = m1 ++ tt ++ m2 -> misc_text false m1 [] -> doctype_text tt -> misc_text true m2 l ->
  elem_text (encode_all vs) x -> tame x -> (length root + length more < length (encode_all vs))%nat ->
  babel_parse (b ++ td ++ front ++ root ++ more) = Ok None.
Proof.
  intros Hb D C P Q Ef M1 Ht M2 El Ta L. destruct (charset_table e p C) as (name & t & R & Lw & Nu & Pk & Ie & Is). pose proof (encodings_clean name t Ie) as Ct.
  destruct (tables_ok t p Is) as (_ & Tr & _). destruct (Tr _ _ P) as [Et _]. destruct (Tr _ _ Q) as [Eq _]. clear Tr.
  rewrite <- Eq in L, El. rewrite <- Et in Ef. set (te := transcode t root) in *.
  destruct (decl_start b td (Some e) sa (front ++ root ++ more) Hb D) as (B1 & _ & B3). rewrite babel_parse_ok. unfold b_parse. rewrite B1, B3. cbn [bind].
  set (d := with_standalone (with_encoding pdoc_new (Some e)) sa).
  destruct (head_part m1 tt m2 l te x (transcode t more) d M1 Ht M2 El eq_refl eq_refl) as (tt' & m' & Hc & Ht' & M' & Nd).
  assert (X : m1 ++ tt ++ m2 ++ te ++ transcode t more = transcode t (front ++ root ++ more)) by (rewrite !transcode_app, Ef, <- !app_assoc; reflexivity).
  rewrite X, (tr_comments t Ct _ (front ++ root ++ more) d (le_n _) eq_refl eq_refl) in Hc. destruct (a_comments (front ++ root ++ more) d) as [[raw d1]|] eqn:Ca; [|discriminate]. injection Hc as Er ->.
  destruct (ends_comments _ _ _ _ _ (le_n _) Ca) as (pre & Ep). rewrite (app_assoc tt') in Er.
  rewrite (app_assoc front) in Ep. destruct (raw_split t pre raw (front ++ root) more (tt' ++ m') te Ct Ep Er (elem_nonempty te x El)) as (body' & -> & Eb & Tb).
  unfold b_configure. assert (Nn : name_of d = Some name) by exact (name_reads e name sa (decl_nul _ _ _ D) R Lw). rewrite Nn. unfold b_text. rewrite Nu, Pk.
  assert (L2 : (length (body' ++ more) < length (transcode t body'))%nat).
  { destruct (app_split _ _ _ _ Eb) as [(z & Nz & Ez)|(q & -> & _)].
    - exfalso. assert (K : (length te = length (transcode t z) + length (transcode t body'))%nat) by (unfold te; rewrite Ez, transcode_app, app_length; reflexivity).
      rewrite Tb, !app_length in K. pose proof (tr_len t Ct z). destruct z; [contradiction|]. cbn [length] in *. lia.
    - rewrite transcode_app, !app_length. pose proof (tr_len t Ct q). fold te. lia. }
  rewrite fit_less by exact L2. destruct (fit_short t Ct body' _ L2) as (z & Ez & Nz). rewrite Tb, <- !app_assoc in Ez. change b_tail with tail.
  rewrite (tail_cut tt' m' l te x _ z _ Ht' M' El Ta Ez Nz); [reflexivity|split; reflexivity|reflexivity].
Qed.
