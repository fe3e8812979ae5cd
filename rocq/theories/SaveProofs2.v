(** Saving and loading. *)
From Coq Require Import Permutation.
From Verif Require Import Prelude StrModel StrSpec StrProofs AttrModel TreeModel StreamModel StreamProofs ParseModel ParseProofs ParseProofs2
  DumpModel XmlSpec DumpProofs GramProofs GramProofs2 GramProofs3 GramProofs4 GramProofs5 FileSpec FileProofs FileProofs2 FileProofs4 SaveModel SaveSpec SaveProofs.
Open Scope nat_scope.

(** ** no markup declarations in a tree of elements and texts *)
Definition okhead (s : bytes) : Prop := match s with c :: _ => c <> "!"%char /\ c <> "?"%char | [] => True end.
Notation bare_in := (each "<"%char okhead).
Scheme basic_mut := Induction for basic Sort Prop
with basic_items_mut := Induction for basic_items Sort Prop.
Combined Scheme basic_both from basic_mut, basic_items_mut.
Scheme sober_mut := Induction for sober Sort Prop
with sober_items_mut := Induction for sober_items Sort Prop.
Combined Scheme sober_both from sober_mut, sober_items_mut.

Lemma name_head name s : is_name name -> okhead (name ++ s).
Proof.
  intros [N H]. destruct name as [|c name]; [contradiction|]. cbn [app okhead forallb] in *. apply andb_true_iff in H. destruct H as [H _].
  split; intros ->; discriminate.
Qed.
Lemma bare_lt rest : okhead rest -> bare_in (str "<") rest.
Proof. intros H u v E. destruct u as [|? [|]]; [|discriminate..]. injection E as <-. exact H. Qed.
Lemma bare_close rest : bare_in (str "</") rest.
Proof. intros u v E. destruct u as [|? [|? [|]]]; try discriminate. injection E as <-. split; discriminate. Qed.

Lemma bare_trees : (forall x, basic x -> proper x -> forall lay lv rest, bare_in (elem_xml lay lv x) rest) /\
  (forall l, basic_items l -> forall p, proper_items p l -> forall lay lv rest, bare_in (concat (map (item_xml lay lv) l)) rest).
Proof.
  apply basic_both.
  - intros name ats l V _ IH P lay lv rest. inversion P as [? ? ? Hn Ha Hd Hl]; subst. cbn [elem_xml].
    pose proof (has_name "<" name eq_refl Hn) as Gn. pose proof (has_attrs "<" ats eq_refl Ha V) as Ga.
    pose proof (has_ws "<" (indent lay lv) eq_refl (ws_indent lay lv)) as Gi. pose proof (has_ws "<" (eol lay) eq_refl (ws_eol lay)) as Ge.
    apply each_app; [apply each_none, Gi|]. apply each_app; [apply bare_lt; rewrite <- app_assoc; apply name_head, Hn|].
    apply each_app; [apply each_none, Gn|]. apply each_app; [apply each_none, Ga|]. apply each_app; [|apply each_none, Ge].
    destruct (XmlSpec.bare l); [none|]. apply each_app; [none|]. apply each_app; [destruct (inner l); [apply each_none, Ge|none]|].
    apply each_app; [apply (IH _ Hl)|]. apply each_app; [destruct (inner l); [apply each_none, Gi|none]|].
    apply each_app; [apply bare_close|]. apply each_app; [apply each_none, Gn|none].
  - intros p _ lay lv rest. none.
  - intros x l _ IHx _ IHl p P lay lv rest. inversion P; subst. cbn [map concat item_xml]. apply each_app; [apply IHx; assumption|eapply IHl; eassumption].
  - intros t l _ IHl p P lay lv rest. inversion P; subst. cbn [map concat item_xml]. apply each_app; [apply each_none; assumption|eapply IHl; eassumption].
Qed.

(** ** the same node shown twice *)
Lemma shows_sober : (forall n x, shows n x -> forall x', shows n x' -> sober x -> sober x') /\
  (forall l m, shows_items l m -> forall m', shows_items l m' -> sober_items m -> sober_items m').
Proof.
  apply shows_both.
  - intros name a items ats l xs E P S IH x' S' Px. inversion S' as [? ? ? ats' l' xs' E' P' S'']; subst. rewrite E in E'. injection E' as <-.
    inversion Px; subst. constructor; [|eauto].
    eapply Permutation_Forall; [|eassumption]. eapply perm_trans; [apply Permutation_sym|]; eassumption.
  - intros m' S' _. inversion S'; subst. constructor.
  - intros n x l m _ IHn _ IHl m' S' Pm. inversion S'; subst. inversion Pm; subst. constructor; eauto.
  - intros t l m _ IHl m' S' Pm. inversion S'; subst. inversion Pm; subst. constructor; eauto.
  - intros t l m _ IHl m' S' Pm. inversion S'; subst. inversion Pm; subst. constructor; eauto.
  - intros [n c] l m _ IHl m' S' Pm. inversion S'; subst. cbn [pi_name pi_content] in *. inversion Pm; subst. constructor; eauto.
  - intros t l m _ IHl m' S' Pm. inversion S'; subst. inversion Pm; subst. constructor; eauto.
  - intros t l m _ IHl m' S' Pm. inversion Pm.
Qed.
Lemma shows_basic : (forall n x, shows n x -> forall x', shows n x' -> basic x -> basic x') /\
  (forall l m, shows_items l m -> forall m', shows_items l m' -> basic_items m -> basic_items m').
Proof.
  apply shows_both.
  - intros name a items ats l xs E P S IH x' S' Px. inversion S' as [? ? ? ats' l' xs' E' P' S'']; subst. rewrite E in E'. injection E' as <-.
    inversion Px; subst. constructor; [|eauto].
    eapply Permutation_Forall; [|eassumption]. eapply perm_trans; [apply Permutation_sym|]; eassumption.
  - intros m' S' _. inversion S'; subst. constructor.
  - intros n x l m _ IHn _ IHl m' S' Pm. inversion S'; subst. inversion Pm; subst. constructor; eauto.
  - intros t l m _ IHl m' S' Pm. inversion S'; subst. inversion Pm; subst. constructor; eauto.
  - intros t l m _ IHl m' S' Pm. inversion Pm.
  - intros t l m _ IHl m' S' Pm. inversion Pm.
  - intros t l m _ IHl m' S' Pm. inversion Pm.
  - intros t l m _ IHl m' S' Pm. inversion Pm.
Qed.

(** ** from the text to the file *)
Lemma tidy_settled s : tidy_in s [] -> settled s.
Proof.
  intros T u g c v -> N G C Nc. exfalso. apply Nc. specialize (T u (g ++ [c] ++ v) eq_refl). rewrite app_nil_r in T.
  apply (T g c v eq_refl N); [apply ws_blanks, G|]. destruct (is_ws c) eqn:W; [|reflexivity]. exfalso. apply C, ws_blank, W.
Qed.
Lemma tidy_text s : tidy_in s [] -> forall u gap c v, s = u ++ s2b ">" ++ gap ++ [c] ++ v ->
    gap <> [] -> Forall blank gap -> ~ blank c -> c = "<"%char.
Proof.
  intros T u g c v -> N G C. specialize (T u (g ++ [c] ++ v) eq_refl). rewrite app_nil_r in T.
  apply (T g c v eq_refl N); [apply ws_blanks, G|]. destruct (is_ws c) eqn:W; [|reflexivity]. exfalso. apply C, ws_blank, W.
Qed.
Lemma elem_end t lv x : exists body, elem_xml (Some t) lv x = body ++ ["010"%char].
Proof. destruct x as [name ats l]. cbn [elem_xml eol]. eexists. rewrite !app_assoc. reflexivity. Qed.
Definition declared (e : option bytes) (sa : bool) : bytes :=
  match e with Some e => str "encoding='" ++ e ++ str "' " | None => [] end ++ (if sa then str "standalone='yes' " else []).
Lemma doc_xml_split lay e sa x : doc_xml lay e sa x = str "<?" ++ ((str "xml version='1.0' " ++ declared e sa ++ str "?") ++ str ">") ++ eol lay ++ elem_xml lay 0 x.
Proof. unfold doc_xml, decl_xml, declared. rewrite <- !app_assoc. reflexivity. Qed.
Lemma has_declared c e sa : has c (str "<>") = true -> (forall v, e = Some v -> has c v = false) -> has c (declared e sa) = false.
Proof.
  intros C H. unfold declared. rewrite has_app'.
  unfold has in C. cbn [str s2b list_ascii_of_string existsb] in C.
  assert (D : c = "<"%char \/ c = ">"%char).
  { destruct (Ascii.eqb_spec c "<"); [auto|]. destruct (Ascii.eqb_spec c ">"); [auto|discriminate]. }
  destruct e as [v|]; rewrite ?has_app', ?(H v eq_refl); destruct D as [-> | ->], sa; reflexivity.
Qed.
Lemma tree_open lay lv x s : opens (elem_xml lay lv x ++ s).
Proof. destruct x as [name ats l]. cbn [elem_xml]. rewrite <- app_assoc. apply opens_blank; [apply ws_indent|apply opens_lt]. Qed.
Lemma doc_tidy lay e sa x : proper x -> sober x -> lay = None \/ unmixed x -> plain_encoding e -> tidy_in (doc_xml lay e sa x) [].
Proof.
  intros P Sx U E. rewrite doc_xml_split. apply each_app; [none|]. apply each_app; [|apply each_app].
  - apply tidy_gt; [|apply opens_lead; rewrite <- app_assoc; apply opens_blank; [apply ws_eol|apply tree_open]].
    rewrite !has_app', has_declared; [reflexivity|reflexivity|]. intros v Hv. apply (E v Hv).
  - apply each_none, has_ws; [reflexivity|apply ws_eol].
  - apply (proj1 tidy_both x P Sx); [exact U|]. apply opens_lead. apply opens_blank; [apply ws_eol|]. exists [], []. auto.
Qed.
Lemma node_tidy lay x : proper x -> sober x -> lay = None \/ unmixed x -> tidy_in (elem_xml lay 0 x) [].
Proof. intros P Sx U. apply (proj1 tidy_both x P Sx); [exact U|]. apply opens_lead. apply opens_blank; [apply ws_eol|]. exists [], []. auto. Qed.

Lemma bare_no s c v : bare_in s [] -> c = "!"%char \/ c = "?"%char -> forall u, s <> u ++ "<"%char :: c :: v.
Proof. intros B C u E. specialize (B _ _ E). cbn [app okhead] in B. destruct C; subst c; tauto. Qed.
Lemma node_regular t x : proper x -> sober x -> unmixed x -> basic x -> regular (elem_xml (Some t) 0 x).
Proof.
  intros P Sx U B. pose proof (proj1 bare_trees x B P (Some t) 0 []) as Bi. destruct (elem_end t 0 x) as (body & Eb). constructor.
  - exists body, "010"%char. split; [exact Eb|]. cbn. auto.
  - intros u v E. eapply (bare_no _ "!"%char); [exact Bi|auto|exact E].
  - intros u v E. eapply (bare_no _ "!"%char); [exact Bi|auto|exact E].
  - intros u v E. exfalso. eapply (bare_no _ "?"%char); [exact Bi|auto|exact E].
  - apply tidy_text, node_tidy; auto.
Qed.
Lemma doc_regular t e sa x : proper x -> sober x -> unmixed x -> basic x -> plain_encoding e -> regular (doc_xml (Some t) e sa x).
Proof.
  intros P Sx U B E. pose proof (proj1 bare_trees x B P (Some t) 0 []) as Bi. destruct (elem_end t 0 x) as (body & Eb).
  pose proof (doc_xml_split (Some t) e sa x) as Es.
  set (tail := ((str "xml version='1.0' " ++ declared e sa ++ str "?") ++ str ">") ++ eol (Some t) ++ elem_xml (Some t) 0 x) in *.
  assert (Bt : bare_in tail []).
  { unfold tail. apply each_app; [|apply each_app; [none|exact Bi]]. apply each_none. rewrite !has_app', has_declared; [reflexivity|reflexivity|].
    intros v Hv. apply (E v Hv). }
  assert (Nb : forall u v, doc_xml (Some t) e sa x <> u ++ "<"%char :: "!"%char :: v).
  { intros u v Ev. rewrite Es in Ev. destruct u as [|a [|b u]].
    - discriminate Ev.
    - injection Ev as _ Ev. discriminate Ev.
    - injection Ev as _ _ Ev. eapply (bare_no _ "!"%char); [exact Bt|auto|exact Ev]. }
  constructor.
  - unfold doc_xml. rewrite Eb. exists (decl_xml (Some t) e sa ++ body), "010"%char. split; [apply app_assoc|]. cbn. auto.
  - intros u v Ev. exact (Nb _ _ Ev).
  - intros u v Ev. exact (Nb _ _ Ev).
  - intros u v Ev. assert (u = []) as ->.
    { rewrite Es in Ev. destruct u as [|a [|b u]]; [reflexivity| |].
      - injection Ev as _ Ev. discriminate Ev.
      - injection Ev as _ _ Ev. exfalso. eapply (bare_no _ "?"%char); [exact Bt|auto|exact Ev]. }
    split; [auto|]. cbn [app] in Ev. rewrite <- Ev.
    exists [sp], [], "'"%char, (sp :: declared e sa ++ str "?>" ++ eol (Some t) ++ elem_xml (Some t) 0 x).
    split; [|repeat split; auto; try (constructor; [cbn; auto|constructor])].
    unfold doc_xml, decl_xml, declared. rewrite <- !app_assoc. reflexivity.
  - apply tidy_text, doc_tidy; auto.
Qed.

(** ** the text of a node is a document *)
Lemma node_written lay x : proper x -> lay = None \/ unmixed x -> doc_text (elem_xml lay 0 x) None false [] (pad_tree x).
Proof.
  intros P Hu. destruct (proj1 texts_written x P lay O Hu) as (te & E & T). rewrite E.
  assert (I0 : indent lay 0 = []) by (destruct lay as [n|]; [cbn; rewrite Nat.mul_0_r|]; reflexivity). rewrite I0. cbn [app].
  apply (doc_plain [] [] [] [] te (pad_tree x) (eol lay)); auto.
  - constructor.
  - constructor. reflexivity.
  - discriminate.
Qed.

(** ** writing *)
Lemma sub_all text : mem_sub (text ++ [NUL]) 0 (Z.of_nat (length text)) = Ok text.
Proof.
  unfold mem_sub. rewrite app_length. cbn [length].
  replace ((0 <? 0)%Z || (Z.of_nat (length text) <? 0)%Z || (Z.of_nat (length text + 1) <? 0 + Z.of_nat (length text))%Z) with false
    by (symmetry; apply orb_false_iff; split; [apply orb_false_iff; split|]; apply Z.ltb_ge; lia).
  rewrite Nat2Z.id. change (Z.to_nat 0) with 0. cbn [skipn]. rewrite firstn_app, Nat.sub_diag, firstn_all. cbn [firstn]. rewrite app_nil_r. reflexivity.
Qed.
Lemma save_ok k file dump text : dump = Ok (Some (text ++ [NUL], Z.of_nat (length text))) -> keeps k ->
  saved k file dump (dump_file k file dump).
Proof.
  intros E K. unfold dump_file. rewrite E. cbn [bind]. unfold write_file, saved, keeps in *. rewrite sub_all. destruct (k_open k) eqn:O; cbn [negb bind].
  - exists text, (Z.of_nat (length (firstn (k_take k) text)) =? Z.of_nat (length text))%Z, (Some (firstn (k_keep k) (firstn (k_take k) text))).
    rewrite firstn_firstn, (Nat.min_r (k_keep k)) by exact K. rewrite firstn_length. split; [reflexivity|]. split; [reflexivity|]. repeat split; [| |intros (_ & L & _)|discriminate..].
    + intros T. apply Z.eqb_eq in T. rewrite firstn_all2 by lia. reflexivity.
    + intros F. apply Z.eqb_neq in F. right. exists (firstn (k_take k) text), (skipn (k_take k) text). rewrite firstn_skipn. repeat split.
      intros X. apply (f_equal (@length _)) in X. rewrite skipn_length in X. cbn in X. lia.
    + apply Z.eqb_eq. lia.
  - exists text, false, file. repeat split; auto; try discriminate. intros (X & _). congruence.
Qed.
Lemma saves k file n x e sa pis : shows n x -> measurable x -> (forall v, e = Some v -> nul_free v) -> keeps k ->
  saved k file (doc_dump (Doc (Some n) e sa pis)) (doc_dump_to_file k file (Doc (Some n) e sa pis)) /\
  (forall t, saved k file (doc_dump_pretty (Doc (Some n) e sa pis) (Z.of_nat t)) (doc_dump_pretty_to_file k file (Doc (Some n) e sa pis) (Z.of_nat t))) /\
  (forall t, saved k file (node_dump_pretty n (Z.of_nat t)) (node_dump_pretty_to_file k file n (Z.of_nat t))) /\
  saved k file (node_dump_pretty n 0) (node_dump_to_file k file n).
Proof.
  intros S M He K. destruct (dumps n x e sa pis S M He) as (x' & _ & D1 & D2 & _ & D3). split; [|split; [|split]].
  - eapply save_ok; [exact D1|exact K].
  - intros t. eapply save_ok; [exact (D2 t)|exact K].
  - intros t. eapply save_ok; [exact (D3 t)|exact K].
  - eapply save_ok; [exact (D3 0)|exact K].
Qed.

(** ** loading *)
Lemma load_ok text e sa x x' n : shows n x -> shows n x' -> doc_text text e sa [] (pad_tree x') -> doc_parse_file text = doc_parse text ->
  loaded text x e sa.
Proof.
  intros S S' D F. destruct (doc_text_ok _ _ _ _ _ D) as (r & n' & R1 & R2 & R3 & R4 & R5 & R6). exists r, n'.
  rewrite F. repeat split; auto. exact (proj1 shows_pad n x S x' S' n' R3).
Qed.
Lemma plain_is_encoding e : plain_encoding e -> is_encoding e.
Proof. intros H v Hv. destruct (H v Hv) as (? & ? & ? & _). auto. Qed.
Lemma write_text k file text file' : keeps k ->
  dump_file k file (Ok (Some (text ++ [NUL], Z.of_nat (length text)))) = Ok (true, file') -> file' = Some text.
Proof.
  intros K R. destruct (save_ok k file _ text eq_refl K) as (t & ok & f & E1 & E2 & Ht & _). rewrite R in E2. injection E2 as <- <-.
  injection E1 as E1 _. apply app_inj_tail in E1. destruct E1 as [-> _]. auto.
Qed.
Lemma back lay k file file' n x e sa pis : shows n x -> proper x -> sober x -> lay = None \/ unmixed x -> plain_encoding e -> keeps k ->
  dump_file k file (doc_dump_common (Doc (Some n) e sa pis) (pretty_of lay) (tab_of lay)) = Ok (true, file') ->
  exists text, file' = Some text /\ (short text \/ (lay <> None /\ basic x) -> loaded text x e sa).
Proof.
  intros Sh P So U He K R. destruct (proj1 dump_shows n x Sh (proj1 proper_measurable x P)) as (x' & S' & M' & Ok').
  assert (P' : proper x') by exact (proj1 shows_proper n x Sh x' S' P).
  assert (U' : lay = None \/ unmixed x') by (destruct U as [H|H]; [auto|right; exact (proj1 shows_unmixed n x Sh x' S' H)]).
  assert (So' : sober x') by exact (proj1 shows_sober n x Sh x' S' So).
  rewrite (doc_dump_common_ok n x' lay e sa pis Ok') in R by (intros v Hv; apply (He v Hv)).
  exists (doc_xml lay e sa x'). split; [exact (write_text _ _ _ _ K R)|]. intros C.
  refine (load_ok _ e sa x x' n Sh S' (doc_written lay e sa x' P' U' (plain_is_encoding e He)) _). destruct C as [C|[C1 C2]].
  - apply file_same; [exact C|]. apply tidy_settled, doc_tidy; assumption.
  - destruct lay as [t|]; [|contradiction]. apply file_regular, doc_regular; auto.
    + destruct U' as [U'|U']; [discriminate|exact U'].
    + exact (proj1 shows_basic n x Sh x' S' C2).
Qed.
Lemma back_node t k file file' n x : shows n x -> proper x -> sober x -> unmixed x -> keeps k ->
  dump_file k file (node_dump_common n true 0 (Z.of_nat t)) = Ok (true, file') ->
  exists text, file' = Some text /\ (short text \/ basic x -> loaded text x None false).
Proof.
  intros Sh P So U K R. destruct (proj1 dump_shows n x Sh (proj1 proper_measurable x P)) as (x' & S' & M' & Ok').
  assert (P' : proper x') by exact (proj1 shows_proper n x Sh x' S' P).
  assert (U' : unmixed x') by exact (proj1 shows_unmixed n x Sh x' S' U).
  assert (So' : sober x') by exact (proj1 shows_sober n x Sh x' S' So).
  pose proof (node_dump_common_ok n x' (Some t) Ok') as D. cbn [pretty_of tab_of] in D. rewrite D in R.
  exists (elem_xml (Some t) 0 x'). split; [exact (write_text _ _ _ _ K R)|]. intros C.
  refine (load_ok _ None false x x' n Sh S' (node_written (Some t) x' P' (or_intror U')) _). destruct C as [C|C].
  - apply file_same; [exact C|]. apply tidy_settled, node_tidy; auto.
  - apply file_regular, node_regular; auto. exact (proj1 shows_basic n x Sh x' S' C).
Qed.
