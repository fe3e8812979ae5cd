(** What is written is a well-formed text of the same tree. *)
From Coq Require Import Permutation.
From Verif Require Import Prelude StrModel StrSpec StrProofs EscProofs StrProofs2 StrProofs3 AttrModel AttrSpec AttrProofs
  TreeModel StreamModel StreamProofs ParseModel ParseProofs ParseProofs2 DumpModel XmlSpec DumpProofs GramProofs GramProofs2 GramProofs3.

Scheme proper_mut := Minimality for proper Sort Prop
  with proper_items_mut := Minimality for proper_items Sort Prop.
Combined Scheme proper_both from proper_mut, proper_items_mut.
Scheme unmixed_mut := Minimality for unmixed Sort Prop
  with unmixed_items_mut := Minimality for unmixed_items Sort Prop.
Scheme spaced_mut := Minimality for spaced Sort Prop
  with spaced_items_mut := Minimality for spaced_items Sort Prop.
Combined Scheme spaced_both from spaced_mut, spaced_items_mut.

Lemma blank_app a b : blank a -> blank b -> blank (a ++ b).
Proof. unfold blank. intros. rewrite forallb_app. apply andb_true_iff. auto. Qed.
Lemma blank_indent lay lv : blank (indent lay lv).
Proof. destruct lay as [n|]; [|reflexivity]. cbn [indent]. induction (n * lv)%nat; [reflexivity|]. exact IHn0. Qed.
Lemma blank_eol lay : blank (eol lay).
Proof. destruct lay; reflexivity. Qed.

Lemma attrs_xml_text ats : Forall is_attr ats -> NoDup (map fst ats) -> attrs_text (attrs_xml ats) ats.
Proof.
  induction ats as [|[k v] ats IH]; intros F N; [constructor|].
  inversion F as [|? ? [Hk [Hs (u & Hu & Hn & Hq)]] F']; subst. inversion N as [|? ? N1 N2]; subst. cbn [fst snd] in *. subst v.
  unfold attrs_xml. cbn [map concat]. fold (attrs_xml ats). unfold attr_xml. cbn [fst snd].
  set (q := if has "'" u then "034"%char else "'"%char).
  replace ((sp :: k ++ "="%char :: q :: u ++ [q]) ++ attrs_xml ats) with ([sp] ++ k ++ str "=" ++ [q] ++ u ++ [q] ++ attrs_xml ats).
  2: { unfold str, s2b. cbn [list_ascii_of_string app]. f_equal. rewrite <- !app_assoc. f_equal. cbn [app]. rewrite <- app_assoc. reflexivity. }
  constructor; try assumption; try reflexivity; try discriminate; auto.
  - unfold q, quote. destruct (has "'" u); auto.
  - unfold q. destruct (has "'" u) eqn:E; [|exact E]. destruct Hq; [congruence|assumption].
Qed.

Lemma occurs_sp_l p s : ~ In sp p -> p <> [] -> occurs p (sp :: s) -> occurs p s.
Proof.
  intros Hp Hn [a [b E]]. destruct a as [|c a].
  - exfalso. destruct p as [|x p]; [contradiction|]. injection E as E0 E. apply Hp. left. auto.
  - injection E as E0 E. exists a, b. exact E.
Qed.
Lemma occurs_sp_r p s : ~ In sp p -> p <> [] -> occurs p (s ++ [sp]) -> occurs p s.
Proof.
  intros Hp Hn [a [b E]]. destruct (list_eq_dec ascii_dec b []) as [->|Nb]; [|destruct (exists_last Nb) as (b' & c & ->)].
  - exfalso. rewrite app_nil_r in E. destruct (exists_last Hn) as (p' & c & ->). rewrite app_assoc in E.
    apply app_inj_tail in E. destruct E as [_ <-]. apply Hp. apply in_or_app. right. left. reflexivity.
  - rewrite !app_assoc in E. apply app_inj_tail in E. destruct E as [-> _]. exists a, b'. rewrite <- app_assoc. reflexivity.
Qed.
Lemma padded_comment t : is_comment t -> is_comment (padded t).
Proof.
  intros [H1 H2]. unfold padded. split.
  - destruct (Ascii.eqb _ _); [|discriminate]. destruct t; [contradiction|discriminate].
  - intros O. apply H2.
    assert (N : ~ In sp (str "-->")) by (cbn; intuition discriminate).
    assert (Ne : str "-->" <> []) by discriminate.
    assert (O' : occurs (str "-->") (t ++ (if Ascii.eqb (last t NUL) sp then [] else [sp]))).
    { destruct (Ascii.eqb (hd NUL t) sp); [exact O|]. apply occurs_sp_l; assumption. }
    destruct (Ascii.eqb (last t NUL) sp); [rewrite app_nil_r in O'; exact O'|]. apply occurs_sp_r; assumption.
Qed.

Definition room (lay : option nat) (p : phase) (l : list xitem) (w tl : bytes) : Prop :=
  (no_text l = true /\ p <> AfterText) \/ (w = [] /\ tl = [] /\ (lay = None \/ inner l = false)).
Definition tree_text (x : xnode) : Prop := forall (lay : option nat) lv, lay = None \/ unmixed x ->
  exists te, elem_xml lay lv x = indent lay lv ++ te ++ eol lay /\ elem_text te (pad_tree x).
Definition items_text (p : phase) (l : list xitem) : Prop := forall (lay : option nat) lv w tl, lay = None \/ unmixed_items l ->
  gap p w -> blank tl -> room lay p l w tl ->
  content_text p (w ++ concat (map (item_xml lay lv) l) ++ tl) (map pad_item l).

Lemma unmixed_tail (lay : option nat) i l : lay = None \/ unmixed_items (i :: l) -> lay = None \/ unmixed_items l.
Proof. intros [H|H]; [auto|]. right. inversion H; subst; assumption. Qed.

Lemma texts_written : (forall x, proper x -> tree_text x) /\ (forall p l, proper_items p l -> items_text p l).
Proof.
  apply proper_both.
  - intros name ats l Hn Ha Hd Hl IH lay lv Hu. cbn [elem_xml pad_tree].
    destruct l as [|i l].
    + exists (str "<" ++ name ++ attrs_xml ats ++ str " />"). cbn [bare forallb]. split; [rewrite <- !app_assoc; reflexivity|]. cbn [map].
      apply (elem_empty name (attrs_xml ats) ats [sp]); [assumption|apply attrs_xml_text; assumption|reflexivity].
    + assert (B : bare (i :: l) = false) by (inversion Hl; reflexivity). rewrite B.
      set (L := i :: l) in *. clearbody L. clear B.
      exists (str "<" ++ name ++ attrs_xml ats ++ str ">" ++ (if inner L then eol lay else []) ++ concat (map (item_xml lay lv) L) ++
               (if inner L then indent lay lv else []) ++ str "</" ++ name ++ str ">").
      split; [rewrite <- !app_assoc; reflexivity|].
      replace (str "<" ++ name ++ attrs_xml ats ++ str ">" ++ (if inner L then eol lay else []) ++ concat (map (item_xml lay lv) L) ++
               (if inner L then indent lay lv else []) ++ str "</" ++ name ++ str ">")
        with (str "<" ++ name ++ attrs_xml ats ++ [] ++ str ">" ++
              ((if inner L then eol lay else []) ++ concat (map (item_xml lay lv) L) ++ (if inner L then indent lay lv else [])) ++
              str "</" ++ name ++ [] ++ str ">") by (cbn [app]; rewrite <- !app_assoc; reflexivity).
      apply elem_full; try assumption; try reflexivity; [apply attrs_xml_text; assumption| |cbn; lia].
      apply IH.
      * destruct Hu as [Hu|Hu]; [auto|]. right. inversion Hu; assumption.
      * split; [destruct (inner L); [apply blank_eol|reflexivity]|discriminate].
      * destruct (inner L); [apply blank_indent|reflexivity].
      * destruct Hu as [->|Hu].
        -- right. destruct (inner L); cbn [eol indent]; auto.
        -- inversion Hu as [? ? ? [H|H] _]; subst; [left; split; [assumption|discriminate]|right]. rewrite H. auto.
  - intros p lay lv w tl _ Hw Ht Hr. cbn [map concat app]. apply content_end. destruct Hw as [W1 W2]. split; [apply blank_app; assumption|].
    intros ->. destruct Hr as [[_ H]|(-> & -> & _)]; [contradiction|reflexivity].
  - intros p x l _ IHx _ IHl lay lv w tl Hu Hw Ht Hr. cbn [map concat pad_item item_xml].
    destruct (IHx lay (S lv)) as (te & -> & E). { destruct Hu as [Hu|Hu]; [auto|]. inversion Hu; subst; [auto|]. exfalso. eapply H1. reflexivity. }
    replace (w ++ ((indent lay (S lv) ++ te ++ eol lay) ++ concat (map (item_xml lay lv) l)) ++ tl)
      with ((w ++ indent lay (S lv)) ++ te ++ (eol lay ++ concat (map (item_xml lay lv) l) ++ tl)) by (rewrite <- !app_assoc; reflexivity).
    assert (R : room lay Fresh l (eol lay) tl /\ (p = AfterText -> indent lay (S lv) = [])).
    { destruct Hr as [[H1 H2]|(-> & -> & [->|H])]; [|split; [right; auto|auto]|discriminate].
      split; [left; split; [exact H1|discriminate]|contradiction]. }
    destruct R as [R1 R2]. apply content_elem; [|assumption|].
    + destruct Hw as [W1 W2]. split; [apply blank_app; [assumption|apply blank_indent]|]. intros H. rewrite W2, R2 by assumption. reflexivity.
    + apply IHl; try assumption; [eapply unmixed_tail; eassumption|]. split; [apply blank_eol|discriminate].
  - intros p s l Hp Hn Hb Hl Hm _ IHl lay lv w tl Hu Hw Ht Hr. cbn [map concat pad_item item_xml].
    destruct Hr as [[H1 _]|(-> & -> & H)]; [discriminate|]. rewrite app_nil_r. cbn [app].
    assert (C : content_text AfterText (concat (map (item_xml lay lv) l)) (map pad_item l)).
    { specialize (IHl lay lv [] []). rewrite app_nil_r in IHl. apply IHl; try reflexivity; [eapply unmixed_tail; eassumption|split; [reflexivity|auto]|].
      right. auto. }
    destruct p; [|contradiction|].
    + apply content_text_fresh; assumption.
    + apply (content_text_misc []); try assumption; try reflexivity; auto. intros ->. apply Hb. reflexivity.
  - intros p s l Hn Ho _ IHl lay lv w tl Hu Hw Ht Hr. cbn [map concat pad_item item_xml].
    replace (w ++ ((str "<![CDATA[" ++ s ++ str "]]>") ++ concat (map (item_xml lay lv) l)) ++ tl)
      with (w ++ str "<![CDATA[" ++ s ++ str "]]>" ++ ([] ++ concat (map (item_xml lay lv) l) ++ tl)) by (rewrite <- !app_assoc; reflexivity).
    apply content_cdata; try assumption. apply IHl; try assumption; [eapply unmixed_tail; eassumption|split; [reflexivity|auto]|].
    destruct Hr as [[H1 H2]|(_ & H1 & H2)]; [left; split; [exact H1|discriminate]|right; auto].
  - intros p n c l Hn Hc _ IHl lay lv w tl Hu Hw Ht Hr. cbn [map concat pad_item item_xml].
    replace (w ++ ((str "<?" ++ n ++ str " " ++ c ++ str "?>") ++ concat (map (item_xml lay lv) l)) ++ tl)
      with (w ++ (str "<?" ++ n ++ [sp] ++ c ++ str "?>") ++ ([] ++ concat (map (item_xml lay lv) l) ++ tl)) by (rewrite <- !app_assoc; reflexivity).
    apply content_pi; [assumption|apply pi_full; (assumption || reflexivity)|].
    apply IHl; try assumption; [eapply unmixed_tail; eassumption|split; [reflexivity|auto]|].
    destruct Hr as [[H1 H2]|(_ & H1 & [H2|H2])]; [left; split; [exact H1|discriminate]|right; auto|discriminate].
  - intros p s l Hc _ IHl lay lv w tl Hu Hw Ht Hr. cbn [map concat pad_item item_xml].
    replace (w ++ ((indent lay (S lv) ++ str "<!--" ++ padded s ++ str "-->" ++ eol lay) ++ concat (map (item_xml lay lv) l)) ++ tl)
      with ((w ++ indent lay (S lv)) ++ str "<!--" ++ padded s ++ str "-->" ++ (eol lay ++ concat (map (item_xml lay lv) l) ++ tl)) by (rewrite <- !app_assoc; reflexivity).
    assert (R : room lay AfterMisc l (eol lay) tl /\ (p = AfterText -> indent lay (S lv) = [])).
    { destruct Hr as [[H1 H2]|(-> & -> & [->|H])]; [|split; [right; auto|auto]|discriminate].
      split; [left; split; [exact H1|discriminate]|contradiction]. }
    destruct R as [R1 R2]. apply content_comment; [|apply padded_comment; assumption|].
    + destruct Hw as [W1 W2]. split; [apply blank_app; [assumption|apply blank_indent]|]. intros H. rewrite W2, R2 by assumption. reflexivity.
    + apply IHl; try assumption; [eapply unmixed_tail; eassumption|]. split; [apply blank_eol|discriminate].
Qed.

Definition is_encoding (e : option bytes) : Prop := forall v, e = Some v -> nul_free v /\ has "'" v = false /\ has "034" v = false.

Lemma doc_written lay e sa x : proper x -> lay = None \/ unmixed x -> is_encoding e ->
  doc_text (doc_xml lay e sa x) e sa [] (pad_tree x).
Proof.
  intros P Hu He. destruct (proj1 texts_written x P lay O Hu) as (te & E & T). unfold doc_xml, decl_xml. rewrite E.
  assert (I0 : indent lay 0 = []) by (destruct lay as [n|]; [cbn; rewrite Nat.mul_0_r|]; reflexivity). rewrite I0. cbn [app].
  pose (enc := match e with Some v => str "encoding=" ++ ["'"%char] ++ v ++ ["'"%char] | None => [] end).
  pose (w4 := match e with Some _ => [sp] | None => [] end).
  pose (sav := if sa then Some (str "yes") else None).
  pose (ts := if sa then str "standalone=" ++ ["'"%char] ++ str "yes" ++ ["'"%char] else []).
  pose (w5 := if sa then [sp] else []).
  pose proof (doc_with_decl [] (str "<?xml" ++ [sp] ++ str "version=" ++ [] ++ ["'"%char] ++ str "1.0" ++ ["'"%char] ++ [sp] ++ enc ++ w4 ++ ts ++ w5 ++ str "?>")
    e (match sav with Some v => bytes_eqb v (str "yes") | None => false end) [] [] (eol lay) [] te (pad_tree x) (eol lay)) as D.
  assert (Dsa : (match sav with Some v => bytes_eqb v (str "yes") | None => false end) = sa) by (unfold sav; destruct sa; reflexivity).
  rewrite Dsa in D at 2.
  match type of D with _ -> _ -> _ -> _ -> _ -> _ -> doc_text ?z _ _ _ _ => match goal with |- doc_text ?y _ _ _ _ => replace y with z end end.
  - apply D; clear D.
    + auto.
    + apply Decl; try reflexivity; [left; reflexivity| | | | |].
      * unfold enc. destruct e as [v|]; [|constructor]. destruct (He v eq_refl) as (? & ? & ?).
        apply (field_some (str "encoding") "'" v); try assumption. left. reflexivity.
      * unfold w4. destruct e; reflexivity.
      * unfold ts, sav. destruct sa; [|constructor]. apply (field_some (str "standalone") "'" (str "yes")); try reflexivity; [left; reflexivity|nf].
      * intros v H. unfold sav in H. destruct sa; [|discriminate]. injection H as <-. auto.
      * unfold w5. destruct sa; reflexivity.
    + constructor. reflexivity.
    + constructor.
    + constructor. apply blank_eol.
    + assumption.
  - unfold enc, w4, ts, w5. unfold str, s2b. destruct e as [v|], sa; cbn [list_ascii_of_string app];
      repeat (rewrite <- app_assoc; cbn [app]); reflexivity.
Qed.

(** ** the same node shown twice *)
Lemma shows_proper : (forall n x, shows n x -> forall x', shows n x' -> proper x -> proper x') /\
  (forall l m, shows_items l m -> forall m', shows_items l m' -> forall p, proper_items p m -> proper_items p m').
Proof.
  apply shows_both.
  - intros name a items ats l xs E P _ IH x' S' Px. inversion S' as [? ? ? ats' l' xs' E' P' S'']; subst.
    rewrite E in E'. injection E' as <-. inversion Px as [? ? ? H1 H2 H3 H4]; subst.
    assert (PP : Permutation ats ats') by (eapply perm_trans; [apply Permutation_sym|]; eassumption).
    constructor; [assumption| | |eapply IH; eassumption].
    + eapply Permutation_Forall; eassumption.
    + eapply Permutation_NoDup; [apply Permutation_map; eassumption|assumption].
  - intros m' S' p _. inversion S'; subst. constructor.
  - intros n x l m _ IHn _ IHl m' S' p Pm. inversion S'; subst. inversion Pm; subst. constructor; eauto.
  - intros t l m _ IHl m' S' p Pm. inversion S'; subst. inversion Pm; subst. constructor; eauto.
  - intros t l m _ IHl m' S' p Pm. inversion S'; subst. inversion Pm; subst. constructor; eauto.
  - intros [n c] l m _ IHl m' S' p Pm. inversion S'; subst. cbn [pi_name pi_content] in *. inversion Pm; subst. constructor; eauto.
  - intros t l m _ IHl m' S' p Pm. inversion S'; subst. inversion Pm; subst. constructor; eauto.
  - intros t l m _ IHl m' S' p Pm. inversion Pm.
Qed.
Lemma shows_flags l m m' : shows_items l m -> shows_items l m' -> no_text m = no_text m' /\ inner m = inner m'.
Proof.
  revert m m'. induction l as [|i l IH]; intros m m' S S'.
  - inversion S; inversion S'; auto.
  - inversion S; subst; inversion S'; subst; match goal with A : shows_items l ?a, B : shows_items l ?b |- _ /\ inner (_ :: ?a) = inner (_ :: ?b) => destruct (IH a b A B) as [I1 I2] end;
      cbn; unfold no_text, inner in *; auto.
Qed.
Lemma shows_unmixed : (forall n x, shows n x -> forall x', shows n x' -> unmixed x -> unmixed x') /\
  (forall l m, shows_items l m -> forall m', shows_items l m' -> unmixed_items m -> unmixed_items m').
Proof.
  apply shows_both.
  - intros name a items ats l xs E P S IH x' S' Px. inversion S' as [? ? ? ats' l' xs' E' P' S'']; subst. inversion Px; subst.
    destruct (shows_flags _ _ _ S S'') as [F1 F2]. constructor; [rewrite <- F1, <- F2; assumption|eauto].
  - intros m' S' _. inversion S'; subst. constructor.
  - intros n x l m _ IHn _ IHl m' S' Pm. inversion S'; subst. inversion Pm as [|? ? U1 U2|? ? U1 U2]; subst; [constructor; eauto|]. exfalso. eapply U1. reflexivity.
  - intros t l m _ IHl m' S' Pm. inversion S'; subst. inversion Pm; subst. apply unmixed_other; [discriminate|eauto].
  - intros t l m _ IHl m' S' Pm. inversion S'; subst. inversion Pm; subst. apply unmixed_other; [discriminate|eauto].
  - intros t l m _ IHl m' S' Pm. inversion S'; subst. inversion Pm; subst. apply unmixed_other; [discriminate|eauto].
  - intros t l m _ IHl m' S' Pm. inversion S'; subst. inversion Pm; subst. apply unmixed_other; [discriminate|eauto].
  - intros t l m _ IHl m' S' Pm. inversion S'; subst. inversion Pm; subst. apply unmixed_other; [discriminate|eauto].
Qed.
Lemma shows_pad : (forall n x, shows n x -> forall x', shows n x' -> forall k, shows k (pad_tree x') -> shows k (pad_tree x)) /\
  (forall l m, shows_items l m -> forall m', shows_items l m' -> forall k, shows_items k (map pad_item m') -> shows_items k (map pad_item m)).
Proof.
  apply shows_both.
  - intros name a items ats l xs E P S IH x' S' k K. inversion S' as [? ? ? ats' l' xs' E' P' S'']; subst. rewrite E in E'. injection E' as <-.
    cbn [pad_tree] in *. inversion K as [? ? ? ? ? ? E1 P1 S1]; subst. econstructor; [eassumption| |eauto].
    eapply perm_trans; [exact P1|]. eapply perm_trans; [apply Permutation_sym; exact P'|exact P].
  - intros m' S' k K. inversion S'; subst. exact K.
  - intros n x l m _ IHn _ IHl m' S' k K. inversion S'; subst. cbn [map pad_item] in *. inversion K; subst. constructor; eauto.
  - intros t l m _ IHl m' S' k K. inversion S'; subst. cbn [map pad_item] in *. inversion K; subst. constructor; eauto.
  - intros t l m _ IHl m' S' k K. inversion S'; subst. cbn [map pad_item] in *. inversion K; subst. constructor; eauto.
  - intros t l m _ IHl m' S' k K. inversion S'; subst. cbn [map pad_item] in *. inversion K; subst.
    match goal with |- shows_items (IPi ?q :: ?z) (XPi ?a ?b :: _) => replace (XPi a b) with (XPi (pi_name q) (pi_content q)) by congruence end.
    constructor. eauto.
  - intros t l m _ IHl m' S' k K. inversion S'; subst. cbn [map pad_item] in *. inversion K; subst. constructor; eauto.
  - intros t l m _ IHl m' S' k K. inversion S'; subst. cbn [map pad_item] in *. inversion K; subst. constructor; eauto.
Qed.

Lemma pad_spaced : (forall x, spaced x -> pad_tree x = x) /\ (forall l, spaced_items l -> map pad_item l = l).
Proof.
  apply spaced_both.
  - intros name ats l _ IH. cbn [pad_tree]. rewrite IH. reflexivity.
  - reflexivity.
  - intros x l _ E _ IH. cbn [map pad_item]. rewrite E, IH. reflexivity.
  - intros t l H1 H2 _ IH. cbn [map pad_item]. rewrite IH. unfold padded. rewrite H1, H2, Ascii.eqb_refl, app_nil_r. reflexivity.
  - intros i l N1 N2 _ IH. cbn [map]. rewrite IH. destruct i; try reflexivity; exfalso; [eapply N1|eapply N2]; reflexivity.
Qed.

Lemma proper_measurable : (forall x, proper x -> measurable x) /\ (forall p l, proper_items p l -> measurable_items l).
Proof.
  apply proper_both; intros; constructor; auto.
  - apply name_nul, H.
  - eapply Forall_impl; [|eassumption]. intros [k v] (H9 & _ & u & H4 & H5 & _). cbn [fst snd] in *. split; [apply name_nul, H9|eauto].
  - apply name_nul, H.
  - apply H0.
  - apply H.
Qed.

Lemma round_trip lay n x e sa pis : shows n x -> proper x -> lay = None \/ unmixed x -> is_encoding e ->
  exists text d' n',
    doc_dump_common (Doc (Some n) e sa pis) (pretty_of lay) (tab_of lay) = Ok (Some (text ++ [NUL], Z.of_nat (length text))) /\
    doc_parse text = Ok (Some d') /\
    d_root d' = Some n' /\ shows n' (pad_tree x) /\ d_encoding d' = e /\ d_standalone d' = sa /\ d_pis d' = [].
Proof.
  intros S P U He. destruct (proj1 dump_shows n x S (proj1 proper_measurable x P)) as (x' & S' & M' & Ok').
  assert (P' : proper x') by exact (proj1 shows_proper n x S x' S' P).
  assert (U' : lay = None \/ unmixed x') by (destruct U as [H|H]; [auto|right; exact (proj1 shows_unmixed n x S x' S' H)]).
  destruct (doc_text_ok _ _ _ _ _ (doc_written lay e sa x' P' U' He)) as (r & n' & R1 & R2 & R3 & R4 & R5 & R6).
  exists (doc_xml lay e sa x'), r, n'. split; [apply doc_dump_common_ok; [assumption|intros v Hv; apply (He v Hv)]|].
  split; [exact R1|]. split; [exact R2|]. split; [|auto]. exact (proj1 shows_pad n x S x' S' n' R3).
Qed.
