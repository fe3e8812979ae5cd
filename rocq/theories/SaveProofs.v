(** Dumps hold no text that begins with white space after a tag. *)
From Coq Require Import Permutation.
From Verif Require Import Prelude StrModel StrSpec StrProofs AttrModel TreeModel StreamModel StreamProofs ParseModel ParseProofs ParseProofs2
  DumpModel XmlSpec DumpProofs GramProofs GramProofs2 GramProofs3 GramProofs4 FileSpec FileProofs FileProofs2 FileProofs4 SaveModel SaveSpec.
Open Scope nat_scope.

(** what follows every [ch] of [a], when [b] follows [a] *)
Definition each (ch : ascii) (P : bytes -> Prop) (a b : bytes) : Prop := forall u v, a = u ++ ch :: v -> P (v ++ b).
Lemma split_app {A} (x : A) : forall a b u v, a ++ b = u ++ x :: v ->
  (exists v', a = u ++ x :: v' /\ v = v' ++ b) \/ (exists u', b = u' ++ x :: v).
Proof.
  induction a as [|c a IH]; intros b u v E.
  - right. exists u. exact E.
  - destruct u as [|d u]; cbn [app] in E.
    + injection E as -> <-. left. exists a. split; reflexivity.
    + injection E as -> E. destruct (IH _ _ _ E) as [(v' & -> & ->)|(u' & ->)]; [left; exists v'; auto|right; exists u'; auto].
Qed.
Section Each.
Variables (ch : ascii) (P : bytes -> Prop).
Lemma each_app a b c : each ch P a (b ++ c) -> each ch P b c -> each ch P (a ++ b) c.
Proof.
  intros Ha Hb u v E. destruct (split_app ch _ _ _ _ E) as [(v' & Ea & ->)|(u' & Eb)].
  - rewrite <- app_assoc. exact (Ha _ _ Ea).
  - exact (Hb _ _ Eb).
Qed.
Lemma each_none a b : has ch a = false -> each ch P a b.
Proof.
  intros H u v ->. exfalso. unfold has in H. rewrite existsb_app in H. apply orb_false_iff in H. destruct H as [_ H].
  cbn [existsb] in H. rewrite Ascii.eqb_refl in H. discriminate.
Qed.
Lemma each_last a b : has ch a = false -> P b -> each ch P (a ++ [ch]) b.
Proof.
  intros H Pb. apply each_app; [apply each_none, H|]. intros u v E. destruct u as [|? [|]]; [|discriminate..]. injection E as <-. exact Pb.
Qed.
End Each.

(** ** what comes after a tag *)
Definition opens (s : bytes) : Prop := exists w r, s = w ++ r /\ forallb is_ws w = true /\ (r = [] \/ exists r', r = "<"%char :: r').
Definition solid (s : bytes) : Prop := match s with [] => True | c :: _ => is_ws c = false end.
Lemma opens_lead s : opens s -> lead s.
Proof.
  intros (w & r & -> & W & R) g c v E N G C.
  revert g E N G. induction w as [|x w IH]; intros g E N G.
  - cbn [app] in E. destruct g as [|y g]; [contradiction|]. destruct R as [->|(r' & ->)]; [discriminate|]. injection E as <- _. discriminate.
  - cbn [forallb] in W. apply andb_true_iff in W. destruct W as [Wx W]. destruct g as [|y g]; [contradiction|].
    cbn [app] in E. injection E as <- E. cbn [forallb] in G. apply andb_true_iff in G. destruct G as [_ G].
    destruct g as [|z g]; [|apply (IH W (z :: g) E); [discriminate|exact G]].
    cbn [app] in E. destruct w as [|w0 w].
    + cbn [app] in E. destruct R as [->|(r' & ->)]; [discriminate|]. injection E as <- _. reflexivity.
    + cbn [app] in E. injection E as <- _. cbn [forallb] in W. rewrite C in W. discriminate.
Qed.
Lemma solid_lead s : solid s -> lead s.
Proof. intros H g c v -> N G C. destruct g as [|x g]; [contradiction|]. cbn in H, G. rewrite H in G. discriminate. Qed.
Lemma opens_blank w s : forallb is_ws w = true -> opens s -> opens (w ++ s).
Proof. intros W (w' & r & -> & W' & R). exists (w ++ w'), r. rewrite app_assoc, forallb_app, W, W'. auto. Qed.
Lemma opens_lt s : opens ("<"%char :: s).
Proof. exists [], ("<"%char :: s). split; [reflexivity|]. split; [reflexivity|]. right. eauto. Qed.
Lemma opens_str_lt t s : opens (str "<" ++ t ++ s). Proof. apply opens_lt. Qed.
Lemma white_ws : forall c, white c = is_ws c.
Proof. intros c. destruct c as [[] [] [] [] [] [] [] []]; vm_compute; reflexivity. Qed.
Lemma ws_indent lay n : forallb is_ws (indent lay n) = true.
Proof. destruct lay as [t|]; [|reflexivity]. cbn [indent]. induction (t * n) as [|k IH]; [reflexivity|]. cbn [repeat forallb]. rewrite IH. reflexivity. Qed.
Lemma ws_eol lay : forallb is_ws (eol lay) = true.
Proof. destruct lay; reflexivity. Qed.

Lemma item_opens lay lv i s : (forall t, i <> XText t) -> (forall t, i <> XRef t) -> opens (item_xml lay lv i ++ s).
Proof.
  intros N1 N2. destruct i as [[name ats l]|t|t|n c|t|t]; cbn [item_xml elem_xml]; try (exfalso; eapply N1; reflexivity); try (exfalso; eapply N2; reflexivity);
    rewrite <- ?app_assoc; try apply opens_lt; apply opens_blank; try apply ws_indent; apply opens_lt.
Qed.
Lemma items_open lay lv : forall l p rest, proper_items p l -> no_text l = true -> opens rest -> opens (concat (map (item_xml lay lv) l) ++ rest).
Proof.
  intros l p rest Pl Nt R. destruct l as [|i l]; [exact R|]. cbn [map concat]. rewrite <- app_assoc.
  apply item_opens; intros t ->; [discriminate|inversion Pl].
Qed.
Lemma items_lead lay lv : forall l p rest, proper_items p l -> sober_items l -> opens rest -> lead (concat (map (item_xml lay lv) l) ++ rest).
Proof.
  intros l p rest Pl Sl R. destruct l as [|i l]; [apply opens_lead, R|]. cbn [map concat]. rewrite <- app_assoc.
  destruct i as [x|t|t|n c|t|t]; try (apply opens_lead, item_opens; discriminate); [|inversion Pl].
  apply solid_lead. cbn [item_xml]. inversion Sl; subst. inversion Pl; subst.
  destruct t as [|c t]; [exfalso; match goal with H : ~ XmlSpec.blank [] |- _ => apply H end; reflexivity|].
  cbn [hd] in *. cbn. rewrite <- white_ws. assumption.
Qed.

Ltac none := apply each_none; reflexivity.
Lemma has_app' c a b : has c (a ++ b) = has c a || has c b.
Proof. apply existsb_app. Qed.
Lemma has_ws c s : is_ws c = false -> forallb is_ws s = true -> has c s = false.
Proof.
  intros C W. destruct (has c s) eqn:H; [|reflexivity]. unfold has in H. apply existsb_exists in H. destruct H as (x & X1 & X2).
  apply Ascii.eqb_eq in X2. subst x. rewrite forallb_forall in W. rewrite (W _ X1) in C. discriminate.
Qed.
Lemma has_name c s : has c (str "<>/=!?&'" ++ ["034"%char]) = true -> is_name s -> has c s = false.
Proof.
  intros C [_ W]. destruct (has c s) eqn:H; [|reflexivity]. unfold has in H. apply existsb_exists in H. destruct H as (x & X1 & X2).
  apply Ascii.eqb_eq in X2. subst x. rewrite forallb_forall in W. specialize (W _ X1). unfold name_char in W. rewrite C in W.
  rewrite andb_false_r in W. discriminate.
Qed.
Lemma has_attrs c ats : has c (str "<>") = true -> Forall is_attr ats -> Forall (fun p => forall v, snd p = Some v -> has c v = false) ats ->
  has c (attrs_xml ats) = false.
Proof.
  intros C A V. unfold attrs_xml. induction ats as [|[k v] ats IH]; [reflexivity|]. cbn [map concat]. rewrite has_app'.
  inversion A as [|? ? A1 A2]; subst. inversion V as [|? ? V1 V2]; subst. rewrite (IH A2 V2), orb_false_r.
  destruct A1 as (K & _ & u & Eu & _ & _). cbn [fst snd] in *. subst v. unfold attr_xml. cbn [fst snd].
  specialize (V1 u eq_refl). destruct K as [K1 K2].
  assert (Hk : has c k = false).
  { apply has_name; [|split; assumption]. change (str "<>/=!?&'") with (str "<>" ++ str "/=!?&'"). rewrite <- app_assoc, has_app', C. reflexivity. }
  assert (Hq : forall q, q = "034"%char \/ q = "'"%char \/ q = sp \/ q = "="%char -> Ascii.eqb c q = false).
  { intros q Q. unfold has in C. cbn [str s2b list_ascii_of_string existsb] in C.
    destruct (Ascii.eqb_spec c "<") as [->|_]; [destruct Q as [->|[->|[->| ->]]]; reflexivity|].
    destruct (Ascii.eqb_spec c ">") as [->|_]; [destruct Q as [->|[->|[->| ->]]]; reflexivity|discriminate]. }
  change (sp :: k ++ "="%char :: ?q :: u ++ [?q]) with (sp :: k ++ "="%char :: q :: u ++ [q]).
  set (q := if has "'" u then "034"%char else "'"%char).
  assert (Q : Ascii.eqb c q = false) by (apply Hq; unfold q; destruct (has "'" u); auto).
  unfold has in *. cbn [existsb]. rewrite existsb_app. cbn [existsb]. rewrite existsb_app. cbn [existsb].
  rewrite Hk, V1, Q, (Hq sp), (Hq "="%char) by auto. reflexivity.
Qed.

(** ** text after tags *)
Notation tidy_in := (each ">"%char lead).
Lemma padded_gt t : has ">" t = false -> has ">" (padded t) = false.
Proof. intros H. unfold padded. rewrite !has_app', H. destruct (Ascii.eqb _ _), (Ascii.eqb _ _); reflexivity. Qed.

Definition tree_tidy (x : xnode) : Prop := sober x -> forall (lay : option nat) lv rest, lay = None \/ unmixed x ->
  lead (eol lay ++ rest) -> tidy_in (elem_xml lay lv x) rest.
Definition items_tidy (l : list xitem) : Prop := sober_items l -> forall (lay : option nat) lv rest, lay = None \/ unmixed_items l ->
  lay = None \/ no_text l = true \/ inner l = false ->
  opens rest -> tidy_in (concat (map (item_xml lay lv) l)) rest.

Lemma tidy_gt s rest : has ">" s = false -> lead rest -> tidy_in (s ++ str ">") rest.
Proof. intros H L. apply each_last; assumption. Qed.
(** what comes after an item that ends with a tag *)
Lemma after_tag (lay : option nat) lv p l rest : proper_items p l -> sober_items l -> opens rest -> lay = None \/ no_text l = true ->
  lead (eol lay ++ concat (map (item_xml lay lv) l) ++ rest).
Proof.
  intros Pl Sl R [->|N].
  - apply (items_lead None lv l p rest Pl Sl R).
  - apply opens_lead, opens_blank; [apply ws_eol|]. eapply items_open; eassumption.
Qed.

Lemma tidy_both : (forall x, proper x -> tree_tidy x) /\ (forall p l, proper_items p l -> items_tidy l).
Proof.
  apply proper_both.
  - intros name ats l Hn Ha Hd Hl IH Sx lay lv rest Hu Hr. inversion Sx as [? ? ? Sa Sl]; subst. cbn [elem_xml].
    pose proof (has_name ">" name eq_refl Hn) as Gn. pose proof (has_attrs ">" ats eq_refl Ha Sa) as Ga.
    pose proof (has_ws ">" (indent lay lv) eq_refl (ws_indent lay lv)) as Gi. pose proof (has_ws ">" (eol lay) eq_refl (ws_eol lay)) as Ge.
    destruct (XmlSpec.bare l).
    + replace (indent lay lv ++ str "<" ++ name ++ attrs_xml ats ++ str " />" ++ eol lay) with
        (((indent lay lv ++ str "<" ++ name ++ attrs_xml ats ++ str " /") ++ str ">") ++ eol lay)
        by (rewrite <- !app_assoc; reflexivity).
      apply each_app; [|apply each_none, Ge]. apply tidy_gt; [|exact Hr]. rewrite !has_app', Gi, Gn, Ga. reflexivity.
    + replace (indent lay lv ++ str "<" ++ name ++ attrs_xml ats ++
        (str ">" ++ (if inner l then eol lay else []) ++ concat (map (item_xml lay lv) l) ++ (if inner l then indent lay lv else []) ++ str "</" ++ name ++ str ">") ++ eol lay) with
        (((indent lay lv ++ str "<" ++ name ++ attrs_xml ats) ++ str ">") ++ (if inner l then eol lay else []) ++ concat (map (item_xml lay lv) l) ++
         (((if inner l then indent lay lv else []) ++ str "</" ++ name) ++ str ">") ++ eol lay)
        by (rewrite <- !app_assoc; reflexivity).
      assert (O : forall r, opens ((((if inner l then indent lay lv else []) ++ str "</" ++ name) ++ str ">") ++ r)).
      { intros r. rewrite <- !app_assoc. apply opens_blank; [destruct (inner l); [apply ws_indent|reflexivity]|]. apply opens_lt. }
      assert (U : lay = None \/ no_text l = true \/ inner l = false) by (destruct Hu as [Hu|Hu]; [auto|]; right; inversion Hu; assumption).
      apply each_app; [|apply each_app; [|apply each_app; [|apply each_app]]].
      * apply tidy_gt; [rewrite !has_app', Gi, Gn, Ga; reflexivity|]. rewrite <- !(app_assoc _ _ rest).
        destruct (inner l) eqn:In.
        -- apply (after_tag lay lv _ l _ Hl Sl); [|destruct U as [U|[U|U]]; [auto|auto|discriminate]].
           match goal with |- opens ?s => match type of (O (eol lay ++ rest)) with opens ?t => change (opens t) end end.
           exact (O (eol lay ++ rest)).
        -- cbn [app]. eapply items_lead; [exact Hl|exact Sl|]. exact (O (eol lay ++ rest)).
      * apply each_none. destruct (inner l); [exact Ge|reflexivity].
      * apply IH; [exact Sl|destruct Hu as [Hu|Hu]; [auto|right; inversion Hu; assumption]|exact U|].
        rewrite <- (app_assoc _ _ rest). apply O.
      * apply tidy_gt; [|exact Hr]. rewrite !has_app', Gn. destruct (inner l); [rewrite Gi|]; reflexivity.
      * apply each_none, Ge.
  - intros p _ lay lv rest _ _ _. none.
  - intros p x l Px IHx Pl IHl Sl lay lv rest Hu U R. inversion Sl as [|? ? Sx Sl'| | | |]; subst. cbn [map concat item_xml].
    assert (U' : lay = None \/ no_text l = true) by (destruct U as [U|[U|U]]; [auto|right; exact U|discriminate]).
    apply each_app.
    + apply IHx; [exact Sx|destruct Hu as [Hu|Hu]; [auto|right; inversion Hu as [|? ? U1 U2|? ? U1 U2]; subst; [exact U1|exfalso; eapply U1; reflexivity]]|].
      eapply after_tag; eassumption.
    + apply IHl; [exact Sl'|eapply unmixed_tail; eassumption|destruct U'; auto|exact R].
  - intros p s l _ _ _ _ _ Pl IHl Sl lay lv rest Hu U R. inversion Sl as [| |? ? G W Sl'| | |]; subst. cbn [map concat item_xml].
    apply each_app; [apply each_none, G|]. apply IHl; [exact Sl'|eapply unmixed_tail; eassumption| |exact R].
    destruct U as [U|[U|U]]; [auto|discriminate|auto].
  - intros p s l _ _ Pl IHl Sl lay lv rest Hu U R. inversion Sl as [| | |? ? G Sl'| |]; subst. cbn [map concat item_xml].
    apply each_app; [|apply IHl; [exact Sl'|eapply unmixed_tail; eassumption|destruct U as [U|[U|U]]; auto|exact R]].
    replace (str "<![CDATA[" ++ s ++ str "]]>") with ((str "<![CDATA[" ++ s ++ str "]]") ++ str ">") by (rewrite <- !app_assoc; reflexivity).
    apply tidy_gt; [rewrite !has_app', G; reflexivity|]. eapply items_lead; eassumption.
  - intros p n c l [Hn _] _ Pl IHl Sl lay lv rest Hu U R. inversion Sl as [| | | |? ? ? G Sl'|]; subst. cbn [map concat item_xml].
    apply each_app; [|apply IHl; [exact Sl'|eapply unmixed_tail; eassumption|destruct U as [U|[U|U]]; [auto|auto|discriminate]|exact R]].
    replace (str "<?" ++ n ++ str " " ++ c ++ str "?>") with ((str "<?" ++ n ++ str " " ++ c ++ str "?") ++ str ">") by (rewrite <- !app_assoc; reflexivity).
    apply tidy_gt; [rewrite !has_app', G, (has_name ">" n eq_refl Hn); reflexivity|]. eapply items_lead; eassumption.
  - intros p s l _ Pl IHl Sl lay lv rest Hu U R. inversion Sl as [| | | | |? ? G Sl']; subst. cbn [map concat item_xml].
    assert (U' : lay = None \/ no_text l = true) by (destruct U as [U|[U|U]]; [auto|right; exact U|discriminate]).
    apply each_app; [|apply IHl; [exact Sl'|eapply unmixed_tail; eassumption|destruct U'; auto|exact R]].
    replace (indent lay (S lv) ++ str "<!--" ++ padded s ++ str "-->" ++ eol lay) with (((indent lay (S lv) ++ str "<!--" ++ padded s ++ str "--") ++ str ">") ++ eol lay)
      by (rewrite <- !app_assoc; reflexivity).
    apply each_app; [|apply each_none, has_ws; [reflexivity|apply ws_eol]].
    apply tidy_gt; [rewrite !has_app', (padded_gt s G), (has_ws ">" _ eq_refl (ws_indent lay (S lv))); reflexivity|].
    eapply after_tag; eassumption.
Qed.
