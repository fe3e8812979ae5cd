(** A whole document type definition. *)
From Verif Require Import Prelude StrModel StrSpec StrProofs StrProofs2 StrProofs3 TreeModel StreamModel StreamProofs ParseModel ParseProofs
  XmlSpec GramProofs GramProofs2 DtdModel DtdSpec DtdDocModel DtdDocSpec DtdDocProofs4 LoadModel LoadSpec LoadProofs LoadProofs2 LoadProofs3 LoadProofs4 LoadProofs5 LoadProofs6 LoadProofs7.
Open Scope Z_scope.
Local Arguments Z.of_nat : simpl never.
Local Arguments Z.to_nat : simpl never.
Local Arguments Z.add : simpl never.
Local Arguments Z.sub : simpl never.
Local Arguments Z.eqb : simpl never.
Local Arguments Z.ltb : simpl never.
Local Arguments Z.leb : simpl never.

(** ** white space and comments *)
Lemma misc_read m l : misc_text false m l -> forall s d, plain s -> exists d', a_comments (m ++ s) d = Some (skip s, d').
Proof.
  intros M. induction M as [w B|w c t l B C M IH|w s0 n c t l H]; intros s d P; [| |discriminate].
  - exists d. rewrite a_comments_blank by exact B. apply a_comments_plain, P.
  - rewrite <- !app_assoc. rewrite a_comments_blank by exact B. change (str "<!--") with (s2b "<!--"). change (str "-->") with (s2b "-->").
    rewrite a_comments_comment by exact C. apply IH, P.
Qed.

(** ** the elements *)
Definition el_read (d : bytes * content) (e : el_decl) : Prop :=
  is_tok (fst d) /\ el_name e = fst d /\ content_read (snd d) (el_ty e) (el_list e) /\ el_min e = match el_list e with Some p => compulsory_num p | None => 0%nat end.
Lemma el_names ds es : Forall2 el_read ds es -> map el_name es = map fst ds.
Proof. intros F. induction F as [|d e ds es (_ & H & _) F IH]; [reflexivity|]. cbn [map]. rewrite H, IH. reflexivity. Qed.
Lemma names_ld : forall p, names_in (ld p) = names_in p.
Proof.
  fix IH 1. intros [x t|ty t ps]; [reflexivity|]. cbn [ld names_in]. induction ps as [|p ps IHps]; [reflexivity|]. cbn [map flat_map]. rewrite IH, IHps. reflexivity.
Qed.
Lemma names_top p : names_in (ld_top p) = names_in p.
Proof.
  destruct p as [x t|ty t ps]; [reflexivity|]. cbn [ld_top names_in]. induction ps as [|p ps IHps]; [reflexivity|]. cbn [map flat_map]. rewrite names_ld, IHps. reflexivity.
Qed.
Lemma child_names_kids p : child_names (CKids p) = names_in p.
Proof. reflexivity. Qed.
Lemma tok_not_pcdata x : is_tok x -> x <> pcdata.
Proof. intros [_ H] ->. discriminate. Qed.
Lemma flat_leaves xs : flat_map names_in (map (fun x => Leaf x TOne) xs) = xs.
Proof. induction xs as [|x xs IH]; [reflexivity|]. cbn [map flat_map names_in app]. rewrite IH. reflexivity. Qed.
Lemma read_mentions d e f : el_read d e -> is_tok (el_name f) -> mentions e f <-> In (el_name f) (child_names (snd d)) /\ (forall p, snd d = CKids p -> not_leaf p = true).
Proof.
  intros (_ & _ & R & _) T. unfold mentions. destruct (snd d) as [| | |xs|p]; cbn [content_read] in R.
  - destruct R as [_ ->]. cbn [child_names]. split; [intros (p & E & _); discriminate|intros [[] _]].
  - destruct R as [_ ->]. cbn [child_names]. split; [intros (p & E & _); discriminate|intros [[] _]].
  - destruct R as [_ (t & ->)]. split; [|intros [[] _]]. intros (p & E & _ & I). injection E as <-. cbn in I. destruct I as [I|[]]. symmetry in I.
    apply (tok_not_pcdata _ T) in I. destruct I.
  - destruct R as [_ ->]. cbn [content_part child_names]. split.
    + intros (p & E & _ & I). injection E as <-. cbn [names_in flat_map app] in I. rewrite flat_leaves in I. split; [|intros p; discriminate].
      destruct I as [I|I]; [|exact I]. symmetry in I. apply (tok_not_pcdata _ T) in I. destruct I.
    + intros [I _]. eexists. split; [reflexivity|]. split; [reflexivity|]. cbn [names_in flat_map app]. rewrite flat_leaves. right. exact I.
  - destruct R as [_ ->]. cbn [content_part]. rewrite child_names_kids. split.
    + intros (q & E & N & I). injection E as <-. rewrite names_top in I. split; [exact I|]. intros p0 [= <-]. destruct p; [discriminate|reflexivity].
    + intros [I N]. eexists. split; [reflexivity|]. split; [|rewrite names_top; exact I]. specialize (N p eq_refl). destruct p; [discriminate|reflexivity].
Qed.
Lemma forall2_in {A B} (R : A -> B -> Prop) l m y : Forall2 R l m -> In y m -> exists x, In x l /\ R x y.
Proof. intros F. induction F as [|a b l m H F IH]; intros I; [destruct I|]. destruct I as [<-|I]; [exists a; split; [left; reflexivity|exact H]|]. destruct (IH I) as (x & Ix & Rx). exists x. split; [right; exact Ix|exact Rx]. Qed.
Lemma forall2_in_l {A B} (R : A -> B -> Prop) l m x : Forall2 R l m -> In x l -> exists y, In y m /\ R x y.
Proof. intros F. induction F as [|a b l m H F IH]; intros I; [destruct I|]. destruct I as [<-|I]; [exists b; split; [left; reflexivity|exact H]|]. destruct (IH I) as (y & Iy & Ry). exists y. split; [right; exact Iy|exact Ry]. Qed.

(** a mixed content allows any sequence of its names *)
Lemma mixed_lang xs w : ~ In pcdata w -> (lang (Group Choice TMany (Leaf pcdata TOne :: map (fun x => Leaf x TOne) xs)) w <-> forall y, In y w -> In y xs).
Proof.
  intros N. cbn [lang reps]. set (L := one_of _).
  assert (HL : forall u, L u <-> exists y, u = [y] /\ (y = pcdata \/ In y xs)).
  { intros u. subst L. unfold one_of. cbn [map lang reps]. split.
    - intros (M & [<-|I] & E); [exists pcdata; auto|]. rewrite map_map in I. apply in_map_iff in I as (x & <- & Ix). cbn in E. exists x. auto.
    - intros (y & -> & [->|I]); [eexists; split; [left; reflexivity|reflexivity]|]. exists (fun w => w = [y]). split; [|reflexivity].
      right. rewrite map_map. apply in_map_iff. exists y. split; [reflexivity|exact I]. }
  clearbody L. split.
  - intros S. induction S as [|u v H S IH]; intros y I; [destruct I|]. apply HL in H as (z & -> & Hz). cbn [app] in N, I. destruct I as [<-|I].
    + destruct Hz as [->|Hz]; [destruct N; left; reflexivity|exact Hz].
    + apply IH; [|exact I]. intros Q. apply N. right. exact Q.
  - induction w as [|y w IH]; intros H; [constructor|]. change (y :: w) with ([y] ++ w). constructor.
    + apply HL. exists y. split; [reflexivity|]. right. apply H. left. reflexivity.
    + apply IH; [intros Q; apply N; right; exact Q|]. intros z I. apply H. right. exact I.
Qed.
Lemma read_loaded d e : el_read d e -> (forall p, snd d = CKids p -> grouped_top p = true) -> element_loaded d e.
Proof.
  intros (_ & E & R & M) G. split; [exact E|]. destruct (snd d) as [| | |xs|p]; cbn [content_read] in R.
  - exact R.
  - exact R.
  - exact (proj1 R).
  - destruct R as [R1 R2]. split; [exact R1|]. cbn [content_part] in R2. rewrite R2 in M. split; [exact R2|exact M].
  - destruct R as [R1 R2]. split; [exact R1|]. cbn [content_part] in R2. rewrite R2 in M. eexists. split; [exact R2|]. split; [exact M|]. split; [apply lang_ld_top, G, eq_refl|apply exact_kept].
Qed.

(** ** the lists of attributes *)
Record holds_atts (ds : list decl) (l : list (bytes * list at_decl)) : Prop := {
  ha_nodup : NoDup (map fst l);
  ha_in : forall x a, In (x, a) l <-> listed ds x /\ a = atts_of ds x
}.
Lemma atts_of_app ds ds' x : atts_of (ds ++ ds') x = atts_of ds x ++ atts_of ds' x.
Proof. apply flat_map_app. Qed.
Lemma not_listed ds x : ~ listed ds x -> atts_of ds x = [].
Proof.
  induction ds as [|d ds IH]; intros N; [reflexivity|]. cbn [atts_of flat_map]. change (flat_map _ ds) with (atts_of ds x). rewrite IH.
  2:{ intros (l & I). apply N. exists l. right. exact I. }
  rewrite app_nil_r. destruct d; try reflexivity. destruct (bytes_eqb name x) eqn:E; [|reflexivity]. apply bytes_eqb_eq in E. subst name. destruct N. exists l. left. reflexivity.
Qed.
Lemma decls_read ds l x : holds_atts ds l -> decls_of l x = atts_of ds x /\ (In x (map fst l) <-> listed ds x).
Proof.
  intros [N H]. split.
  - unfold decls_of. destruct (find (fun p => bytes_eqb (fst p) x) l) as [[y a]|] eqn:F.
    + apply find_some in F as [I E]. cbn [fst] in E. apply bytes_eqb_eq in E. subst y. apply H in I. apply I.
    + rewrite not_listed; [reflexivity|]. intros Q. assert (I : In (x, atts_of ds x) l) by (apply H; auto).
      apply (find_none _ _ F) in I. cbn [fst] in I. rewrite bytes_eqb_refl in I. discriminate.
  - split.
    + intros I. apply in_map_iff in I as ([y a] & E & I). cbn [fst] in E. subst y. apply H in I. apply I.
    + intros Q. apply in_map_iff. exists (x, atts_of ds x). split; [reflexivity|]. apply H. auto.
Qed.
Lemma put_keys l x d : map fst (put_attr l x d) = if existsb (bytes_eqb x) (map fst l) then map fst l else map fst l ++ [x].
Proof.
  induction l as [|[y a] l IH]; [reflexivity|]. cbn [put_attr map existsb fst]. destruct (bytes_eqb y x) eqn:E.
  - apply bytes_eqb_eq in E. subst y. rewrite bytes_eqb_refl. reflexivity.
  - assert (bytes_eqb x y = false) as ->. { destruct (bytes_eqb x y) eqn:F; [|reflexivity]. apply bytes_eqb_eq in F. subst y. rewrite bytes_eqb_refl in E. discriminate. }
    cbn [orb map fst]. rewrite IH. destruct (existsb _ _); reflexivity.
Qed.
Lemma put_in l x d : NoDup (map fst l) -> forall y a, In (y, a) (put_attr l x d) <-> (y = x /\ a = d) \/ (y <> x /\ In (y, a) l).
Proof.
  induction l as [|[z b] l IH]; intros N y a; cbn [put_attr].
  - split; [intros [E|[]]; injection E as <- <-; auto|]. intros [[-> ->]|[_ []]]. left. reflexivity.
  - cbn [map fst] in N. inversion N as [|? ? N1 N2]; subst. destruct (bytes_eqb z x) eqn:E.
    + apply bytes_eqb_eq in E. subst z. split.
      * intros [E|I]; [injection E as <- <-; auto|]. right. split; [|right; exact I]. intros ->. apply N1. apply in_map_iff. exists (x, a). auto.
      * intros [[-> ->]|[Ny [E|I]]]; [left; reflexivity|congruence|right; exact I].
    + assert (z <> x) as Nz by (intros ->; rewrite bytes_eqb_refl in E; discriminate). cbn [In]. rewrite (IH N2). split.
      * intros [E1|[[-> ->]|[Ny I]]]; [injection E1 as <- <-; right; auto|auto|auto].
      * intros [[-> ->]|[Ny [E1|I]]]; auto.
Qed.
Lemma put_holds ds l x a : holds_atts ds l -> holds_atts (ds ++ [DAttlist x a]) (put_attr l x (decls_of l x ++ a)).
Proof.
  intros H. destruct (decls_read ds l x H) as [Ed Hk]. rewrite Ed. destruct H as [N H]. split.
  - rewrite put_keys. destruct (existsb (bytes_eqb x) (map fst l)) eqn:E; [exact N|].
    apply (Permutation.Permutation_NoDup (Permutation.Permutation_cons_append _ _)). constructor; [|exact N]. intros I.
    apply not_true_iff_false in E. apply E. apply existsb_exists. exists x. split; [exact I|apply bytes_eqb_refl].
  - intros y b. rewrite put_in by exact N. rewrite atts_of_app.
    assert (A1 : atts_of [DAttlist x a] y = if bytes_eqb x y then a else []) by (cbn; apply app_nil_r). rewrite A1. split.
    + intros [[-> ->]|[Ny I]].
      * split; [exists a; apply in_or_app; right; left; reflexivity|]. rewrite bytes_eqb_refl. reflexivity.
      * apply H in I as [(a' & Ia) ->]. split; [exists a'; apply in_or_app; left; exact Ia|].
        destruct (bytes_eqb x y) eqn:E; [apply bytes_eqb_eq in E; congruence|]. rewrite app_nil_r. reflexivity.
    + intros [(a' & Ia) ->]. destruct (bytes_eqb x y) eqn:E.
      * apply bytes_eqb_eq in E. subst y. left. auto.
      * right. split; [intros ->; rewrite bytes_eqb_refl in E; discriminate|]. rewrite app_nil_r. apply H. split; [|reflexivity]. exists a'.
        apply in_app_or in Ia as [Ia|[Q|[]]]; [exact Ia|]. injection Q as -> _. rewrite bytes_eqb_refl in E. discriminate.
Qed.
Lemma other_holds ds l d : (forall x a, d <> DAttlist x a) -> holds_atts ds l -> holds_atts (ds ++ [d]) l.
Proof.
  intros Nd [N H]. split; [exact N|]. intros x a. rewrite H, atts_of_app. assert (atts_of [d] x = []) as -> by (destruct d; try reflexivity; edestruct Nd; reflexivity).
  rewrite app_nil_r. split; intros [(b & I) E]; (split; [exists b|exact E]).
  - apply in_or_app. left. exact I.
  - apply in_app_or in I as [I|[Q|[]]]; [exact I|]. edestruct Nd; exact Q.
Qed.

(** ** the state of the loader after the declarations [ds] *)
Record holding (ds : list decl) (l : load) : Prop := {
  h_els : Forall2 el_read (elements_of ds) (l_elements l);
  h_atts : holds_atts ds (l_attrs l);
  h_ents : l_entities l = entities_of ds;
  h_id : l_id l = true <-> some_att ds is_id_type;
  h_idref : l_idref l = true <-> some_att ds is_ref_type
}.
Lemma some_att_more ds x a ty b : (b = true <-> some_att ds ty) -> (b || existsb (fun a => ty (ad_type a)) a = true <-> some_att (ds ++ [DAttlist x a]) ty).
Proof.
  intros H. rewrite orb_true_iff, H, existsb_exists. unfold some_att. split.
  - intros [(y & l & c & I & Ic & T)|(c & Ic & T)].
    + exists y, l, c. split; [apply in_or_app; left; exact I|auto].
    + exists x, a, c. split; [apply in_or_app; right; left; reflexivity|auto].
  - intros (y & l & c & I & Ic & T). apply in_app_or in I as [I|[E|[]]]; [left; exists y, l, c; auto|]. injection E as -> ->. right. exists c. auto.
Qed.
Lemma some_att_other ds d ty b : (forall x a, d <> DAttlist x a) -> (b = true <-> some_att ds ty) -> (b = true <-> some_att (ds ++ [d]) ty).
Proof.
  intros N H. rewrite H. unfold some_att. split; intros (y & l & c & I & Q); exists y, l, c; (split; [|exact Q]).
  - apply in_or_app. left. exact I.
  - apply in_app_or in I as [I|[E|[]]]; [exact I|edestruct N; exact E].
Qed.
Lemma elements_app ds d : elements_of (ds ++ [d]) = elements_of ds ++ match d with DElement x c => [(x, c)] | _ => [] end.
Proof. unfold elements_of. rewrite flat_map_app. cbn [flat_map]. rewrite app_nil_r. reflexivity. Qed.
Lemma entities_app ds d : entities_of (ds ++ [d]) = entities_of ds ++ match d with DEntity e => [e] | _ => [] end.
Proof. unfold entities_of. rewrite flat_map_app. cbn [flat_map]. rewrite app_nil_r. reflexivity. Qed.
Lemma app_cons {A} (l : list A) x r : l ++ x :: r = (l ++ [x]) ++ r.
Proof. rewrite <- app_assoc. reflexivity. Qed.

Lemma atts_good_part a b : atts_good (a ++ b) -> atts_good a.
Proof.
  intros (G1 & G2 & G3). split; [|split].
  - intros x y Ix Iy. apply G1; apply in_or_app; left; assumption.
  - intros x Ix. apply G2. apply in_or_app. left. exact Ix.
  - intros x vs v Ix. apply G3. apply in_or_app. left. exact Ix.
Qed.
Lemma dtd_t_S f s l it : s <> [] -> t_dtd (S f) s l it =
  match a_comments s pdoc_new with
  | None => Ok None
  | Some (s, _) =>
    match after (s2b "<!ELEMENT") s with
    | Some _ => '(s, l) <-! t_element s l ;; t_dtd f s l it
    | None =>
      match after (s2b "<!ATTLIST") s with
      | Some s => '(s, l) <-! t_attlist f s l ;; t_dtd f s l it
      | None =>
        match after (s2b "<!ENTITY") s with
        | Some _ => '(s, l) <-! Ok (t_entity s l) ;; t_dtd f s l it
        | None => if it =? 3 then Ok None else t_dtd f s l (it + 1)
        end
      end
    end
  end.
Proof. destruct s; [congruence|reflexivity]. Qed.
(** one declaration *)
Definition made (d : decl) (l l1 : load) : Prop :=
  match d with
  | DElement x c => exists ty p, content_read c ty p /\
      l1 = Load (l_elements l ++ [ElDecl x ty p (match p with Some p => compulsory_num p | None => 0%nat end)]) (l_attrs l) (l_entities l) (l_id l) (l_idref l)
  | DAttlist x a =>
      l1 = Load (l_elements l) (put_attr (l_attrs l) x (decls_of (l_attrs l) x ++ a)) (l_entities l)
             (l_id l || existsb (fun a => is_id_type (ad_type a)) a) (l_idref l || existsb (fun a => is_ref_type (ad_type a)) a)
  | DEntity e => l1 = Load (l_elements l) (l_attrs l) (l_entities l ++ [e]) (l_id l) (l_idref l)
  end.
Lemma decl_step t d : decl_text t d -> forall ds0 l, holding ds0 l -> NoDup (map fst (elements_of (ds0 ++ [d]))) -> (forall x, atts_good (atts_of (ds0 ++ [d]) x)) ->
  exists n l1, holding (ds0 ++ [d]) l1 /\ made d l l1 /\ forall u f m, (n <= f)%nat -> misc_text false m [] -> t_dtd (S f) (m ++ t ++ u) l 0 = t_dtd f u l1 0.
Proof.
  intros T ds0 l H Nd Ga.
  assert (Nt : forall m z, m ++ t ++ z <> []).
  { intros m z. destruct T; intros Q; apply app_eq_nil in Q as [_ Q]; discriminate. }
  destruct T as [w x w1 b c w2 W X W1 C B|w x t a w2 W X A B Ne|w x w1 t v w2 W X W1 Q B|w w0 x w1 t v w2 W W0 X W1 Q B].
  + assert (Nx : ~ In x (map el_name (l_elements l))).
    { rewrite (el_names _ _ (h_els _ _ H)). rewrite elements_app, map_app in Nd. cbn [map fst] in Nd.
      apply NoDup_remove_2 in Nd. rewrite app_nil_r in Nd. exact Nd. }
    destruct (element_text w x w1 b c w2 W X W1 C B) as (ty & p & R & E).
    set (l1 := Load (l_elements l ++ [ElDecl x ty p (match p with Some p => compulsory_num p | None => 0%nat end)]) (l_attrs l) (l_entities l) (l_id l) (l_idref l)).
    assert (H' : holding (ds0 ++ [DElement x c]) l1).
    { destruct H as [H1 H2 H3 H4 H5]. subst l1. split; cbn [l_elements l_attrs l_entities l_id l_idref].
      - rewrite elements_app. apply Forall2_app; [exact H1|]. constructor; [|constructor]. split; [exact X|]. split; [reflexivity|]. split; [exact R|reflexivity].
      - apply other_holds; [discriminate|exact H2].
      - rewrite entities_app, app_nil_r. exact H3.
      - apply some_att_other; [discriminate|exact H4].
      - apply some_att_other; [discriminate|exact H5]. }
    exists 0%nat, l1. split; [exact H'|]. split; [exists ty, p; split; [exact R|reflexivity]|]. intros u f m L M.
    rewrite dtd_t_S by apply Nt. rewrite <- !app_assoc in *. change (str ">" ++ u) with (">"%char :: u).
    destruct (misc_read _ _ M (str "<!ELEMENT" ++ w ++ x ++ w1 ++ b ++ w2 ++ ">"%char :: u) pdoc_new) as (d' & Em); [split; reflexivity|]. rewrite Em.
    match goal with |- context [skip (str "<!ELEMENT" ++ ?z)] => change (skip (str "<!ELEMENT" ++ z)) with (str "<!ELEMENT" ++ z);
      change (after (s2b "<!ELEMENT") (str "<!ELEMENT" ++ z)) with (Some z) end. cbv iota.
    rewrite (E u l Nx). cbn [bindo bind]. reflexivity.
  + assert (G1 : atts_good (decls_of (l_attrs l) x ++ a)).
    { rewrite (proj1 (decls_read ds0 _ x (h_atts _ _ H))). specialize (Ga x). rewrite !atts_of_app in Ga.
      cbn [atts_of flat_map] in Ga. rewrite bytes_eqb_refl, app_nil_r in Ga. exact Ga. }
    set (l1 := Load (l_elements l) (put_attr (l_attrs l) x (decls_of (l_attrs l) x ++ a)) (l_entities l)
                 (l_id l || existsb (fun a => is_id_type (ad_type a)) a) (l_idref l || existsb (fun a => is_ref_type (ad_type a)) a)).
    assert (H' : holding (ds0 ++ [DAttlist x a]) l1).
    { destruct H as [H1 H2 H3 H4 H5]. subst l1. split; cbn [l_elements l_attrs l_entities l_id l_idref].
      - rewrite elements_app, app_nil_r. exact H1.
      - apply put_holds, H2.
      - rewrite entities_app, app_nil_r. exact H3.
      - apply some_att_more, H4.
      - apply some_att_more, H5. }
    exists (S (length a)), l1. split; [exact H'|]. split; [reflexivity|]. intros u f m L M.
    rewrite dtd_t_S by apply Nt. rewrite <- !app_assoc in *. change (str ">" ++ u) with (">"%char :: u).
    destruct (misc_read _ _ M (str "<!ATTLIST" ++ w ++ x ++ t ++ w2 ++ ">"%char :: u) pdoc_new) as (d' & Em); [split; reflexivity|]. rewrite Em.
    match goal with |- context [skip (str "<!ATTLIST" ++ ?z)] => change (skip (str "<!ATTLIST" ++ z)) with (str "<!ATTLIST" ++ z);
      change (after (s2b "<!ELEMENT") (str "<!ATTLIST" ++ z)) with (@None bytes); change (after (s2b "<!ATTLIST") (str "<!ATTLIST" ++ z)) with (Some z) end. cbv iota.
    rewrite (attlist_text f w x t a w2 u l W X A B Ne) by (lia || exact G1). cbn [bindo bind]. reflexivity.
  + set (l1 := Load (l_elements l) (l_attrs l) (l_entities l ++ [Entity x EGeneral (Some v)]) (l_id l) (l_idref l)).
    assert (H' : holding (ds0 ++ [DEntity (Entity x EGeneral (Some v))]) l1).
    { destruct H as [H1 H2 H3 H4 H5]. subst l1. split; cbn [l_elements l_attrs l_entities l_id l_idref].
      - rewrite elements_app, app_nil_r. exact H1.
      - apply other_holds; [discriminate|exact H2].
      - rewrite entities_app, H3. reflexivity.
      - apply some_att_other; [discriminate|exact H4].
      - apply some_att_other; [discriminate|exact H5]. }
    exists 0%nat, l1. split; [exact H'|]. split; [reflexivity|]. intros u f m L M.
    rewrite dtd_t_S by apply Nt. rewrite <- !app_assoc in *. change (str ">" ++ u) with (">"%char :: u).
    destruct (misc_read _ _ M (str "<!ENTITY" ++ w ++ x ++ w1 ++ t ++ w2 ++ ">"%char :: u) pdoc_new) as (d' & Em); [split; reflexivity|]. rewrite Em.
    match goal with |- context [skip (str "<!ENTITY" ++ ?z)] => change (skip (str "<!ENTITY" ++ z)) with (str "<!ENTITY" ++ z);
      change (after (s2b "<!ELEMENT") (str "<!ENTITY" ++ z)) with (@None bytes); change (after (s2b "<!ATTLIST") (str "<!ENTITY" ++ z)) with (@None bytes);
      change (after (s2b "<!ENTITY") (str "<!ENTITY" ++ z)) with (Some z) end. cbv iota.
    pose proof (entity_read ([]) EGeneral x w1 t v w2 u l w (or_introl (conj eq_refl eq_refl)) W X W1 Q B) as E. rewrite <- ?app_assoc in E. cbn [app] in E |- *. rewrite E. cbn [bindo bind]. reflexivity.
  + set (l1 := Load (l_elements l) (l_attrs l) (l_entities l ++ [Entity x EParameter (Some v)]) (l_id l) (l_idref l)).
    assert (H' : holding (ds0 ++ [DEntity (Entity x EParameter (Some v))]) l1).
    { destruct H as [H1 H2 H3 H4 H5]. subst l1. split; cbn [l_elements l_attrs l_entities l_id l_idref].
      - rewrite elements_app, app_nil_r. exact H1.
      - apply other_holds; [discriminate|exact H2].
      - rewrite entities_app, H3. reflexivity.
      - apply some_att_other; [discriminate|exact H4].
      - apply some_att_other; [discriminate|exact H5]. }
    exists 0%nat, l1. split; [exact H'|]. split; [reflexivity|]. intros u f m L M.
    rewrite dtd_t_S by apply Nt. rewrite <- !app_assoc in *. change (str ">" ++ u) with (">"%char :: u).
    destruct (misc_read _ _ M (str "<!ENTITY" ++ w ++ str "%" ++ w0 ++ x ++ w1 ++ t ++ w2 ++ ">"%char :: u) pdoc_new) as (d' & Em); [split; reflexivity|]. rewrite Em.
    match goal with |- context [skip (str "<!ENTITY" ++ ?z)] => change (skip (str "<!ENTITY" ++ z)) with (str "<!ENTITY" ++ z);
      change (after (s2b "<!ELEMENT") (str "<!ENTITY" ++ z)) with (@None bytes); change (after (s2b "<!ATTLIST") (str "<!ENTITY" ++ z)) with (@None bytes);
      change (after (s2b "<!ENTITY") (str "<!ENTITY" ++ z)) with (Some z) end. cbv iota.
    pose proof (entity_read (str "%" ++ w0) EParameter x w1 t v w2 u l w (or_intror (ex_intro _ w0 (conj W0 (conj eq_refl eq_refl)))) W X W1 Q B) as E. rewrite <- ?app_assoc in E. cbn [app] in E |- *. rewrite E. cbn [bindo bind]. reflexivity.
Qed.
Lemma well_part ds0 d ds : NoDup (map fst (elements_of ((ds0 ++ [d]) ++ ds))) -> (forall x, atts_good (atts_of ((ds0 ++ [d]) ++ ds) x)) ->
  NoDup (map fst (elements_of (ds0 ++ [d]))) /\ (forall x, atts_good (atts_of (ds0 ++ [d]) x)).
Proof.
  intros Nd Ga. split.
  - unfold elements_of in *. rewrite (flat_map_app _ (ds0 ++ [d]) ds), map_app in Nd. revert Nd. generalize (map fst (flat_map (fun d => match d with DElement x c => [(x, c)] | _ => [] end) ds)).
    intros r. induction (map fst _) as [|x a IH]; intros N; [constructor|]. inversion N as [|? ? N1 N2]; subst. constructor; [intros I; apply N1, in_or_app; auto|apply IH, N2].
  - intros x. specialize (Ga x). rewrite atts_of_app in Ga. apply atts_good_part in Ga. exact Ga.
Qed.
Lemma dtd_read : forall text ds, dtd_text text ds -> forall ds0 l, holding ds0 l -> NoDup (map fst (elements_of (ds0 ++ ds))) ->
  (forall x, atts_good (atts_of (ds0 ++ ds) x)) ->
  exists n l', holding (ds0 ++ ds) l' /\ forall f, (n <= f)%nat -> t_dtd f text l 0 = Ok (Some ([], l')).
Proof.
  intros text ds D. induction D as [m M|m t d u ds M T D IH]; intros ds0 l H Nd Ga.
  - exists 2%nat, l. rewrite app_nil_r. split; [exact H|]. intros f L. destruct f as [|[|f]]; try lia.
    destruct m as [|c m]; [reflexivity|]. rewrite dtd_t_S by discriminate.
    assert (plain []) as P by (split; reflexivity). destruct (misc_read _ _ M [] pdoc_new P) as (d' & E). rewrite app_nil_r in E. rewrite E. reflexivity.
  - rewrite app_cons in *. destruct (well_part ds0 d ds Nd Ga) as [Nd1 Ga1]. destruct (decl_step t d T ds0 l H Nd1 Ga1) as (n1 & l1 & H1 & _ & E1).
    destruct (IH (ds0 ++ [d]) l1 H1 Nd Ga) as (n & l' & H' & E2). exists (S (n1 + n)), l'. split; [exact H'|]. intros f L. destruct f as [|f]; [lia|].
    rewrite E1 by (lia || exact M). apply E2. lia.
Qed.
(** declarations followed by one that is refused *)
Lemma dtd_refuses : forall text ds, dtd_text text ds -> forall z ds0 l, holding ds0 l -> NoDup (map fst (elements_of (ds0 ++ ds))) ->
  (forall x, atts_good (atts_of (ds0 ++ ds) x)) -> (forall l', holding (ds0 ++ ds) l' -> t_element (str "<!ELEMENT" ++ z) l' = Ok None) ->
  exists n, forall f, (n <= f)%nat -> t_dtd f (text ++ str "<!ELEMENT" ++ z) l 0 = Ok None.
Proof.
  intros text ds D z. induction D as [m M|m t d u ds M T D IH]; intros ds0 l H Nd Ga R.
  - exists 1%nat. intros f L. destruct f as [|f]; [lia|]. rewrite dtd_t_S by (intros Q; apply app_eq_nil in Q as [_ Q]; discriminate).
    destruct (misc_read _ _ M (str "<!ELEMENT" ++ z) pdoc_new) as (d' & Em); [split; reflexivity|]. rewrite Em. change (skip (str "<!ELEMENT" ++ z)) with (str "<!ELEMENT" ++ z).
    change (after (s2b "<!ELEMENT") (str "<!ELEMENT" ++ z)) with (Some z). cbv iota. rewrite app_nil_r in R. rewrite (R l H). reflexivity.
  - rewrite app_cons in *. destruct (well_part ds0 d ds Nd Ga) as [Nd1 Ga1]. destruct (decl_step t d T ds0 l H Nd1 Ga1) as (n1 & l1 & H1 & _ & E1).
    destruct (IH (ds0 ++ [d]) l1 H1 Nd Ga R) as (n & E2). exists (S (n1 + n)). intros f L. destruct f as [|f]; [lia|]. rewrite <- !app_assoc in *.
    rewrite E1 by (lia || exact M). apply E2. lia.
Qed.

(** ** the result *)
Lemma holding_new : holding [] load_new.
Proof.
  split; cbn.
  - constructor.
  - split; [constructor|]. intros x a. split; [intros []|intros [(l & []) _]].
  - reflexivity.
  - split; [discriminate|intros (x & l & a & [] & _)].
  - split; [discriminate|intros (x & l & a & [] & _)].
Qed.
Lemma kids_not_leaf text ds : dtd_text text ds -> forall x p, In (x, CKids p) (elements_of ds) -> not_leaf p = true.
Proof.
  intros D. induction D as [|m t d u l M T D IH]; intros x p I; [destruct I|]. change (elements_of (d :: l)) with (match d with DElement x c => [(x, c)] | _ => [] end ++ elements_of l) in I.
  apply in_app_or in I as [I|I]; [|eapply IH; exact I]. destruct T; try (destruct I; fail). destruct I as [E|[]]. injection E as -> ->.
  match goal with H : content_text _ _ |- _ => inversion H; reflexivity end.
Qed.
Lemma load_ok text ds : dtd_text text ds -> declared_well ds -> groups_shown ds ->
  exists n, forall fuel, (n <= fuel)%nat -> exists d ents, dtd_parse fuel text = Ok (Some (d, ents)) /\ loaded ds d ents.
Proof.
  intros D [W1 W2 W3 (rank & W4)] G. destruct (dtd_read text ds D [] load_new holding_new W1 W2) as (n & l & H & E). cbn [app] in H.
  pose proof (kids_not_leaf text ds D) as Kl.
  assert (Tk : forall e, In e (l_elements l) -> is_tok (el_name e)).
  { intros e I. destruct (forall2_in _ _ _ e (h_els _ _ H) I) as (d & _ & T & -> & _). exact T. }
  assert (Ro : exists m, forall fuel, (m <= fuel)%nat ->
            exists root, match l_elements l with [] => Ok None | els => r <- new_root fuel fuel els ;; Ok (Some r) end = Ok root /\
              match root with None => l_elements l = [] | Some r => In r (l_elements l) /\ forall e, In e (l_elements l) -> ~ mentions e r end).
  { destruct (l_elements l) as [|e0 es] eqn:Els.
    - exists 0%nat. intros fuel _. exists None. auto.
    - destruct (new_root_ends (e0 :: es)) as (m & R); [discriminate| |].
      { exists (fun e => rank (el_name e)). rewrite <- Els in *. intros e f Ie If M. destruct (forall2_in _ _ _ e (h_els _ _ H) Ie) as ([x c] & I & R).
        pose proof (proj1 (read_mentions (x, c) e f R (Tk f If)) M) as [M' _]. destruct R as (_ & -> & _). eapply W4; eassumption. }
      exists m. intros fuel L. destruct (R fuel fuel L L) as (r & E1 & E2 & E3). rewrite E1. exists (Some r). auto. }
  destruct Ro as (m & Ro). exists (n + m)%nat. intros fuel L. destruct (Ro fuel ltac:(lia)) as (root & Er & Hr).
  exists (Dtd (l_elements l) (l_attrs l) root (l_id l) (l_idref l)), (l_entities l). split.
  - rewrite parse_text, E by lia. unfold finish. rewrite Er. cbn [bind]. destruct (l_id l) eqn:Id; [reflexivity|]. destruct (l_idref l) eqn:Ir; [|reflexivity].
    exfalso. assert (some_att ds is_id_type) as Q by (apply W3, (h_idref _ _ H), Ir). apply (h_id _ _ H) in Q. congruence.
  - destruct H as [H1 [H2 H2'] H3 H4 H5]. split; cbn [d_elements d_attrs d_top d_id d_idref]; try assumption.
    + clear -H1 G. assert (G' : forall d p, In d (elements_of ds) -> snd d = CKids p -> grouped_top p = true).
      { intros [x c] p I Q. cbn [snd] in Q. subst c. eapply G, I. }
      clear G. induction H1 as [|d e es m R F IH]; constructor.
      * apply read_loaded; [exact R|]. intros p Q. apply (G' d p); [left; reflexivity|exact Q].
      * apply IH. intros d' p I. apply G'. right. exact I.
    + destruct root as [r|].
      * destruct Hr as [Ir Nm]. split; [exact Ir|]. intros x c I J. destruct (forall2_in_l _ _ _ (x, c) H1 I) as (e & Ie & Re). apply (Nm e Ie).
        apply (read_mentions _ e r Re (Tk r Ir)). split; [exact J|]. cbn [snd]. intros p ->. eapply Kl, I.
      * rewrite Hr in H1. inversion H1. reflexivity.
Qed.
