(** The view of a parsed document that is validated. *)
From Coq Require Import Permutation.
From Verif Require Import Prelude StrSpec AttrModel TreeModel ParseModel ParseProofs XmlSpec DumpProofs GramProofs3 GramProofs5
  DtdModel DtdSpec DtdProofs DtdDocModel DtdDocSpec DtdDocProofs3 DtdDocProofs4 LoadModel LoadSpec LoadProofs5 LoadProofs6 LoadProofs8 LoadProofs9 ValidModel ValidSpec.
Open Scope nat_scope.
Open Scope list_scope.

(** ** the tree of a text has values for all attributes, no name twice *)
Definition good_atts (x : xnode) : Prop := NoDup (map fst (x_atts x)) /\ forall n v, In (n, v) (x_atts x) -> exists w, v = Some w.
Lemma attrs_good t l : attrs_text t l -> NoDup (map fst l) /\ forall n v, In (n, v) l -> exists w, v = Some w.
Proof.
  intros H. induction H as [|w k q v t l B W N X Q F A H [IH1 IH2] I]; [split; [constructor|intros n v []]|].
  split; [cbn [map fst]; constructor; assumption|]. intros n u [[= <- <-]|J]; [eauto|eapply IH2; exact J].
Qed.
Lemma text_good :
  (forall t x, elem_text t x -> forall e, In e (x_elems x) -> good_atts e) /\
  (forall p t l, XmlSpec.content_text p t l -> forall e y, In (XElem y) l -> In e (x_elems y) -> good_atts e).
Proof.
  apply texts_both.
  - intros name t ats w N A B e [<-|[]]. unfold good_atts. cbn [x_atts]. exact (attrs_good t ats A).
  - intros name t ats w c items w' N A B C IH B' L e [<-|I]; [unfold good_atts; cbn [x_atts]; exact (attrs_good t ats A)|].
    apply in_flat_map in I as (i & I & J). destruct i as [y| | | | |]; try destruct J. exact (IH e y I J).
  - intros p w G e y [].
  - intros p w e x t l G T IH1 C IH2 e0 y [[= <-]|I] J; [exact (IH1 e0 J)|exact (IH2 e0 y I J)].
  - intros s t l F B Hs C IH e y [Q|I]; [discriminate Q|exact (IH e y I)].
  - intros w s t l Bw F Ne Wh Hs C IH e y [Q|I]; [discriminate Q|exact (IH e y I)].
  - intros p w s t l G F O C IH e y [Q|I]; [discriminate Q|exact (IH e y I)].
  - intros p w s t l G Cm C IH e y [Q|I]; [discriminate Q|exact (IH e y I)].
  - intros p w s n c t l G P C IH e y [Q|I]; [discriminate Q|exact (IH e y I)].
Qed.
Lemma doc_good text enc sa pis x : doc_text text enc sa pis x -> forall e, In e (x_elems x) -> good_atts e.
Proof. intros H. destruct H; eapply (proj1 text_good); eassumption. Qed.

(** ** what the validation sees *)
Definition somes (l : list (bytes * bytes)) : list (bytes * option bytes) := map (fun p => (fst p, Some (snd p))) l.
Inductive pictures : elem -> xnode -> Prop :=
| Pictures e x : e_name e = x_name x -> Permutation (somes (e_atts e)) (x_atts x) -> e_empty e = x_no_text x ->
    Forall2 pictures (e_subs e) (x_subs x) -> pictures e x.
Lemma with_values_ok l : (forall n v, In (n, v) l -> exists w, v = Some w) -> exists m, with_values l = Ok m /\ somes m = l.
Proof.
  induction l as [|[k v] l IH]; intros H; [exists []; split; reflexivity|]. destruct (H k v (or_introl eq_refl)) as (w & ->).
  destruct IH as (m & E & Q); [intros n u I; apply (H n u); right; exact I|]. exists ((k, w) :: m). cbn [with_values of_option bind]. rewrite E. cbn [bind].
  split; [reflexivity|]. unfold somes in *. cbn [map fst snd]. rewrite Q. reflexivity.
Qed.
Lemma shows_empty l m : shows_items l m -> items_empty l = forallb (fun i => match i with XText _ | XCdata _ => false | _ => true end) m.
Proof. induction 1; cbn [items_empty forallb andb]; auto. Qed.
Lemma elem_ok :
  (forall n x, shows n x -> (forall e, In e (x_elems x) -> good_atts e) -> exists e, elem_of n = Ok e /\ pictures e x) /\
  (forall l m, shows_items l m -> (forall e y, In (XElem y) m -> In e (x_elems y) -> good_atts e) ->
     exists es, (fix go (items : list item) : res (list elem) :=
             match items with
             | [] => Ok []
             | INode m :: r => e <- elem_of m ;; es <- go r ;; Ok (e :: es)
             | _ :: r => go r
             end) l = Ok es /\ Forall2 pictures es (flat_map (fun i => match i with XElem y => [y] | _ => [] end) m)).
Proof.
  apply shows_both.
  - intros name a items ats l xs F P Sh IH G.
    destruct IH as (es & E & Fo). { intros e y I J. apply G. right. apply in_flat_map. exists (XElem y). auto. }
    assert (Ga : good_atts (XNode name ats xs)) by (apply G; left; reflexivity). destruct Ga as [_ Gv]. cbn [x_atts] in Gv.
    destruct (with_values_ok l) as (m & Em & Qm). { intros n v I. apply (Gv n v). eapply Permutation_in; eassumption. }
    eexists. split; [cbn [elem_of]; rewrite F; cbn [bind]; rewrite Em; cbn [bind]; rewrite E; reflexivity|].
    constructor; cbn [e_name e_atts e_empty e_subs x_name x_atts]; [reflexivity|rewrite Qm; exact P| |exact Fo].
    unfold node_is_empty. cbn [n_items]. apply shows_empty. exact Sh.
  - intros _. exists []. split; [reflexivity|constructor].
  - intros n x l m Sh IH1 Sl IH2 G. destruct IH1 as (e & E & P). { intros e0 I0. apply (G e0 x); [left; reflexivity|exact I0]. }
    destruct IH2 as (es & Es & Fo). { intros e0 y I J. apply (G e0 y); [right; exact I|exact J]. }
    exists (e :: es). rewrite E. cbn [bind]. rewrite Es. cbn [bind]. split; [reflexivity|]. cbn [flat_map app]. constructor; assumption.
  - intros t l m Sl IH G. apply IH. intros e y I J. apply (G e y); [right; exact I|exact J].
  - intros t l m Sl IH G. apply IH. intros e y I J. apply (G e y); [right; exact I|exact J].
  - intros t l m Sl IH G. apply IH. intros e y I J. apply (G e y); [right; exact I|exact J].
  - intros t l m Sl IH G. apply IH. intros e y I J. apply (G e y); [right; exact I|exact J].
  - intros t l m Sl IH G. apply IH. intros e y I J. apply (G e y); [right; exact I|exact J].
Qed.

(** ** all elements *)
Lemma x_elems_subs x : x_elems x = x :: flat_map x_elems (x_subs x).
Proof.
  destruct x as [n a l]. cbn [x_elems]. f_equal. unfold x_subs. cbn [xitems]. induction l as [|i l IH]; [reflexivity|]. cbn [flat_map]. rewrite IH, flat_map_app.
  destruct i; cbn [flat_map app]; rewrite ?app_nil_r; reflexivity.
Qed.
Lemma all_elems_subs e : all_elems e = e :: flat_map all_elems (e_subs e).
Proof. destruct e. reflexivity. Qed.
Lemma forall2_flat {A B C D} (R : A -> B -> Prop) (Q : C -> D -> Prop) f g l m : Forall2 R l m -> (forall a b, In a l -> R a b -> Forall2 Q (f a) (g b)) -> Forall2 Q (flat_map f l) (flat_map g m).
Proof. intros F. induction F as [|a b l m H F IH]; intros G; [constructor|]. cbn [flat_map]. apply Forall2_app; [apply G; [left; reflexivity|exact H]|apply IH; intros a0 b0 I; apply G; right; exact I]. Qed.
Lemma pictures_all : forall e x, pictures e x -> Forall2 pictures (all_elems e) (x_elems x).
Proof.
  fix IH 1. intros [n a b l] x P. rewrite all_elems_subs, x_elems_subs. constructor; [exact P|].
  assert (F : Forall2 pictures l (x_subs x)) by (inversion P; assumption). revert F. generalize (x_subs x). cbn [e_subs]. clear - IH. induction l as [|e l IHl]; intros m F; inversion F as [|? y ? m' H F']; subst; [constructor|]. cbn [flat_map].
  apply Forall2_app; [apply IH; exact H|apply IHl; exact F'].
Qed.
Lemma sub_in : forall x k, In k (x_subs x) -> In k (x_elems x).
Proof. intros x k I. rewrite x_elems_subs. right. apply in_flat_map. exists k. split; [exact I|]. rewrite x_elems_subs. left. reflexivity. Qed.
Lemma sub_trans : forall r e k, In e (x_elems r) -> In k (x_subs e) -> In k (x_elems r).
Proof.
  fix IH 1. intros [nm at_ l] e k I K. destruct I as [<-|I]; [apply sub_in; exact K|]. right. induction l as [|i l IHl]; [destruct I|]. cbn [flat_map] in *.
  apply in_app_or in I as [I|I]; apply in_or_app; [left|right; apply IHl; exact I]. destruct i as [y| | | | |]; try destruct I. exact (IH y e k I K).
Qed.
Lemma names_map es xs : Forall2 pictures es xs -> map e_name es = map x_name xs.
Proof. induction 1 as [|e x es xs P F IH]; [reflexivity|]. cbn [map]. destruct P as [e x N _ _ _]. rewrite N, IH. reflexivity. Qed.
Lemma subs_nil es xs : Forall2 pictures es xs -> (es = [] <-> xs = []).
Proof. intros F. split; intros ->; inversion F; reflexivity. Qed.

(** ** attributes *)
Lemma somes_in l n v : In (n, Some v) (somes l) <-> In (n, v) l.
Proof.
  unfold somes. rewrite in_map_iff. split; [intros ([k u] & [= <- <-] & I); exact I|intros I; exists (n, v); split; [reflexivity|exact I]].
Qed.
Lemma pict_in e x n v : pictures e x -> (In (n, v) (e_atts e) <-> In (n, Some v) (x_atts x)).
Proof. intros [e0 x0 _ P _ _]. rewrite <- somes_in. split; apply Permutation_in; [exact P|symmetry; exact P]. Qed.
Lemma atts_iff l e x : pictures e x -> good_atts x ->
  ((forall n v, In (n, v) (e_atts e) -> exists a, In a l /\ ad_name a = n /\ forall vs, ad_type a = AEnum vs -> In v vs) /\
   (forall a, In a l -> ad_default a = ARequired -> exists v, In (ad_name a, v) (e_atts e)) /\
   (forall a, In a l -> ad_default a = AFixed -> exists v, ad_value a = Some v /\ In (ad_name a, v) (e_atts e))) <-> x_atts_fit l x.
Proof.
  intros P [_ G]. unfold x_atts_fit. split; intros (H1 & H2 & H3); split; [|split| |split].
  - intros n v I. destruct (G n v I) as (w & ->). apply (pict_in e x n w P) in I. destruct (H1 n w I) as (a & Ia & N & E). exists a. split; [exact Ia|]. split; [exact N|].
    intros vs T. exists w. split; [reflexivity|exact (E vs T)].
  - intros a I D. destruct (H2 a I D) as (v & J). apply (pict_in e x _ v P) in J. apply in_map_iff. exists (ad_name a, Some v). auto.
  - intros a I D. destruct (H3 a I D) as (v & -> & J). apply (pict_in e x _ v P) in J. exact J.
  - intros n v I. apply (pict_in e x n v P) in I. destruct (H1 n _ I) as (a & Ia & N & E). exists a. split; [exact Ia|]. split; [exact N|].
    intros vs T. destruct (E vs T) as (w & [= <-] & Iw). exact Iw.
  - intros a I D. specialize (H2 a I D). apply in_map_iff in H2 as ([n v] & N & J). cbn [fst] in N. subst n. destruct (G _ v J) as (w & ->). exists w. apply (pict_in e x _ w P). exact J.
  - intros a I D. specialize (H3 a I D). destruct (G _ _ H3) as (w & E). rewrite E in H3. exists w. split; [exact E|]. apply (pict_in e x _ w P). exact H3.
Qed.
Lemma filter_one k (l m : list (bytes * option bytes)) : Permutation l m -> NoDup (map fst m) ->
  filter (fun p => bytes_eqb (fst p) k) l = filter (fun p => bytes_eqb (fst p) k) m.
Proof.
  intros P N. assert (length (filter (fun p : bytes * option bytes => bytes_eqb (fst p) k) m) <= 1) as L.
  { clear P. induction m as [|[n v] m IH]; [cbn; lia|]. cbn [map fst] in N. inversion N as [|? ? H N']; subst. cbn [filter fst]. destruct (bytes_eqb n k) eqn:E; [|exact (IH N')].
    apply bytes_eqb_eq in E. subst n. replace (filter (fun p => bytes_eqb (fst p) k) m) with (@nil (bytes * option bytes)); [cbn; lia|].
    symmetry. clear IH N N'. induction m as [|[n u] m IHm]; [reflexivity|]. cbn [filter fst]. destruct (bytes_eqb n k) eqn:E; [|apply IHm; intros I; apply H; right; exact I].
    apply bytes_eqb_eq in E. subst n. exfalso. apply H. left. reflexivity. }
  assert (Permutation (filter (fun p : bytes * option bytes => bytes_eqb (fst p) k) l) (filter (fun p => bytes_eqb (fst p) k) m)) as Q.
  { clear N L. induction P as [|x l m P IH|x y l|l m r P1 IH1 P2 IH2]; [constructor| | |etransitivity; eassumption].
    - cbn [filter]. destruct (bytes_eqb (fst x) k); [constructor; exact IH|exact IH].
    - cbn [filter]. destruct (bytes_eqb (fst x) k), (bytes_eqb (fst y) k); try apply perm_swap; reflexivity. }
  set (u := filter _ l) in *. set (v := filter _ m) in *. clearbody u v. destruct v as [|x [|y v]]; [|apply Permutation_sym, Permutation_length_1_inv in Q; exact Q|cbn in L; lia].
  apply Permutation_sym, Permutation_nil in Q. exact Q.
Qed.
Lemma typed_list d ds ents ty e : loaded ds d ents ->
  typed d ty e = flat_map (fun a => if ty (ad_type a) then map snd (filter (fun p => bytes_eqb (fst p) (ad_name a)) (e_atts e)) else []) (atts_of ds (e_name e)).
Proof.
  intros Ld. unfold typed. set (f := fun l => flat_map (fun a => if ty (ad_type a) then map snd (filter (fun p => bytes_eqb (fst p) (ad_name a)) (e_atts e)) else []) l).
  change (flat_map (fun nl => if bytes_eqb (fst nl) (e_name e) then f (snd nl) else []) (d_attrs d) = f (atts_of ds (e_name e))).
  pose proof (ld_lists _ _ _ Ld) as N. pose proof (ld_attrs _ _ _ Ld) as A.
  assert (G : forall l, NoDup (map fst l) -> (forall m, In (e_name e, m) l -> m = atts_of ds (e_name e)) ->
    flat_map (fun nl => if bytes_eqb (fst nl) (e_name e) then f (snd nl) else []) l = if existsb (fun nl => bytes_eqb (fst nl) (e_name e)) l then f (atts_of ds (e_name e)) else []).
  { clear N A. induction l as [|[n m] l IH]; intros N A; [reflexivity|]. cbn [map fst] in N. inversion N as [|? ? H N']; subst. cbn [flat_map existsb fst snd].
    destruct (bytes_eqb n (e_name e)) eqn:E.
    - apply bytes_eqb_eq in E. subst n. cbn [orb]. rewrite (A m (or_introl eq_refl)). rewrite IH; [|exact N'|intros m0 I; apply A; right; exact I].
      replace (existsb (fun nl => bytes_eqb (fst nl) (e_name e)) l) with false; [apply app_nil_r|]. symmetry. apply not_true_is_false. intros X. apply existsb_exists in X as ([n u] & I & X).
      cbn [fst] in X. apply bytes_eqb_eq in X. subst n. apply H. apply in_map_iff. exists (e_name e, u). auto.
    - cbn [orb app]. apply IH; [exact N'|intros m0 I; apply A; right; exact I]. }
  rewrite G; [|exact N|intros m I; apply A in I; apply I]. destruct (existsb _ (d_attrs d)) eqn:E; [reflexivity|].
  assert (atts_of ds (e_name e) = []) as ->; [|reflexivity].
  unfold atts_of. assert (Q : forall l, In (DAttlist (e_name e) l) ds -> False).
  { intros l I. apply not_true_iff_false in E. apply E. apply existsb_exists. exists (e_name e, atts_of ds (e_name e)). split; [apply A; split; [exists l; exact I|reflexivity]|]. cbn [fst]. apply bytes_eqb_refl. }
  clear - Q. induction ds as [|dc ds IH]; [reflexivity|]. cbn [flat_map]. rewrite IH; [|intros l I; apply (Q l); right; exact I]. destruct dc as [|y l|]; try reflexivity.
  destruct (bytes_eqb y (e_name e)) eqn:E; [|reflexivity]. apply bytes_eqb_eq in E. subst y. exfalso. apply (Q l). left. reflexivity.
Qed.
Lemma typed_same d ds ents ty e x : loaded ds d ents -> pictures e x -> good_atts x -> map Some (typed d ty e) = x_typed ds ty x.
Proof.
  intros Ld P [N _]. rewrite (typed_list d ds ents ty e Ld). destruct P as [e x En P _ _]. unfold x_typed. rewrite En. clear Ld En.
  induction (atts_of ds (x_name x)) as [|a l IH]; [reflexivity|]. cbn [flat_map]. rewrite map_app, IH. f_equal. destruct (ty (ad_type a)); [|reflexivity].
  rewrite <- (filter_one (ad_name a) (somes (e_atts e)) (x_atts x) P N). clear. induction (e_atts e) as [|[n v] l IH]; [reflexivity|]. unfold somes in *. cbn [map filter fst snd].
  destruct (bytes_eqb n (ad_name a)); [|exact IH]. cbn [map snd]. rewrite IH. reflexivity.
Qed.
Lemma typed_all d ds ents ty es xs : loaded ds d ents -> Forall2 pictures es xs -> (forall x, In x xs -> good_atts x) ->
  map Some (flat_map (typed d ty) es) = flat_map (x_typed ds ty) xs.
Proof.
  intros Ld F G. induction F as [|e x es xs P F IH]; [reflexivity|]. cbn [flat_map]. rewrite map_app, IH; [|intros y I; apply G; right; exact I].
  rewrite (typed_same d ds ents ty e x Ld P (G x (or_introl eq_refl))). reflexivity.
Qed.

(** ** contents *)
Lemma content_iff k c e x : element_loaded (x_name x, k) c -> pictures e x -> (forall y, In y (x_subs x) -> is_tok (x_name y)) ->
  (content_valid c e <-> shape_fits k x).
Proof.
  intros [_ R] P T. destruct P as [e x N A Em F]. cbn [snd] in R. unfold content_valid. destruct k as [| | |xs|p]; cbn [shape_fits content_fits].
  - destruct R as [-> _]. rewrite Em. rewrite (subs_nil _ _ F). reflexivity.
  - destruct R as [-> _]. reflexivity.
  - rewrite R. apply (subs_nil _ _ F).
  - destruct R as (-> & -> & _). rewrite (names_map _ _ F).
    assert (Np : ~ In pcdata (map x_name (x_subs x))). { intros I. apply in_map_iff in I as (y & E & I). apply (tok_not_pcdata _ (T y I)). exact E. }
    pose proof (mixed_lang xs (map x_name (x_subs x)) Np) as M. split.
    + intros (p & [= <-] & L) y I. apply (proj1 M L). apply in_map. exact I.
    + intros H. eexists. split; [reflexivity|]. apply M. intros y I. apply in_map_iff in I as (z & <- & I). apply H. exact I.
  - destruct R as (-> & q & -> & _ & L & _). rewrite (names_map _ _ F). split; [intros (q' & [= <-] & H); apply L; exact H|intros H; exists q; split; [reflexivity|apply L; exact H]].
Qed.
Lemma loaded_no_any ds d ents : loaded ds d ents -> (forall x, ~ In (x, CAny) (elements_of ds)) -> no_any d.
Proof.
  intros Ld An c Ic Tc. destruct (forall2_in _ _ _ c (ld_elements _ _ _ Ld) Ic) as ([x k] & Ik & _ & R). cbn [snd] in R.
  destruct k; [destruct R as [R _]; congruence|apply (An x Ik)|congruence|destruct R as [R _]; congruence|destruct R as [R _]; congruence].
Qed.
Lemma doc_iff text ds d ents e x : dtd_text text ds -> loaded ds d ents -> no_any d -> pictures e x -> (forall y, In y (x_elems x) -> good_atts y) ->
  (valid d e <-> checked_doc ds x).
Proof.
  intros D Ld No P G. pose proof (pictures_all e x P) as F. pose proof (elems_all d e No) as Ea.
  assert (Ei : flat_map (ids d) (elems d e) = flat_map (typed d is_id_type) (all_elems e)) by (rewrite Ea; reflexivity).
  assert (Er : flat_map (idrefs d) (elems d e) = flat_map (typed d is_idref_type) (all_elems e)) by (rewrite Ea; reflexivity).
  pose proof (typed_all d ds ents is_id_type _ _ Ld F G) as Ti. pose proof (typed_all d ds ents is_idref_type _ _ Ld F G) as Tf.
  assert (Ids : (NoDup (flat_map (ids d) (elems d e)) /\ incl (flat_map (idrefs d) (elems d e)) (flat_map (ids d) (elems d e))) <-> ids_fit ds x).
  { unfold ids_fit. rewrite Ei, Er, <- Ti, <- Tf. split; intros [H1 H2]; split.
    - apply FinFun.Injective_map_NoDup; [intros a b [= <-]; reflexivity|exact H1].
    - intros v I. apply in_map_iff in I as (w & <- & I). apply in_map. apply H2. exact I.
    - apply NoDup_map_inv in H1. exact H1.
    - intros v I. specialize (H2 (Some v) (in_map Some _ _ I)). apply in_map_iff in H2 as (w & [= <-] & J). exact J. }
  assert (At : forall f y, pictures f y -> In y (x_elems x) -> (atts_valid d f <-> (listed ds (x_name y) -> x_atts_fit (atts_of ds (x_name y)) y))).
  { intros f y Pf Iy. assert (e_name f = x_name y) as En by (inversion Pf; assumption). unfold atts_valid, DtdDocSpec.has. split.
    - intros H Li. apply (atts_iff _ f y Pf (G y Iy)). apply H. apply (ld_attrs _ _ _ Ld). rewrite En. split; [exact Li|reflexivity].
    - intros H l I. apply (ld_attrs _ _ _ Ld) in I as [Li ->]. rewrite En in *. apply (atts_iff _ f y Pf (G y Iy)). exact (H Li). }
  split.
  - intros [V1 V2 V3]. split; [|apply Ids; split; assumption]. rewrite Ea in V1. intros y Iy. destruct (forall2_in _ _ _ y F Iy) as (f & If & Pf).
    assert (e_name f = x_name y) as En by (inversion Pf; assumption).
    destruct (V1 f If) as (c & [Ic Nc] & Cv & Av). destruct (forall2_in _ _ _ c (ld_elements _ _ _ Ld) Ic) as ([n k] & Ik & R). pose proof R as [Rn _]. cbn [fst] in Rn.
    assert (n = x_name y) as -> by congruence. exists k. split; [exact Ik|]. split; [|apply (At f y Pf Iy); exact Av].
    apply (content_iff k c f y R Pf); [|exact Cv]. intros z Iz. destruct (forall2_in _ _ _ z F (sub_trans x y z Iy Iz)) as (g & Ig & Pg).
    destruct (V1 g Ig) as (cg & [Icg Ng] & _). destruct (forall2_in _ _ _ cg (ld_elements _ _ _ Ld) Icg) as ([m kg] & Ikg & Rg & _). cbn [fst] in Rg.
    assert (e_name g = x_name z) as Eg by (inversion Pg; assumption). rewrite <- Eg, <- Ng, Rg. exact (dtd_toks text ds D _ _ Ikg).
  - intros [C1 C2]. apply Ids in C2 as [C2 C3]. split; [|exact C2|exact C3]. rewrite Ea. intros f If. destruct (forall2_in_l _ _ _ f F If) as (y & Iy & Pf).
    assert (e_name f = x_name y) as En by (inversion Pf; assumption). destruct (C1 y Iy) as (k & Ik & Sk & Av).
    destruct (forall2_in_l _ _ _ _ (ld_elements _ _ _ Ld) Ik) as (c & Ic & R). pose proof R as [Rn _]. cbn [fst] in Rn. exists c. split; [split; [exact Ic|congruence]|].
    split; [|apply (At f y Pf Iy); exact Av]. apply (content_iff k c f y R Pf); [|exact Sk].
    intros z Iz. destruct (C1 z (sub_trans x y z Iy Iz)) as (kz & Ikz & _). exact (dtd_toks text ds D _ _ Ikz).
Qed.

(** ** the whole way *)
Lemma mixed_det xs : NoDup xs -> (forall x, In x xs -> is_tok x) -> det_top (mixed xs) true = true.
Proof.
  intros N T. unfold mixed. cbn [det_top det is_sequence andb negb]. rewrite andb_true_r. rewrite !andb_true_iff. 
  set (ls := map (fun x => Leaf x TOne) (str "#PCDATA" :: xs)).
  assert (F : forallb det ls = true) by (apply forallb_forall; intros p I; apply in_map_iff in I as (y & <- & _); reflexivity).
  assert (Nn : existsb nullable ls = false). { apply not_true_is_false. intros X. apply existsb_exists in X as (p & I & X). apply in_map_iff in I as (y & <- & _). discriminate. }
  assert (Gr : flat_map grows ls = []). { unfold ls. clear. induction (str "#PCDATA" :: xs) as [|y l IH]; [reflexivity|exact IH]. }
  assert (NoDup (str "#PCDATA" :: xs)) as N'. { constructor; [|exact N]. intros I. apply (tok_not_pcdata _ (T _ I)). reflexivity. }
  assert (Cd : choice_det ls = true).
  { unfold ls. clear -N'. induction N' as [|y l H N IH]; [reflexivity|]. cbn [map choice_det skips optional negb andb]. rewrite IH, andb_true_r.
    apply forallb_forall. intros p I. apply in_map_iff in I as (z & <- & I). unfold apart, memb. cbn [starts forallb existsb]. rewrite orb_false_r, andb_true_r.
    apply negb_true_iff, bytes_eqb_neq. intros ->. apply H. exact I. }
  repeat split; try assumption.
  - unfold null_once. cbn [is_sequence]. rewrite Nn. reflexivity.
  - unfold apart, grows_once. cbn [is_sequence]. rewrite Gr. apply forallb_forall. intros y _. reflexivity.
Qed.
Lemma mixed_toks u xs : items_text "|" u (map (fun x => Leaf x TOne) xs) -> forall x, In x xs -> is_tok x.
Proof.
  revert u. induction xs as [|y xs IH]; intros u H x I; [destruct I|]. cbn [map] in H. inversion H; subst.
  - assert (is_tok y) by (match goal with C : cp_text _ (Leaf y _) |- _ => inversion C; subst; assumption end). destruct xs; [|discriminate]. destruct I as [<-|[]]. assumption.
  - assert (is_tok y) by (match goal with C : cp_text _ (Leaf y _) |- _ => inversion C; subst; assumption end). destruct I as [<-|I]; [assumption|]. eapply IH; eassumption.
Qed.
Lemma dtd_contents text ds : dtd_text text ds -> forall x c, In (x, c) (elements_of ds) -> exists b, LoadSpec.content_text b c.
Proof.
  intros D. induction D as [|m t d u l M Tt D IH]; intros x c I; [destruct I|]. change (elements_of (d :: l)) with (match d with DElement x c => [(x, c)] | _ => [] end ++ elements_of l) in I.
  apply in_app_or in I as [I|I]; [|eapply IH; exact I]. destruct Tt; try (destruct I; fail). destruct I as [E|[]]. injection E as -> ->. eexists. eassumption.
Qed.
Lemma loaded_models text ds d ents : dtd_text text ds -> loaded ds d ents -> sound_for ds -> complete_for ds -> forall c, In c (d_elements d) -> content_safe c /\ content_det c true.
Proof.
  intros D Ld [_ _ Sk _] [Ck Cm] c Ic. destruct (forall2_in _ _ _ c (ld_elements _ _ _ Ld) Ic) as ([x k] & Ik & _ & R). cbn [snd] in R.
  destruct (dtd_contents text ds D x k Ik) as (b & Ct). unfold content_safe, content_det.
  destruct k as [| | |xs|p]; [destruct R as [R _]; split; congruence|destruct R as [R _]; split; congruence|split; congruence| |].
  - destruct R as (R & Rl & Rm). split; intros _; exists (mixed xs); (split; [split; assumption|]); [apply mixed_safe|]. split; [|reflexivity].
    inversion Ct; subst. apply mixed_det; [exact (Cm x xs Ik)|eapply mixed_toks; eassumption].
  - destruct R as (R & q & Rl & Rm & _ & Rq). destruct (Sk x p Ik) as [Hx Hs]. rewrite (Rq Hx) in *. split; intros _; exists p; (split; [split; assumption|]); [exact Hs|].
    split; [exact (Ck x p Ik)|]. inversion Ct; subst. match goal with C : cp_text _ _ |- _ => inversion C; subst end. match goal with C : separated _ _ _ |- _ => destruct C as [[-> _]|[-> _]]; reflexivity end.
Qed.
Lemma no_any_plain d : no_any d -> forall e, ends_plain d e = true.
Proof.
  intros No. assert (A : forall e, any_declared d e = false).
  { intros e. apply not_true_is_false. intros X. apply existsb_exists in X as (c & Ic & X). apply andb_true_iff in X as [_ X]. apply (No c Ic). destruct (el_ty c); try discriminate. reflexivity. }
  fix IH 1. intros [n a b l]. cbn [ends_plain]. rewrite A. cbn [negb andb]. destruct l as [|k l]; [reflexivity|apply IH].
Qed.
Lemma parsed_picture text enc sa pis x : doc_text text enc sa pis x -> exists dc n e, doc_parse text = Ok (Some dc) /\ d_root dc = Some n /\ elem_of n = Ok e /\ pictures e x.
Proof.
  intros T. destruct (doc_text_ok _ _ _ _ _ T) as (dc & n & Pd & Rn & Sh & _). destruct (proj1 elem_ok n x Sh (doc_good _ _ _ _ _ T)) as (e & Ee & P). exists dc, n, e. auto.
Qed.
Lemma sound_shown ds : sound_for ds -> groups_shown ds.
Proof. intros [_ _ Sk _] x p I. apply exact_grouped, (Sk x p I). Qed.
Lemma pictures_distinct d e x : pictures e x -> (forall y, In y (x_elems x) -> good_atts y) -> no_any d -> atts_distinct d e.
Proof.
  intros P G No f If. rewrite (elems_all d e No) in If. destruct (forall2_in_l _ _ _ f (pictures_all e x P) If) as (y & Iy & Pf). destruct (G y Iy) as [N _].
  inversion Pf as [? ? _ Pm _ _]; subst. apply (Permutation_NoDup (l := map fst (x_atts y))); [|exact N].
  apply Permutation_sym. replace (map fst (e_atts f)) with (map fst (somes (e_atts f))); [apply Permutation_map; exact Pm|]. unfold somes. rewrite map_map. reflexivity.
Qed.
Lemma pictures_ids ds d ents e x : loaded ds d ents -> no_any d -> pictures e x -> (forall y, In y (x_elems x) -> good_atts y) -> ids_present ds x -> ids_given d e.
Proof.
  intros Ld No P G Ip f l a If Il Ia Ta. rewrite (elems_all d e No) in If. destruct (forall2_in_l _ _ _ f (pictures_all e x P) If) as (y & Iy & Pf).
  assert (e_name f = x_name y) as En by (inversion Pf; assumption). apply (ld_attrs _ _ _ Ld) in Il as [_ ->]. rewrite En in Ia.
  specialize (Ip y a Iy Ia Ta). apply in_map_iff in Ip as ([n v] & N & I). cbn [fst] in N. subst n. destruct (G y Iy) as [_ Gv]. destruct (Gv _ v I) as (w & ->). exists w.
  apply (pict_in f y _ w Pf). exact I.
Qed.
