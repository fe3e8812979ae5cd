(** The comparison of document type definitions. *)
From Verif Require Import Prelude StrModel StrSpec StrProofs StrProofs2 StrProofs3 TreeModel StreamModel StreamProofs ParseModel ParseProofs
  XmlSpec GramProofs GramProofs2 DtdModel DtdSpec DtdProofs DtdDocModel DtdDocSpec DtdDocProofs4 LoadModel LoadSpec
  LoadProofs LoadProofs2 LoadProofs3 LoadProofs4 LoadProofs5 LoadProofs6 LoadProofs7 LoadProofs8 LoadProofs10 DtdEqModel DtdEqSpec.
Open Scope list_scope.
Open Scope nat_scope.

(** ** loops *)
Lemma walk_map {A B} (f : A -> A -> res bool) (g : A -> B) (P : A -> Prop) : (forall x y, P x -> P y -> exists b, f x y = Ok b /\ (b = true <-> g x = g y)) ->
  forall l l', length l = length l' -> (forall x, In x l -> P x) -> (forall x, In x l' -> P x) -> exists b, walk f l l' = Ok b /\ (b = true <-> map g l = map g l').
Proof.
  intros H. induction l as [|x l IH]; intros [|y l'] L Pl Pl'; try discriminate.
  - exists true. split; [reflexivity|split; reflexivity].
  - cbn [walk map]. destruct (H x y (Pl x (or_introl eq_refl)) (Pl' y (or_introl eq_refl))) as (b & -> & Hb). cbn [bind].
    destruct (IH l') as (b' & E & Hb'); [injection L as L; exact L|intros; apply Pl; right; assumption|intros; apply Pl'; right; assumption|].
    destruct b.
    + exists b'. split; [exact E|]. rewrite Hb'. pose proof (proj1 Hb eq_refl) as ->. split; [intros ->; reflexivity|intros Q; injection Q as Q; exact Q].
    + exists false. split; [reflexivity|]. split; [discriminate|]. intros Q. injection Q as Q _. apply Hb, Q.
Qed.
Lemma cmp_opt_eq a b : a <> None -> (cmp_opt a b = true <-> a = b).
Proof.
  intros N. destruct a as [x|]; [|congruence]. destruct b as [y|]; cbn [cmp_opt]; [|split; discriminate]. rewrite bytes_eqb_eq. split; [intros ->; reflexivity|congruence].
Qed.
Lemma ent_eqb_eq a b : ent_eqb a b = true <-> a = b. Proof. destruct a, b; (split; [discriminate || reflexivity|discriminate || reflexivity]). Qed.
Lemma el_type_eqb_eq a b : el_type_eqb a b = true <-> a = b. Proof. destruct a, b; (split; [discriminate || reflexivity|discriminate || reflexivity]). Qed.
Lemma nested_eqb_eq a b : nested_eqb a b = true <-> a = b. Proof. destruct a, b; (split; [discriminate || reflexivity|discriminate || reflexivity]). Qed.
Lemma token_eqb_eq a b : token_eqb a b = true <-> a = b. Proof. destruct a, b; (split; [discriminate || reflexivity|discriminate || reflexivity]). Qed.
Lemma times_eqb_eq a b : times_eqb a b = true <-> a = b. Proof. destruct a, b; (split; [discriminate || reflexivity|discriminate || reflexivity]). Qed.
Lemma default_eqb_eq a b : default_eqb a b = true <-> a = b. Proof. destruct a, b; (split; [discriminate || reflexivity|discriminate || reflexivity]). Qed.

Ltac no_ := split; [discriminate|intros Q; exfalso].
Lemma entity_dec a b : en_content a <> None -> exists r, entity_equal a b = Ok r /\ (r = true <-> a = b).
Proof.
  intros N. unfold entity_equal. destruct a as [n t c], b as [n' t' c']. cbn [en_name en_type en_content] in *.
  destruct (ent_eqb t t') eqn:E1; cbn [negb].
  2:{ exists false. split; [reflexivity|]. no_. apply not_true_iff_false in E1. apply E1, ent_eqb_eq. congruence. }
  apply ent_eqb_eq in E1. subst t'. destruct (bytes_eqb n n') eqn:E2; cbn [negb].
  2:{ exists false. split; [reflexivity|]. no_. apply not_true_iff_false in E2. apply E2, bytes_eqb_eq. congruence. }
  apply bytes_eqb_eq in E2. subst n'. exists (cmp_opt c c'). split; [reflexivity|]. rewrite (cmp_opt_eq c c' N). split; [intros ->; reflexivity|congruence].
Qed.
Lemma item_dec p q : exists r, item_equal p q = Ok r /\ (r = true <-> member p = member q).
Proof.
  destruct p as [x t|ty t ps], q as [y u|ty' u ps']; cbn [item_equal member]; eexists; (split; [reflexivity|]); try (split; discriminate); try (split; reflexivity).
  rewrite times_eqb_eq. split; congruence.
Qed.
Definition group_only (e : el_decl) : Prop := match el_list e with Some (Leaf _ _) => False | _ => True end.
Lemma element_dec a b : group_only a -> group_only b -> members a = members b -> exists r, element_equal a b = Ok r /\ (r = true <-> outline_of a = outline_of b).
Proof.
  unfold group_only, members, element_equal, outline_of. destruct a as [n t l m], b as [n' t' l' m']. cbn [el_name el_ty el_list el_min]. intros G G' M.
  destruct (el_type_eqb t t') eqn:E1; cbn [negb].
  2:{ exists false. split; [reflexivity|]. no_. apply not_true_iff_false in E1. apply E1, el_type_eqb_eq. congruence. }
  apply el_type_eqb_eq in E1. subst t'. destruct (Nat.eqb_spec m m') as [->|Nm]; cbn [negb].
  2:{ exists false. split; [reflexivity|]. no_. congruence. }
  destruct (bytes_eqb n n') eqn:E2; cbn [negb].
  2:{ exists false. split; [reflexivity|]. no_. apply not_true_iff_false in E2. apply E2, bytes_eqb_eq. congruence. }
  apply bytes_eqb_eq in E2. subst n'.
  destruct l as [[|ty u ps]|], l' as [[|ty' u' ps']|]; try contradiction; try (exists false; split; [reflexivity|]; no_; congruence); [|exists true; split; [reflexivity|split; reflexivity]].
  destruct (nested_eqb ty ty') eqn:E3; cbn [negb].
  2:{ exists false. split; [reflexivity|]. no_. apply not_true_iff_false in E3. apply E3, nested_eqb_eq. congruence. }
  apply nested_eqb_eq in E3. subst ty'. destruct (times_eqb u u') eqn:E4; cbn [negb].
  2:{ exists false. split; [reflexivity|]. no_. apply not_true_iff_false in E4. apply E4, times_eqb_eq. congruence. }
  apply times_eqb_eq in E4. subst u'.
  destruct (walk_map item_equal member (fun _ => True) (fun p q _ _ => item_dec p q) ps ps' M (fun _ _ => Logic.I) (fun _ _ => Logic.I)) as (r & E & Hr).
  exists r. split; [exact E|]. rewrite Hr. split; [intros ->; reflexivity|congruence].
Qed.
Lemma decl_dec a b : exists r, decl_equal a b = Ok r /\ (r = true <-> bare a = bare b).
Proof.
  unfold decl_equal, bare. destruct a as [n t d v], b as [n' t' d' v']. cbn [ad_name ad_type ad_default].
  destruct (at_type_eqb t t') eqn:E1; cbn [negb].
  2:{ exists false. split; [reflexivity|]. no_. injection Q as _ <- _. apply not_true_iff_false in E1. apply E1. destruct t; try reflexivity. apply token_eqb_eq. reflexivity. }
  destruct (default_eqb d d') eqn:E2; cbn [negb].
  2:{ exists false. split; [reflexivity|]. no_. apply not_true_iff_false in E2. apply E2, default_eqb_eq. congruence. }
  apply default_eqb_eq in E2. subst d'. destruct (bytes_eqb n n') eqn:E3; cbn [negb].
  2:{ exists false. split; [reflexivity|]. no_. apply not_true_iff_false in E3. apply E3, bytes_eqb_eq. congruence. }
  apply bytes_eqb_eq in E3. subst n'.
  destruct t as [|vs| | |k], t' as [|vs'| | |k']; try discriminate; try (exists true; split; [reflexivity|split; reflexivity]).
  - destruct (Nat.eqb_spec (length vs) (length vs')) as [L|L]; cbn [negb].
    2:{ exists false. split; [reflexivity|]. no_. congruence. }
    destruct (walk_map (fun v w => Ok (bytes_eqb v w)) (fun x => x) (fun _ => True)) with (l := vs) (l' := vs') as (r & E & Hr); auto.
    { intros x y _ _. eexists. split; [reflexivity|apply bytes_eqb_eq]. }
    exists r. split; [exact E|]. rewrite Hr, !map_id. split; congruence.
  - cbn [at_type_eqb] in E1. apply token_eqb_eq in E1. subst k'. exists true. split; [reflexivity|split; reflexivity].
Qed.
Lemma attlist_dec a b : exists r, attlist_equal a b = Ok r /\ (r = true <-> (fst a, map bare (snd a)) = (fst b, map bare (snd b))).
Proof.
  unfold attlist_equal. destruct a as [n l], b as [n' l']. cbn [fst snd]. destruct (bytes_eqb n n') eqn:E3; cbn [negb].
  2:{ exists false. split; [reflexivity|]. no_. apply not_true_iff_false in E3. apply E3, bytes_eqb_eq. congruence. }
  apply bytes_eqb_eq in E3. subst n'. destruct (Nat.eqb_spec (length l) (length l')) as [L|L]; cbn [negb].
  2:{ exists false. split; [reflexivity|]. no_. apply L. injection Q as Q. apply (f_equal (@length _)) in Q. rewrite !map_length in Q. exact Q. }
  destruct (walk_map decl_equal bare (fun _ => True) (fun p q _ _ => decl_dec p q) l l' L (fun _ _ => Logic.I) (fun _ _ => Logic.I)) as (r & E & Hr).
  exists r. split; [exact E|]. rewrite Hr. split; [intros ->; reflexivity|congruence].
Qed.
Lemma elements_dec l l' : Forall2 (fun e e' => members e = members e') l l' -> (forall e, In e l -> group_only e) -> (forall e, In e l' -> group_only e) ->
  exists r, walk element_equal l l' = Ok r /\ (r = true <-> map outline_of l = map outline_of l').
Proof.
  intros F. induction F as [|x y l l' M F IH]; intros G G'; [exists true; split; [reflexivity|split; reflexivity]|]. cbn [walk map].
  destruct (element_dec x y (G x (or_introl eq_refl)) (G' y (or_introl eq_refl)) M) as (b & -> & Hb). cbn [bind].
  destruct IH as (b' & E & Hb'); [intros; apply G; right; assumption|intros; apply G'; right; assumption|]. destruct b.
  - exists b'. split; [exact E|]. rewrite Hb'. pose proof (proj1 Hb eq_refl) as ->. split; [intros ->; reflexivity|intros Q; injection Q as Q; exact Q].
  - exists false. split; [reflexivity|]. no_. apply (f_equal (hd (outline_of x))) in Q. cbn [hd] in Q. apply Hb in Q. discriminate.
Qed.
Lemma as_many_length d d' : as_many d d' -> length (d_elements d) = length (d_elements d').
Proof. unfold as_many. intros F. induction F; cbn; congruence. Qed.
(** ** the whole *)
Lemma equal_decides d ents d' ents' : grouped_content d -> grouped_content d' -> as_many d d' -> values_given ents ->
  exists b, dtd_equal d ents d' ents' = Ok b /\ (b = true <-> same_outline d ents d' ents').
Proof.
  intros G G' M V. unfold dtd_equal.
  destruct (Nat.eqb_spec (length ents) (length ents')) as [L1|L1]; cbn [negb].
  2:{ exists false. split; [reflexivity|]. no_. destruct Q as [Q _ _ _ _]. congruence. }
  rewrite (as_many_length d d' M), Nat.eqb_refl. cbn [negb].
  destruct (Nat.eqb_spec (length (d_attrs d)) (length (d_attrs d'))) as [L2|L2]; cbn [negb].
  2:{ exists false. split; [reflexivity|]. no_. destruct Q as [_ _ Q _ _]. apply L2. apply (f_equal (@length _)) in Q. rewrite !map_length in Q. exact Q. }
  destruct (Bool.eqb (d_idref d) (d_idref d')) eqn:E1; cbn [negb].
  2:{ exists false. split; [reflexivity|]. no_. destruct Q as [_ _ _ _ Q]. apply eqb_false_iff in E1. contradiction. }
  destruct (Bool.eqb (d_id d) (d_id d')) eqn:E2; cbn [negb].
  2:{ exists false. split; [reflexivity|]. no_. destruct Q as [_ _ _ Q _]. apply eqb_false_iff in E2. contradiction. }
  apply eqb_prop in E1. apply eqb_prop in E2.
  assert (exists r, walk entity_equal ents ents' = Ok r /\ (r = true <-> ents = ents')) as (r1 & -> & H1).
  { revert ents' L1. unfold values_given in V. clear -V. induction ents as [|x l IH]; intros [|y l'] L; try discriminate; [exists true; split; [reflexivity|split; reflexivity]|].
    cbn [walk]. destruct (entity_dec x y (V x (or_introl eq_refl))) as (b & -> & Hb). cbn [bind].
    destruct (IH (fun e I => V e (or_intror I)) l') as (b' & E & Hb'); [injection L as L; exact L|]. destruct b.
    - exists b'. split; [exact E|]. rewrite Hb'. pose proof (proj1 Hb eq_refl) as ->. split; congruence.
    - exists false. split; [reflexivity|]. no_. injection Q as Q _. apply Hb in Q. discriminate. }
  cbn [bind]. destruct r1; cbn [negb].
  2:{ exists false. split; [reflexivity|]. no_. destruct Q as [Q _ _ _ _]. apply H1 in Q. discriminate. }
  pose proof (proj1 H1 eq_refl) as ->.
  destruct (elements_dec _ _ M G G') as (r2 & -> & H2). cbn [bind]. destruct r2; cbn [negb].
  2:{ exists false. split; [reflexivity|]. no_. destruct Q as [_ Q _ _ _]. apply H2 in Q. discriminate. }
  pose proof (proj1 H2 eq_refl) as H2'.
  destruct (walk_map attlist_equal (fun p => (fst p, map bare (snd p))) (fun _ => True) (fun p q _ _ => attlist_dec p q) _ _ L2 (fun _ _ => Logic.I) (fun _ _ => Logic.I)) as (r3 & E3 & H3).
  exists r3. split; [exact E3|]. rewrite H3. split; [intros Q; split; assumption || reflexivity|intros [_ _ Q _ _]; exact Q].
Qed.
Lemma forall2_refl {A} (R : A -> A -> Prop) l : (forall x, R x x) -> Forall2 R l l.
Proof. intros H. induction l; constructor; auto. Qed.
Lemma same_rules_outline d ents d' ents' : same_rules d ents d' ents' -> same_outline d ents d' ents'.
Proof. intros [H1 H2 H3 H4 H5]. split; congruence. Qed.
Lemma equal_same d ents d' ents' : grouped_content d -> values_given ents -> same_rules d ents d' ents' -> dtd_equal d ents d' ents' = Ok true.
Proof.
  intros G V S. pose proof S as [H1 H2 H3 H4 H5].
  assert (as_many d d') as M by (unfold as_many; rewrite <- H2; apply forall2_refl; reflexivity).
  assert (grouped_content d') as G' by (unfold grouped_content; rewrite <- H2; exact G).
  destruct (equal_decides d ents d' ents' G G' M V) as (b & -> & Hb). f_equal. apply Hb, same_rules_outline, S.
Qed.
(** true says at least that much, whatever the definitions *)
Lemma walk_true {A B} (f : A -> A -> res bool) (g : A -> B) : (forall x y, f x y = Ok true -> g x = g y) ->
  forall l l', length l = length l' -> walk f l l' = Ok true -> map g l = map g l'.
Proof.
  intros H. induction l as [|x l IH]; intros [|y l'] L; try discriminate; [reflexivity|]. cbn [walk map]. destruct (f x y) as [[]| |] eqn:E; cbn [bind]; try discriminate.
  intros W. rewrite (H x y E), (IH l'); [reflexivity| |exact W]. injection L as L. exact L.
Qed.

Definition shape (e : el_decl) : bytes * el_type * nat * option (nested * times) :=
  (el_name e, el_ty e, el_min e, match el_list e with Some (Group ty t _) => Some (ty, t) | _ => None end).
Lemma if_ok (c : bool) (r : res bool) : (if negb c then Ok false else r) = Ok true -> c = true /\ r = Ok true.
Proof. destruct c; [auto|discriminate]. Qed.
Lemma element_true a b : element_equal a b = Ok true -> shape a = shape b.
Proof.
  unfold element_equal, shape. intros H. apply if_ok in H as [H1 H]. apply if_ok in H as [H2 H]. apply if_ok in H as [H3 H].
  apply el_type_eqb_eq in H1. apply Nat.eqb_eq in H2. apply bytes_eqb_eq in H3. rewrite H1, H2, H3.
  destruct (el_list a) as [[|ty t ps]|], (el_list b) as [[|ty' t' ps']|]; try discriminate; [|reflexivity]. apply if_ok in H as [H4 H]. apply if_ok in H as [H5 H].
  apply nested_eqb_eq in H4. apply times_eqb_eq in H5. subst. reflexivity.
Qed.
Lemma entity_true a b : entity_equal a b = Ok true -> a = b.
Proof.
  unfold entity_equal. intros H. apply if_ok in H as [H1 H]. apply if_ok in H as [H2 H]. apply ent_eqb_eq in H1. apply bytes_eqb_eq in H2.
  destruct a as [n t c], b as [n' t' c']. cbn [en_name en_type en_content] in *. destruct c as [c|], c' as [c'|]; try discriminate. injection H as H. apply bytes_eqb_eq in H. congruence.
Qed.
Lemma attlist_true a b : attlist_equal a b = Ok true -> (fst a, map bare (snd a)) = (fst b, map bare (snd b)).
Proof. destruct (attlist_dec a b) as (r & -> & H). intros Q. injection Q as ->. apply H. reflexivity. Qed.
Lemma equal_true d ents d' ents' : dtd_equal d ents d' ents' = Ok true ->
  ents = ents' /\ map shape (d_elements d) = map shape (d_elements d') /\
  map (fun p => (fst p, map bare (snd p))) (d_attrs d) = map (fun p => (fst p, map bare (snd p))) (d_attrs d') /\ d_id d = d_id d' /\ d_idref d = d_idref d'.
Proof.
  unfold dtd_equal. intros H. apply if_ok in H as [H1 H]. apply if_ok in H as [H2 H]. apply if_ok in H as [H3 H]. apply if_ok in H as [H4 H]. apply if_ok in H as [H5 H].
  apply Nat.eqb_eq in H1. apply Nat.eqb_eq in H2. apply Nat.eqb_eq in H3. apply eqb_prop in H4. apply eqb_prop in H5.
  destruct (walk entity_equal ents ents') as [b| |] eqn:E1; cbn [bind] in H; try discriminate. apply if_ok in H as [-> H].
  destruct (walk element_equal _ _) as [b| |] eqn:E2; cbn [bind] in H; try discriminate. apply if_ok in H as [-> H].
  split; [|split; [|split; [|split]]]; try assumption.
  - pose proof (walk_true entity_equal (fun x => x) entity_true ents ents' H1 E1) as Q. rewrite !map_id in Q. exact Q.
  - apply (walk_true element_equal shape element_true _ _ H2 E2).
  - apply (walk_true attlist_equal _ attlist_true _ _ H3 H).
Qed.
(** ** no fault *)
Lemma walk_safe {A} (f : A -> A -> res bool) : forall l l', length l <= length l' -> (forall i x y, nth_error l i = Some x -> nth_error l' i = Some y -> exists b, f x y = Ok b) -> exists b, walk f l l' = Ok b.
Proof.
  induction l as [|x l IH]; intros l' L H; [exists true; reflexivity|]. destruct l' as [|y l']; [cbn in L; lia|]. cbn [walk]. destruct (H 0 x y eq_refl eq_refl) as (b & ->). cbn [bind].
  destruct b; [|exists false; reflexivity]. apply IH; [cbn in L; lia|]. intros i u v. apply (H (S i)).
Qed.
Lemma equal_safe d ents d' ents' :
  (forall i e e', nth_error (d_elements d) i = Some e -> nth_error (d_elements d') i = Some e' -> members e <= members e') -> exists b, dtd_equal d ents d' ents' = Ok b.
Proof.
  intros M. unfold dtd_equal.
  destruct (Nat.eqb_spec (length ents) (length ents')) as [L1|L1]; cbn [negb]; [|exists false; reflexivity].
  destruct (Nat.eqb_spec (length (d_elements d)) (length (d_elements d'))) as [L2|L2]; cbn [negb]; [|exists false; reflexivity].
  destruct (Nat.eqb_spec (length (d_attrs d)) (length (d_attrs d'))) as [L3|L3]; cbn [negb]; [|exists false; reflexivity].
  destruct (Bool.eqb _ _); cbn [negb]; [|exists false; reflexivity]. destruct (Bool.eqb _ _); cbn [negb]; [|exists false; reflexivity].
  destruct (walk_safe entity_equal ents ents') as (b & ->); [lia| |].
  { intros i x y _ _. unfold entity_equal. destruct (ent_eqb _ _); [|eexists; reflexivity]. destruct (bytes_eqb _ _); eexists; reflexivity. }
  cbn [bind]. destruct b; cbn [negb]; [|exists false; reflexivity].
  destruct (walk_safe element_equal (d_elements d) (d_elements d')) as (b & ->); [lia| |].
  { intros i x y Hx Hy. specialize (M i x y Hx Hy). unfold element_equal, members in *. destruct (el_type_eqb _ _); cbn [negb]; [|eexists; reflexivity]. destruct (Nat.eqb _ _); cbn [negb]; [|eexists; reflexivity].
    destruct (bytes_eqb _ _); cbn [negb]; [|eexists; reflexivity]. destruct (el_list x) as [[|ty t ps]|], (el_list y) as [[|ty' t' ps']|]; try (eexists; reflexivity).
    destruct (nested_eqb _ _); cbn [negb]; [|eexists; reflexivity]. destruct (times_eqb _ _); cbn [negb]; [|eexists; reflexivity].
    apply walk_safe; [exact M|]. intros j p q _ _. destruct (item_dec p q) as (r & E & _). exists r. exact E. }
  cbn [bind]. destruct b; cbn [negb]; [|exists false; reflexivity]. apply walk_safe; [lia|]. intros i x y _ _. destruct (attlist_dec x y) as (r & E & _). exists r. exact E.
Qed.
(** ** what is loaded *)
Lemma spec_group : forall f s ty cur stack s' ty' p, t_spec f s ty cur stack = Ok (Some (s', (ty', p))) -> exists nt t ps, p = Group nt t ps.
Proof.
  induction f as [|f IH]; intros s ty cur stack s' ty' p; [discriminate|]. cbn [t_spec]. destruct (after _ _); [apply IH|]. destruct (until _ _) as [[[[x m] s2] s3]|]; [|discriminate].
  destruct (_ =? 8)%Z; [discriminate|]. destruct (t_name _ _ _ _ _ _) as [[[[[a b] c] d] e]|]; [|discriminate]. destruct (_ || _); [apply IH|]. intros Q. injection Q as _ _ <-. do 3 eexists. reflexivity.
Qed.
Lemma element_grouped s l s' l' : (forall e, In e (l_elements l) -> group_only e) -> t_element s l = Ok (Some (s', l')) -> forall e, In e (l_elements l') -> group_only e.
Proof.
  intros G. unfold t_element. destruct (after _ _) as [s1|]; [|discriminate]. destruct (until _ _) as [[[[x m] s2] s3]|]; [|discriminate].
  destruct (_ || _); [discriminate|]. destruct (t_content _) as [[[s4 [ty p]]|]| |] eqn:C; cbn [bindo bind]; try discriminate.
  destruct (existsb _ _); [discriminate|]. destruct (_ =? 0)%Z; [discriminate|]. intros E. injection E as _ <-. cbn [l_elements]. intros e I. apply in_app_or in I as [I|[<-|[]]]; [apply G, I|].
  unfold group_only. cbn [el_list]. unfold t_content in C. destruct (after _ _); [injection C as _ _ <-; exact Logic.I|]. destruct (after _ _); [injection C as _ _ <-; exact Logic.I|].
  destruct (t_read_spec _) as [[[s5 [ty' p']]|]| |] eqn:R; cbn [bindo bind] in C; try discriminate. injection C as _ _ <-. unfold t_read_spec in R. destruct (_ =? 0)%Z; [discriminate|].
  destruct (spec_group _ _ _ _ _ _ _ _ R) as (nt & t & ps & ->). exact Logic.I.
Qed.
Lemma dtd_grouped : forall f s l it s' l', (forall e, In e (l_elements l) -> group_only e) -> t_dtd f s l it = Ok (Some (s', l')) -> forall e, In e (l_elements l') -> group_only e.
Proof.
  induction f as [|f IH]; intros s l it s' l' K; [discriminate|]. destruct s as [|c s]; [intros E; injection E as _ <-; exact K|]. rewrite dtd_t_S by discriminate.
  destruct (a_comments _ _) as [[s1 d]|]; [|discriminate]. destruct (after (s2b "<!ELEMENT") s1).
  { destruct (t_element s1 l) as [[[s2 l2]|]| |] eqn:E; cbn [bindo bind]; try discriminate. apply IH. eapply element_grouped; eassumption. }
  destruct (after (s2b "<!ATTLIST") s1) as [s3|].
  { destruct (t_attlist f s3 l) as [[[s2 l2]|]| |] eqn:E; cbn [bindo bind]; try discriminate. apply IH. unfold t_attlist in E. destruct (until _ _) as [[[[x m] r2] r3]|]; [|discriminate].
    destruct (t_atts _ _ _ _ _ _) as [[[s4 [[decls id] idref]]|]| |]; cbn [bindo bind] in E; try discriminate. injection E as _ <-. exact K. }
  destruct (after (s2b "<!ENTITY") s1).
  { destruct (t_entity s1 l) as [[s2 l2]|] eqn:E; cbn [bindo bind]; try discriminate. apply IH. unfold t_entity in E. destruct (after _ _) as [r1|]; [|discriminate].
    destruct (match after _ _ with Some _ => _ | None => _ end) as [r2 ty]. destruct (until _ _) as [[[[x m] r3] r4]|]; [|discriminate]. destruct (t_which _ _ _) as [r5 [q|]]; [|discriminate].
    destruct (match q with Some _ => _ | None => _ end) as [r6 content]. destruct (after _ _) as [r7|]; [|discriminate]. injection E as _ <-. exact K. }
  destruct (_ =? 3)%Z; [discriminate|]. apply IH, K.
Qed.
Lemma load_grouped fuel content d ents : dtd_parse fuel content = Ok (Some (d, ents)) -> grouped_content d.
Proof.
  rewrite parse_text. destruct (t_dtd fuel content load_new 0) as [[[s l]|]| |] eqn:E; try discriminate. assert (forall e, In e (l_elements l) -> group_only e) as G by (eapply dtd_grouped; [|exact E]; intros e []).
  unfold finish. destruct (match l_elements l with [] => _ | _ => _ end) as [root| |]; cbn [bind]; try discriminate.
  destruct (_ && _); [discriminate|]. intros Q. injection Q as <- _. exact G.
Qed.
Lemma load_equal_self fuel content d ents : dtd_parse fuel content = Ok (Some (d, ents)) -> values_given ents -> dtd_equal d ents d ents = Ok true.
Proof. intros E V. apply equal_same; [eapply load_grouped, E|exact V|split; reflexivity]. Qed.
(** the same declarations in two texts *)
Lemma made_same d l l1 l2 : (forall x, d <> DElement x CText) -> made d l l1 -> made d l l2 -> l1 = l2.
Proof.
  intros N. destruct d as [x c|x a|e]; cbn [made]; try congruence. intros (ty & p & R & ->) (ty' & p' & R' & ->).
  destruct c; cbn [content_read] in R, R'; try (destruct R as [-> ->], R' as [-> ->]; reflexivity). destruct (N x eq_refl).
Qed.
Lemma read_same : forall text ds, dtd_text text ds -> forall text', dtd_text text' ds -> (forall x, ~ In (x, CText) (elements_of ds)) ->
  forall ds0 l, holding ds0 l -> NoDup (map fst (elements_of (ds0 ++ ds))) -> (forall x, atts_good (atts_of (ds0 ++ ds) x)) ->
  exists n l', forall f, n <= f -> t_dtd f text l 0 = Ok (Some ([], l')) /\ t_dtd f text' l 0 = Ok (Some ([], l')).
Proof.
  intros text ds D. induction D as [m M|m t d u ds M T D IH]; intros text' D' Nt ds0 l H Nd Ga.
  - inversion D' as [m' M'|]; subst. exists 2, l. intros f L.
    assert (forall m, misc_text false m [] -> t_dtd f m l 0 = Ok (Some ([], l))) as E.
    { clear -L. intros m M. destruct f as [|[|f]]; try lia. destruct m as [|c m]; [reflexivity|]. rewrite dtd_t_S by discriminate.
      destruct (misc_read _ _ M [] pdoc_new) as (d' & E); [split; reflexivity|]. rewrite app_nil_r in E. rewrite E. reflexivity. }
    split; apply E; assumption.
  - inversion D' as [|m' t' d' u' ds' M' T' D2]; subst. rewrite app_cons in *. destruct (well_part ds0 d ds Nd Ga) as [Nd1 Ga1].
    destruct (decl_step t d T ds0 l H Nd1 Ga1) as (n1 & l1 & H1 & K1 & E1). destruct (decl_step t' d T' ds0 l H Nd1 Ga1) as (n2 & l2 & H2 & K2 & E2).
    assert (l1 = l2) as <-. { apply (made_same d l); try assumption. intros x ->. apply (Nt x). left. reflexivity. }
    destruct (IH u' D2) with (ds0 := ds0 ++ [d]) (l := l1) as (n & l' & E3); try assumption.
    { intros x I. apply (Nt x). unfold elements_of in *. cbn [flat_map]. apply in_or_app. right. exact I. }
    exists (S (n1 + n2 + n)), l'. intros f L. destruct f as [|f]; [lia|]. rewrite E1 by (lia || exact M). rewrite E2 by (lia || exact M'). apply E3. lia.
Qed.
Lemma forall2_in_r {A B} (R : A -> B -> Prop) l m x : Forall2 R l m -> In x m -> exists y, In y l /\ R y x.
Proof. intros F. induction F as [|a b l m H F IH]; intros I; [destruct I|]. destruct I as [<-|I]; [exists a; split; [left; reflexivity|exact H]|]. destruct (IH I) as (y & Iy & Hy). exists y. split; [right; exact Iy|exact Hy]. Qed.
Lemma entities_given text ds : dtd_text text ds -> values_given (entities_of ds).
Proof.
  intros D. induction D as [m M|m t d u ds M T D IH]; intros e I; [destruct I|]. unfold entities_of in I. cbn [flat_map] in I. apply in_app_or in I as [I|I]; [|apply IH, I].
  destruct T; try destruct I as [<-|[]]; try discriminate; destruct I.
Qed.
Lemma layout_equal text text' ds : dtd_text text ds -> dtd_text text' ds -> declared_well ds -> groups_shown ds -> (forall x, ~ In (x, CText) (elements_of ds)) ->
  exists n, forall fuel, n <= fuel -> exists d ents d' ents', dtd_parse fuel text = Ok (Some (d, ents)) /\ dtd_parse fuel text' = Ok (Some (d', ents')) /\ dtd_equal d ents d' ents' = Ok true.
Proof.
  intros D D' W G Nt. pose proof W as [W1 W2 _ _]. destruct (read_same text ds D text' D' Nt [] load_new holding_new W1 W2) as (n & l & E).
  destruct (load_ok text ds D W G) as (m & L). exists (n + m). intros fuel Lf. destruct (L fuel ltac:(lia)) as (d & ents & P & Ld). exists d, ents, d, ents.
  split; [exact P|]. split.
  - rewrite parse_text in *. destruct (E fuel ltac:(lia)) as [Ea Eb]. rewrite Ea in P. rewrite Eb. exact P.
  - apply (load_equal_self fuel text); [exact P|]. rewrite (ld_entities _ _ _ Ld). eapply entities_given, D.
Qed.
(** and back *)
Lemma kinds ds es : Forall2 element_loaded ds es ->
  map (fun d => (fst d, kind_of (snd d))) ds = map (fun e => (el_name e, match el_ty e with TEmpty => 0 | TAny => 1 | TPcdata => 2 | _ => 3 end)) es.
Proof.
  intros F. induction F as [|[x c] e ds es [H H'] F IH]; [reflexivity|]. cbn [map fst snd] in *. rewrite IH, H. f_equal. f_equal.
  destruct c; cbn [kind_of]; (rewrite H'; reflexivity) || (destruct H' as [-> _]; reflexivity).
Qed.
Lemma shapes_kinds es es' : map shape es = map shape es' ->
  map (fun e => (el_name e, match el_ty e with TEmpty => 0 | TAny => 1 | TPcdata => 2 | _ => 3 end)) es =
  map (fun e => (el_name e, match el_ty e with TEmpty => 0 | TAny => 1 | TPcdata => 2 | _ => 3 end)) es'.
Proof.
  revert es'. induction es as [|e es IH]; intros [|e' es'] H; try discriminate; [reflexivity|]. cbn [map] in *. pose proof (f_equal (hd (shape e)) H) as H1. cbn [hd] in H1.
  apply (f_equal (@tl _)) in H. cbn [tl] in H. rewrite (IH _ H). unfold shape in H1. injection H1 as -> ->. reflexivity.
Qed.
Lemma listed_iff ds d ents x : loaded ds d ents -> listed ds x <-> In x (map fst (d_attrs d)).
Proof.
  intros L. rewrite in_map_iff. split.
  - intros H. exists (x, atts_of ds x). split; [reflexivity|]. apply (ld_attrs _ _ _ L). auto.
  - intros ([y l] & <- & I). apply (ld_attrs _ _ _ L) in I. apply I.
Qed.
Lemma not_listed ds x : ~ listed ds x -> atts_of ds x = [].
Proof.
  intros N. unfold atts_of. induction ds as [|d ds IH]; [reflexivity|]. cbn [flat_map]. rewrite IH.
  - destruct d as [|y l|]; try reflexivity. destruct (bytes_eqb y x) eqn:E; [|reflexivity]. apply bytes_eqb_eq in E. subst y. destruct N. exists l. left. reflexivity.
  - intros (l & I). apply N. exists l. right. exact I.
Qed.
Lemma equal_alike ds d ents ds' d' ents' : loaded ds d ents -> loaded ds' d' ents' -> dtd_equal d ents d' ents' = Ok true -> alike ds ds'.
Proof.
  intros L L' E. destruct (equal_true _ _ _ _ E) as (E1 & E2 & E3 & E4 & E5).
  assert (Keys : map fst (d_attrs d) = map fst (d_attrs d')).
  { apply (f_equal (map fst)) in E3. rewrite !map_map in E3. exact E3. }
  assert (Li : forall x, listed ds x <-> listed ds' x) by (intros x; rewrite (listed_iff _ _ _ x L), (listed_iff _ _ _ x L'), Keys; reflexivity).
  split.
  - rewrite (kinds _ _ (ld_elements _ _ _ L)), (kinds _ _ (ld_elements _ _ _ L')). apply shapes_kinds, E2.
  - rewrite <- (ld_entities _ _ _ L), <- (ld_entities _ _ _ L'). exact E1.
  - exact Li.
  - intros x. destruct (in_dec (list_eq_dec Ascii.ascii_dec) x (map fst (d_attrs d))) as [I|N].
    + pose proof I as I0. apply (listed_iff _ _ _ x L) in I0. assert (In (x, atts_of ds x) (d_attrs d)) as I1 by (apply (ld_attrs _ _ _ L); auto).
      apply (in_map (fun p => (fst p, map bare (snd p)))) in I1. rewrite E3 in I1. cbn [fst snd] in I1. apply in_map_iff in I1 as ([y l] & Q & I1). cbn [fst snd] in Q. injection Q as -> Q.
      apply (ld_attrs _ _ _ L') in I1 as [_ ->]. symmetry. exact Q.
    + rewrite !not_listed; [reflexivity| |]; rewrite <- ?Li, (listed_iff _ _ _ x L); exact N.
Qed.
Lemma texts_alike text ds text' ds' : dtd_text text ds -> declared_well ds -> groups_shown ds -> dtd_text text' ds' -> declared_well ds' -> groups_shown ds' ->
  exists n, forall fuel d ents d' ents', n <= fuel -> dtd_parse fuel text = Ok (Some (d, ents)) -> dtd_parse fuel text' = Ok (Some (d', ents')) -> dtd_equal d ents d' ents' = Ok true -> alike ds ds'.
Proof.
  intros D W G D' W' G'. destruct (load_ok text ds D W G) as (n & L). destruct (load_ok text' ds' D' W' G') as (n' & L'). exists (n + n'). intros fuel d ents d' ents' Lf P P' E.
  destruct (L fuel ltac:(lia)) as (d1 & ents1 & P1 & L1). destruct (L' fuel ltac:(lia)) as (d2 & ents2 & P2 & L2). rewrite P in P1. injection P1 as <- <-. rewrite P' in P2. injection P2 as <- <-.
  eapply equal_alike; eassumption.
Qed.
