(** The nodes and the documents; what objects and memory have to do with each other. *)
From Verif Require Import Prelude PyModel PySpec PyProofs PyProofs2.
From Coq Require Import Lia Permutation.
Open Scope nat_scope.
Open Scope list_scope.

Definition roots (l : list (tree * option nat)) : list nat := flat_map (fun x => match snd x with Some d => [d] | None => [] end) l.
Record hinv (trees : list (tree * option nat)) (docs : list nat) (n : nat) : Prop := Hinv {
  h_addrs : NoDup (all_addrs trees);
  h_roots : NoDup (roots trees);
  h_rdocs : incl (roots trees) docs;
  h_docs : NoDup docs;
  h_alt : forall a, In a (all_addrs trees) -> a < n;
  h_dlt : forall d, In d docs -> d < n;
  h_doc : forall t od, In (t, od) trees -> t_doc t = od /\ forall e, In e (tdocs t) -> e = None \/ e = od }.

Lemma all_app l1 l2 : all_addrs (l1 ++ l2) = all_addrs l1 ++ all_addrs l2.
Proof. apply flat_map_app. Qed.
Lemma roots_app l1 l2 : roots (l1 ++ l2) = roots l1 ++ roots l2.
Proof. apply flat_map_app. Qed.
Lemma all_in t od l a : In (t, od) l -> In a (addrs t) -> In a (all_addrs l).
Proof. intros H Ha. apply in_flat_map. exists (t, od). split; [exact H|exact Ha]. Qed.
Lemma roots_in t d l : In (t, Some d) l -> In d (roots l).
Proof. intros H. apply in_flat_map. exists (t, Some d). split; [exact H|left; reflexivity]. Qed.
Lemma roots_out d l : In d (roots l) -> exists t, In (t, Some d) l.
Proof. intro H. apply in_flat_map in H. destruct H as ([t [e|]] & H & E); cbn [snd] in E; [|contradiction]. destruct E as [->|[]]. eauto. Qed.
Lemma nodup_split {A} (f : tree * option nat -> list A) l1 x l2 : NoDup (flat_map f (l1 ++ x :: l2)) -> NoDup (flat_map f (l1 ++ l2)) /\ forall y a, In y (l1 ++ l2) -> In a (f x) -> In a (f y) -> False.
Proof.
  rewrite flat_map_app. cbn [flat_map]. intro H. assert (P : Permutation (flat_map f l1 ++ f x ++ flat_map f l2) (f x ++ flat_map f (l1 ++ l2))).
  { rewrite flat_map_app, !app_assoc. apply Permutation_app_tail. apply Permutation_app_comm. }
  apply (Permutation_NoDup P) in H. apply NoDup_app3 in H. destruct H as (_ & H2 & H3). split; [exact H2|].
  intros y a Hy Hx Ha. apply (H3 a Hx). apply in_flat_map. eauto.
Qed.
Lemma tree_unique trees docs n t od t' od' a : hinv trees docs n -> In (t, od) trees -> In (t', od') trees -> In a (addrs t) -> In a (addrs t') -> t = t' /\ od = od'.
Proof.
  intros Hv H H' Ha Ha'. destruct (in_split _ _ H) as (l1 & l2 & E). pose proof (h_addrs _ _ _ Hv) as Nd. rewrite E in Nd, H'.
  destruct (nodup_split (fun x => addrs (fst x)) _ _ _ Nd) as [_ Dj]. apply in_app_or in H'. destruct H' as [H'|[H'|H']].
  - exfalso. apply (Dj (t', od') a); [apply in_or_app; left; exact H'|exact Ha|exact Ha'].
  - injection H' as <- <-. split; reflexivity.
  - exfalso. apply (Dj (t', od') a); [apply in_or_app; right; exact H'|exact Ha|exact Ha'].
Qed.
Lemma doc_unique trees docs n t t' d : hinv trees docs n -> In (t, Some d) trees -> In (t', Some d) trees -> t = t'.
Proof.
  intros Hv H H'. destruct (in_split _ _ H) as (l1 & l2 & E). pose proof (h_roots _ _ _ Hv) as Nd. rewrite E in Nd, H'.
  destruct (nodup_split _ _ _ _ Nd) as [_ Dj]. apply in_app_or in H'. destruct H' as [H'|[H'|H']].
  - exfalso. apply (Dj (t', Some d) d); [apply in_or_app; left; exact H'|left; reflexivity|left; reflexivity].
  - injection H' as <-. reflexivity.
  - exfalso. apply (Dj (t', Some d) d); [apply in_or_app; right; exact H'|left; reflexivity|left; reflexivity].
Qed.
Lemma where_some a trees : In a (all_addrs trees) -> exists t od, find (fun x => has_addr a (fst x)) trees = Some (t, od) /\ In (t, od) trees /\ In a (addrs t).
Proof.
  intro H. apply in_flat_map in H. destruct H as ([t od] & Hx & Ha). destruct (find (fun x => has_addr a (fst x)) trees) as [[t' od']|] eqn:E.
  - destruct (find_some _ _ E) as [H1 H2]. exists t', od'. split; [reflexivity|]. split; [exact H1|]. apply has_addr_in. exact H2.
  - pose proof (find_none _ _ E _ Hx) as X. cbn [fst] in *. apply has_addr_in in Ha. congruence.
Qed.
Lemma where_in trees docs n t od a : hinv trees docs n -> In (t, od) trees -> In a (addrs t) -> find (fun x => has_addr a (fst x)) trees = Some (t, od).
Proof.
  intros Hv H Ha. destruct (where_some a trees (all_in _ _ _ _ H Ha)) as (t' & od' & E & H' & Ha'). destruct (tree_unique _ _ _ _ _ _ _ _ Hv H H' Ha Ha') as [-> ->]. exact E.
Qed.
Lemma filter_unique {A} (P : A -> bool) l1 x l2 : P x = true -> (forall y, In y (l1 ++ l2) -> P y = false) -> filter (fun y => negb (P y)) (l1 ++ x :: l2) = l1 ++ l2.
Proof.
  intros Px Py. rewrite filter_app. cbn [filter]. rewrite Px. cbn [negb]. rewrite <- filter_app. clear Px.
  induction (l1 ++ l2) as [|y l IH]; [reflexivity|]. cbn [filter]. rewrite (Py y (or_introl eq_refl)). cbn [negb]. f_equal. apply IH. intros z Hz. apply Py. right. exact Hz.
Qed.
Lemma filter_unique' {A} (P : A -> bool) l1 x l2 : P x = true -> (forall y, In y (l1 ++ l2) -> P y = false) -> filter P (l1 ++ x :: l2) = [x].
Proof.
  intros Px Py. rewrite filter_app. cbn [filter]. rewrite Px.
  assert (F : forall l, (forall y, In y l -> P y = false) -> filter P l = []).
  { induction l as [|y l IH]; intro H; [reflexivity|]. cbn [filter]. rewrite (H y (or_introl eq_refl)). apply IH. intros z Hz. apply H. right. exact Hz. }
  rewrite !F; [reflexivity| |]; intros y Hy; apply Py, in_or_app; auto.
Qed.
Lemma find_unique {A} (P : A -> bool) l1 x l2 : P x = true -> (forall y, In y (l1 ++ l2) -> P y = false) -> find P (l1 ++ x :: l2) = Some x.
Proof.
  intros Px Py. induction l1 as [|y l1 IH]; cbn [app find]; [rewrite Px; reflexivity|]. rewrite (Py y (or_introl eq_refl)). apply IH. intros z Hz. apply Py. right. exact Hz.
Qed.
(** two trees of a world *)
Lemma loose_other l1 t l2 docs n y : hinv (l1 ++ (t, None) :: l2) docs n -> In y (l1 ++ l2) -> is_loose_root (t_addr t) y = false.
Proof.
  intros Hv Hy. destruct (nodup_split (fun x => addrs (fst x)) _ _ _ (h_addrs _ _ _ Hv)) as [_ Dj]. unfold is_loose_root. destruct y as [s [d|]]; cbn [snd fst]; [reflexivity|].
  apply Nat.eqb_neq. intro E. apply (Dj (s, None) (t_addr t) Hy); [apply head_in|]. cbn [fst]. rewrite E. apply head_in.
Qed.
Lemma root_other l1 t d l2 docs n y : hinv (l1 ++ (t, Some d) :: l2) docs n -> In y (l1 ++ l2) -> is_root_of d y = false.
Proof.
  intros Hv Hy. destruct (nodup_split _ _ _ _ (h_roots _ _ _ Hv)) as [_ Dj]. unfold is_root_of. destruct y as [s [e|]]; cbn [snd fst]; [|reflexivity].
  apply Nat.eqb_neq. intros <-. apply (Dj (s, Some d) d Hy); left; reflexivity.
Qed.

(** ** the invariant under changes of the trees *)
Lemma hinv_more trees docs n m : hinv trees docs n -> n <= m -> hinv trees docs m.
Proof. intros [A B C D E F G] L. constructor; auto; intros x Hx; [specialize (E _ Hx)|specialize (F _ Hx)]; lia. Qed.
Lemma hinv_perm l l' docs n : hinv l docs n -> Permutation l l' -> hinv l' docs n.
Proof.
  intros [A B C D E F G] P. assert (PA : Permutation (all_addrs l) (all_addrs l')) by (apply Permutation_flat_map; exact P).
  assert (PR : Permutation (roots l) (roots l')) by (apply Permutation_flat_map; exact P). constructor.
  - eapply Permutation_NoDup; eassumption.
  - eapply Permutation_NoDup; eassumption.
  - intros x Hx. apply C. eapply Permutation_in; [apply Permutation_sym; exact PR|exact Hx].
  - exact D.
  - intros a Ha. apply E. eapply Permutation_in; [apply Permutation_sym; exact PA|exact Ha].
  - exact F.
  - intros t od H. apply G. eapply Permutation_in; [apply Permutation_sym; exact P|exact H].
Qed.
Lemma hinv_tail x l docs n : hinv (x :: l) docs n -> hinv l docs n.
Proof.
  intros [A B C D E F G]. cbn [all_addrs roots flat_map] in *. apply NoDup_app3 in A. apply NoDup_app3 in B. constructor; try tauto.
  - intros y Hy. apply C, in_or_app. right. exact Hy.
  - intros a Ha. apply E, in_or_app. right. exact Ha.
  - intros t od H. apply G. right. exact H.
Qed.
Lemma hinv_cons t od l docs n : hinv l docs n -> NoDup (addrs t) -> (forall a, In a (addrs t) -> ~ In a (all_addrs l) /\ a < n) ->
  (forall d, od = Some d -> In d docs /\ ~ In d (roots l)) -> t_doc t = od -> (forall e, In e (tdocs t) -> e = None \/ e = od) -> hinv ((t, od) :: l) docs n.
Proof.
  intros [A B C D E F G] Nt At Dt E1 E2. constructor.
  - cbn [all_addrs flat_map fst]. assert (X : forall l1 l2, NoDup l1 -> NoDup l2 -> (forall a : nat, In a l1 -> ~ In a l2) -> NoDup (l1 ++ l2)).
    { induction l1 as [|z l1 IH]; intros l2 H1 H2 H3; [exact H2|]. inversion H1; subst. cbn [app]. constructor; [|apply IH; auto; intros a Ha; apply H3; right; exact Ha].
      intro X. apply in_app_or in X. destruct X as [X|X]; [contradiction|exact (H3 z (or_introl eq_refl) X)]. }
    apply X; [exact Nt|exact A|]. intros a Ha. apply At. exact Ha.
  - cbn [roots flat_map snd]. destruct od as [d|]; [|exact B]. cbn [app]. constructor; [apply Dt; reflexivity|exact B].
  - cbn [roots flat_map snd]. destruct od as [d|]; [|exact C]. intros x [<-|Hx]; [apply Dt; reflexivity|apply C; exact Hx].
  - exact D.
  - intros a Ha. cbn [all_addrs flat_map fst] in Ha. apply in_app_or in Ha. destruct Ha as [Ha|Ha]; [apply At; exact Ha|apply E; exact Ha].
  - exact F.
  - intros s os [H|H]; [injection H as <- <-; split; assumption|apply G; exact H].
Qed.
Lemma hinv_doc trees docs n : hinv trees docs n -> hinv trees (n :: docs) (S n).
Proof.
  intros [A B C D E F G]. constructor; auto.
  - intros x Hx. right. apply C. exact Hx.
  - constructor; [|exact D]. intro X. specialize (F _ X). lia.
  - intros a Ha. specialize (E _ Ha). lia.
  - intros d [<-|Hd]; [lia|]. specialize (F _ Hd). lia.
Qed.
Lemma hinv_undoc trees docs n d : hinv trees docs n -> ~ In d (roots trees) -> hinv trees (filter (fun x => negb (Nat.eqb d x)) docs) n.
Proof.
  intros [A B C D E F G] N. constructor; auto.
  - intros x Hx. apply filter_In. split; [apply C; exact Hx|]. destruct (Nat.eqb_spec d x) as [->|_]; [contradiction|reflexivity].
  - apply NoDup_filter. exact D.
  - intros x Hx. apply filter_In in Hx. apply F. apply Hx.
Qed.
Lemma hinv_head t od l docs n : hinv ((t, od) :: l) docs n -> NoDup (addrs t) /\ (forall a, In a (addrs t) -> ~ In a (all_addrs l) /\ a < n) /\
  (forall d, od = Some d -> In d docs /\ ~ In d (roots l)) /\ t_doc t = od /\ (forall e, In e (tdocs t) -> e = None \/ e = od).
Proof.
  intros [A B C D E F G]. cbn [all_addrs roots flat_map fst snd] in *. apply NoDup_app3 in A. apply NoDup_app3 in B. split; [tauto|]. split.
  - intros a Ha. split; [intro X; exact (proj2 (proj2 A) a Ha X)|]. apply E, in_or_app. left. exact Ha.
  - split.
    + intros d ->. split; [apply C; left; reflexivity|]. intro X. exact (proj2 (proj2 B) d (or_introl eq_refl) X).
    + apply G. left. reflexivity.
Qed.

(** ** objects and memory *)
Record linv (Ad Lo Do : nat -> Prop) (B : nat -> body -> Prop) : Prop := Linv {
  l_node : forall o a f q, B o (BNode (Some a) f q) -> Ad a;
  l_doc : forall o d f, B o (BDoc d f) -> Do d;
  l_loose : forall a, Lo a -> exists o q, B o (BNode (Some a) true q);
  l_own : forall o a q, B o (BNode (Some a) true q) -> Lo a;
  l_noq : forall o a q, B o (BNode a true q) -> q = None;
  l_one : forall o o' a q q', B o (BNode (Some a) true q) -> B o' (BNode (Some a) true q') -> o = o';
  l_docs : forall d, Do d -> exists o, B o (BDoc d true);
  l_done : forall o o' d, B o (BDoc d true) -> B o' (BDoc d true) -> o = o' }.
Definition bd (l : list (nat * obj)) (o : nat) (b : body) : Prop := exists r, In (o, Obj r b) l.
Definition loose (l : list (tree * option nat)) (a : nat) : Prop := exists t, In (t, None) l /\ t_addr t = a.
Definition winv (w : world) : Prop :=
  rinv (w_objs w) (w_held w) (w_next w) /\ hinv (w_trees w) (w_docs w) (w_next w) /\ Permutation (w_live w) (all_addrs (w_trees w)) /\
  linv (fun a => In a (all_addrs (w_trees w))) (loose (w_trees w)) (fun d => In d (w_docs w)) (bd (w_objs w)).

Lemma linv_ext A L D B A' L' D' B' : linv A L D B -> (forall a, A' a <-> A a) -> (forall a, L' a <-> L a) -> (forall d, D' d <-> D d) -> (forall o b, B' o b <-> B o b) -> linv A' L' D' B'.
Proof.
  intros [H1 H2 H3 H4 H5 H6 H7 H8] EA EL ED EB. constructor.
  - intros o a f q H. apply EA. apply EB in H. eauto.
  - intros o d f H. apply ED. apply EB in H. eauto.
  - intros a H. apply EL in H. destruct (H3 _ H) as (o & q & X). exists o, q. apply EB. exact X.
  - intros o a q H. apply EL. apply EB in H. eauto.
  - intros o a q H. apply EB in H. eauto.
  - intros o o' a q q' H H'. apply EB in H. apply EB in H'. eauto.
  - intros d H. apply ED in H. destruct (H7 _ H) as (o & X). exists o. apply EB. exact X.
  - intros o o' d H H'. apply EB in H. apply EB in H'. eauto.
Qed.
(** another object *)
Lemma linv_more A L D B n b : linv A L D B -> (forall b, ~ B n b) ->
  match b with BDoc d f => D d /\ f = false | BNode (Some a) f q => A a /\ f = false | BNode None f q => f = false end ->
  linv A L D (fun o b' => B o b' \/ (o = n /\ b' = b)).
Proof.
  intros [H1 H2 H3 H4 H5 H6 H7 H8] Fr W. constructor.
  - intros o a f q [H|[-> <-]]; [eauto|apply W].
  - intros o d f [H|[-> <-]]; [eauto|apply W].
  - intros a H. destruct (H3 _ H) as (o & q & X). eauto.
  - intros o a q [H|[-> <-]]; [eauto|]. destruct W; discriminate.
  - intros o a q [H|[-> <-]]; [eauto|]. destruct a; [destruct W|]; discriminate.
  - intros o o' a q q' [H|[-> <-]] [H'|[-> E]]; try subst b; eauto; destruct W; discriminate.
  - intros d H. destruct (H7 _ H) as (o & X). eauto.
  - intros o o' d [H|[-> <-]] [H'|[-> E]]; try subst b; eauto; destruct W; discriminate.
Qed.
Lemma bd_app l n b o b' : bd (l ++ [(n, Obj 1 b)]) o b' <-> bd l o b' \/ (o = n /\ b' = b).
Proof.
  unfold bd. split.
  - intros (r & H). apply in_app_or in H. destruct H as [H|[H|[]]]; [left; eauto|]. injection H as <- <- <-. right. split; reflexivity.
  - intros [(r & H)|[-> ->]]; [exists r; apply in_or_app; left; exact H|]. exists 1. apply in_or_app. right. left. reflexivity.
Qed.
Lemma bd_key l o b : bd l o b -> In o (map fst l).
Proof. intros (r & H). change o with (fst (o, Obj r b)). apply in_map. exact H. Qed.
Lemma bd_put l o r r' b b' o1 b1 : NoDup (map fst l) -> In (o, Obj r b) l -> (bd (put o (Obj r' b') l) o1 b1 <-> (o1 = o /\ b1 = b') \/ (o1 <> o /\ bd l o1 b1)).
Proof.
  intros Nd H. unfold bd. split.
  - intros (z & Hz). apply put_in in Hz. destruct Hz as [(-> & E & _)|[N Hz]]; [injection E as _ ->; left; split; reflexivity|right; split; [exact N|eauto]].
  - intros [[-> ->]|[N (z & Hz)]]; [exists r'|exists z]; apply put_in; [left; split; [reflexivity|split; [reflexivity|]]|right; split; assumption].
    apply (bd_key l o b). exists r. exact H.
Qed.
Lemma bd_fun l o b b' : NoDup (map fst l) -> bd l o b -> bd l o b' -> b = b'.
Proof. intros Nd (r & H) (r' & H'). apply (look_in _ _ _ Nd) in H. apply (look_in _ _ _ Nd) in H'. congruence. Qed.
Lemma bd_same l o r r' b o1 b1 : NoDup (map fst l) -> In (o, Obj r b) l -> (bd (put o (Obj r' b) l) o1 b1 <-> bd l o1 b1).
Proof.
  intros Nd H. rewrite (bd_put _ _ _ _ _ _ _ _ Nd H). split.
  - intros [[-> ->]|[_ X]]; [exists r; exact H|exact X].
  - intro X. destruct (Nat.eq_dec o1 o) as [->|N]; [left; split; [reflexivity|]; eapply bd_fun; [exact Nd|exact X|exists r; exact H]|right; split; assumption].
Qed.
Lemma bd_del l o o1 b1 : bd (del o l) o1 b1 <-> o1 <> o /\ bd l o1 b1.
Proof. unfold bd. split; [intros (r & H); apply del_in in H; destruct H as [N H]; split; [exact N|eauto]|intros [N (r & H)]; exists r; apply del_in; split; assumption]. Qed.
Lemma bd_lt l h n o b : rinv l h n -> bd l o b -> o < n.
Proof. intros R (r & H). eapply r_lt; eassumption. Qed.
Lemma body_bd w o b : NoDup (map fst (w_objs w)) -> (body_of o w = Some b <-> bd (w_objs w) o b).
Proof.
  intro Nd. unfold body_of, bd. split.
  - destruct (look o (w_objs w)) as [[r b']|] eqn:E; [|discriminate]. cbn [option_map o_body]. intro H. injection H as ->. exists r. apply look_key. exact E.
  - intros (r & H). apply (look_in _ _ _ Nd) in H. rewrite H. reflexivity.
Qed.
