(** Objects and their references; the invariant of a world. *)
From Verif Require Import Prelude PyModel PySpec PyProofs.
From Coq Require Import Lia Permutation.
Open Scope nat_scope.
Open Scope list_scope.

Definition pd (x : obj) : option nat := match o_body x with BNode _ _ q => q | _ => None end.
Definition points (o : nat) (y : nat * obj) : bool := match pd (snd y) with Some q => Nat.eqb o q | None => false end.
Definition pdc (o : nat) (l : list (nat * obj)) : nat := length (filter (points o) l).
Definition cnt (o : nat) (l : list nat) : nat := count_occ Nat.eq_dec l o.

Lemma look_in l o x : NoDup (map fst l) -> (look o l = Some x <-> In (o, x) l).
Proof.
  unfold look. induction l as [|[o' x'] l IH]; cbn [map find fst snd]; intro Nd; [split; [discriminate|contradiction]|].
  inversion Nd as [|? ? N Nd']; subst. cbn [fst] in *. destruct (Nat.eqb_spec o o') as [->|Ne].
  - cbn [option_map snd]. split.
    + intro H. injection H as ->. left. reflexivity.
    + intros [H|H]; [congruence|]. exfalso. apply N. change o' with (fst (o', x)). apply in_map. exact H.
  - rewrite IH by exact Nd'. split; [intro H; right; exact H|]. intros [H|H]; [congruence|exact H].
Qed.
Lemma look_some l o : In o (map fst l) -> exists x, look o l = Some x.
Proof.
  unfold look. induction l as [|[o' x'] l IH]; [contradiction|]. cbn [map find fst]. intros H. destruct (Nat.eqb_spec o o') as [->|N]; [eexists; reflexivity|].
  destruct H as [H|H]; [congruence|]. apply IH. exact H.
Qed.
Lemma look_key l o x : look o l = Some x -> In (o, x) l.
Proof.
  unfold look. destruct (find _ l) as [[o' x']|] eqn:E; [|discriminate]. cbn [option_map snd]. intro H. injection H as <-.
  destruct (find_some _ _ E) as [H1 H2]. cbn [fst] in H2. apply Nat.eqb_eq in H2. subst. exact H1.
Qed.
Lemma put_keys o x l : map fst (put o x l) = map fst l.
Proof. unfold put. rewrite map_map. apply map_ext. intros [o' x']. cbn [fst]. destruct (Nat.eqb_spec o o') as [->|]; reflexivity. Qed.
Lemma put_in o x l o' x' : In (o', x') (put o x l) <-> (o' = o /\ x' = x /\ In o (map fst l)) \/ (o' <> o /\ In (o', x') l).
Proof.
  unfold put. rewrite in_map_iff. split.
  - intros ([o1 x1] & E & H). cbn [fst] in E. destruct (Nat.eqb_spec o o1) as [<-|N].
    + injection E as <- <-. left. split; [reflexivity|]. split; [reflexivity|]. change o with (fst (o, x1)). apply in_map. exact H.
    + injection E as <- <-. right. split; [congruence|exact H].
  - intros [(-> & -> & H)|[N H]].
    + apply in_map_iff in H. destruct H as ([o1 x1] & E & H). cbn [fst] in E. subst o1. exists (o, x1). cbn [fst]. rewrite Nat.eqb_refl. split; [reflexivity|exact H].
    + exists (o', x'). cbn [fst]. destruct (Nat.eqb_spec o o') as [->|_]; [congruence|]. split; [reflexivity|exact H].
Qed.
Lemma del_in o l y : In y (del o l) <-> fst y <> o /\ In y l.
Proof. unfold del. rewrite filter_In. destruct (Nat.eqb_spec o (fst y)) as [E|E]; cbn [negb]; intuition congruence. Qed.
Lemma del_keys_nodup o l : NoDup (map fst l) -> NoDup (map fst (del o l)).
Proof.
  induction l as [|[o' x'] l IH]; cbn [map]; intro Nd; [constructor|]. inversion Nd as [|? ? N Nd']; subst. cbn [del filter fst]. fold (del o l).
  destruct (negb (o =? o')); [|apply IH; exact Nd']. cbn [map fst]. constructor; [|apply IH; exact Nd'].
  intro X. apply N. apply in_map_iff in X. destruct X as (y & E & H). apply del_in in H. apply in_map_iff. exists y. tauto.
Qed.
Lemma pdc_put o x l x0 q : NoDup (map fst l) -> In (o, x0) l -> pd x = pd x0 -> pdc q (put o x l) = pdc q l.
Proof.
  intros Nd H E. unfold pdc, put. induction l as [|[o' x'] l IH]; [contradiction|]. cbn [map fst] in *. inversion Nd as [|? ? N Nd']; subst.
  destruct (Nat.eqb_spec o o') as [->|Ne].
  - assert (x' = x0). { destruct H as [H|H]; [congruence|]. exfalso. apply N. change o' with (fst (o', x0)). apply in_map. exact H. } subst x'.
    assert (M : map (fun y => if o' =? fst y then (o', x) else y) l = l).
    { rewrite <- (map_id l) at 2. apply map_ext_in. intros [o1 x1] H1. cbn [fst]. destruct (Nat.eqb_spec o' o1) as [<-|_]; [|reflexivity].
      exfalso. apply N. change o' with (fst (o', x1)). apply in_map. exact H1. }
    rewrite M. cbn [filter]. assert (PE : points q (o', x) = points q (o', x0)) by (unfold points; cbn [snd]; rewrite E; reflexivity). rewrite PE.
    destruct (points q (o', x0)); reflexivity.
  - destruct H as [H|H]; [congruence|]. cbn [filter]. specialize (IH Nd' H).
    destruct (points q (o', x')); cbn [length]; rewrite IH; reflexivity.
Qed.
Lemma pdc_del o l x0 q : NoDup (map fst l) -> In (o, x0) l -> pdc q l = pdc q (del o l) + match pd x0 with Some z => if Nat.eqb q z then 1 else 0 | None => 0 end.
Proof.
  intros Nd H. unfold pdc, del. induction l as [|[o' x'] l IH]; [contradiction|]. cbn [map fst] in *. inversion Nd as [|? ? N Nd']; subst.
  cbn [filter fst]. destruct (Nat.eqb_spec o o') as [->|Ne]; cbn [negb].
  - assert (x' = x0). { destruct H as [H|H]; [congruence|]. exfalso. apply N. change o' with (fst (o', x0)). apply in_map. exact H. } subst x'.
    assert (M : filter (fun y => negb (o' =? fst y)) l = l).
    { clear - N. induction l as [|[o1 x1] l IH]; [reflexivity|]. cbn [filter fst map] in *. destruct (Nat.eqb_spec o' o1) as [<-|_]; [exfalso; apply N; left; reflexivity|].
      cbn [negb]. f_equal. apply IH. intro X. apply N. right. exact X. }
    rewrite M. assert (PE : points q (o', x0) = match pd x0 with Some z => q =? z | None => false end) by reflexivity. rewrite PE.
    destruct (pd x0) as [z|]; [destruct (q =? z)|]; cbn [length]; lia.
  - destruct H as [H|H]; [congruence|]. specialize (IH Nd' H). cbn [filter]. destruct (points q (o', x')); cbn [length]; lia.
Qed.
Lemma pdc_app q l y : pdc q (l ++ [y]) = pdc q l + (if points q y then 1 else 0).
Proof. unfold pdc. rewrite filter_app, app_length. cbn [filter]. destruct (points q y); reflexivity. Qed.
Lemma pdc_pos q l : 0 < pdc q l -> exists o x, In (o, x) l /\ pd x = Some q.
Proof.
  unfold pdc. destruct (filter (points q) l) as [|[o x] r] eqn:E; [cbn; lia|]. intros _. assert (H : In (o, x) (filter (points q) l)) by (rewrite E; left; reflexivity).
  apply filter_In in H. destruct H as [H1 H2]. unfold points in H2. cbn [snd] in H2. destruct (pd x) as [z|] eqn:Ez; [|discriminate]. apply Nat.eqb_eq in H2. subst z. eauto.
Qed.
Lemma pdc_in q l o x : In (o, x) l -> pd x = Some q -> 0 < pdc q l.
Proof.
  intros H E. unfold pdc. assert (X : In (o, x) (filter (points q) l)). { apply filter_In. split; [exact H|]. unfold points. cbn [snd]. rewrite E. apply Nat.eqb_refl. }
  destruct (filter (points q) l); [contradiction|cbn; lia].
Qed.
Lemma cnt_cons o h l : cnt o (h :: l) = cnt o l + (if Nat.eqb o h then 1 else 0).
Proof. unfold cnt. cbn [count_occ]. destruct (Nat.eq_dec h o) as [->|N]; [rewrite Nat.eqb_refl; lia|]. destruct (Nat.eqb_spec o h); [congruence|lia]. Qed.
Lemma cnt_in o l : In o l <-> 0 < cnt o l.
Proof. unfold cnt. rewrite (count_occ_In Nat.eq_dec). lia. Qed.
Lemma cnt_del o l q : In o l -> cnt q l = cnt q (del_one o l) + (if Nat.eqb q o then 1 else 0).
Proof.
  induction l as [|h l IH]; [contradiction|]. intros H. cbn [del_one]. destruct (Nat.eqb_spec o h) as [<-|N].
  - rewrite cnt_cons. reflexivity.
  - destruct H as [H|H]; [congruence|]. rewrite !cnt_cons, (IH H). lia.
Qed.
Lemma del_one_in o l x : In x (del_one o l) -> In x l.
Proof. induction l as [|h l IH]; cbn [del_one]; [auto|]. destruct (Nat.eqb o h); [right; assumption|]. intros [H|H]; [left; exact H|right; auto]. Qed.

(** ** reference counts *)
Definition is_doc (b : body) : Prop := match b with BDoc _ _ => True | _ => False end.
Record rinv (objs : list (nat * obj)) (held : list nat) (n : nat) : Prop := Rinv {
  r_ids : NoDup (map fst objs);
  r_lt : forall o x, In (o, x) objs -> o < n;
  r_refs : forall o x, In (o, x) objs -> 0 < o_refs x /\ o_refs x = cnt o held + pdc o objs;
  r_pd : forall o x q, In (o, x) objs -> pd x = Some q -> exists y, In (q, y) objs /\ is_doc (o_body y);
  r_held : forall o, In o held -> In o (map fst objs) }.

Lemma rinv_lt_held objs held n o : rinv objs held n -> In o held -> o < n.
Proof. intros R H. apply (r_held _ _ _ R) in H. apply in_map_iff in H. destruct H as ([o' x] & E & H). cbn [fst] in E. subst. eapply r_lt; eassumption. Qed.
Lemma pdc_fresh objs held n q : rinv objs held n -> n <= q -> pdc q objs = 0 /\ cnt q held = 0.
Proof.
  intros R L. split.
  - destruct (Nat.eq_0_gt_0_cases (pdc q objs)) as [E|E]; [exact E|]. destruct (pdc_pos _ _ E) as (o & x & H & P). destruct (r_pd _ _ _ R _ _ _ H P) as (y & Hy & _).
    pose proof (r_lt _ _ _ R _ _ Hy). lia.
  - destruct (Nat.eq_0_gt_0_cases (cnt q held)) as [E|E]; [exact E|]. apply cnt_in in E. pose proof (rinv_lt_held _ _ _ _ R E). lia.
Qed.
Lemma rinv_more objs held n m : rinv objs held n -> n <= m -> rinv objs held m.
Proof. intros [A B C D E] L. constructor; auto. intros o x H. specialize (B _ _ H). lia. Qed.
(** a new object that holds no document *)
Lemma rinv_make objs held n b : rinv objs held n -> pd (Obj 1 b) = None -> rinv (objs ++ [(n, Obj 1 b)]) (n :: held) (S n).
Proof.
  intros R P. destruct (pdc_fresh _ _ _ n R (le_n _)) as [F1 F2]. constructor.
  - rewrite map_app. cbn [map fst]. apply (Permutation_NoDup (Permutation_sym (Permutation_app_comm _ _))). cbn [app]. constructor; [|exact (r_ids _ _ _ R)].
    intro X. apply in_map_iff in X. destruct X as ([o x] & E & H). cbn [fst] in E. subst. pose proof (r_lt _ _ _ R _ _ H). lia.
  - intros o x H. apply in_app_or in H. destruct H as [H|[H|[]]]; [pose proof (r_lt _ _ _ R _ _ H); lia|injection H as <- <-; lia].
  - intros o x H. rewrite cnt_cons, pdc_app. unfold points. cbn [snd]. rewrite P. apply in_app_or in H. destruct H as [H|[H|[]]].
    + pose proof (r_lt _ _ _ R _ _ H). destruct (Nat.eqb_spec o n) as [->|_]; [lia|]. destruct (r_refs _ _ _ R _ _ H). lia.
    + injection H as <- <-. rewrite Nat.eqb_refl. cbn [o_refs]. lia.
  - intros o x q H E. apply in_app_or in H. destruct H as [H|[H|[]]]; [|injection H as <- <-; congruence].
    destruct (r_pd _ _ _ R _ _ _ H E) as (y & Hy & D). exists y. split; [apply in_or_app; left; exact Hy|exact D].
  - intros o [H|H]; rewrite map_app; apply in_or_app; [right; left; exact H|left; exact (r_held _ _ _ R _ H)].
Qed.
(** a new object that holds the document object [q] *)
Lemma rinv_node objs held n a f q r d fin : rinv objs held n -> In (q, Obj r (BDoc d fin)) objs ->
  rinv (put q (Obj (S r) (BDoc d fin)) (objs ++ [(n, Obj 1 (BNode a f (Some q)))])) (n :: held) (S n).
Proof.
  intros R Hq. destruct (pdc_fresh _ _ _ n R (le_n _)) as [F1 F2]. pose proof (r_lt _ _ _ R _ _ Hq) as Lq.
  assert (Nd : NoDup (map fst (objs ++ [(n, Obj 1 (BNode a f (Some q)))]))).
  { rewrite map_app. cbn [map fst]. apply (Permutation_NoDup (Permutation_sym (Permutation_app_comm _ _))). cbn [app]. constructor; [|exact (r_ids _ _ _ R)].
    intro X. apply in_map_iff in X. destruct X as ([o x] & E & H). cbn [fst] in E. subst. pose proof (r_lt _ _ _ R _ _ H). lia. }
  assert (Hq' : In (q, Obj r (BDoc d fin)) (objs ++ [(n, Obj 1 (BNode a f (Some q)))])) by (apply in_or_app; left; exact Hq).
  assert (Kq : In q (map fst (objs ++ [(n, Obj 1 (BNode a f (Some q)))]))) by (change q with (fst (q, Obj r (BDoc d fin))); apply in_map; exact Hq').
  constructor.
  - rewrite put_keys. exact Nd.
  - intros o x H. apply put_in in H. destruct H as [(-> & _)|[_ H]]; [lia|]. apply in_app_or in H. destruct H as [H|[H|[]]]; [pose proof (r_lt _ _ _ R _ _ H); lia|injection H as <- <-; lia].
  - intros o x H. rewrite (pdc_put _ _ _ _ _ Nd Hq') by reflexivity. rewrite cnt_cons, pdc_app. unfold points. cbn [snd pd o_body]. apply put_in in H. destruct H as [(-> & -> & _)|[N H]].
    + rewrite Nat.eqb_refl. destruct (Nat.eqb_spec q n) as [->|_]; [lia|]. cbn [o_refs]. destruct (r_refs _ _ _ R _ _ Hq) as [_ E]. cbn [o_refs] in E. lia.
    + destruct (Nat.eqb_spec o q) as [->|_]; [congruence|]. apply in_app_or in H. destruct H as [H|[H|[]]].
      * pose proof (r_lt _ _ _ R _ _ H). destruct (Nat.eqb_spec o n) as [->|_]; [lia|]. destruct (r_refs _ _ _ R _ _ H). lia.
      * injection H as <- <-. rewrite Nat.eqb_refl. cbn [o_refs]. lia.
  - intros o x z H E. assert (X : exists y, In (z, y) (objs ++ [(n, Obj 1 (BNode a f (Some q)))]) /\ is_doc (o_body y)).
    { apply put_in in H. destruct H as [(-> & -> & _)|[N H]]; [discriminate|]. apply in_app_or in H. destruct H as [H|[H|[]]].
      - destruct (r_pd _ _ _ R _ _ _ H E) as (y & Hy & D). exists y. split; [apply in_or_app; left; exact Hy|exact D].
      - injection H as <- <-. cbn [pd o_body] in E. injection E as <-. eexists. split; [exact Hq'|exact Logic.I]. }
    destruct X as (y & Hy & D). destruct (Nat.eq_dec z q) as [->|N].
    + eexists. split; [apply put_in; left; split; [reflexivity|split; [reflexivity|exact Kq]]|exact Logic.I].
    + exists y. split; [apply put_in; right; auto|exact D].
  - intros o H. rewrite put_keys, map_app. apply in_or_app. destruct H as [H|H]; [right; left; exact H|left; exact (r_held _ _ _ R _ H)].
Qed.
(** the body of an object changes, not what it holds *)
Lemma rinv_put objs held n o r b b' : rinv objs held n -> In (o, Obj r b) objs -> pd (Obj r b') = pd (Obj r b) -> (is_doc b -> is_doc b') -> rinv (put o (Obj r b') objs) held n.
Proof.
  intros R H P D. pose proof (r_ids _ _ _ R) as Nd. assert (K : In o (map fst objs)) by (change o with (fst (o, Obj r b)); apply in_map; exact H). constructor.
  - rewrite put_keys. exact Nd.
  - intros o' x Hx. apply put_in in Hx. destruct Hx as [(-> & _)|[_ Hx]]; eapply r_lt; eassumption.
  - intros o' x Hx. rewrite (pdc_put _ _ _ _ _ Nd H P). apply put_in in Hx. destruct Hx as [(-> & -> & _)|[_ Hx]]; [exact (r_refs _ _ _ R _ _ H)|exact (r_refs _ _ _ R _ _ Hx)].
  - intros o' x q Hx E. assert (X : exists y, In (q, y) objs /\ is_doc (o_body y)).
    { apply put_in in Hx. destruct Hx as [(-> & -> & _)|[_ Hx]]; [rewrite P in E; exact (r_pd _ _ _ R _ _ _ H E)|exact (r_pd _ _ _ R _ _ _ Hx E)]. }
    destruct X as (y & Hy & Dy). destruct (Nat.eq_dec q o) as [->|N].
    + eexists. split; [apply put_in; left; split; [reflexivity|split; [reflexivity|exact K]]|]. apply D.
      assert (y = Obj r b). { apply (look_in _ _ _ Nd) in Hy. apply (look_in _ _ _ Nd) in H. congruence. } subst y. exact Dy.
    + exists y. split; [apply put_in; right; auto|exact Dy].
  - intros o' Ho. rewrite put_keys. exact (r_held _ _ _ R _ Ho).
Qed.
Lemma rinv_dup objs held n o r b : rinv objs held n -> In (o, Obj r b) objs -> rinv (put o (Obj (S r) b) objs) (o :: held) n.
Proof.
  intros R H. pose proof (r_ids _ _ _ R) as Nd. assert (K : In o (map fst objs)) by (change o with (fst (o, Obj r b)); apply in_map; exact H).
  assert (P : pd (Obj (S r) b) = pd (Obj r b)) by reflexivity. constructor.
  - rewrite put_keys. exact Nd.
  - intros o' x Hx. apply put_in in Hx. destruct Hx as [(-> & _)|[_ Hx]]; eapply r_lt; eassumption.
  - intros o' x Hx. rewrite (pdc_put _ _ _ _ _ Nd H P), cnt_cons. apply put_in in Hx. destruct Hx as [(-> & -> & _)|[N Hx]].
    + rewrite Nat.eqb_refl. destruct (r_refs _ _ _ R _ _ H) as [_ E]. cbn [o_refs] in *. lia.
    + destruct (Nat.eqb_spec o' o); [congruence|]. destruct (r_refs _ _ _ R _ _ Hx). lia.
  - intros o' x q Hx E. assert (X : exists y, In (q, y) objs /\ is_doc (o_body y)).
    { apply put_in in Hx. destruct Hx as [(-> & -> & _)|[_ Hx]]; [rewrite P in E; exact (r_pd _ _ _ R _ _ _ H E)|exact (r_pd _ _ _ R _ _ _ Hx E)]. }
    destruct X as (y & Hy & Dy). destruct (Nat.eq_dec q o) as [->|N].
    + eexists. split; [apply put_in; left; split; [reflexivity|split; [reflexivity|exact K]]|].
      assert (y = Obj r b). { apply (look_in _ _ _ Nd) in Hy. apply (look_in _ _ _ Nd) in H. congruence. } subst y. exact Dy.
    + exists y. split; [apply put_in; right; auto|exact Dy].
  - intros o' Ho. rewrite put_keys. destruct Ho as [<-|Ho]; [exact K|exact (r_held _ _ _ R _ Ho)].
Qed.
(** a reference given up, others are left *)
Lemma rinv_less objs held n o r b : rinv objs held n -> In (o, Obj r b) objs -> In o held -> 1 < r -> rinv (put o (Obj (r - 1) b) objs) (del_one o held) n.
Proof.
  intros R H Ho L. pose proof (r_ids _ _ _ R) as Nd. assert (K : In o (map fst objs)) by (change o with (fst (o, Obj r b)); apply in_map; exact H).
  assert (P : pd (Obj (r - 1) b) = pd (Obj r b)) by reflexivity. constructor.
  - rewrite put_keys. exact Nd.
  - intros o' x Hx. apply put_in in Hx. destruct Hx as [(-> & _)|[_ Hx]]; eapply r_lt; eassumption.
  - intros o' x Hx. rewrite (pdc_put _ _ _ _ _ Nd H P). pose proof (cnt_del o held o' Ho) as C. apply put_in in Hx. destruct Hx as [(-> & -> & _)|[N Hx]].
    + rewrite Nat.eqb_refl in C. destruct (r_refs _ _ _ R _ _ H) as [_ E]. cbn [o_refs] in *. lia.
    + destruct (Nat.eqb_spec o' o); [congruence|]. destruct (r_refs _ _ _ R _ _ Hx). lia.
  - intros o' x q Hx E. assert (X : exists y, In (q, y) objs /\ is_doc (o_body y)).
    { apply put_in in Hx. destruct Hx as [(-> & -> & _)|[_ Hx]]; [rewrite P in E; exact (r_pd _ _ _ R _ _ _ H E)|exact (r_pd _ _ _ R _ _ _ Hx E)]. }
    destruct X as (y & Hy & Dy). destruct (Nat.eq_dec q o) as [->|N].
    + eexists. split; [apply put_in; left; split; [reflexivity|split; [reflexivity|exact K]]|].
      assert (y = Obj r b). { apply (look_in _ _ _ Nd) in Hy. apply (look_in _ _ _ Nd) in H. congruence. } subst y. exact Dy.
    + exists y. split; [apply put_in; right; auto|exact Dy].
  - intros o' Ho'. rewrite put_keys. exact (r_held _ _ _ R _ (del_one_in _ _ _ Ho')).
Qed.
(** the last reference to an object that nothing points to, and that holds nothing *)
Lemma rinv_del objs held n o r b : rinv objs held n -> In (o, Obj r b) objs -> In o held -> r <= 1 -> pd (Obj r b) = None -> rinv (del o objs) (del_one o held) n.
Proof.
  intros R H Ho L P. pose proof (r_ids _ _ _ R) as Nd. destruct (r_refs _ _ _ R _ _ H) as [L0 E0]. cbn [o_refs] in *.
  assert (C1 : 0 < cnt o held) by (apply cnt_in; exact Ho). assert (P0 : pdc o objs = 0) by lia. constructor.
  - apply del_keys_nodup. exact Nd.
  - intros o' x Hx. apply del_in in Hx. eapply r_lt; [exact R|apply Hx].
  - intros o' x Hx. apply del_in in Hx. destruct Hx as [N Hx]. cbn [fst] in N. pose proof (cnt_del o held o' Ho) as C. pose proof (pdc_del _ _ _ o' Nd H) as D. rewrite P in D.
    destruct (Nat.eqb_spec o' o); [congruence|]. destruct (r_refs _ _ _ R _ _ Hx). lia.
  - intros o' x q Hx E. apply del_in in Hx. destruct Hx as [N Hx]. destruct (r_pd _ _ _ R _ _ _ Hx E) as (y & Hy & Dy). exists y. split; [|exact Dy].
    apply del_in. cbn [fst]. split; [|exact Hy]. intros ->. pose proof (pdc_in _ _ _ _ Hx E). lia.
  - intros o' Ho'. pose proof (r_held _ _ _ R _ (del_one_in _ _ _ Ho')) as K. apply in_map_iff in K. destruct K as ([o1 x1] & E1 & H1). cbn [fst] in E1. subst o1.
    apply in_map_iff. exists (o', x1). split; [reflexivity|]. apply del_in. cbn [fst]. split; [|exact H1]. intros ->.
    apply cnt_in in Ho'. pose proof (cnt_del o held o Ho) as C. rewrite Nat.eqb_refl in C. lia.
Qed.
(** the last reference to a node object that holds a document object, which stays *)
Lemma rinv_del_less objs held n o r a f q r' b' : rinv objs held n -> In (o, Obj r (BNode a f (Some q))) objs -> In o held -> r <= 1 ->
  In (q, Obj r' b') objs -> is_doc b' -> 1 < r' -> rinv (del o (put q (Obj (r' - 1) b') objs)) (del_one o held) n.
Proof.
  intros R H Ho L Hq Db L'. pose proof (r_ids _ _ _ R) as Nd. destruct (r_refs _ _ _ R _ _ H) as [L0 E0]. destruct (r_refs _ _ _ R _ _ Hq) as [L1 E1]. cbn [o_refs] in *.
  assert (C1 : 0 < cnt o held) by (apply cnt_in; exact Ho). assert (P0 : pdc o objs = 0) by lia.
  assert (Noq : o <> q). { intros ->. apply (look_in _ _ _ Nd) in H. apply (look_in _ _ _ Nd) in Hq. rewrite H in Hq. injection Hq as E E'. subst b'. exact Db. }
  assert (K : In q (map fst objs)) by (change q with (fst (q, Obj r' b')); apply in_map; exact Hq).
  assert (Pq : pd (Obj (r' - 1) b') = pd (Obj r' b')) by reflexivity. assert (Pq0 : pd (Obj r' b') = None) by (destruct b'; [reflexivity|contradiction]).
  assert (H' : In (o, Obj r (BNode a f (Some q))) (put q (Obj (r' - 1) b') objs)) by (apply put_in; right; auto).
  assert (Nd' : NoDup (map fst (put q (Obj (r' - 1) b') objs))) by (rewrite put_keys; exact Nd).
  assert (PD : forall z, pdc z objs = pdc z (del o (put q (Obj (r' - 1) b') objs)) + (if Nat.eqb z q then 1 else 0)).
  { intro z. rewrite <- (pdc_put _ _ _ _ z Nd Hq Pq). rewrite (pdc_del _ _ _ z Nd' H'). reflexivity. }
  constructor.
  - apply del_keys_nodup. exact Nd'.
  - intros o' x Hx. apply del_in in Hx. destruct Hx as [_ Hx]. apply put_in in Hx. destruct Hx as [(-> & _)|[_ Hx]]; eapply r_lt; eassumption.
  - intros o' x Hx. apply del_in in Hx. destruct Hx as [N Hx]. cbn [fst] in N. pose proof (cnt_del o held o' Ho) as C. pose proof (PD o') as D. destruct (Nat.eqb_spec o' o); [congruence|].
    apply put_in in Hx. destruct Hx as [(-> & -> & _)|[N' Hx]].
    + rewrite Nat.eqb_refl in D. cbn [o_refs]. lia.
    + destruct (Nat.eqb_spec o' q); [congruence|]. destruct (r_refs _ _ _ R _ _ Hx). lia.
  - intros o' x z Hx E. apply del_in in Hx. destruct Hx as [N Hx]. apply put_in in Hx. destruct Hx as [(-> & -> & _)|[N' Hx]]; [rewrite Pq, Pq0 in E; discriminate|].
    destruct (r_pd _ _ _ R _ _ _ Hx E) as (y & Hy & Dy). assert (Nz : z <> o) by (intros ->; pose proof (pdc_in _ _ _ _ Hx E); lia).
    destruct (Nat.eq_dec z q) as [->|N''].
    + eexists. split; [apply del_in; cbn [fst]; split; [exact Nz|apply put_in; left; split; [reflexivity|split; [reflexivity|exact K]]]|exact Db].
    + exists y. split; [apply del_in; cbn [fst]; split; [exact Nz|apply put_in; right; auto]|exact Dy].
  - intros o' Ho'. pose proof (r_held _ _ _ R _ (del_one_in _ _ _ Ho')) as K'. rewrite <- (put_keys q (Obj (r' - 1) b')) in K'. apply in_map_iff in K'. destruct K' as ([o1 x1] & E2 & H1). cbn [fst] in E2. subst o1.
    apply in_map_iff. exists (o', x1). split; [reflexivity|]. apply del_in. cbn [fst]. split; [|exact H1]. intros ->.
    apply cnt_in in Ho'. pose proof (cnt_del o held o Ho) as C. rewrite Nat.eqb_refl in C. lia.
Qed.
(** ... which goes *)
Lemma rinv_del_both objs held n o r a f q r' b' : rinv objs held n -> In (o, Obj r (BNode a f (Some q))) objs -> In o held -> r <= 1 ->
  In (q, Obj r' b') objs -> is_doc b' -> r' <= 1 -> rinv (del o (del q objs)) (del_one o held) n.
Proof.
  intros R H Ho L Hq Db L'. pose proof (r_ids _ _ _ R) as Nd. destruct (r_refs _ _ _ R _ _ H) as [L0 E0]. destruct (r_refs _ _ _ R _ _ Hq) as [L1 E1]. cbn [o_refs] in *.
  assert (C1 : 0 < cnt o held) by (apply cnt_in; exact Ho). assert (P0 : pdc o objs = 0) by lia.
  assert (Noq : o <> q). { intros ->. apply (look_in _ _ _ Nd) in H. apply (look_in _ _ _ Nd) in Hq. rewrite H in Hq. injection Hq as E E'. subst b'. exact Db. }
  assert (Pq0 : pd (Obj r' b') = None) by (destruct b'; [reflexivity|contradiction]).
  assert (H' : In (o, Obj r (BNode a f (Some q))) (del q objs)) by (apply del_in; auto).
  assert (Nd' : NoDup (map fst (del q objs))) by (apply del_keys_nodup; exact Nd).
  assert (PD : forall z, pdc z objs = pdc z (del o (del q objs)) + (if Nat.eqb z q then 1 else 0)).
  { intro z. rewrite (pdc_del _ _ _ z Nd Hq), Pq0. rewrite (pdc_del _ _ _ z Nd' H'). cbn [pd o_body]. lia. }
  pose proof (PD q) as Dq. rewrite Nat.eqb_refl in Dq. assert (Cq : cnt q held = 0) by lia. assert (Dq0 : pdc q (del o (del q objs)) = 0) by lia.
  constructor.
  - apply del_keys_nodup. exact Nd'.
  - intros o' x Hx. apply del_in in Hx. destruct Hx as [_ Hx]. apply del_in in Hx. eapply r_lt; [exact R|apply Hx].
  - intros o' x Hx. apply del_in in Hx. destruct Hx as [N Hx]. apply del_in in Hx. destruct Hx as [N' Hx]. cbn [fst] in *. pose proof (cnt_del o held o' Ho) as C. pose proof (PD o') as D.
    destruct (Nat.eqb_spec o' o); [congruence|]. destruct (Nat.eqb_spec o' q); [congruence|]. destruct (r_refs _ _ _ R _ _ Hx). lia.
  - intros o' x z Hx E. assert (Hx0 := Hx). apply del_in in Hx. destruct Hx as [N Hx]. apply del_in in Hx. destruct Hx as [N' Hx]. cbn [fst] in *.
    destruct (r_pd _ _ _ R _ _ _ Hx E) as (y & Hy & Dy). assert (Nz : z <> o) by (intros ->; pose proof (pdc_in _ _ _ _ Hx E); lia).
    assert (Nzq : z <> q) by (intros ->; pose proof (pdc_in _ _ _ _ Hx0 E); lia). exists y. split; [apply del_in; split; [exact Nz|apply del_in; auto]|exact Dy].
  - intros o' Ho'. pose proof (del_one_in _ _ _ Ho') as Hh. pose proof (r_held _ _ _ R _ Hh) as K'. apply in_map_iff in K'. destruct K' as ([o1 x1] & E2 & H1). cbn [fst] in E2. subst o1.
    assert (o' <> o). { intros ->. apply cnt_in in Ho'. pose proof (cnt_del o held o Ho) as C. rewrite Nat.eqb_refl in C. lia. }
    assert (o' <> q). { intros ->. apply cnt_in in Hh. lia. }
    apply in_map_iff. exists (o', x1). split; [reflexivity|]. apply del_in. cbn [fst]. split; [assumption|]. apply del_in. auto.
Qed.
