(** The links on the heap represent a family of trees. *)
From Verif Require Import Prelude ItemModel ItemSpec ItemExec.
From Coq Require Import Lia.
Open Scope list_scope.

Definition entry := (nat * child)%type.
Definition chain := nat -> list entry.
Definition hd_or (l : list entry) (n : option nat) : option nat := match l with [] => n | (a, _) :: _ => Some a end.
Fixpoint last_or (l : list entry) (p : option nat) : option nat := match l with [] => p | (a, _) :: l => last_or l (Some a) end.
Definition imap := nat -> option item.
Fixpoint seg (m : imap) (p : nat) (pr : option nat) (l : list entry) (n : option nat) : Prop :=
  match l with
  | [] => True
  | (a, c) :: r => m a = Some (Item (fst c) (snd c) (Some p) (hd_or r n) pr) /\ seg m p (Some a) r n
  end.
Definition is (o : option nat) (x : nat) : bool := match o with Some y => Nat.eqb x y | None => false end.

Lemma last_or_app l1 l2 p : last_or (l1 ++ l2) p = last_or l2 (last_or l1 p).
Proof. revert p. induction l1 as [|[a c] l1 IH]; intros p; cbn [app last_or]; auto. Qed.
Lemma hd_or_app l1 l2 n : hd_or (l1 ++ l2) n = hd_or l1 (hd_or l2 n).
Proof. destruct l1 as [|[a c] l1]; reflexivity. Qed.
Lemma seg_app m p pr l1 l2 n : seg m p pr (l1 ++ l2) n <-> seg m p pr l1 (hd_or l2 n) /\ seg m p (last_or l1 pr) l2 n.
Proof.
  revert pr. induction l1 as [|[a c] l1 IH]; intros pr; cbn [app seg last_or]; [tauto|]. rewrite hd_or_app, IH. tauto.
Qed.
Lemma seg_ext m m' p pr l n : (forall x, In x (map fst l) -> m' x = m x) -> seg m p pr l n -> seg m' p pr l n.
Proof.
  revert pr. induction l as [|[a c] l IH]; intros pr H S; cbn [seg map fst In] in *; [exact I|].
  destruct S as [S1 S2]. split; [rewrite H; auto|]. apply IH; auto.
Qed.
Lemma seg_in m p pr l n : seg m p pr l n -> forall a c, In (a, c) l -> exists x y, m a = Some (Item (fst c) (snd c) (Some p) x y).
Proof.
  revert pr. induction l as [|[b d] l IH]; intros pr S a c I; [destruct I|]. cbn [seg] in S. destruct S as [S1 S2]. destruct I as [E|I].
  - injection E as -> ->. eauto.
  - eapply IH; eassumption.
Qed.
Lemma last_or_in l x : last_or l None = Some x -> In x (map fst l).
Proof.
  assert (H : forall p, last_or l p = Some x -> In x (map fst l) \/ p = Some x).
  { induction l as [|[a c] l IH]; intros p E; cbn [last_or map fst In] in *; [auto|]. destruct (IH _ E) as [|E']; [auto|]. injection E' as ->. auto. }
  intros E. destruct (H _ E) as [|]; [assumption|discriminate].
Qed.
Lemma hd_or_in l x : hd_or l None = Some x -> In x (map fst l).
Proof. destruct l as [|[a c] l]; [discriminate|]. intros E. injection E as ->. left. reflexivity. Qed.
Lemma last_or_snoc l a c p : last_or (l ++ [(a, c)]) p = Some a.
Proof. rewrite last_or_app. reflexivity. Qed.
Lemma snoc_cases {A} (l : list A) : l = [] \/ exists r x, l = r ++ [x].
Proof. induction l using rev_ind; [auto|right; eauto]. Qed.

(** the last link of a segment *)
Lemma seg_next m m' p pr l n n' : NoDup (map fst l) -> seg m p pr l n ->
  (forall x it, In x (map fst l) -> m x = Some it -> m' x = Some (if is (last_or l None) x then w_next n' it else it)) -> seg m' p pr l n'.
Proof.
  intros N S H. destruct (snoc_cases l) as [->|(r & [a c] & ->)]; [exact I|]. rewrite last_or_snoc in H. cbn [is] in H.
  rewrite map_app in N. apply NoDup_remove in N as [_ N]. rewrite app_nil_r in N.
  apply seg_app in S as [S1 S2]. cbn [hd_or seg] in *. destruct S2 as [S2 _]. apply seg_app. cbn [hd_or seg]. split; [|split; [|exact I]].
  - eapply seg_ext; [|exact S1]. intros x Ix. assert (x <> a) by (intros ->; contradiction).
    destruct (m x) as [it|] eqn:E.
    + rewrite (H x it); [|rewrite map_app; apply in_or_app; auto|exact E]. destruct (Nat.eqb_spec x a); [contradiction|reflexivity].
    + exfalso. apply in_map_iff in Ix as ([y d] & Ey & Ix). cbn in Ey. subst y. destruct (seg_in _ _ _ _ _ S1 _ _ Ix) as (? & ? & ?). congruence.
  - rewrite (H a _ ltac:(rewrite map_app; apply in_or_app; right; left; reflexivity) S2). rewrite Nat.eqb_refl. reflexivity.
Qed.
Lemma seg_prev m m' p pr pr' l n : NoDup (map fst l) -> seg m p pr l n ->
  (forall x it, In x (map fst l) -> m x = Some it -> m' x = Some (if is (hd_or l None) x then w_prev pr' it else it)) -> seg m' p pr' l n.
Proof.
  intros N S H. destruct l as [|[a c] l]; [exact I|]. cbn [hd_or is] in H. cbn [map fst] in N. inversion N; subst.
  cbn [seg] in *. destruct S as [S1 S2]. split.
  - rewrite (H a _ ltac:(left; reflexivity) S1), Nat.eqb_refl. reflexivity.
  - eapply seg_ext; [|exact S2]. intros x Ix. assert (x <> a) by (intros ->; contradiction).
    destruct (m x) as [it|] eqn:E.
    + rewrite (H x it); [|right; exact Ix|exact E]. destruct (Nat.eqb_spec x a); [contradiction|reflexivity].
    + exfalso. apply in_map_iff in Ix as ([y d] & Ey & Ix). cbn in Ey. subst y. destruct (seg_in _ _ _ _ _ S2 _ _ Ix) as (? & ? & ?). congruence.
Qed.
Lemma NoDup_app_inv {A} (l1 l2 : list A) : NoDup (l1 ++ l2) -> NoDup l1 /\ NoDup l2 /\ forall x, In x l1 -> ~ In x l2.
Proof.
  induction l1 as [|a l1 IH]; cbn [app]; intros H; [split; [constructor|auto]|]. inversion H; subst. destruct (IH H3) as (N1 & N2 & D).
  split; [constructor; [intros I; apply H2, in_or_app; auto|exact N1]|]. split; [exact N2|].
  intros x [->|I] J; [apply H2, in_or_app; auto|exact (D x I J)].
Qed.
Lemma NoDup_app_intro {A} (l1 l2 : list A) : NoDup l1 -> NoDup l2 -> (forall x, In x l1 -> ~ In x l2) -> NoDup (l1 ++ l2).
Proof.
  induction l1 as [|a l1 IH]; cbn [app]; intros N1 N2 D; [exact N2|]. inversion N1; subst. constructor.
  - intros I. apply in_app_or in I as [I|I]; [contradiction|]. apply (D a); [left; reflexivity|exact I].
  - apply IH; auto. intros x I. apply D. right. exact I.
Qed.

(** one stretch of a chain replaced by another one *)
Lemma splice m m' p l1 mid mid' l2 : NoDup (map fst (l1 ++ mid ++ l2)) -> seg m p None (l1 ++ mid ++ l2) None ->
  (forall x it, In x (map fst l1) -> m x = Some it -> m' x = Some (if is (last_or l1 None) x then w_next (hd_or (mid' ++ l2) None) it else it)) ->
  (forall x it, In x (map fst l2) -> m x = Some it -> m' x = Some (if is (hd_or l2 None) x then w_prev (last_or (l1 ++ mid') None) it else it)) ->
  seg m' p (last_or l1 None) mid' (hd_or l2 None) ->
  seg m' p None (l1 ++ mid' ++ l2) None.
Proof.
  intros N S H1 H2 H3. rewrite !map_app in N. apply NoDup_app_inv in N as (N1 & N & _). apply NoDup_app_inv in N as (_ & N2 & _).
  apply seg_app in S as [S1 S]. apply seg_app in S as [_ S2]. apply seg_app. split; [eapply seg_next; eassumption|].
  apply seg_app. split; [exact H3|]. rewrite last_or_app in H2. eapply seg_prev; eassumption.
Qed.

(** ** the relation *)
Record Rep (h : heap) (s : fam) (ch : chain) : Prop := {
  r_nodes : forall p, In p (f_nodes s) <-> h_nodes h p <> None;
  r_kids : forall p, In p (f_nodes s) -> f_kids s p = map snd (ch p);
  r_out : forall p, ~ In p (f_nodes s) -> ch p = [];
  r_ends : forall p n, h_nodes h p = Some n -> n_first n = hd_or (ch p) None /\ n_last n = last_or (ch p) None;
  r_seg : forall p, seg (h_items h) p None (ch p) None;
  r_nodup : forall p, NoDup (map fst (ch p));
  r_disj : forall p q a, p <> q -> In a (map fst (ch p)) -> ~ In a (map fst (ch q));
  r_loose : forall a it, h_items h a = Some it -> (forall p, ~ In a (map fst (ch p))) -> i_next it = None /\ i_prev it = None;
  r_holder : forall p a n, In (a, (KNode, n)) (ch p) -> exists nd, h_nodes h n = Some nd /\ n_holder nd = Some a;
  r_held : forall n nd a, h_nodes h n = Some nd -> n_holder nd = Some a ->
    exists it, h_items h a = Some it /\ i_kind it = KNode /\ i_data it = n;
  r_ifresh : forall a, h_items h a <> None -> a < h_ifresh h;
  r_nfresh : forall p, In p (f_nodes s) -> p < h_nfresh h;
  r_count : f_new s = h_nfresh h
}.
Definition setch (ch : chain) (p : nat) (l : list entry) : chain := fun x => if Nat.eqb x p then l else ch x.
Lemma setch_same ch p l : setch ch p l p = l.
Proof. unfold setch. rewrite Nat.eqb_refl. reflexivity. Qed.
Lemma setch_other ch p l q : q <> p -> setch ch p l q = ch q.
Proof. intros. unfold setch. destruct (Nat.eqb_spec q p); [contradiction|reflexivity]. Qed.
Lemma in_fst {A B} (a : A) (c : B) l : In (a, c) l -> In a (map fst l).
Proof. intros. change a with (fst (a, c)). apply in_map. assumption. Qed.
Lemma fst_in {A B} (a : A) (l : list (A * B)) : In a (map fst l) -> exists c, In (a, c) l.
Proof. intros I. apply in_map_iff in I as ([x c] & E & I). cbn in E. subst. eauto. Qed.

Lemma upd_same {A} (m : nat -> option A) a v : upd m a v a = Some v.
Proof. unfold upd. rewrite Nat.eqb_refl. reflexivity. Qed.
Lemma upd_other {A} (m : nat -> option A) a v x : x <> a -> upd m a v x = m x.
Proof. intros. unfold upd. destruct (Nat.eqb_spec x a); [contradiction|reflexivity]. Qed.
Lemma wr_i_ok h a f i : h_items h a = Some i -> wr_i h a f = Ok (Heap (upd (h_items h) a (f i)) (h_nodes h) (h_ifresh h) (h_nfresh h)).
Proof. intros E. unfold wr_i, rd_i. rewrite E. reflexivity. Qed.
Lemma wr_n_ok h a f n : h_nodes h a = Some n -> wr_n h a f = Ok (Heap (h_items h) (upd (h_nodes h) a (f n)) (h_ifresh h) (h_nfresh h)).
Proof. intros E. unfold wr_n, rd_n. rewrite E. reflexivity. Qed.

Lemma rep_new : Rep heap_new fam_new (fun _ => []).
Proof. split; cbn; try tauto; try discriminate; try (intros; constructor); try lia; intros; try contradiction; auto; lia. Qed.

Section Rep.
Variable h : heap.
Variable s : fam.
Variable ch : chain.
Hypothesis R : Rep h s ch.

Lemma rep_known p : known s p = true <-> In p (f_nodes s).
Proof. unfold known. rewrite existsb_exists. split; [intros (x & I & E); apply Nat.eqb_eq in E; congruence|intros; exists p; rewrite Nat.eqb_refl; auto]. Qed.
Lemma rep_node p : In p (f_nodes s) -> exists n, h_nodes h p = Some n.
Proof. intros I. apply (r_nodes _ _ _ R) in I. destruct (h_nodes h p); [eauto|contradiction]. Qed.
Lemma rep_in p a c : In (a, c) (ch p) -> In p (f_nodes s).
Proof. intros I. destruct (in_dec Nat.eq_dec p (f_nodes s)) as [|N]; [assumption|]. rewrite (r_out _ _ _ R p N) in I. destruct I. Qed.
Lemma rep_item p a c : In (a, c) (ch p) -> exists x y, h_items h a = Some (Item (fst c) (snd c) (Some p) x y).
Proof. intros I. eapply seg_in; [apply (r_seg _ _ _ R p)|exact I]. Qed.
Lemma nodup_fst_eq (l : list entry) a c d : NoDup (map fst l) -> In (a, c) l -> In (a, d) l -> c = d.
Proof.
  induction l as [|[b e] l IH]; intros N I J; [destruct I|]. cbn [map fst] in N. inversion N; subst.
  destruct I as [I|I], J as [J|J]; [congruence| | |auto].
  - injection I as -> ->. apply in_fst in J. contradiction.
  - injection J as -> ->. apply in_fst in I. contradiction.
Qed.
Lemma rep_unique p q a c d : In (a, c) (ch p) -> In (a, d) (ch q) -> p = q /\ c = d.
Proof.
  intros I J. destruct (Nat.eq_dec p q) as [<-|N].
  - split; [reflexivity|]. eapply nodup_fst_eq; [apply (r_nodup _ _ _ R p)|exact I|exact J].
  - exfalso. apply (r_disj _ _ _ R p q a N); eapply in_fst; eassumption.
Qed.

Lemma rep_held n nd a : h_nodes h n = Some nd -> n_holder nd = Some a -> forall p c, In (a, c) (ch p) -> c = (KNode, n).
Proof.
  intros E1 E2 p [k d] I. destruct (r_held _ _ _ R n nd a E1 E2) as (it & E & Hk & Hd). destruct (rep_item _ _ _ I) as (x & y & E'). cbn [fst snd] in E'.
  rewrite E in E'. injection E' as ->. cbn in Hk, Hd. congruence.
Qed.

(** places *)
Lemma place_split n (l : list child) k : place n l = Some k -> exists l1 l2, l = l1 ++ (KNode, n) :: l2 /\ length l1 = k /\ ~ In (KNode, n) l1.
Proof.
  revert k. induction l as [|[kd d] l IH]; intros k H; [discriminate|]. cbn [place] in H. unfold eqc in H. cbn [fst snd] in H.
  assert (E : (kd = KNode /\ n = d /\ k = 0) \/ (~ (kd = KNode /\ n = d) /\ exists k', place n l = Some k' /\ k = S k')).
  { destruct kd; try (right; split; [intros [? ?]; discriminate|destruct (place n l); [injection H as <-; eauto|discriminate]]).
    destruct (Nat.eqb_spec n d); [left; injection H as <-; auto|]. right. split; [tauto|]. destruct (place n l); [injection H as <-; eauto|discriminate]. }
  destruct E as [(-> & <- & ->)|(N & k' & P & ->)].
  - exists [], l. auto.
  - destruct (IH _ P) as (l1 & l2 & -> & <- & Ni). exists ((kd, d) :: l1), l2. split; [reflexivity|]. split; [reflexivity|].
    intros [E|I]; [injection E as -> ->; apply N; auto|contradiction].
Qed.
Lemma place_none n (l : list child) : place n l = None -> ~ In (KNode, n) l.
Proof.
  induction l as [|[kd d] l IH]; intros H I; [destruct I|]. cbn [place] in H. unfold eqc in H. cbn [fst snd] in H.
  assert (~ (kd = KNode /\ n = d) /\ place n l = None) as [N P].
  { destruct kd; try (split; [intros [? ?]; discriminate|destruct (place n l); [discriminate|reflexivity]]).
    destruct (Nat.eqb_spec n d); [discriminate|]. split; [tauto|destruct (place n l); [discriminate|reflexivity]]. }
  destruct I as [E|I]; [injection E as -> ->; apply N; auto|exact (IH P I)].
Qed.
Lemma parent_some n p : parent s n = Some p -> In p (f_nodes s) /\ exists k, place n (f_kids s p) = Some k.
Proof.
  unfold parent. induction (f_nodes s) as [|q ps IH]; cbn [parent_in]; [discriminate|].
  destruct (place n (f_kids s q)) eqn:P; [intros E; injection E as ->; split; [left; reflexivity|eauto]|]. intros E. destruct (IH E). split; [right; assumption|assumption].
Qed.
Lemma parent_none n : parent s n = None -> forall p, In p (f_nodes s) -> ~ In (KNode, n) (f_kids s p).
Proof.
  unfold parent. induction (f_nodes s) as [|q ps IH]; cbn [parent_in]; intros H p I; [destruct I|].
  destruct (place n (f_kids s q)) eqn:P; [discriminate|]. destruct I as [->|I]; [apply place_none, P|apply IH; assumption].
Qed.
Lemma map_snd_split (l : list entry) l1 c l2 : map snd l = l1 ++ c :: l2 -> exists e1 a e2, l = e1 ++ (a, c) :: e2 /\ map snd e1 = l1 /\ map snd e2 = l2.
Proof.
  revert l1. induction l as [|[b d] l IH]; intros l1 H; [destruct l1; discriminate|]. cbn [map snd] in H. destruct l1 as [|x l1]; cbn [app] in H.
  - injection H as -> <-. exists [], b, l. auto.
  - injection H as -> H. destruct (IH _ H) as (e1 & a & e2 & -> & <- & <-). exists ((b, x) :: e1), a, e2. auto.
Qed.
Lemma rep_place n p k : parent s n = Some p -> place n (f_kids s p) = Some k -> exists e1 a e2 nd, ch p = e1 ++ (a, (KNode, n)) :: e2 /\ length e1 = k /\
  In p (f_nodes s) /\ In n (f_nodes s) /\ h_nodes h n = Some nd /\ n_holder nd = Some a.
Proof.
  intros P K. destruct (parent_some _ _ P) as [Ip _]. rewrite (r_kids _ _ _ R p Ip) in K. destruct (place_split _ _ _ K) as (l1 & l2 & E & L & _).
  destruct (map_snd_split _ _ _ _ E) as (e1 & a & e2 & E' & <- & <-). rewrite map_length in L.
  destruct (r_holder _ _ _ R p a n) as (nd & Hn & Hh); [rewrite E'; apply in_or_app; right; left; reflexivity|].
  exists e1, a, e2, nd. repeat split; auto. apply (r_nodes _ _ _ R). congruence.
Qed.
Lemma rep_alone n : alone s n = true -> In n (f_nodes s) /\ forall p a c, In (a, c) (ch p) -> c <> (KNode, n).
Proof.
  unfold alone. intros H. apply andb_prop in H as [K P]. apply rep_known in K. split; [exact K|]. destruct (parent s n) eqn:E; [discriminate|].
  intros p a c I ->. pose proof (rep_in _ _ _ I) as Ip. apply (parent_none n E p Ip). rewrite (r_kids _ _ _ R p Ip). change (KNode, n) with (snd (a, (KNode, n))). apply in_map, I.
Qed.
(** items that wait for a place *)
Definition ready (i : nat) (c : child) : Prop :=
  (exists par, h_items h i = Some (Item (fst c) (snd c) par None None)) /\
  (forall p, ~ In i (map fst (ch p))) /\
  (fst c = KNode -> exists nd, h_nodes h (snd c) = Some nd /\ n_holder nd = Some i).
End Rep.
