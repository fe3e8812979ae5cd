(** Insertion, removal and replacement. *)
From Verif Require Import Prelude ItemModel ItemSpec ItemExec ItemProofs ItemProofs2.
From Coq Require Import Lia.
Open Scope list_scope.

Lemma last_ne l1 (l2 : list entry) x : NoDup (map fst (l1 ++ l2)) -> In x (map fst l2) -> is (last_or l1 None) x = false.
Proof.
  intros N I. apply is_ne. intros E. apply last_or_in in E. rewrite map_app in N. apply NoDup_app_inv in N as (_ & _ & D). exact (D x E I).
Qed.
Lemma hd_ne l1 (l2 : list entry) x : NoDup (map fst (l1 ++ l2)) -> In x (map fst l1) -> is (hd_or l2 None) x = false.
Proof.
  intros N I. apply is_ne. intros E. apply hd_or_in in E. rewrite map_app in N. apply NoDup_app_inv in N as (_ & _ & D). exact (D x I E).
Qed.

Lemma rep_ext h s s' ch ch' : (forall p, f_kids s' p = f_kids s p) -> f_nodes s' = f_nodes s -> f_new s' = f_new s -> (forall p, ch' p = ch p) -> Rep h s ch -> Rep h s' ch'.
Proof.
  intros K N W C R. split; intros; rewrite ?N, ?W, ?K, ?C in *; try (apply R; assumption); try (eapply R; eassumption).
  - eapply (r_loose _ _ _ R); [eassumption|]. intros q. rewrite <- C. auto.
Qed.
Lemma rep_insert h s ch h' p i c l1 l2 : Rep h s ch -> In p (f_nodes s) -> ready h ch i c -> ch p = l1 ++ l2 ->
  (forall x, h_items h' x = if Nat.eqb x i then Some (Item (fst c) (snd c) (Some p) (hd_or l2 None) (last_or l1 None))
     else if is (last_or l1 None) x then option_map (w_next (Some i)) (h_items h x)
     else if is (hd_or l2 None) x then option_map (w_prev (Some i)) (h_items h x) else h_items h x) ->
  (forall q, h_nodes h' q = if Nat.eqb q p then option_map (fun n => Nod (hd_or (l1 ++ [(i, c)]) None) (last_or ((i, c) :: l2) None) (n_holder n)) (h_nodes h q) else h_nodes h q) ->
  h_ifresh h' = h_ifresh h -> h_nfresh h' = h_nfresh h ->
  Rep h' (Fam (f_new s) (f_nodes s) (set_kids (f_kids s) p (map snd (l1 ++ (i, c) :: l2)))) (setch ch p (l1 ++ (i, c) :: l2)).
Proof.
  intros R Ip (Hi & Hout & Hold) Ech Hm Hn F1 F2. destruct Hi as (par & Ei). pose proof (r_nodup _ _ _ R p) as Np. rewrite Ech in Np.
  assert (Hd : forall q, h_nodes h' q <> None <-> h_nodes h q <> None).
  { intros q. rewrite Hn. destruct (Nat.eqb q p); [|tauto]. destruct (h_nodes h q); cbn; split; congruence. }
  assert (Hholder : forall n nd', h_nodes h' n = Some nd' -> exists nd, h_nodes h n = Some nd /\ n_holder nd' = n_holder nd).
  { intros n nd' E. rewrite Hn in E. destruct (Nat.eqb n p); [|eauto]. destruct (h_nodes h n); [|discriminate]. injection E as <-. eauto. }
  assert (Hl1 : forall x, In x (map fst l1) -> x <> i). { intros x I ->. apply (Hout p). rewrite Ech, map_app. apply in_or_app; auto. }
  assert (Hl2 : forall x, In x (map fst l2) -> x <> i). { intros x I ->. apply (Hout p). rewrite Ech, map_app. apply in_or_app; auto. }
  assert (Hlive : forall x, h_items h' x <> None <-> h_items h x <> None).
  { intros x. rewrite Hm. destruct (Nat.eqb_spec x i); [subst; rewrite Ei; split; discriminate|].
    destruct (is _ x); [destruct (h_items h x); cbn; split; congruence|]. destruct (is _ x); [destruct (h_items h x); cbn; split; congruence|tauto]. }
  assert (HIn : forall q a d, In (a, d) (setch ch p (l1 ++ (i, c) :: l2) q) -> (a = i /\ d = c /\ q = p) \/ In (a, d) (ch q)).
  { intros q a d I. destruct (Nat.eq_dec q p) as [->|Nq]; [|rewrite setch_other in I by exact Nq; auto].
    rewrite setch_same in I. rewrite Ech. apply in_app_or in I as [I|[E|I]]; [right; apply in_or_app; auto|injection E as <- <-; auto|right; apply in_or_app; auto]. }
  change (l1 ++ (i, c) :: l2) with (l1 ++ [(i, c)] ++ l2). apply (rep_splice h s ch h' p l1 [] [(i, c)] l2); auto.
  - intros q n' Nq E. rewrite Hn in E. destruct (Nat.eqb_spec q p); [contradiction|]. eauto.
  - intros n' E. rewrite Hn, Nat.eqb_refl in E. destruct (h_nodes h p); [|discriminate]. injection E as <-. cbn [n_first n_last].
    cbn [app]. rewrite last_or_app, hd_or_app. cbn [hd_or]. split; [|reflexivity]. rewrite hd_or_app. reflexivity.
  - intros x it I E. rewrite Hm. destruct (Nat.eqb_spec x i); [exfalso; exact (Hl1 x I e)|]. cbn [app hd_or].
    rewrite (hd_ne l1 l2 x Np I), E. destruct (is (last_or l1 None) x); reflexivity.
  - intros x it I E. rewrite Hm. destruct (Nat.eqb_spec x i); [exfalso; exact (Hl2 x I e)|]. rewrite last_or_snoc.
    rewrite (last_ne l1 l2 x Np I), E. destruct (is (hd_or l2 None) x); reflexivity.
  - cbn [seg]. split; [|exact I]. rewrite Hm, Nat.eqb_refl. reflexivity.
  - intros q x Nq I. rewrite Hm. destruct (Nat.eqb_spec x i); [exfalso; subst; exact (Hout q I)|].
    rewrite !is_ne; [reflexivity| |]; intros E; apply (r_disj _ _ _ R q p x Nq I); rewrite Ech, map_app; apply in_or_app; [right; apply hd_or_in, E|left; apply last_or_in, E].
  - intros a it E Na Nq. cbn [app] in Na.
    assert (Nai : a <> i) by (intros ->; apply Na; rewrite map_app; apply in_or_app; right; left; reflexivity).
    assert (N1 : ~ In a (map fst l1)) by (intros I; apply Na; rewrite map_app; apply in_or_app; auto).
    assert (N2 : ~ In a (map fst l2)) by (intros I; apply Na; rewrite map_app; apply in_or_app; right; right; auto).
    rewrite Hm in E. destruct (Nat.eqb_spec a i); [contradiction|]. rewrite !is_ne in E; [|intros X; apply N2, hd_or_in, X|intros X; apply N1, last_or_in, X].
    apply (r_loose _ _ _ R a it E). intros q I. destruct (Nat.eq_dec q p) as [->|Ne]; [|exact (Nq q Ne I)]. rewrite Ech, map_app in I. apply in_app_or in I as [I|I]; contradiction.
  - cbn [app]. rewrite map_app. cbn [map fst]. rewrite map_app in Np. apply NoDup_app_inv in Np as (N1 & N2 & D).
    apply NoDup_app_intro; [exact N1|constructor; [intros I; exact (Hl2 i I eq_refl)|exact N2]|]. intros x I [E|J]; [exact (Hl1 x I (eq_sym E))|exact (D x I J)].
  - intros x q [<-|[]] Nq. apply Hout.
  - intros q a n I. cbn [app] in I. assert (exists nd, h_nodes h n = Some nd /\ n_holder nd = Some a) as (nd & E1 & E2).
    { destruct (HIn q a _ I) as [(-> & Ec & _)|J]; [|exact (r_holder _ _ _ R q a n J)]. subst c. cbn [fst snd] in Hold. auto. }
    rewrite Hn, E1. destruct (Nat.eqb n p); cbn; eauto.
  - intros n nd' a E Eh. destruct (Hholder n nd' E) as (nd & E1 & E2). rewrite E2 in Eh. destruct (r_held _ _ _ R n nd a E1 Eh) as (it & L & K & D).
    rewrite Hm. destruct (Nat.eqb_spec a i); [subst a; eexists; split; [reflexivity|]; rewrite Ei in L; injection L as <-; cbn in *; auto|].
    rewrite L. destruct (is _ a); [eexists; split; [reflexivity|auto]|]. destruct (is _ a); eexists; (split; [reflexivity|auto]).
  - intros a L. apply Hlive in L. rewrite F1. apply (r_ifresh _ _ _ R), L.
Qed.

(** [a] leaves the chain of [p], [mid'] takes its place; [a] becomes loose *)
Lemma rep_cut h s ch h' p a c l1 l2 : Rep h s ch -> ch p = l1 ++ (a, c) :: l2 ->
  (forall x, h_items h' x = if Nat.eqb x a then option_map (fun it => Item (i_kind it) (i_data it) (i_parent it) None None) (h_items h x)
     else if is (last_or l1 None) x then option_map (w_next (hd_or l2 None)) (h_items h x)
     else if is (hd_or l2 None) x then option_map (w_prev (last_or l1 None)) (h_items h x) else h_items h x) ->
  (forall q, h_nodes h' q = if Nat.eqb q p then option_map (fun n => Nod (hd_or (l1 ++ l2) None) (last_or (l1 ++ l2) None) (n_holder n)) (h_nodes h q) else h_nodes h q) ->
  h_ifresh h' = h_ifresh h -> h_nfresh h' = h_nfresh h ->
  Rep h' (Fam (f_new s) (f_nodes s) (set_kids (f_kids s) p (map snd (l1 ++ l2)))) (setch ch p (l1 ++ l2)).
Proof.
  intros R Ech Hm Hn F1 F2. pose proof (r_nodup _ _ _ R p) as Np. rewrite Ech in Np.
  assert (Ia : In (a, c) (ch p)) by (rewrite Ech; apply in_or_app; right; left; reflexivity). pose proof (rep_in _ _ _ R _ _ _ Ia) as Ip.
  destruct (rep_item _ _ _ R _ _ _ Ia) as (xa & ya & Ea).
  assert (Na : ~ In a (map fst (l1 ++ l2))). { rewrite map_app in Np |- *. cbn [map fst] in Np. apply NoDup_remove_2 in Np. exact Np. }
  assert (Na1 : ~ In a (map fst l1)) by (intros X; apply Na; rewrite map_app; apply in_or_app; auto).
  assert (Na2 : ~ In a (map fst l2)) by (intros X; apply Na; rewrite map_app; apply in_or_app; auto).
  assert (Nl : NoDup (map fst (l1 ++ l2))). { rewrite map_app in Np |- *. cbn [map fst] in Np. apply NoDup_remove_1 in Np. exact Np. }
  assert (Hd : forall q, h_nodes h' q <> None <-> h_nodes h q <> None).
  { intros q. rewrite Hn. destruct (Nat.eqb q p); [|tauto]. destruct (h_nodes h q); cbn; split; congruence. }
  assert (Hholder : forall n nd', h_nodes h' n = Some nd' -> exists nd, h_nodes h n = Some nd /\ n_holder nd' = n_holder nd).
  { intros n nd' E. rewrite Hn in E. destruct (Nat.eqb n p); [|eauto]. destruct (h_nodes h n); [|discriminate]. injection E as <-. eauto. }
  assert (HIn : forall q b d, In (b, d) (setch ch p (l1 ++ l2) q) -> In (b, d) (ch q)).
  { intros q b d I. destruct (Nat.eq_dec q p) as [->|Nq]; [|rewrite setch_other in I by exact Nq; auto].
    rewrite setch_same in I. rewrite Ech. apply in_app_or in I as [I|I]; apply in_or_app; [auto|right; right; auto]. }
  apply (rep_splice h s ch h' p l1 [(a, c)] [] l2); auto.
  - intros q n' Nq E. rewrite Hn in E. destruct (Nat.eqb_spec q p); [contradiction|]. eauto.
  - intros n' E. rewrite Hn, Nat.eqb_refl in E. destruct (h_nodes h p); [|discriminate]. injection E as <-. auto.
  - intros x it I E. rewrite Hm. destruct (Nat.eqb_spec x a); [subst; contradiction|]. cbn [app].
    rewrite (hd_ne l1 l2 x Nl I), E. destruct (is (last_or l1 None) x); reflexivity.
  - intros x it I E. rewrite Hm. destruct (Nat.eqb_spec x a); [subst; contradiction|]. rewrite app_nil_r.
    rewrite (last_ne l1 l2 x Nl I), E. destruct (is (hd_or l2 None) x); reflexivity.
  - exact I.
  - intros q x Nq I. rewrite Hm. destruct (Nat.eqb_spec x a).
    + exfalso. subst. apply (r_disj _ _ _ R q p a Nq I). eapply in_fst, Ia.
    + rewrite !is_ne; [reflexivity| |]; intros E; apply (r_disj _ _ _ R q p x Nq I); rewrite Ech, map_app; apply in_or_app; [right; right; apply hd_or_in, E|left; apply last_or_in, E].
  - intros b it E Nb Nq. cbn [app] in Nb. rewrite Hm in E. destruct (Nat.eqb_spec b a).
    + subst. rewrite Ea in E. injection E as <-. auto.
    + rewrite !is_ne in E; [|intros X; apply Nb; rewrite map_app; apply in_or_app; right; apply hd_or_in, X|intros X; apply Nb; rewrite map_app; apply in_or_app; left; apply last_or_in, X].
      apply (r_loose _ _ _ R b it E). intros q I. destruct (Nat.eq_dec q p) as [->|Ne]; [|exact (Nq q Ne I)].
      rewrite Ech, map_app in I. apply in_app_or in I as [I|[I|I]]; [|cbn in I; congruence|]; apply Nb; rewrite map_app; apply in_or_app; auto.
  - intros q b n I. cbn [app] in I. destruct (r_holder _ _ _ R q b n (HIn _ _ _ I)) as (nd & E1 & E2). rewrite Hn, E1. destruct (Nat.eqb n p); cbn; eauto.
  - intros n nd' b E Eh. destruct (Hholder n nd' E) as (nd & E1 & E2). rewrite E2 in Eh. destruct (r_held _ _ _ R n nd b E1 Eh) as (it & L & K & D).
    rewrite Hm, L. destruct (Nat.eqb b a); [eexists; split; [reflexivity|auto]|]. destruct (is _ b); [eexists; split; [reflexivity|auto]|]. destruct (is _ b); eexists; (split; [reflexivity|auto]).
  - intros b L. rewrite F1. apply (r_ifresh _ _ _ R). rewrite Hm in L. destruct (h_items h b); [discriminate|]. exfalso. apply L. destruct (Nat.eqb b a); [reflexivity|]. destruct (is _ b); [reflexivity|]. destruct (is _ b); reflexivity.
Qed.

(** [i] takes the place of [a] *)
Lemma rep_swap h s ch h' p a c i d l1 l2 : Rep h s ch -> ready h ch i d -> ch p = l1 ++ (a, c) :: l2 ->
  (forall x, h_items h' x = if Nat.eqb x a then option_map (fun it => Item (i_kind it) (i_data it) (i_parent it) None None) (h_items h x)
     else if Nat.eqb x i then Some (Item (fst d) (snd d) (Some p) (hd_or l2 None) (last_or l1 None))
     else if is (last_or l1 None) x then option_map (w_next (Some i)) (h_items h x)
     else if is (hd_or l2 None) x then option_map (w_prev (Some i)) (h_items h x) else h_items h x) ->
  (forall q, h_nodes h' q = if Nat.eqb q p then option_map (fun n => Nod (hd_or (l1 ++ [(i, d)]) None) (last_or ((i, d) :: l2) None) (n_holder n)) (h_nodes h q) else h_nodes h q) ->
  h_ifresh h' = h_ifresh h -> h_nfresh h' = h_nfresh h ->
  Rep h' (Fam (f_new s) (f_nodes s) (set_kids (f_kids s) p (map snd (l1 ++ (i, d) :: l2)))) (setch ch p (l1 ++ (i, d) :: l2)).
Proof.
  intros R Hr Ech Hm Hn F1 F2. pose proof (r_nodup _ _ _ R p) as Np. rewrite Ech in Np.
  assert (Ia : In (a, c) (ch p)) by (rewrite Ech; apply in_or_app; right; left; reflexivity).
  destruct (rep_item _ _ _ R _ _ _ Ia) as (xa & ya & Ea). destruct Hr as ((par & Ei) & Hout & Hold).
  assert (Nia : i <> a) by (intros ->; apply (Hout p); eapply in_fst, Ia).
  assert (Na : ~ In a (map fst (l1 ++ l2))). { rewrite map_app in Np |- *. cbn [map fst] in Np. apply NoDup_remove_2 in Np. exact Np. }
  assert (Na1 : ~ In a (map fst l1)) by (intros X; apply Na; rewrite map_app; apply in_or_app; auto).
  assert (Na2 : ~ In a (map fst l2)) by (intros X; apply Na; rewrite map_app; apply in_or_app; auto).
  assert (Ni : ~ In i (map fst (l1 ++ l2))). { intros X. apply (Hout p). rewrite Ech. rewrite map_app in X |- *. apply in_app_or in X as [X|X]; apply in_or_app; [auto|right; right; auto]. }
  assert (Ni1 : ~ In i (map fst l1)) by (intros X; apply Ni; rewrite map_app; apply in_or_app; auto).
  assert (Ni2 : ~ In i (map fst l2)) by (intros X; apply Ni; rewrite map_app; apply in_or_app; auto).
  set (m1 := fun x => if Nat.eqb x a then option_map (fun it => Item (i_kind it) (i_data it) (i_parent it) None None) (h_items h x)
     else if is (last_or l1 None) x then option_map (w_next (hd_or l2 None)) (h_items h x)
     else if is (hd_or l2 None) x then option_map (w_prev (last_or l1 None)) (h_items h x) else h_items h x).
  set (n1 := fun q => if Nat.eqb q p then option_map (fun n => Nod (hd_or (l1 ++ l2) None) (last_or (l1 ++ l2) None) (n_holder n)) (h_nodes h q) else h_nodes h q).
  set (h1 := Heap m1 n1 (h_ifresh h) (h_nfresh h)).
  assert (R1 : Rep h1 (Fam (f_new s) (f_nodes s) (set_kids (f_kids s) p (map snd (l1 ++ l2)))) (setch ch p (l1 ++ l2))).
  { eapply (rep_cut h s ch h1 p a c l1 l2); auto. }
  assert (Rd : ready h1 (setch ch p (l1 ++ l2)) i d).
  { split; [|split].
    - exists par. cbn [h1 h_items]. unfold m1. destruct (Nat.eqb_spec i a); [contradiction|]. rewrite !is_ne; [exact Ei|intros X; apply Ni2, hd_or_in, X|intros X; apply Ni1, last_or_in, X].
    - intros q. destruct (Nat.eq_dec q p) as [->|Nq]; [rewrite setch_same; exact Ni|rewrite setch_other by exact Nq; apply Hout].
    - intros K. destruct (Hold K) as (nd & E & Eh). cbn [h1 h_nodes]. unfold n1. rewrite E. destruct (Nat.eqb (snd d) p); cbn; eauto. }
  assert (Nl : NoDup (map fst (l1 ++ l2))). { rewrite map_app in Np |- *. cbn [map fst] in Np. apply NoDup_remove_1 in Np. exact Np. }
  assert (R2 : Rep h' (Fam (f_new s) (f_nodes s) (set_kids (set_kids (f_kids s) p (map snd (l1 ++ l2))) p (map snd (l1 ++ (i, d) :: l2)))) (setch (setch ch p (l1 ++ l2)) p (l1 ++ (i, d) :: l2))).
  { eapply (rep_insert h1 _ _ h' p i d l1 l2 R1); auto.
    - cbn [f_nodes]. eapply rep_in; eassumption.
    - apply setch_same.
    - intros x. rewrite Hm. cbn [h1 h_items]. unfold m1. destruct (Nat.eqb_spec x a).
      + subst x. destruct (Nat.eqb_spec a i); [congruence|]. rewrite !is_ne; [reflexivity|intros X; apply Na2, hd_or_in, X|intros X; apply Na1, last_or_in, X].
      + destruct (Nat.eqb_spec x i); [reflexivity|]. destruct (is (last_or l1 None) x) eqn:X1; [destruct (h_items h x); reflexivity|].
        destruct (is (hd_or l2 None) x); [destruct (h_items h x); reflexivity|reflexivity].
    - intros q. rewrite Hn. cbn [h1 h_nodes]. unfold n1. destruct (Nat.eqb q p); [destruct (h_nodes h q); reflexivity|reflexivity]. }
  assert (Ec : forall q, setch (setch ch p (l1 ++ l2)) p (l1 ++ (i, d) :: l2) q = setch ch p (l1 ++ (i, d) :: l2) q).
  { intros q. unfold setch. destruct (Nat.eqb q p); reflexivity. }
  assert (Ek : forall q, set_kids (set_kids (f_kids s) p (map snd (l1 ++ l2))) p (map snd (l1 ++ (i, d) :: l2)) q = set_kids (f_kids s) p (map snd (l1 ++ (i, d) :: l2)) q).
  { intros q. unfold set_kids. destruct (Nat.eqb q p); reflexivity. }
  revert R2. apply rep_ext; [intros; cbn; symmetry; apply Ek|reflexivity|reflexivity|intros; symmetry; apply Ec].
Qed.
