(** Moving all the children of a node. *)
From Verif Require Import Prelude ItemModel ItemSpec ItemExec ItemProofs ItemProofs2 ItemProofs3 ItemProofs4.
From Coq Require Import Lia.
Open Scope list_scope.

Definition same_what (a b : option item) : Prop :=
  match a, b with Some x, Some y => i_kind x = i_kind y /\ i_data x = i_data y | None, None => True | _, _ => False end.
Lemma same_what_refl a : same_what a a.
Proof. destruct a; cbn; auto. Qed.
Lemma same_what_trans a b c : same_what a b -> same_what b c -> same_what a c.
Proof. destruct a, b, c; cbn; try tauto. intros [? ?] [? ?]. split; congruence. Qed.

Lemma rep_move h s ch h' p q l1 l2 : Rep h s ch -> In p (f_nodes s) -> In q (f_nodes s) -> p <> q -> ch q = l1 ++ l2 ->
  seg (h_items h') q None (l1 ++ ch p ++ l2) None ->
  (forall x, ~ In x (map fst (ch q)) -> ~ In x (map fst (ch p)) -> h_items h' x = h_items h x) ->
  (forall x, same_what (h_items h x) (h_items h' x)) ->
  (forall m, h_nodes h' m = if Nat.eqb m p then option_map (fun n => Nod None None (n_holder n)) (h_nodes h m)
     else if Nat.eqb m q then option_map (fun n => Nod (hd_or (l1 ++ ch p ++ l2) None) (last_or (l1 ++ ch p ++ l2) None) (n_holder n)) (h_nodes h m) else h_nodes h m) ->
  h_ifresh h' = h_ifresh h -> h_nfresh h' = h_nfresh h ->
  Rep h' (Fam (f_new s) (f_nodes s) (set_kids (set_kids (f_kids s) q (map snd (l1 ++ ch p ++ l2))) p [])) (setch (setch ch q (l1 ++ ch p ++ l2)) p []).
Proof.
  intros R Ip Iq Npq Eq Sg Hx Hw Hn F1 F2. set (l := l1 ++ ch p ++ l2) in *. set (ch' := setch (setch ch q l) p []).
  assert (Cp : ch' p = []) by (apply setch_same). assert (Cq : ch' q = l) by (unfold ch'; rewrite setch_other by auto; apply setch_same).
  assert (Co : forall m, m <> p -> m <> q -> ch' m = ch m) by (intros m N1 N2; unfold ch'; rewrite !setch_other by auto; reflexivity).
  assert (Il : forall x, In x (map fst l) <-> In x (map fst (ch q)) \/ In x (map fst (ch p))).
  { intros x. unfold l. rewrite Eq, !map_app, !in_app_iff. tauto. }
  assert (Il' : forall e, In e l <-> In e (ch q) \/ In e (ch p)). { intros e. unfold l. rewrite Eq, !in_app_iff. tauto. }
  assert (Hd : forall m, h_nodes h' m <> None <-> h_nodes h m <> None).
  { intros m. rewrite Hn. destruct (Nat.eqb m p); [destruct (h_nodes h m); cbn; split; congruence|]. destruct (Nat.eqb m q); [destruct (h_nodes h m); cbn; split; congruence|tauto]. }
  assert (Hh : forall m nd', h_nodes h' m = Some nd' -> exists nd, h_nodes h m = Some nd /\ n_holder nd' = n_holder nd).
  { intros m nd' E. rewrite Hn in E. destruct (Nat.eqb m p); [destruct (h_nodes h m); [injection E as <-; eauto|discriminate]|]. destruct (Nat.eqb m q); [destruct (h_nodes h m); [injection E as <-; eauto|discriminate]|eauto]. }
  assert (Hlive : forall x, h_items h' x <> None <-> h_items h x <> None). { intros x. specialize (Hw x). destruct (h_items h x), (h_items h' x); cbn in Hw; try contradiction; split; congruence. }
  split; cbn [f_nodes f_kids]; fold ch'.
  - intros m. rewrite Hd. apply R.
  - intros m Im. unfold set_kids. destruct (Nat.eqb_spec m p) as [->|N1]; [rewrite Cp; reflexivity|]. destruct (Nat.eqb_spec m q) as [->|N2]; [rewrite Cq; reflexivity|]. rewrite Co by assumption. apply R, Im.
  - intros m Nm. rewrite Co; [apply R, Nm| |]; intros ->; contradiction.
  - intros m n E. rewrite Hn in E. destruct (Nat.eqb_spec m p) as [->|N1]; [rewrite Cp; destruct (h_nodes h p); [injection E as <-; auto|discriminate]|].
    destruct (Nat.eqb_spec m q) as [->|N2]; [rewrite Cq; destruct (h_nodes h q); [injection E as <-; auto|discriminate]|]. rewrite Co by assumption. apply R, E.
  - intros m. destruct (Nat.eq_dec m p) as [->|N1]; [rewrite Cp; exact I|]. destruct (Nat.eq_dec m q) as [->|N2]; [rewrite Cq; exact Sg|]. rewrite Co by assumption.
    eapply seg_ext; [|apply R]. intros x Ix. apply Hx; intros J; [exact (r_disj _ _ _ R m q x N2 Ix J)|exact (r_disj _ _ _ R m p x N1 Ix J)].
  - intros m. destruct (Nat.eq_dec m p) as [->|N1]; [rewrite Cp; constructor|]. destruct (Nat.eq_dec m q) as [->|N2]; [rewrite Cq|rewrite Co by assumption; apply R].
    unfold l. rewrite !map_app. pose proof (r_nodup _ _ _ R q) as Nq. rewrite Eq, map_app in Nq. apply NoDup_app_inv in Nq as (Q1 & Q2 & Q3).
    assert (Dpq : forall x, In x (map fst (ch p)) -> ~ In x (map fst l1) /\ ~ In x (map fst l2)).
    { intros x Ix. pose proof (r_disj _ _ _ R p q x Npq Ix) as X. rewrite Eq, map_app, in_app_iff in X. tauto. }
    apply NoDup_app_intro; [exact Q1|apply NoDup_app_intro; [apply R|exact Q2|intros x Ix; apply Dpq, Ix]|]. intros x I1 I2. apply in_app_or in I2 as [I2|I2]; [exact (proj1 (Dpq x I2) I1)|exact (Q3 x I1 I2)].
  - assert (X : forall m x, m <> q -> In x (map fst (ch' m)) -> In x (map fst (ch m)) /\ m <> p).
    { intros m x Nm Ix. destruct (Nat.eq_dec m p) as [->|N1]; [rewrite Cp in Ix; destruct Ix|]. rewrite Co in Ix by assumption. auto. }
    intros m1 m2 a Nm I1 I2. destruct (Nat.eq_dec m1 q) as [->|N1], (Nat.eq_dec m2 q) as [->|N2]; [contradiction| | |].
    + destruct (X m2 a N2 I2) as [J2 Np2]. rewrite Cq in I1. apply Il in I1 as [I1|I1]; [exact (r_disj _ _ _ R q m2 a Nm I1 J2)|exact (r_disj _ _ _ R p m2 a (fun e => Np2 (eq_sym e)) I1 J2)].
    + destruct (X m1 a N1 I1) as [J1 Np1]. rewrite Cq in I2. apply Il in I2 as [I2|I2]; [exact (r_disj _ _ _ R m1 q a N1 J1 I2)|exact (r_disj _ _ _ R m1 p a Np1 J1 I2)].
    + destruct (X m1 a N1 I1) as [J1 _], (X m2 a N2 I2) as [J2 _]. exact (r_disj _ _ _ R m1 m2 a Nm J1 J2).
  - intros a it E Na. assert (Nq : ~ In a (map fst (ch q)) /\ ~ In a (map fst (ch p))).
    { pose proof (Na q) as X. rewrite Cq, Il in X. tauto. }
    rewrite Hx in E by tauto. apply (r_loose _ _ _ R a it E). intros m. destruct (Nat.eq_dec m p) as [->|N1]; [tauto|]. destruct (Nat.eq_dec m q) as [->|N2]; [tauto|]. rewrite <- Co by assumption. apply Na.
  - intros m a n Ia. assert (X : exists m', In (a, (KNode, n)) (ch m')).
    { destruct (Nat.eq_dec m p) as [->|N1]; [rewrite Cp in Ia; destruct Ia|]. destruct (Nat.eq_dec m q) as [->|N2]; [rewrite Cq in Ia; apply Il' in Ia as [Ia|Ia]; eauto|]. rewrite Co in Ia by assumption. eauto. }
    destruct X as (m' & X). destruct (r_holder _ _ _ R m' a n X) as (nd & E1 & E2). rewrite Hn, E1. destruct (Nat.eqb n p); [cbn; eauto|]. destruct (Nat.eqb n q); cbn; eauto.
  - intros n nd' a E Eh. destruct (Hh n nd' E) as (nd & E1 & E2). rewrite E2 in Eh. destruct (r_held _ _ _ R n nd a E1 Eh) as (it & X1 & X2 & X3).
    specialize (Hw a). rewrite X1 in Hw. destruct (h_items h' a) as [it'|]; [|destruct Hw]. destruct Hw as [W1 W2]. exists it'. split; [reflexivity|split; congruence].
  - intros a L. rewrite F1. apply R. apply Hlive, L.
  - intros m. rewrite F2. apply R.
  - rewrite F2. apply R.
Qed.

(** ** axl_node_transfer_childs *)
Lemma seg_last m p pr r a c n : seg m p pr (r ++ [(a, c)]) n -> m a = Some (Item (fst c) (snd c) (Some p) n (last_or r pr)).
Proof. intros S. apply seg_app in S as [_ S]. cbn [seg hd_or] in S. tauto. Qed.
Lemma seg_relast m m' p pr r a c n n' : NoDup (map fst (r ++ [(a, c)])) -> seg m p pr (r ++ [(a, c)]) n ->
  (forall x, In x (map fst r) -> m' x = m x) -> m' a = Some (Item (fst c) (snd c) (Some p) n' (last_or r pr)) -> seg m' p pr (r ++ [(a, c)]) n'.
Proof.
  intros N S H1 H2. apply seg_app in S as [S _]. apply seg_app. cbn [hd_or seg] in *. split; [eapply seg_ext; eassumption|auto].
Qed.

Lemma transfer_loop_ok h s ch p q : Rep h s ch -> In p (f_nodes s) -> In q (f_nodes s) -> p <> q ->
  forall rest don hk nx fuel, ch p = don ++ rest -> length rest <= fuel ->
  (nx = None \/ (ch q = [] /\ (exists e, don = [e]) /\ nx = hd_or rest None)) ->
  seg (h_items hk) q None (ch q ++ don) nx ->
  (forall x, ~ In x (map fst (ch q)) -> ~ In x (map fst don) -> h_items hk x = h_items h x) ->
  (forall x, same_what (h_items h x) (h_items hk x)) ->
  (forall m, h_nodes hk m = if Nat.eqb m q then option_map (fun n => Nod (hd_or (ch q ++ don) None) (last_or (ch q ++ don) None) (n_holder n)) (h_nodes h m) else h_nodes h m) ->
  h_ifresh hk = h_ifresh h -> h_nfresh hk = h_nfresh h ->
  exists h', transfer_loop fuel hk q (hd_or rest None) = Ok h' /\
    seg (h_items h') q None (ch q ++ ch p) None /\
    (forall x, ~ In x (map fst (ch q)) -> ~ In x (map fst (ch p)) -> h_items h' x = h_items h x) /\
    (forall x, same_what (h_items h x) (h_items h' x)) /\
    (forall m, h_nodes h' m = if Nat.eqb m q then option_map (fun n => Nod (hd_or (ch q ++ ch p) None) (last_or (ch q ++ ch p) None) (n_holder n)) (h_nodes h m) else h_nodes h m) /\
    h_ifresh h' = h_ifresh h /\ h_nfresh h' = h_nfresh h.
Proof.
  intros R Ip Iq Npq. induction rest as [|[i c] rest IH]; intros don hk nx fuel Ep Lf Hnx Sg Hx Hw Hn F1 F2.
  - rewrite app_nil_r in Ep. cbn [hd_or]. destruct fuel; cbn [transfer_loop]; (exists hk; split; [reflexivity|]); rewrite Ep;
      (assert (nx = None) as -> by (destruct Hnx as [->|(_ & _ & ->)]; reflexivity)); repeat split; auto.
  - cbn [length] in Lf. destruct fuel as [|fuel]; [lia|]. cbn [hd_or transfer_loop]. unfold rd_i.
    pose proof (r_nodup _ _ _ R p) as Np. rewrite Ep in Np. destruct (nodup_mid _ _ _ _ Np) as (N1 & N2 & D).
    assert (Ii : In (i, c) (ch p)) by (rewrite Ep; apply in_or_app; right; left; reflexivity).
    assert (Niq : ~ In i (map fst (ch q))) by (intros X; exact (r_disj _ _ _ R p q i Npq (in_fst _ _ _ Ii) X)).
    assert (Ei : h_items h i = Some (Item (fst c) (snd c) (Some p) (hd_or rest None) (last_or don None))).
    { pose proof (r_seg _ _ _ R p) as S. rewrite Ep in S. exact (seg_mid _ _ _ _ _ _ _ _ S). }
    assert (Eik : h_items hk i = h_items h i) by (apply Hx; assumption). rewrite Eik, Ei. cbn [of_option bind i_next].
    destruct (rep_node _ _ _ R q Iq) as (qd & Eqd).
    assert (Eqk : h_nodes hk q = Some (Nod (hd_or (ch q ++ don) None) (last_or (ch q ++ don) None) (n_holder qd))) by (rewrite Hn, Nat.eqb_refl, Eqd; reflexivity).
    assert (Nl : NoDup (map fst (ch q ++ don))).
    { rewrite map_app in Np |- *. apply NoDup_app_inv in Np as (P1 & _ & _). apply NoDup_app_intro; [apply R|exact P1|]. intros x Iq' Id. apply (r_disj _ _ _ R q p x (fun e => Npq (eq_sym e)) Iq'). rewrite Ep, map_app. apply in_or_app. auto. }
    unfold set_child_ref. erewrite (wr_i_ok hk i) by (rewrite Eik; exact Ei). cbn [bind]. unfold rd_n. cbn [h_nodes]. rewrite Eqk. cbn [of_option bind n_first].
    assert (Ep' : ch p = (don ++ [(i, c)]) ++ rest) by (rewrite <- app_assoc; exact Ep).
    destruct (snoc_cases (ch q ++ don)) as [El|(r & [l d] & El)].
    + rewrite El in *. cbn [hd_or last_or] in *. apply app_eq_nil in El as [Eq Ed]. subst don.
      erewrite wr_n_ok by (cbn [h_nodes]; exact Eqk). cbn [bind]. erewrite wr_n_ok by (cbn [h_nodes]; apply upd_same). cbn [bind].
      match goal with |- exists h', transfer_loop _ ?hh _ _ = _ /\ _ => apply (IH [(i, c)] hh (hd_or rest None) fuel) end; cbn [h_items h_nodes h_ifresh h_nfresh]; auto.
      * lia.
      * right. eauto.
      * rewrite Eq. cbn [app seg]. rewrite upd_same. auto.
      * intros x X1 X2. rewrite upd_other by (intros ->; apply X2; left; reflexivity). apply Hx; auto.
      * intros x. eapply same_what_trans; [apply Hw|]. unfold upd. destruct (Nat.eqb_spec x i); [subst; rewrite Eik, Ei; cbn; auto|apply same_what_refl].
      * intros m. rewrite Eq. cbn [app hd_or last_or]. unfold upd. rewrite Hn. destruct (Nat.eqb_spec m q); [subst; rewrite Eqd|]; reflexivity.
    + assert (Il : In (l, d) (ch q ++ don)) by (rewrite El; apply in_or_app; right; left; reflexivity).
      assert (Il2 : In l (map fst (ch q)) \/ In l (map fst don)) by (apply in_app_or in Il as [Il|Il]; apply in_fst in Il; auto).
      assert (Nil : l <> i). { intros ->. apply in_app_or in Il as [Il|Il]; [exact (Niq (in_fst _ _ _ Il))|exact (N1 (in_fst _ _ _ Il))]. }
      assert (Hf : exists f, hd_or (ch q ++ don) None = Some f) by (rewrite El; destruct r as [|[? ?] ?]; cbn; eauto). destruct Hf as (f & Hf). rewrite Hf.
      rewrite El in *. rewrite last_or_snoc in *. cbn [n_last deref of_option bind]. pose proof (seg_last _ _ _ _ _ _ _ Sg) as Elk.
      erewrite wr_i_ok by (cbn [h_items]; rewrite upd_other by exact Nil; exact Elk). cbn [bind].
      erewrite wr_i_ok by (cbn [h_items]; rewrite upd_other by auto; apply upd_same). cbn [bind].
      erewrite wr_i_ok by (cbn [h_items]; apply upd_same). cbn [bind].
      erewrite wr_n_ok by (cbn [h_nodes]; exact Eqk). cbn [bind].
      match goal with |- exists h', transfer_loop _ ?hh _ _ = _ /\ _ => apply (IH (don ++ [(i, c)]) hh None fuel) end; cbn [h_items h_nodes h_ifresh h_nfresh]; auto.
      * lia.
      * rewrite app_assoc, El. apply seg_app. cbn [seg hd_or]. split.
        -- eapply (seg_relast (h_items hk)); [exact Nl|exact Sg| |].
           ++ intros x X. rewrite map_app in Nl. cbn [map fst] in Nl. apply NoDup_remove_2 in Nl. rewrite app_nil_r in Nl.
              assert (x <> l) by (intros ->; contradiction). assert (x <> i).
              { intros ->. assert (Y : In i (map fst (ch q ++ don))) by (rewrite El, map_app; apply in_or_app; auto). rewrite map_app in Y. apply in_app_or in Y as [Y|Y]; contradiction. }
              rewrite !upd_other by assumption. reflexivity.
           ++ rewrite !(upd_other _ i) by assumption. rewrite upd_same. reflexivity.
        -- rewrite last_or_snoc. rewrite upd_same. auto.
      * intros x X1 X2. rewrite map_app, in_app_iff in X2. cbn [map fst In] in X2.
        assert (x <> i) by (intros ->; tauto). assert (x <> l) by (intros ->; tauto).
        rewrite !upd_other by assumption. apply Hx; tauto.
      * intros x. eapply same_what_trans; [apply Hw|]. unfold upd. destruct (Nat.eqb_spec x i); [subst; rewrite Eik, Ei; cbn; auto|]. destruct (Nat.eqb_spec x l); [subst; rewrite Elk; cbn; auto|apply same_what_refl].
      * intros m. rewrite app_assoc, El, last_or_snoc. unfold upd. rewrite Hn. destruct (Nat.eqb_spec m q); [subst; rewrite Eqd|reflexivity]. cbn [option_map]. unfold w_last. cbn [n_first n_holder].
        rewrite !hd_or_app. cbn [hd_or]. destruct r as [|[? ?] ?]; reflexivity.
Qed.
Lemma chain_length h s ch p : Rep h s ch -> length (ch p) <= h_ifresh h.
Proof.
  intros R. enough (X : length (map fst (ch p)) <= length (seq 0 (h_ifresh h))) by (rewrite map_length, seq_length in X; exact X). apply NoDup_incl_length; [apply R|]. intros x I. apply fst_in in I as (c & I).
  apply in_seq. destruct (rep_item _ _ _ R _ _ _ I) as (y & z & E). assert (x < h_ifresh h) by (apply (r_ifresh _ _ _ R); congruence). lia.
Qed.
Lemma rep_transfer h s ch p q : Rep h s ch -> In p (f_nodes s) -> In q (f_nodes s) -> p <> q ->
  exists h' ch', transfer_childs h p q = Ok h' /\ Rep h' (Fam (f_new s) (f_nodes s) (set_kids (set_kids (f_kids s) q (f_kids s q ++ f_kids s p)) p [])) ch'.
Proof.
  intros R Ip Iq Npq. destruct (rep_node _ _ _ R p Ip) as (pd & Epd). destruct (rep_node _ _ _ R q Iq) as (qd & Eqd). destruct (r_ends _ _ _ R p pd Epd) as [Ef El]. destruct (r_ends _ _ _ R q qd Eqd) as [Eqf Eql].
  unfold transfer_childs, rd_n. rewrite Epd. cbn [of_option bind]. rewrite Ef.
  destruct (transfer_loop_ok h s ch p q R Ip Iq Npq (ch p) [] h None (h_ifresh h)) as (h1 & E1 & S1 & X1 & W1 & N1 & F1 & F2); auto.
  - eapply chain_length, R.
  - rewrite app_nil_r. apply R.
  - intros x. apply same_what_refl.
  - intros m. rewrite app_nil_r. destruct (Nat.eqb_spec m q); [subst; rewrite Eqd|reflexivity]. cbn [option_map]. rewrite <- Eqf, <- Eql. destruct qd; reflexivity.
  - rewrite E1. cbn [bind]. assert (Epd' : h_nodes h1 p = Some pd) by (rewrite N1; destruct (Nat.eqb_spec p q); [contradiction|exact Epd]).
    erewrite wr_n_ok by exact Epd'. cbn [bind]. erewrite wr_n_ok by (cbn [h_nodes]; apply upd_same). eexists _, _. split; [reflexivity|].
    rewrite (r_kids _ _ _ R p Ip), (r_kids _ _ _ R q Iq), <- map_app.
    assert (R' : Rep (Heap (h_items h1) (upd (upd (h_nodes h1) p (w_first None pd)) p (w_last None (w_first None pd))) (h_ifresh h1) (h_nfresh h1))
      (Fam (f_new s) (f_nodes s) (set_kids (set_kids (f_kids s) q (map snd (ch q ++ ch p ++ []))) p [])) (setch (setch ch q (ch q ++ ch p ++ [])) p [])).
    { eapply (rep_move h s ch _ p q (ch q) []); auto; cbn [h_items h_nodes h_ifresh h_nfresh].
      - rewrite app_nil_r. reflexivity.
      - rewrite app_nil_r. exact S1.
      - intros m. rewrite app_nil_r. unfold upd. destruct (Nat.eqb_spec m p); [subst; rewrite Epd; reflexivity|]. apply N1. }
    rewrite app_nil_r in R'. exact R'.
Qed.

(** ** axl_item_transfer_childs_after *)
Lemma transfer_after_ok q aux : forall rest m0 h i c p pr n fuel, length rest < fuel ->
  NoDup (map fst ((i, c) :: rest)) -> (forall a, aux = Some a -> ~ In a (map fst ((i, c) :: rest)) /\ h_items h a <> None) ->
  h_items h i = Some (Item (fst c) (snd c) m0 (hd_or rest None) pr) -> seg (h_items h) p (Some i) rest None -> n = hd_or rest None ->
  exists h' l, transfer_after_loop fuel h (Some q) aux i = Ok (h', l) /\ last_or ((i, c) :: rest) None = Some l /\
    seg (h_items h') q pr ((i, c) :: rest) aux /\
    (forall x, ~ In x (map fst ((i, c) :: rest)) -> h_items h' x = if is aux x then option_map (w_prev (Some l)) (h_items h x) else h_items h x) /\
    (forall x, same_what (h_items h x) (h_items h' x)) /\ h_nodes h' = h_nodes h /\ h_ifresh h' = h_ifresh h /\ h_nfresh h' = h_nfresh h.
Proof.
  induction rest as [|[j cj] rest IH]; intros m0 h i c p pr n fuel Lf Nd Ha Ei Sg En; (destruct fuel as [|fuel]; [cbn in Lf; lia|]); cbn [transfer_after_loop].
  - rewrite (wr_i_ok _ _ _ _ Ei). cbn [bind h_items]. unfold rd_i. cbn [h_items]. rewrite upd_same. cbn [of_option bind w_parent i_next hd_or].
    erewrite wr_i_ok by (cbn [h_items]; apply upd_same). cbn [bind]. destruct aux as [a|].
    + destruct (Ha a eq_refl) as [Na La]. destruct (h_items h a) as [it|] eqn:Ea; [|contradiction]. assert (a <> i) by (intros ->; apply Na; left; reflexivity).
      erewrite wr_i_ok by (cbn [h_items]; rewrite !upd_other by assumption; exact Ea). cbn [bind]. eexists _, i. split; [reflexivity|]. split; [reflexivity|].
      cbn [h_items h_nodes h_ifresh h_nfresh]. split; [cbn [seg hd_or]; rewrite upd_other by auto; rewrite upd_same; auto|]. split; [|split; [|auto]].
      * intros x Nx. assert (x <> i) by (intros ->; apply Nx; left; reflexivity). unfold upd. cbn [is]. destruct (Nat.eqb_spec x a); [subst; rewrite Ea; reflexivity|]. destruct (Nat.eqb_spec x i); [contradiction|reflexivity].
      * intros x. unfold upd. destruct (Nat.eqb_spec x a); [subst; rewrite Ea; cbn; auto|]. destruct (Nat.eqb_spec x i); [subst; rewrite Ei; cbn; auto|apply same_what_refl].
    + cbn [bind]. eexists _, i. split; [reflexivity|]. split; [reflexivity|].
      cbn [h_items h_nodes h_ifresh h_nfresh]. split; [cbn [seg hd_or]; rewrite upd_same; auto|]. split; [|split; [|auto]].
      * intros x Nx. assert (x <> i) by (intros ->; apply Nx; left; reflexivity). rewrite !upd_other by assumption. reflexivity.
      * intros x. unfold upd. destruct (Nat.eqb_spec x i); [subst; rewrite Ei; cbn; auto|apply same_what_refl].
  - rewrite (wr_i_ok _ _ _ _ Ei). cbn [bind h_items]. unfold rd_i. cbn [h_items]. rewrite upd_same. cbn [of_option bind w_parent i_next hd_or].
    cbn [map fst] in Nd. inversion Nd as [|? ? Ni Nd']; subst. cbn [length] in Lf. cbn [seg] in Sg. destruct Sg as [Ej Sg].
    assert (Nij : j <> i) by (intros ->; apply Ni; left; reflexivity).
    match goal with |- exists h' l, transfer_after_loop _ ?hh _ _ _ = _ /\ _ =>
      destruct (IH (Some p) hh j cj p (Some i) (hd_or rest None) fuel) as (h' & l & E1 & E2 & E3 & E4 & E5 & E6 & E7 & E8) end; cbn [h_items h_nodes h_ifresh h_nfresh]; auto.
    + lia.
    + intros a Ea. destruct (Ha a Ea) as [Na La]. cbn [map fst In] in *. split; [tauto|]. rewrite upd_other by (intros ->; tauto). exact La.
    + rewrite upd_other by assumption. exact Ej.
    + eapply seg_ext; [|exact Sg]. intros x Ix. apply upd_other. intros ->. apply Ni. right. exact Ix.
    + exists h', l. split; [exact E1|]. split; [exact E2|]. cbn [h_items] in *. split; [|split; [|split; [|auto]]].
      * cbn [seg] in E3 |- *. cbn [hd_or]. split; [|exact E3]. rewrite E4 by exact Ni. rewrite upd_same.
        destruct (is aux i) eqn:Ia; [|reflexivity]. apply is_eq in Ia. destruct (Ha i Ia) as [Na _]. exfalso. apply Na. left. reflexivity.
      * intros x Nx. cbn [map fst In] in Nx, E4. rewrite E4 by tauto. rewrite upd_other by (intros ->; tauto). reflexivity.
      * intros x. eapply same_what_trans; [|apply E5]. unfold upd. destruct (Nat.eqb_spec x i); [subst; rewrite Ei; cbn; auto|apply same_what_refl].
Qed.
Lemma seg_last_or m p pr l n a : seg m p pr l n -> last_or l None = Some a -> exists k d y, m a = Some (Item k d (Some p) n y).
Proof.
  intros S E. destruct (snoc_cases l) as [->|(r & [u cu] & ->)]; [discriminate|]. rewrite last_or_snoc in E. injection E as <-. rewrite (seg_last _ _ _ _ _ _ _ S). eauto.
Qed.
Lemma rep_transfer_after h s ch p q r cr l1 l2 : Rep h s ch -> In p (f_nodes s) -> p <> q -> ch q = l1 ++ (r, cr) :: l2 ->
  exists h' ch', transfer_childs_after h p r = Ok h' /\ Rep h' (Fam (f_new s) (f_nodes s) (set_kids (set_kids (f_kids s) q (map snd l1 ++ cr :: f_kids s p ++ map snd l2)) p [])) ch'.
Proof.
  intros R Ip Npq Eq. assert (Ir : In (r, cr) (ch q)) by (rewrite Eq; apply in_or_app; right; left; reflexivity). pose proof (rep_in _ _ _ R _ _ _ Ir) as Iq.
  destruct (rep_node _ _ _ R p Ip) as (pd & Epd). destruct (rep_node _ _ _ R q Iq) as (qd & Eqd). destruct (r_ends _ _ _ R p pd Epd) as [Ef El]. destruct (r_ends _ _ _ R q qd Eqd) as [Eqf Eql].
  pose proof (r_seg _ _ _ R q) as Sq. rewrite Eq in Sq. pose proof (seg_mid _ _ _ _ _ _ _ _ Sq) as Er.
  pose proof (r_nodup _ _ _ R q) as Nq. rewrite Eq in Nq. destruct (nodup_mid _ _ _ _ Nq) as (N1 & N2 & D).
  unfold transfer_childs_after, rd_n. rewrite Epd. cbn [of_option bind]. rewrite Ef, (r_kids _ _ _ R p Ip). destruct (ch p) as [|[i c] rest] eqn:Ep.
  - cbn [hd_or]. exists h, ch. split; [reflexivity|]. refine (rep_ext _ _ _ _ _ _ _ _ _ R); [|reflexivity|reflexivity|reflexivity]. intros m. cbn [f_kids map app]. unfold set_kids.
    destruct (Nat.eqb_spec m p); [subst|]. { symmetry. pose proof (r_kids _ _ _ R p Ip) as X. rewrite Ep in X. exact X. }
    destruct (Nat.eqb_spec m q); [subst|reflexivity]. symmetry. pose proof (r_kids _ _ _ R q Iq) as X. rewrite Eq, map_app in X. exact X.
  - cbn [hd_or]. unfold rd_i. rewrite Er. cbn [of_option bind i_next i_parent].
    pose proof (r_seg _ _ _ R p) as Sp. rewrite Ep in Sp. cbn [seg] in Sp. destruct Sp as [Ei Sp]. pose proof (r_nodup _ _ _ R p) as Np. rewrite Ep in Np.
    assert (Dpq : forall x, In x (map fst ((i, c) :: rest)) -> ~ In x (map fst (ch q))) by (intros x; pose proof (r_disj _ _ _ R p q x Npq) as X; rewrite Ep in X; exact X).
    assert (Nri : r <> i) by (intros ->; exact (Dpq i (or_introl eq_refl) (in_fst _ _ _ Ir))).
    rewrite (wr_i_ok _ _ _ _ Er). cbn [bind]. erewrite wr_i_ok by (cbn [h_items]; rewrite upd_other by auto; exact Ei). cbn [bind h_ifresh h_items h_nodes h_nfresh].
    assert (Dx : forall x, In x (map fst rest) -> x <> r /\ x <> i).
    { intros x Ix. split; intros ->; [exact (Dpq r (or_intror Ix) (in_fst _ _ _ Ir))|]. cbn [map fst] in Np. inversion Np; contradiction. }
    match goal with |- context [transfer_after_loop ?f ?hh _ _ _] =>
      destruct (transfer_after_ok q (hd_or l2 None) rest (Some p) hh i c p (Some r) (hd_or rest None) f) as (h2 & l & E1 & E2 & E3 & E4 & E5 & E6 & E7 & E8) end; cbn [h_items]; auto.
    + pose proof (chain_length h s ch p R) as L. rewrite Ep in L. cbn [length] in L. exact L.
    + intros a Ea. pose proof (hd_or_in _ _ Ea) as Ia. assert (Iaq : In a (map fst (ch q))) by (rewrite Eq, map_app; apply in_or_app; right; right; exact Ia).
      split; [intros X; exact (Dpq a X Iaq)|]. assert (a <> i) by (intros ->; exact (Dpq i (or_introl eq_refl) Iaq)). assert (a <> r) by (intros ->; contradiction).
      rewrite !upd_other by assumption. apply fst_in in Iaq as (ca & Ia'). destruct (rep_item _ _ _ R _ _ _ Ia') as (? & ? & ->). discriminate.
    + rewrite upd_same. reflexivity.
    + eapply seg_ext; [|exact Sp]. intros x Ix. destruct (Dx x Ix). rewrite !upd_other by assumption. reflexivity.
    + rewrite E1. cbn [bind h_items h_nodes h_ifresh h_nfresh] in *.
      assert (Fin : forall n', (forall m, n' m = if Nat.eqb m p then option_map (fun n => Nod None None (n_holder n)) (h_nodes h m)
          else if Nat.eqb m q then option_map (fun n => Nod (n_first n) (match l2 with [] => Some l | _ => n_last n end) (n_holder n)) (h_nodes h m) else h_nodes h m) ->
        Rep (Heap (h_items h2) n' (h_ifresh h2) (h_nfresh h2)) (Fam (f_new s) (f_nodes s) (set_kids (set_kids (f_kids s) q (map snd l1 ++ cr :: map snd ((i, c) :: rest) ++ map snd l2)) p []))
          (setch (setch ch q ((l1 ++ [(r, cr)]) ++ ((i, c) :: rest) ++ l2)) p [])).
      { intros n' Hn. replace (map snd l1 ++ cr :: map snd ((i, c) :: rest) ++ map snd l2) with (map snd ((l1 ++ [(r, cr)]) ++ ((i, c) :: rest) ++ l2)) by (rewrite !map_app, <- app_assoc; reflexivity).
        pose proof (rep_move h s ch (Heap (h_items h2) n' (h_ifresh h2) (h_nfresh h2)) p q (l1 ++ [(r, cr)]) l2 R Ip Iq Npq) as Mv. rewrite Ep in Mv. cbn [h_items h_nodes h_ifresh h_nfresh] in Mv.
        apply Mv; [rewrite <- app_assoc; exact Eq| | | | |exact E7|exact E8]; clear Mv.
        - change (r, cr) with (r, cr). apply seg_app in Sq as [Sq1 Sq]. cbn [hd_or seg] in Sq1, Sq. destruct Sq as [_ Sq2]. apply seg_app. split; [apply seg_app; split|apply seg_app; split].
          + cbn [hd_or]. eapply seg_ext; [|exact Sq1]. intros x Ix. assert (Ixq : In x (map fst (ch q))) by (rewrite Eq, map_app; apply in_or_app; auto).
            rewrite E4 by (intros X; exact (Dpq x X Ixq)). rewrite is_ne by (intros X; exact (D x Ix (hd_or_in _ _ X))).
            rewrite !upd_other; [reflexivity|intros ->; contradiction|intros ->; exact (Dpq i (or_introl eq_refl) Ixq)].
          + cbn [seg hd_or app]. split; [|exact I]. rewrite E4 by (intros X; exact (Dpq r X (in_fst _ _ _ Ir))). rewrite is_ne by (intros X; exact (N2 (hd_or_in _ _ X))).
            rewrite upd_other by auto. rewrite upd_same. reflexivity.
          + rewrite last_or_snoc. exact E3.
          + rewrite last_or_snoc. cbn [last_or] in E2 |- *. assert (X : last_or rest (Some i) = Some l) by exact E2. rewrite X.
            rewrite map_app in Nq. apply NoDup_app_inv in Nq as (_ & Nq & _). cbn [map fst] in Nq. inversion Nq as [|? ? _ Nq2]; subst.
            eapply seg_prev; [exact Nq2|exact Sq2|]. intros x it Ix Ex. assert (Ixq : In x (map fst (ch q))) by (rewrite Eq, map_app; apply in_or_app; right; right; auto).
            rewrite E4 by (intros Y; exact (Dpq x Y Ixq)). rewrite !upd_other; [|intros ->; contradiction|intros ->; exact (Dpq i (or_introl eq_refl) Ixq)]. rewrite Ex. destruct (is _ x); reflexivity.
        - intros x X1 X2. rewrite E4 by exact X2. rewrite is_ne by (intros Y; apply X1; rewrite Eq, map_app; apply in_or_app; right; right; exact (hd_or_in _ _ Y)).
          rewrite !upd_other; [reflexivity|intros ->; exact (X1 (in_fst _ _ _ Ir))|intros ->; apply X2; left; reflexivity].
        - intros x. eapply same_what_trans; [|apply E5]. unfold upd. destruct (Nat.eqb_spec x i); [subst; rewrite Ei; cbn; auto|]. destruct (Nat.eqb_spec x r); [subst; rewrite Er; cbn; auto|apply same_what_refl].
        - intros m. rewrite Hn. destruct (Nat.eqb m p); [reflexivity|]. destruct (Nat.eqb_spec m q); [subst; rewrite Eqd|reflexivity]. cbn [option_map]. f_equal. rewrite Eqf, Eql, Eq. f_equal.
          + rewrite !hd_or_app. destruct l1 as [|[? ?] ?]; reflexivity.
          + rewrite !last_or_app. cbn [last_or]. cbn [last_or] in E2. destruct l2 as [|[? ?] ?]; [cbn [last_or]; symmetry; exact E2|reflexivity]. }
      assert (Epd2 : h_nodes h2 p = Some pd) by (rewrite E6; exact Epd).
      destruct l2 as [|[v cv] l2]; cbn [hd_or].
      * destruct (seg_last_or _ _ _ _ _ _ E3 E2) as (x & y & z & E2l). rewrite E2l. cbn [of_option bind i_parent deref]. assert (Eqd2 : h_nodes h2 q = Some qd) by (rewrite E6; exact Eqd). rewrite (wr_n_ok _ _ _ _ Eqd2). cbn [bind].
        erewrite wr_n_ok by (cbn [h_nodes]; rewrite upd_other by exact Npq; exact Epd2). cbn [bind]. erewrite wr_n_ok by (cbn [h_nodes]; apply upd_same). eexists _, _. split; [reflexivity|]. cbn [h_items h_nodes h_ifresh h_nfresh]. apply Fin.
        intros m. unfold upd. rewrite E6. destruct (Nat.eqb_spec m p); [subst; rewrite Epd; reflexivity|]. destruct (Nat.eqb_spec m q); [subst; rewrite Eqd|]; reflexivity.
      * cbn [bind]. rewrite (wr_n_ok _ _ _ _ Epd2). cbn [bind]. erewrite wr_n_ok by (cbn [h_nodes]; apply upd_same). eexists _, _. split; [reflexivity|]. cbn [h_items h_nodes h_ifresh h_nfresh]. apply Fin.
        intros m. unfold upd. rewrite E6. destruct (Nat.eqb_spec m p); [subst; rewrite Epd; reflexivity|]. destruct (Nat.eqb_spec m q); [subst; rewrite Eqd; cbn; destruct qd|]; reflexivity.
Qed.
