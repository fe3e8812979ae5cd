(** The tree below a node without parent, and its release. *)
From Verif Require Import Prelude ItemModel ItemSpec ItemExec ItemProofs ItemProofs2 FindSpec FindProofs FindProofs3 FreeModel FreeSpec FreeExec FreeProofs.
Open Scope nat_scope.
Open Scope list_scope.

Lemma choose_list {A B} (P : A -> B -> Prop) l : (forall a, In a l -> exists b, P a b) -> exists m, Forall2 P l m.
Proof. induction l as [|a l IH]; intros H; [exists []; constructor|]. destruct (H a) as (b & Hb); [left; reflexivity|]. destruct IH as (m & Hm); [intros x Ix; apply H; right; exact Ix|]. exists (b :: m). constructor; assumption. Qed.

Section Tree.
Variables (h0 : heap) (s : fam) (ch : chain).
Hypothesis R : Rep h0 s ch.

(** a path down to the root; [trail] is the nodes of the path, the last one first *)
Fixpoint trail (root : nat) (l : list nat) : Prop :=
  match l with
  | [] => False
  | x :: r => match r with [] => x = root | y :: _ => In x (elements (f_kids s y)) /\ trail root r end
  end.
Lemma trail_known root l : known s root = true -> trail root l -> forall x, In x l -> known s x = true.
Proof.
  intros K. induction l as [|x [|y r] IH]; intros T z I; [destruct I| |].
  - cbn in T, I. destruct I as [<-|[]]. congruence.
  - destruct T as [T1 T2]. assert (Ky : known s y = true) by (apply (IH T2); left; reflexivity). destruct I as [<-|I]; [|apply (IH T2), I]. apply (kid_known h0 s ch R y); [exact Ky|apply elements_in, T1].
Qed.
Lemma kid_two p q x : known s p = true -> known s q = true -> In x (elements (f_kids s p)) -> In x (elements (f_kids s q)) -> p = q.
Proof. intros Kp Kq Ip Iq. apply elements_in in Ip, Iq. pose proof (kid_parent h0 s ch R p x Kp Ip) as P1. pose proof (kid_parent h0 s ch R q x Kq Iq) as P2. congruence. Qed.
Lemma trail_extend root l n c : alone s root = true -> trail root (n :: l) -> NoDup (n :: l) -> In c (elements (f_kids s n)) -> ~ In c (n :: l).
Proof.
  intros A T N I J. assert (Kr : known s root = true) by (unfold alone in A; apply andb_prop in A as [A _]; exact A).
  assert (Kn : known s n = true) by (apply (trail_known root _ Kr T); left; reflexivity).
  (* whatever [c] is on the path, its parent is there too, and it is [n] *)
  assert (G : forall m, trail root m -> In c m -> c = root \/ exists y r1 r2, m = r1 ++ c :: y :: r2 /\ In c (elements (f_kids s y))).
  { induction m as [|x [|y r] IH]; intros Tm Im; [destruct Im| |].
    - cbn in Tm, Im. destruct Im as [<-|[]]. auto.
    - destruct Tm as [T1 T2]. destruct Im as [<-|Im]; [right; exists y, [], r; auto|]. destruct (IH T2 Im) as [|(z & r1 & r2 & E & Iz)]; [auto|]. right. exists z, (x :: r1), r2. rewrite E. auto. }
  destruct (G _ T J) as [->|(y & r1 & r2 & E & Iy)].
  - apply elements_in in I. unfold alone in A. apply andb_prop in A as [_ A]. rewrite (kid_parent h0 s ch R n root Kn I) in A. discriminate.
  - assert (Ky : known s y = true) by (apply (trail_known root _ Kr T); rewrite E; apply in_or_app; right; right; left; reflexivity).
    assert (y = n) by (eapply kid_two; eassumption). subst y. destruct r1 as [|a r1]; cbn [app] in E.
    + injection E as -> El. rewrite El in N. inversion N as [|? ? Nc _]; subst. apply Nc. left. reflexivity.
    + injection E as <- El. inversion N as [|? ? Nn _]; subst. apply Nn. apply in_or_app. right. right. left. reflexivity.
Qed.
Lemma tree_from root : alone s root = true -> forall d l n, length (f_nodes s) <= d + length (n :: l) -> trail root (n :: l) -> NoDup (n :: l) -> exists t, label t = n /\ shows (f_kids s) t.
Proof.
  intros A. assert (Kr : known s root = true) by (unfold alone in A; apply andb_prop in A as [A _]; exact A).
  induction d as [|d IH]; intros l n L Tr N.
  - destruct (elements (f_kids s n)) as [|c r] eqn:E; [exists (T n []); split; [reflexivity|]; constructor; [exact E|intros t []]|]. exfalso.
    assert (Ic : In c (elements (f_kids s n))) by (rewrite E; left; reflexivity).
    pose proof (trail_extend root l n c A Tr N Ic) as Nc. assert (T' : trail root (c :: n :: l)) by (split; assumption).
    enough (length (c :: n :: l) <= length (f_nodes s)) by (cbn [length] in *; lia). apply NoDup_incl_length; [constructor; assumption|]. intros x Ix. apply rep_known, (trail_known root _ Kr T' x Ix).
  - destruct (choose_list (fun c t => label t = c /\ shows (f_kids s) t) (elements (f_kids s n))) as (ts & F).
    { intros c Ic. apply (IH (n :: l)); [cbn [length] in *; lia|split; assumption|constructor; [eapply trail_extend; eassumption|exact N]]. }
    exists (T n ts). split; [reflexivity|]. constructor.
    + clear - F. induction F as [|c t a b [E _] F IHF]; [reflexivity|]. cbn [map]. rewrite E, IHF. reflexivity.
    + clear - F. induction F as [|c t a b [_ E] F IHF]; intros u Iu; [destruct Iu|]. destruct Iu as [<-|Iu]; [exact E|exact (IHF u Iu)].
Qed.
Lemma tree_of root : alone s root = true -> exists t, label t = root /\ shows (f_kids s) t.
Proof. intros A. apply (tree_from root A (length (f_nodes s)) []); [cbn; lia|reflexivity|constructor; [intros []|constructor]]. Qed.

(** the depth given to [kin] is enough *)
Lemma kin_pre t : shows (f_kids s) t -> forall d, height t <= S d -> kin d (f_kids s) (label t) = pre t.
Proof.
  induction t as [n ts IH] using tree_ind2. intros Sh d Hd. inversion Sh as [? ? E Hs]; subst. cbn [height] in Hd. destruct d as [|d]; cbn [kin label pre]; f_equal.
  - destruct ts as [|t ts]; [reflexivity|]. exfalso. destruct t as [m us]. unfold list_max in Hd. cbn [map height fold_right] in Hd. lia.
  - rewrite E. assert (Hm : list_max (map height ts) <= S d) by lia. clear E Hd Sh. induction ts as [|t ts IHts]; [reflexivity|]. cbn [map flat_map]. cbn [map list_max fold_right] in Hm. unfold list_max in Hm. cbn [fold_right] in Hm. f_equal.
    + apply IH; [left; reflexivity|apply Hs; left; reflexivity|lia].
    + apply IHts; [intros u Iu; apply IH; right; exact Iu|intros u Iu; apply Hs; right; exact Iu|unfold list_max; lia].
Qed.
Lemma height_pre t : height t <= length (pre t).
Proof.
  induction t as [n ts IH] using tree_ind2. cbn [height pre length]. apply le_n_S. induction ts as [|t ts IHts]; [cbn; lia|]. cbn [map flat_map]. rewrite app_length. unfold list_max in *. cbn [fold_right].
  pose proof (IH t ltac:(left; reflexivity)). pose proof (IHts ltac:(intros u Iu; apply IH; right; exact Iu)). lia.
Qed.
Lemma kin_all t : shows (f_kids s) t -> known s (label t) = true -> kin (length (f_nodes s)) (f_kids s) (label t) = pre t.
Proof.
  intros Sh K. apply kin_pre; [exact Sh|]. pose proof (height_pre t). enough (length (pre t) <= length (f_nodes s)) by lia. apply NoDup_incl_length; [eapply shows_nodup; eassumption|].
  intros x Ix. apply rep_known. eapply pre_known; eassumption.
Qed.

(** ** what is released *)
Definition owned (t : tree) : list nat := flat_map (fun x => map fst (ch x)) (pre t).
Definition own (n : nat) : list nat := match holder h0 n with Some a => [a] | None => [] end.
Definition like (h : heap) (I N : list nat) : Prop :=
  h_ifresh h = h_ifresh h0 /\ h_nfresh h = h_nfresh h0 /\
  (forall a, In a I -> h_items h a = None) /\ (forall a, ~ In a I -> h_items h a = h_items h0 a) /\
  (forall a, In a N -> h_nodes h a = None) /\ (forall a, ~ In a N -> h_nodes h a = h_nodes h0 a).
Lemma like_refl : like h0 [] [].
Proof. split; [reflexivity|]. split; [reflexivity|]. split; [intros a []|]. split; [reflexivity|]. split; [intros a []|]. reflexivity. Qed.
Lemma like_same h I N I' N' : (forall a, In a I <-> In a I') -> (forall a, In a N <-> In a N') -> like h I N -> like h I' N'.
Proof.
  intros Hi Hn (L1 & L2 & L3 & L4 & L5 & L6). split; [exact L1|]. split; [exact L2|]. split; [intros a Ia; apply L3, Hi, Ia|]. split; [intros a Ia; apply L4; rewrite Hi; exact Ia|].
  split; [intros a Ia; apply L5, Hn, Ia|intros a Ia; apply L6; rewrite Hn; exact Ia].
Qed.
Lemma free_i_like h I N a : like h I N -> ~ In a I -> h_items h0 a <> None -> exists h', free_i h a = Ok h' /\ like h' (a :: I) N.
Proof.
  intros (L1 & L2 & L3 & L4 & L5 & L6) Na E. unfold free_i, rd_i. rewrite (L4 a Na). destruct (h_items h0 a) as [it|]; [|congruence]. cbn [of_option bind]. eexists. split; [reflexivity|].
  split; [exact L1|]. split; [exact L2|]. split; [|split; [|split; [exact L5|exact L6]]]; intros b Ib; cbn [h_items]; unfold del.
  - destruct (Nat.eqb_spec b a) as [|Nb]; [reflexivity|]. destruct Ib as [->|Ib]; [congruence|]. apply L3, Ib.
  - destruct (Nat.eqb_spec b a) as [->|Nb]; [exfalso; apply Ib; left; reflexivity|]. apply L4. intros J. apply Ib. right. exact J.
Qed.
Lemma holder_item t a : shows (f_kids s) t -> known s (label t) = true -> holder h0 (label t) = Some a -> ~ In a (owned t).
Proof.
  intros Sh K Ho Ia. unfold owned in Ia. apply in_flat_map in Ia as (x & Ix & Ia). apply fst_in in Ia as (c & Ia). unfold holder in Ho. destruct (h_nodes h0 (label t)) as [nd|] eqn:En; [|discriminate].
  pose proof (rep_held _ _ _ R _ _ _ En Ho _ _ Ia) as ->. pose proof (rep_in _ _ _ R _ _ _ Ia) as Kx.
  assert (Il : In (label t) (elements (f_kids s x))) by (apply elements_in; rewrite (r_kids _ _ _ R x Kx); change (KNode, label t) with (snd (a, (KNode, label t))); apply in_map, Ia).
  pose proof (shows_nodup h0 s ch t R K Sh) as ND. destruct t as [n ts]. cbn [label] in *. inversion Sh as [? ? E Hs]; subst. cbn [pre] in ND, Ix. inversion ND as [|? ? Nn _]; subst. apply Nn. apply in_flat_map.
  destruct Ix as [<-|Ix].
  - rewrite E in Il. apply in_map_iff in Il as (t & El & It). exists t. split; [exact It|]. rewrite <- El. apply pre_head.
  - apply in_flat_map in Ix as (t & It & Ix). exists t. split; [exact It|]. apply (pre_chained _ t (Hs t It)). eapply ch_down; [|exact Il]. apply (pre_chained _ t (Hs t It)), Ix.
Qed.
Lemma owned_nodup t : shows (f_kids s) t -> known s (label t) = true -> NoDup (owned t).
Proof.
  intros Sh K. unfold owned. pose proof (shows_nodup h0 s ch t R K Sh) as ND. clear Sh K. induction ND as [|x l Nx ND IH]; [constructor|]. cbn [flat_map]. apply NoDup_app_intro; [apply R|exact IH|].
  intros a I1 I2. apply in_flat_map in I2 as (y & Iy & I2). apply (r_disj _ _ _ R x y a); [intros ->; contradiction|exact I1|exact I2].
Qed.
Definition cost (t : tree) : nat := length (pre t) + length (owned t).
Definition cost_items (rest : list entry) (ts : list tree) : nat := length rest + list_sum (map cost ts).

Definition frees (t : tree) : Prop := forall h I N fuel, like h I N -> (forall a, In a (own (label t) ++ owned t) -> ~ In a I) -> (forall x, In x (pre t) -> ~ In x N) -> cost t <= fuel ->
  exists h', node_free fuel h (label t) = Ok h' /\ like h' (own (label t) ++ owned t ++ I) (pre t ++ N).

Lemma own_kid p a n : In (a, (KNode, n)) (ch p) -> own n = [a].
Proof. intros I. destruct (r_holder _ _ _ R p a n I) as (nd & E & Ho). unfold own, holder. rewrite E, Ho. reflexivity. Qed.
Lemma free_items_ok p : forall rest ts pr h I N fuel, (forall t, In t ts -> frees t) -> (forall e, In e rest -> In e (ch p)) -> elements (map snd rest) = map label ts ->
  seg (h_items h0) p pr rest None -> NoDup (map fst rest ++ flat_map owned ts) -> NoDup (flat_map pre ts) ->
  like h I N -> (forall a, In a (map fst rest ++ flat_map owned ts) -> ~ In a I) -> (forall x, In x (flat_map pre ts) -> ~ In x N) -> cost_items rest ts <= fuel ->
  exists h', free_items fuel h (hd_or rest None) = Ok h' /\ like h' (map fst rest ++ flat_map owned ts ++ I) (flat_map pre ts ++ N).
Proof.
  induction rest as [|[a [k d]] rest IH]; intros ts pr h I N fuel Fr Ch E Sg ND1 ND2 Lk D1 D2 C.
  - destruct ts; [|discriminate]. cbn [hd_or map flat_map app]. exists h. split; [destruct fuel; reflexivity|exact Lk].
  - cbn [hd_or]. cbn [seg fst snd] in Sg. destruct Sg as [Ea Sg]. unfold cost_items in C. cbn [length] in C. destruct fuel as [|fuel]; [lia|]. cbn [free_items]. unfold rd_i.
    destruct Lk as (L1 & L2 & L3 & L4 & L5 & L6). rewrite L4 by (apply D1; left; reflexivity). rewrite Ea. cbn [of_option bind i_kind i_data i_next].
    assert (Lk : like h I N) by (split; [exact L1|split; [exact L2|split; [exact L3|split; [exact L4|split; [exact L5|exact L6]]]]]).
    cbn [map snd] in E. rewrite elements_cons in E. cbn [map fst app] in ND1, D1 |- *. inversion ND1 as [|? ? Na ND1']; subst. destruct (is_node k) eqn:Ek; cbn [app] in E.
    + destruct k; try discriminate. destruct ts as [|t ts]; [discriminate|]. cbn [map] in E. injection E as -> E.
      pose proof (own_kid p a (label t) (Ch _ ltac:(left; reflexivity))) as Ow.
      cbn [flat_map map list_sum fold_right] in *. rewrite app_assoc in ND1'. apply NoDup_app_inv in ND1' as (ND3 & ND4 & ND5). apply NoDup_app_inv in ND3 as (ND6 & ND7 & ND8). apply NoDup_app_inv in ND2 as (ND9 & ND10 & ND11).
      destruct (Fr t ltac:(left; reflexivity) h I N fuel Lk) as (h1 & E1 & Lk1).
      { intros b Ib. rewrite Ow in Ib. cbn [app] in Ib. apply D1. destruct Ib as [->|Ib]; [left; reflexivity|]. right. apply in_or_app. right. apply in_or_app. left. exact Ib. }
      { intros x Ix. apply D2, in_or_app. auto. }
      { unfold list_sum in C. cbn [fold_right] in C. lia. }
      rewrite E1. cbn [bind]. rewrite Ow in Lk1.
      destruct (IH ts (Some a) h1 ([a] ++ owned t ++ I) (pre t ++ N) fuel) as (h2 & E2 & Lk2); auto.
      { intros u Iu. apply Fr. right. exact Iu. }
      { intros e Ie. apply Ch. right. exact Ie. }
      { apply NoDup_app_intro; [exact ND6|exact ND4|]. intros b I1 I2. apply (ND5 b); [apply in_or_app; left; exact I1|exact I2]. }
      { intros b Ib J. cbn [app] in J. destruct J as [->|J].
        - apply Na. apply in_or_app. apply in_app_or in Ib as [Ib|Ib]; [left; exact Ib|right; apply in_or_app; right; exact Ib].
        - apply in_app_or in J as [J|J].
          + apply in_app_or in Ib as [Ib|Ib]; [exact (ND8 b Ib J)|]. apply (ND5 b); [apply in_or_app; right; exact J|exact Ib].
          + apply (D1 b); [|exact J]. right. apply in_or_app. apply in_app_or in Ib as [Ib|Ib]; [left; exact Ib|right; apply in_or_app; right; exact Ib]. }
      { intros x Ix J. apply in_app_or in J as [J|J]; [exact (ND11 x J Ix)|]. apply (D2 x); [apply in_or_app; right; exact Ix|exact J]. }
      { unfold cost_items. unfold list_sum in C |- *. cbn [fold_right] in C. lia. }
      exists h2. split; [exact E2|]. eapply like_same; [| |exact Lk2]; intros b; repeat (rewrite in_app_iff || cbn [In app]); tauto.
    + destruct (free_i_like h I N a Lk) as (h1 & E1 & Lk1); [apply D1; left; reflexivity|congruence|]. rewrite E1. cbn [bind].
      destruct (IH ts (Some a) h1 (a :: I) N fuel) as (h2 & E2 & Lk2); auto.
      { intros e Ie. apply Ch. right. exact Ie. }
      { intros b Ib [->|J]; [contradiction|]. apply (D1 b); [right; exact Ib|exact J]. }
      { unfold cost_items. lia. }
      exists h2. split; [exact E2|]. eapply like_same; [| |exact Lk2]; intros b; repeat (rewrite in_app_iff || cbn [In app]); tauto.
Qed.
Lemma flat_map_flat {A B C} (f : A -> list B) (g : B -> list C) l : flat_map g (flat_map f l) = flat_map (fun a => flat_map g (f a)) l.
Proof. induction l as [|a l IH]; [reflexivity|]. cbn. rewrite flat_map_app, IH. reflexivity. Qed.
Lemma frees_all t : shows (f_kids s) t -> known s (label t) = true -> frees t.
Proof.
  induction t as [n ts IH] using tree_ind2. intros Sh K h I N fuel Lk D1 D2 C. pose proof (shows_nodup h0 s ch _ R K Sh) as ND. pose proof (owned_nodup _ Sh K) as NO. pose proof (fun a => holder_item _ a Sh K) as NH.
  inversion Sh as [? ? E Hs]; subst. cbn [label] in *. assert (In_n : In n (f_nodes s)) by (apply rep_known, K). destruct (rep_node _ _ _ R n In_n) as (nd & En).
  assert (Kt : forall t, In t ts -> known s (label t) = true) by (intros t It; apply (kid_known h0 s ch R n _ K), elements_in; rewrite E; apply in_map, It).
  assert (Eo : owned (T n ts) = map fst (ch n) ++ flat_map owned ts) by (unfold owned; cbn [pre flat_map]; f_equal; apply flat_map_flat).
  rewrite Eo in *. cbn [pre] in *. inversion ND as [|? ? Nn ND']; subst.
  unfold cost in C. rewrite Eo in C. cbn [pre length] in C. destruct fuel as [|fuel]; [lia|]. cbn [node_free]. unfold rd_n.
  destruct Lk as (L1 & L2 & L3 & L4 & L5 & L6). rewrite L6 by (apply D2; left; reflexivity). rewrite En. cbn [of_option bind].
  assert (Lk : like h I N) by (split; [exact L1|split; [exact L2|split; [exact L3|split; [exact L4|split; [exact L5|exact L6]]]]]).
  rewrite (proj1 (r_ends _ _ _ R n nd En)).
  destruct (free_items_ok n (ch n) ts None h I N fuel) as (h1 & E1 & Lk1); auto.
  { rewrite <- (r_kids _ _ _ R n In_n). exact E. }
  { apply R. }
  { intros a Ia. apply D1, in_or_app. right. exact Ia. }
  { intros x Ix. apply D2. right. exact Ix. }
  { unfold cost_items. rewrite app_length, map_length in C. unfold cost. enough (list_sum (map (fun t => length (pre t) + length (owned t)) ts) = length (flat_map pre ts) + length (flat_map owned ts)) by (unfold entry in *; lia).
    clear. induction ts as [|t ts IHts]; [reflexivity|]. cbn [map flat_map]. rewrite !app_length. unfold list_sum in *. cbn [fold_right]. lia. }
  rewrite E1. cbn [bind]. destruct Lk1 as (M1 & M2 & M3 & M4 & M5 & M6).
  assert (Nn1 : ~ In n (flat_map pre ts ++ N)) by (intros J; apply in_app_or in J as [J|J]; [contradiction|]; apply (D2 n); [left; reflexivity|exact J]).
  rewrite M6 by exact Nn1. rewrite En. cbn [of_option bind].
  assert (Lk1 : like h1 (map fst (ch n) ++ flat_map owned ts ++ I) (flat_map pre ts ++ N)) by (split; [exact M1|split; [exact M2|split; [exact M3|split; [exact M4|split; [exact M5|exact M6]]]]]).
  assert (Ho : holder h0 n = n_holder nd) by (unfold holder; rewrite En; reflexivity). unfold own in *. rewrite Ho in *. destruct (n_holder nd) as [a|] eqn:Eh.
  - assert (Na : ~ In a (map fst (ch n) ++ flat_map owned ts ++ I)).
    { rewrite app_assoc. intros J. apply in_app_or in J as [J|J]; [exact (NH a eq_refl J)|]. apply (D1 a); [left; reflexivity|exact J]. }
    destruct (free_i_like h1 _ _ a Lk1 Na) as (h2 & E2 & Lk2); [destruct (r_held _ _ _ R n nd a En Eh) as (it & Ei & _); congruence|]. rewrite E2. cbn [bind]. destruct Lk2 as (P1 & P2 & P3 & P4 & P5 & P6).
    assert (En2 : h_nodes h2 n = Some nd) by (rewrite P6 by exact Nn1; exact En). rewrite (wr_n_ok _ _ _ _ En2). cbn [bind]. unfold free_n, rd_n. cbn [h_nodes h_items h_ifresh h_nfresh]. rewrite upd_same. cbn [of_option bind].
    eexists. split; [reflexivity|]. split; [exact P1|]. split; [exact P2|]. cbn [h_items h_nodes]. rewrite <- !app_assoc. split; [exact P3|]. split; [exact P4|]. split.
    + intros b Ib. unfold del. destruct (Nat.eqb_spec b n) as [|Nb]; [reflexivity|]. rewrite upd_other by exact Nb. apply P5. destruct Ib as [->|Ib]; [congruence|exact Ib].
    + intros b Ib. unfold del. destruct (Nat.eqb_spec b n) as [->|Nb]; [exfalso; apply Ib; left; reflexivity|]. rewrite upd_other by exact Nb. apply P6. intros J. apply Ib. right. exact J.
  - cbn [bind]. unfold free_n, rd_n. rewrite M6 by exact Nn1. rewrite En. cbn [of_option bind].
    eexists. split; [reflexivity|]. split; [exact M1|]. split; [exact M2|]. cbn [h_items h_nodes app]. rewrite <- app_assoc. split; [exact M3|]. split; [exact M4|]. split.
    + intros b Ib. unfold del. destruct (Nat.eqb_spec b n) as [|Nb]; [reflexivity|]. apply M5. destruct Ib as [->|Ib]; [congruence|exact Ib].
    + intros b Ib. unfold del. destruct (Nat.eqb_spec b n) as [->|Nb]; [exfalso; apply Ib; left; reflexivity|]. apply M6. intros J. apply Ib. right. exact J.
Qed.
End Tree.
