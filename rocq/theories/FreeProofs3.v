(** Making, editing and releasing trees keeps the account of the items. *)
From Verif Require Import Prelude ItemModel ItemSpec ItemExec ItemProofs ItemProofs2 ItemProofs3 ItemProofs4 ItemProofs5 ItemProofs7 FindSpec FindProofs FindProofs3 FreeModel FreeSpec FreeExec FreeProofs FreeProofs2.
From Coq Require Import Permutation.
Open Scope nat_scope.
Open Scope list_scope.

Lemma mem_in n l : mem n l = true <-> In n l.
Proof. unfold mem. rewrite existsb_exists. split; [intros (x & I & E); apply Nat.eqb_eq in E; subst; exact I|intros I; exists n; split; [exact I|apply Nat.eqb_refl]]. Qed.
Lemma mem_out n l : mem n l = false <-> ~ In n l.
Proof. rewrite <- mem_in. destruct (mem n l); split; congruence. Qed.
Lemma outside_in n l : outside l n = true <-> ~ In n l.
Proof. unfold outside. rewrite <- mem_out. destruct (mem n l); split; cbn; congruence. Qed.
Lemma outside_filter l m n : In n (filter (outside l) m) <-> In n m /\ ~ In n l.
Proof. rewrite filter_In, outside_in. tauto. Qed.
Lemma same_length {A} (l1 l2 : list A) : NoDup l1 -> NoDup l2 -> (forall x, In x l1 <-> In x l2) -> length l1 = length l2.
Proof. intros N1 N2 H. apply Nat.le_antisymm; apply NoDup_incl_length; auto; intros x I; apply H, I. Qed.
Lemma list_sum_cons x l : list_sum (x :: l) = x + list_sum l.
Proof. reflexivity. Qed.
Lemma list_sum_app2 a b : list_sum (a ++ b) = list_sum a + list_sum b.
Proof. induction a as [|x a IH]; [reflexivity|]. cbn [app]. rewrite !list_sum_cons, IH. lia. Qed.
Lemma sum_perm a b : Permutation a b -> list_sum a = list_sum b.
Proof. induction 1; rewrite ?list_sum_cons in *; lia. Qed.
Lemma sum_filter {A} (f : A -> nat) (g : A -> bool) l : list_sum (map f l) = list_sum (map f (filter g l)) + list_sum (map f (filter (fun x => negb (g x)) l)).
Proof. induction l as [|x l IH]; [reflexivity|]. cbn [map filter]. rewrite list_sum_cons, IH. destruct (g x); cbn [negb map]; rewrite ?list_sum_cons; lia. Qed.
Lemma length_filter {A} (g : A -> bool) l : length l = length (filter g l) + length (filter (fun x => negb (g x)) l).
Proof. induction l as [|x l IH]; [reflexivity|]. cbn [filter length]. rewrite IH. destruct (g x); cbn [negb length]; lia. Qed.

Definition tx (l : list child) : nat := length (filter (fun c => negb (is_node (fst c))) l).
Lemma tx_app a b : tx (a ++ b) = tx a + tx b.
Proof. unfold tx. rewrite filter_app, app_length. reflexivity. Qed.
Lemma tx_cons c l : tx (c :: l) = one (negb (is_node (fst c))) + tx l.
Proof. unfold tx. cbn [filter]. destruct (is_node (fst c)); reflexivity. Qed.
Lemma kids_count l : length l = tx l + length (elements l).
Proof. induction l as [|[k d] l IH]; [reflexivity|]. rewrite tx_cons, elements_cons, app_length. cbn [length fst]. rewrite IH. destruct (is_node k); cbn [negb one length]; lia. Qed.
Lemma texts_tx s : texts s = list_sum (map (fun p => tx (f_kids s p)) (f_nodes s)).
Proof. reflexivity. Qed.
Lemma sum_set (f : family) p l : forall ns, NoDup ns -> In p ns ->
  list_sum (map (fun q => tx (set_kids f p l q)) ns) + tx (f p) = list_sum (map (fun q => tx (f q)) ns) + tx l.
Proof.
  assert (Out : forall ns, ~ In p ns -> list_sum (map (fun q => tx (set_kids f p l q)) ns) = list_sum (map (fun q => tx (f q)) ns)).
  { induction ns as [|q ns IH]; intros N; [reflexivity|]. cbn [map]. rewrite !list_sum_cons, IH by (intros I; apply N; right; exact I). unfold set_kids at 1. destruct (Nat.eqb_spec q p) as [->|]; [exfalso; apply N; left; reflexivity|reflexivity]. }
  induction ns as [|q ns IH]; intros ND I; [destruct I|]. inversion ND as [|? ? Nq ND']; subst. cbn [map]. rewrite !list_sum_cons. unfold set_kids at 1. destruct (Nat.eqb_spec q p) as [->|Np].
  - rewrite Out by exact Nq. lia.
  - destruct I as [->|I]; [congruence|]. specialize (IH ND' I). lia.
Qed.
Lemma texts_set s p l : NoDup (f_nodes s) -> In p (f_nodes s) -> texts (Fam (f_new s) (f_nodes s) (set_kids (f_kids s) p l)) + tx (f_kids s p) = texts s + tx l.
Proof. intros ND I. rewrite !texts_tx. cbn [f_kids f_nodes]. apply sum_set; assumption. Qed.

Record W (h : heap) (w : world) (ch : chain) : Prop := {
  w_rep : Rep h (w_fam w) ch;
  w_nodup : NoDup (f_nodes (w_fam w));
  w_hnodup : NoDup (w_held w);
  w_holds : forall n, In n (w_held w) <-> holder h n <> None;
  w_live : live_items h = texts (w_fam w) + length (w_held w) + w_taken w + w_lost w
}.
Lemma w_start : W heap_new w_new (fun _ => []).
Proof. split; cbn; [exact rep_new|constructor|constructor| |reflexivity]. intros n. unfold holder. cbn. split; [intros []|congruence]. Qed.

(** ** releasing a tree *)
Lemma tree_edges f t : shows f t -> S (list_sum (map (fun x => length (elements (f x))) (pre t))) = length (pre t).
Proof.
  induction t as [n ts IH] using tree_ind2. intros Sh. inversion Sh as [? ? E Hs]; subst. cbn [pre map length]. rewrite list_sum_cons, E, map_length. f_equal.
  clear E Sh. induction ts as [|t ts IHts]; [reflexivity|]. cbn [flat_map]. rewrite map_app, list_sum_app2, app_length. cbn [length].
  pose proof (IH t ltac:(left; reflexivity) (Hs t ltac:(left; reflexivity))). pose proof (IHts ltac:(intros u Iu; apply IH; right; exact Iu) ltac:(intros u Iu; apply Hs; right; exact Iu)). lia.
Qed.
Lemma count_less h0 h I N : like h0 h I N -> NoDup I -> (forall a, In a I -> h_items h0 a <> None /\ a < h_ifresh h0) -> live_items h + length I = live_items h0.
Proof.
  intros (L1 & _ & L3 & L4 & _ & _) ND Hl. unfold live_items. rewrite L1. set (l := seq 0 (h_ifresh h0)).
  change (length (filter (is_live h) l) + length I = length (filter (is_live h0) l)).
  assert (Nl : NoDup l) by apply seq_NoDup. rewrite (length_filter (outside I) (filter (is_live h0) l)). f_equal.
  - apply same_length; [apply NoDup_filter, Nl|apply NoDup_filter, NoDup_filter, Nl|]. intros x. rewrite outside_filter, !filter_In, !live_spec. split.
    + intros [Ix Hx]. assert (Nx : ~ In x I) by (intros J; apply Hx, L3, J). rewrite <- L4 by exact Nx. auto.
    + intros [[Ix Hx] Nx]. rewrite L4 by exact Nx. auto.
  - apply same_length; [exact ND|apply NoDup_filter, NoDup_filter, Nl|]. intros x. rewrite !filter_In, live_spec. unfold outside. rewrite negb_involutive, mem_in. split; [|tauto].
    intros J. destruct (Hl x J). split; [split; [apply in_seq; lia|assumption]|exact J].
Qed.
Section Drop.
Variables (h : heap) (w : world) (ch : chain).
Hypothesis H : W h w ch.
Let s := w_fam w.
Let R : Rep h s ch := w_rep h w ch H.

Lemma free_rep t h' : shows (f_kids s) t -> alone s (label t) = true -> like h h' (own h (label t) ++ owned ch t) (pre t) ->
  Rep h' (Fam (f_new s) (filter (outside (pre t)) (f_nodes s)) (f_kids s)) (fun x => if mem x (pre t) then [] else ch x).
Proof.
  intros Sh A (L1 & L2 & L3 & L4 & L5 & L6). assert (K : known s (label t) = true) by (unfold alone in A; apply andb_prop in A as [A' _]; exact A').
  destruct (rep_alone _ _ _ R _ A) as [Ir Al].
  assert (Up : forall x y, In x (pre t) -> In y (f_nodes s) -> In (KNode, x) (f_kids s y) -> In y (pre t)).
  { intros x y Ix Iy J. apply (pre_chained _ t Sh) in Ix. apply chained_last in Ix as [->|(z & Cz & Iz)].
    - exfalso. rewrite (r_kids _ _ _ R y Iy) in J. apply in_map_iff in J as ([a c] & Ec & J). exact (Al _ _ _ J Ec).
    - assert (z = y); [|subst z; apply (pre_chained _ t Sh), Cz]. apply (kid_two h s ch R z y x); [|apply rep_known, Iy|exact Iz|apply elements_in, J].
      apply (pre_known h s ch t R Sh K), (pre_chained _ t Sh), Cz. }
  assert (Dn : forall x y a, In x (pre t) -> In (a, (KNode, y)) (ch x) -> In y (pre t)).
  { intros x y a Ix J. apply (pre_chained _ t Sh). eapply ch_down; [apply (pre_chained _ t Sh), Ix|]. apply elements_in. rewrite (r_kids _ _ _ R x (rep_in _ _ _ R _ _ _ J)). change (KNode, y) with (snd (a, (KNode, y))). apply in_map, J. }
  assert (Ch : forall p a c, In (a, c) (if mem p (pre t) then [] else ch p) -> ~ In p (pre t) /\ In (a, c) (ch p)).
  { intros p a c J. destruct (mem p (pre t)) eqn:M; [destruct J|]. apply mem_out in M. auto. }
  assert (NI : forall p a c, ~ In p (pre t) -> In (a, c) (ch p) -> ~ In a (own h (label t) ++ owned ch t)).
  { intros p a c Np J Ja. apply in_app_or in Ja as [Ja|Ja].
    - unfold own, holder in Ja. destruct (h_nodes h (label t)) as [nd|] eqn:En; [|destruct Ja]. destruct (n_holder nd) as [b|] eqn:Eh; [|destruct Ja]. destruct Ja as [->|[]].
      exact (Al _ _ _ J (rep_held _ _ _ R _ _ _ En Eh _ _ J)).
    - unfold owned in Ja. apply in_flat_map in Ja as (x & Ix & Ja). apply (r_disj _ _ _ R x p a); [intros ->; contradiction|exact Ja|eapply in_fst, J]. }
  split; cbn [f_nodes f_kids f_new].
  - intros p. rewrite outside_filter, (r_nodes _ _ _ R p). split; [intros [E Np]; rewrite L6 by exact Np; exact E|]. intros E. assert (Np : ~ In p (pre t)) by (intros J; apply E, L5, J). rewrite <- L6 by exact Np. auto.
  - intros p Ip. apply outside_filter in Ip as [Ip Np]. apply mem_out in Np. rewrite Np. apply R, Ip.
  - intros p Np. destruct (mem p (pre t)) eqn:M; [reflexivity|]. apply mem_out in M. apply (r_out _ _ _ R). intros J. apply Np, outside_filter. auto.
  - intros p nd E. assert (Np : ~ In p (pre t)) by (intros J; rewrite (L5 p J) in E; discriminate). rewrite L6 in E by exact Np. apply mem_out in Np. rewrite Np. apply (r_ends _ _ _ R p nd E).
  - intros p. destruct (mem p (pre t)) eqn:M; [exact Logic.I|]. apply mem_out in M. eapply seg_ext; [|apply (r_seg _ _ _ R p)]. intros a Ia. apply fst_in in Ia as (c & Ia). apply L4. eapply NI; eassumption.
  - intros p. destruct (mem p (pre t)); [constructor|apply R].
  - intros p q a Npq I1 I2. apply fst_in in I1 as (c1 & I1). apply fst_in in I2 as (c2 & I2). apply Ch in I1 as [_ I1]. apply Ch in I2 as [_ I2]. apply (r_disj _ _ _ R p q a Npq); eapply in_fst; eassumption.
  - intros a it E No. assert (Na : ~ In a (own h (label t) ++ owned ch t)) by (intros J; rewrite (L3 a J) in E; discriminate). rewrite L4 in E by exact Na. apply (r_loose _ _ _ R a it E).
    intros p J. specialize (No p). destruct (mem p (pre t)) eqn:M; [|contradiction]. apply Na, in_or_app. right. unfold owned. apply in_flat_map. exists p. apply mem_in in M. auto.
  - intros p a n J. apply Ch in J as [Np J]. destruct (r_holder _ _ _ R p a n J) as (nd & E & Ho). exists nd. split; [|exact Ho]. rewrite L6; [exact E|]. intros In_. apply Np. apply (Up n p In_); [eapply rep_in; [exact R|exact J]|].
    rewrite (r_kids _ _ _ R p (rep_in _ _ _ R _ _ _ J)). change (KNode, n) with (snd (a, (KNode, n))). apply in_map, J.
  - intros n nd a E Ho. assert (Nn : ~ In n (pre t)) by (intros J; rewrite (L5 n J) in E; discriminate). rewrite L6 in E by exact Nn. destruct (r_held _ _ _ R n nd a E Ho) as (it & Ea & Ek & Ed). exists it. split; [|auto]. rewrite L4; [exact Ea|].
    intros J. apply in_app_or in J as [J|J].
    + unfold own, holder in J. destruct (h_nodes h (label t)) as [nd2|] eqn:En2; [|destruct J]. destruct (n_holder nd2) as [b|] eqn:Eh2; [|destruct J]. destruct J as [->|[]].
      destruct (r_held _ _ _ R _ _ _ En2 Eh2) as (it2 & Ea2 & _ & Ed2). apply Nn. rewrite Ea in Ea2. injection Ea2 as <-. rewrite <- Ed, Ed2. apply pre_head.
    + unfold owned in J. apply in_flat_map in J as (x & Ix & J). apply fst_in in J as (c & J). pose proof (rep_held _ _ _ R _ _ _ E Ho _ _ J) as ->. apply Nn. eapply Dn; eassumption.
  - intros a E. rewrite L1. apply (r_ifresh _ _ _ R). intros E0. apply E. destruct (in_dec Nat.eq_dec a (own h (label t) ++ owned ch t)) as [J|J]; [apply L3, J|rewrite L4 by exact J; exact E0].
  - intros p Ip. apply outside_filter in Ip as [Ip _]. rewrite L2. apply R, Ip.
  - rewrite L2. apply R.
Qed.

Lemma free_world n : alone s n = true -> exists h' ch', node_dealloc h n = Ok h' /\ W h' (drop w n) ch'.
Proof.
  intros A. assert (K : known s n = true) by (unfold alone in A; apply andb_prop in A as [A' _]; exact A'). destruct (tree_of h s ch R n A) as (t & El & Sh). subst n.
  pose proof (shows_nodup h s ch t R K Sh) as NP. pose proof (owned_nodup h s ch R t Sh K) as NO.
  set (I := own h (label t) ++ owned ch t).
  assert (NI : NoDup I).
  { unfold I, own. destruct (holder h (label t)) as [a|] eqn:Ho; [|exact NO]. cbn [app]. constructor; [|exact NO]. eapply holder_item; eassumption. }
  assert (LI : forall a, In a I -> h_items h a <> None /\ a < h_ifresh h).
  { intros a J. assert (E : h_items h a <> None); [|split; [exact E|apply (r_ifresh _ _ _ R), E]]. unfold I in J. apply in_app_or in J as [J|J].
    - unfold own, holder in J. destruct (h_nodes h (label t)) as [nd|] eqn:En; [|destruct J]. destruct (n_holder nd) as [b|] eqn:Eh; [|destruct J]. destruct J as [->|[]]. destruct (r_held _ _ _ R _ _ _ En Eh) as (it & Ea & _). congruence.
    - unfold owned in J. apply in_flat_map in J as (x & Ix & J). apply fst_in in J as (c & J). destruct (rep_item _ _ _ R _ _ _ J) as (y & z & E). congruence. }
  assert (LP : forall x, In x (pre t) -> In x (f_nodes s)) by (intros x Ix; apply rep_known; eapply pre_known; eassumption).
  destruct (frees_all h s ch R t Sh K h [] [] (reach h) (like_refl h)) as (h' & E & Lk); [intros a _ []|intros a _ []| |].
  { unfold cost, reach. apply Nat.add_le_mono.
    - rewrite <- (seq_length (h_nfresh h) 0). apply NoDup_incl_length; [exact NP|]. intros x Ix. apply in_seq. pose proof (r_nfresh _ _ _ R x (LP x Ix)). lia.
    - rewrite <- (seq_length (h_ifresh h) 0). apply NoDup_incl_length; [exact NO|]. intros x Ix. apply in_seq. destruct (LI x); [apply in_or_app; right; exact Ix|lia]. }
  rewrite !app_nil_r in Lk. fold I in Lk. exists h'. eexists. split; [exact E|].
  pose proof (free_rep t h' Sh A Lk) as R'. pose proof (kin_all h s ch R t Sh K) as Ek.
  assert (Hh : forall n, holder h' n = if mem n (pre t) then None else holder h n).
  { intros n. destruct Lk as (_ & _ & _ & _ & L5 & L6). unfold holder. destruct (mem n (pre t)) eqn:M; [apply mem_in in M; rewrite L5 by exact M; reflexivity|]. apply mem_out in M. rewrite L6 by exact M. reflexivity. }
  assert (Kd : forall x, In x (pre t) -> x <> label t -> holder h x <> None).
  { intros x Ix Nx. apply (pre_chained _ t Sh) in Ix. apply chained_last in Ix as [|(y & Cy & Iy)]; [contradiction|]. apply elements_in in Iy.
    assert (Ky : known s y = true) by (apply (pre_known h s ch t R Sh K), (pre_chained _ t Sh), Cy). destruct (kid_item h s ch R y x Ky Iy) as (a & nd & _ & En & Eh). unfold holder. rewrite En, Eh. discriminate. }
  unfold drop. fold s. rewrite Ek. split; cbn [w_fam w_held w_taken w_lost f_nodes].
  - exact R'.
  - apply NoDup_filter, H.
  - apply NoDup_filter, H.
  - intros n. rewrite outside_filter, Hh, (w_holds _ _ _ H). destruct (mem n (pre t)) eqn:M; [apply mem_in in M|apply mem_out in M]; split; try tauto.
  - pose proof (count_less h h' I (pre t) Lk NI LI) as Cn. rewrite (w_live _ _ _ H) in Cn. fold s in Cn. rewrite !texts_tx in *. cbn [f_nodes f_kids].
    rewrite (sum_filter (fun p => tx (f_kids s p)) (outside (pre t)) (f_nodes s)) in Cn. rewrite (length_filter (outside (pre t)) (w_held w)) in Cn.
    assert (E1 : list_sum (map (fun p => tx (f_kids s p)) (filter (fun x => negb (outside (pre t) x)) (f_nodes s))) = list_sum (map (fun p => tx (f_kids s p)) (pre t))).
    { apply sum_perm, Permutation_map, NoDup_Permutation; [apply NoDup_filter, H|exact NP|]. intros x. rewrite filter_In. unfold outside. rewrite negb_involutive, mem_in. split; [tauto|]. intros Ix. split; [apply LP, Ix|exact Ix]. }
    assert (E2 : length (filter (fun x => negb (outside (pre t) x)) (w_held w)) + 1 = length (own h (label t)) + length (pre t)).
    { unfold own. pose proof (w_hnodup _ _ _ H) as NH. destruct (holder h (label t)) as [a|] eqn:Ho; cbn [length].
      - rewrite Nat.add_1_r. cbn [Nat.add]. f_equal. apply same_length; [apply NoDup_filter, NH|exact NP|]. intros x. rewrite filter_In. unfold outside. rewrite negb_involutive, mem_in, (w_holds _ _ _ H). split; [tauto|]. intros Ix. split; [|exact Ix].
        destruct (Nat.eq_dec x (label t)) as [->|Nx]; [congruence|apply Kd; assumption].
      - destruct t as [r ts]. cbn [label pre] in *. inversion NP as [|? ? Nr NP']; subst. cbn [length]. rewrite Nat.add_1_r. cbn [Nat.add]. f_equal. apply same_length; [apply NoDup_filter, NH|exact NP'|].
        intros x. rewrite filter_In. unfold outside. rewrite negb_involutive, mem_in, (w_holds _ _ _ H). split.
        + intros [Hx [<-|Ix]]; [congruence|exact Ix].
        + intros Ix. assert (Nx : x <> r) by (intros ->; contradiction). split; [apply Kd; [right; exact Ix|exact Nx]|right; exact Ix]. }
    assert (E3 : length (owned ch t) + 1 = list_sum (map (fun p => tx (f_kids s p)) (pre t)) + length (pre t)).
    { rewrite <- (tree_edges (f_kids s) t Sh). unfold owned. assert (LP' : forall x, In x (pre t) -> In x (f_nodes s)) by exact LP. clear - LP' R. induction (pre t) as [|x l IH]; [reflexivity|]. cbn [flat_map map]. rewrite !list_sum_cons, app_length, map_length.
      specialize (IH ltac:(intros y Iy; apply LP'; right; exact Iy)). pose proof (r_kids _ _ _ R x (LP' x ltac:(left; reflexivity))) as Ex. pose proof (f_equal (@length _) Ex) as Lx. rewrite map_length in Lx. pose proof (kids_count (f_kids s x)). unfold entry, child in *. lia. }
    unfold I in Cn. rewrite app_length in Cn. lia.
Qed.
End Drop.
