(** The search functions on a heap that represents a family. *)
From Verif Require Import Prelude ItemModel ItemSpec ItemExec ItemProofs ItemProofs4 ItemProofs6 ItemProofs7 StrModel FindModel FindSpec.
Open Scope nat_scope.
Open Scope list_scope.

Lemma elements_app a b : elements (a ++ b) = elements a ++ elements b.
Proof. unfold elements. apply flat_map_app. Qed.
Lemma elements_cons k d l : elements ((k, d) :: l) = (if is_node k then [d] else []) ++ elements l.
Proof. destruct k; reflexivity. Qed.
Lemma elements_in n l : In n (elements l) <-> In (KNode, n) l.
Proof.
  unfold elements. rewrite in_flat_map. split.
  - intros ([k d] & I & J). destruct k; cbn in J; try contradiction. destruct J as [<-|[]]. exact I.
  - intros I. exists (KNode, n). split; [exact I|left; reflexivity].
Qed.
Lemma elements_rev l : elements (rev l) = rev (elements l).
Proof. induction l as [|[k d] l IH]; [reflexivity|]. cbn [rev]. rewrite elements_app, IH, !elements_cons. destruct k; cbn [is_node app elements flat_map rev]; rewrite ?app_nil_r; reflexivity. Qed.
Lemma first_node_hd l : first_node l = hd_error (elements l).
Proof. induction l as [|[k d] l IH]; [reflexivity|]. rewrite elements_cons. destruct k; cbn; auto. Qed.

Section Rep.
Variable name : nat -> bytes.
Variable h : heap.
Variable s : fam.
Variable ch : chain.
Hypothesis R : Rep h s ch.

Lemma called_seg x p : forall l pr fuel, seg (h_items h) p pr l None -> length l <= fuel ->
  called_loop name fuel h x (hd_or l None) = Ok (find (fun n => bytes_eqb (name n) x) (elements (map snd l))).
Proof.
  induction l as [|[a [k d]] l IH]; intros pr fuel  Sg L; [destruct fuel; reflexivity|]. cbn [length] in L. destruct fuel as [|fuel]; [lia|]. destruct Sg as [E Sg].
  cbn [hd_or called_loop]. unfold rd_i. rewrite E. cbn [of_option bind i_kind i_data i_next fst snd map]. rewrite elements_cons. rewrite (IH _ fuel Sg ltac:(lia)).
  destruct k; cbn [is_node andb app find]; try reflexivity. destruct (bytes_eqb (name d) x); reflexivity.
Qed.
Lemma nth_seg p position : forall l pr fuel it, seg (h_items h) p pr l None -> length l <= fuel -> 
  nth_loop fuel h position it (hd_or l None) = Ok (if (it <=? position)%Z then nth_error (elements (map snd l)) (Z.to_nat (position - it)) else None).
Proof.
  induction l as [|[a [k d]] l IH]; intros pr fuel it Sg L.
  - destruct fuel; cbn [hd_or nth_loop]; destruct (it <=? position)%Z; cbn [map elements flat_map]; rewrite ?nth_error_nil; try reflexivity; destruct (Z.to_nat (position - it)); reflexivity.
  - cbn [length] in L. destruct fuel as [|fuel]; [lia|]. destruct Sg as [E Sg].
    cbn [hd_or nth_loop]. unfold rd_i. rewrite E. cbn [of_option bind i_kind i_data i_next fst snd map]. rewrite elements_cons, !(IH _ fuel _ Sg ltac:(lia)).
    destruct (is_node k); cbn [app]; [|reflexivity]. destruct (Z.eqb_spec it position) as [->|N].
    + rewrite Z.leb_refl, Z.sub_diag. reflexivity.
    + destruct (Z.leb_spec it position), (Z.leb_spec (it + 1) position); try lia; [|reflexivity]. replace (Z.to_nat (position - it)) with (S (Z.to_nat (position - (it + 1)))) by lia. reflexivity.
Qed.
Lemma num_seg p : forall l pr fuel c, seg (h_items h) p pr l None -> length l <= fuel -> num_loop fuel h c (hd_or l None) = Ok (c + length (elements (map snd l))).
Proof.
  induction l as [|[a [k d]] l IH]; intros pr fuel c Sg L; [destruct fuel; cbn; rewrite Nat.add_0_r; reflexivity|]. cbn [length] in L. destruct fuel as [|fuel]; [lia|]. destruct Sg as [E Sg].
  cbn [hd_or num_loop]. unfold rd_i. rewrite E. cbn [of_option bind i_kind i_data i_next fst snd map]. rewrite elements_cons, (IH _ fuel _ Sg ltac:(lia)).
  destruct (is_node k); cbn [app length]; f_equal; lia.
Qed.
Lemma childs_seg p : forall l pr fuel c, seg (h_items h) p pr l None -> length l <= fuel -> childs_loop fuel h c (hd_or l None) = Ok (c ++ elements (map snd l)).
Proof.
  induction l as [|[a [k d]] l IH]; intros pr fuel c Sg L; [destruct fuel; cbn; rewrite app_nil_r; reflexivity|]. cbn [length] in L. destruct fuel as [|fuel]; [lia|]. destruct Sg as [E Sg].
  cbn [hd_or childs_loop]. unfold rd_i. rewrite E. cbn [of_option bind i_kind i_data i_next fst snd map]. rewrite elements_cons, (IH _ fuel _ Sg ltac:(lia)).
  destruct (is_node k); cbn [app]; rewrite <- ?app_assoc; reflexivity.
Qed.

Section Node.
Variable p : nat.
Hypothesis K : known s p = true.
Let Ip : In p (f_nodes s) := proj1 (rep_known s p) K.
Lemma head : exists n, rd_n h p = Ok n /\ n_first n = hd_or (ch p) None.
Proof. destruct (rep_node _ _ _ R p Ip) as (n & E). exists n. unfold rd_n. rewrite E. split; [reflexivity|]. exact (proj1 (r_ends _ _ _ R p n E)). Qed.
Lemma get_child_called_ok x : get_child_called name h p x = Ok (find (fun n => bytes_eqb (name n) x) (elements (f_kids s p))).
Proof. destruct head as (n & E & F). unfold get_child_called. rewrite E. cbn [bind]. rewrite F, (r_kids _ _ _ R p Ip). eapply called_seg; [apply R|eapply chain_length, R]. Qed.
Lemma get_child_nth_ok position : get_child_nth h p position = Ok (if (0 <=? position)%Z then nth_error (elements (f_kids s p)) (Z.to_nat position) else None).
Proof.
  destruct head as (n & E & F). unfold get_child_nth. rewrite E. cbn [bind]. rewrite F, (r_kids _ _ _ R p Ip). replace (Z.to_nat position) with (Z.to_nat (position - 0)) by (f_equal; lia).
  eapply nth_seg; [apply R|eapply chain_length, R].
Qed.
Lemma get_child_num_ok : get_child_num h p = Ok (length (elements (f_kids s p))).
Proof. destruct head as (n & E & F). unfold get_child_num. rewrite E. cbn [bind]. rewrite F, (r_kids _ _ _ R p Ip). apply (num_seg p _ None _ 0); [apply R|eapply chain_length, R]. Qed.
Lemma get_childs_ok : get_childs h p = Ok (elements (f_kids s p)).
Proof. destruct head as (n & E & F). unfold get_childs. rewrite E. cbn [bind]. rewrite F, (r_kids _ _ _ R p Ip). apply (childs_seg p _ None _ []); [apply R|eapply chain_length, R]. Qed.
Lemma have_childs_ok : have_childs h p = Ok (negb (Nat.eqb (length (elements (f_kids s p))) 0)).
Proof. unfold have_childs. rewrite (rep_first h s ch R p K). cbn [bind]. rewrite first_node_hd. destruct (elements (f_kids s p)); reflexivity. Qed.
Lemma kids_le : length (f_kids s p) <= h_ifresh h.
Proof. rewrite (r_kids _ _ _ R p Ip), map_length. eapply chain_length, R. Qed.
End Node.

(** where elements are *)
Lemma kid_item p n : known s p = true -> In (KNode, n) (f_kids s p) -> exists a nd, In (a, (KNode, n)) (ch p) /\ h_nodes h n = Some nd /\ n_holder nd = Some a.
Proof.
  intros K I. rewrite (r_kids _ _ _ R p (proj1 (rep_known s p) K)) in I. apply in_map_iff in I as ([a c] & E & I). cbn in E. subst c.
  destruct (r_holder _ _ _ R p a n I) as (nd & H1 & H2). eauto.
Qed.
Lemma kid_known p n : known s p = true -> In (KNode, n) (f_kids s p) -> known s n = true.
Proof. intros K I. destruct (kid_item p n K I) as (a & nd & _ & E & _). apply rep_known. apply (r_nodes _ _ _ R). congruence. Qed.
Lemma kid_parent p n : known s p = true -> In (KNode, n) (f_kids s p) -> parent s n = Some p.
Proof.
  intros K I. destruct (parent s n) as [q|] eqn:P; [|exfalso; exact (parent_none s n P p (proj1 (rep_known s p) K) I)]. f_equal.
  destruct (parent_some s n q P) as (Iq & k & Pk). destruct (place_split _ _ _ Pk) as (l1 & l2 & E & _ & _).
  assert (Iq' : In (KNode, n) (f_kids s q)) by (rewrite E; apply in_or_app; right; left; reflexivity). apply rep_known in Iq.
  destruct (kid_item p n K I) as (a & nd & J1 & E1 & H1). destruct (kid_item q n Iq Iq') as (a2 & nd2 & J2 & E2 & H2).
  rewrite E1 in E2. injection E2 as <-. rewrite H1 in H2. injection H2 as <-. symmetry. exact (proj1 (rep_unique h s ch R _ _ _ _ _ J1 J2)).
Qed.
Lemma kid_once p n (l1 l2 : list child) : known s p = true -> f_kids s p = l1 ++ (KNode, n) :: l2 -> ~ In (KNode, n) l1 /\ ~ In (KNode, n) l2.
Proof.
  intros K E. assert (I : In (KNode, n) (f_kids s p)) by (rewrite E; apply in_or_app; right; left; reflexivity). destruct (kid_item p n K I) as (a & nd & J & En & Hn).
  rewrite (r_kids _ _ _ R p (proj1 (rep_known s p) K)) in E. destruct (map_snd_split _ _ _ _ E) as (e1 & b & e2 & Ec & <- & <-).
  assert (X : forall c, In (c, (KNode, n)) (ch p) -> c = b).
  { intros c Jc. assert (Jb : In (b, (KNode, n)) (ch p)) by (rewrite Ec; apply in_or_app; right; left; reflexivity).
    destruct (r_holder _ _ _ R p c n Jc) as (nd1 & G1 & G2). destruct (r_holder _ _ _ R p b n Jb) as (nd2 & G3 & G4). congruence. }
  pose proof (r_nodup _ _ _ R p) as ND. rewrite Ec in ND. rewrite map_app in ND. cbn [map fst] in ND. apply NoDup_remove_2 in ND.
  split; intros H; apply in_map_iff in H as ([c d] & Ed & H); cbn in Ed; subst d; assert (c = b) by (apply X; rewrite Ec; apply in_or_app; cbn; auto); subst c; apply ND; apply in_or_app; [left|right]; eapply in_fst; exact H.
Qed.
Lemma place_here n l1 l2 : ~ In (KNode, n) l1 -> place n (l1 ++ (KNode, n) :: l2) = Some (length l1).
Proof.
  induction l1 as [|[k d] l1 IH]; intros N; cbn [app place length]; unfold eqc; cbn [fst snd]; [rewrite Nat.eqb_refl; reflexivity|].
  rewrite IH by (intros I; apply N; right; exact I). destruct k; try reflexivity. destruct (Nat.eqb_spec n d) as [->|]; [exfalso; apply N; left; reflexivity|reflexivity].
Qed.
Lemma next_ok p n (l1 l2 : list child) : known s p = true -> f_kids s p = l1 ++ (KNode, n) :: l2 -> node_get_next h n = Ok (hd_error (elements l2)) /\ node_get_previous h n = Ok (hd_error (rev (elements l1))).
Proof.
  intros K E. destruct (kid_once p n l1 l2 K E) as [N1 N2]. assert (I : In (KNode, n) (f_kids s p)) by (rewrite E; apply in_or_app; right; left; reflexivity).
  destruct (rep_around h s ch R n p (kid_parent p n K I)) as (_ & -> & ->). unfold after_node, before_node. rewrite E, place_here by exact N1. split; f_equal.
  - rewrite skip_mid by reflexivity. apply first_node_hd.
  - rewrite first_mid by reflexivity. rewrite first_node_hd, elements_rev. reflexivity.
Qed.
Lemma len_mid (a : list child) x b : length b < length (a ++ x :: b) /\ length a < length (a ++ x :: b).
Proof. rewrite app_length. cbn [length]. lia. Qed.
Lemma elements_split (l : list child) n r : elements l = n :: r -> exists m l3 : list child, l = m ++ (KNode, n) :: l3 /\ elements m = [] /\ elements l3 = r.
Proof.
  induction l as [|[k d] l IH]; [discriminate|]. rewrite elements_cons. destruct (is_node k) eqn:Ek; cbn [app].
  - destruct k; try discriminate. intros E. injection E as -> E. exists [], l. auto.
  - intros E. destruct (IH E) as (m & l3 & -> & Em & El). exists ((k, d) :: m), l3. split; [reflexivity|]. rewrite elements_cons, Ek. auto.
Qed.
(** walking with axl_node_get_next over the elements from some point on *)
Lemma step_next p l1 l2 n r : known s p = true -> f_kids s p = l1 ++ l2 -> elements l2 = n :: r ->
  exists m l3 : list child, f_kids s p = (l1 ++ m ++ [(KNode, n)]) ++ l3 /\ length l3 < length l2 /\ elements l3 = r /\ node_get_next h n = Ok (hd_error (elements l3)).
Proof.
  intros K E El. destruct (elements_split l2 n r El) as (m & l3 & -> & Em & E3). exists m, l3.
  assert (E2 : f_kids s p = (l1 ++ m) ++ (KNode, n) :: l3) by (rewrite E, <- app_assoc; reflexivity).
  split; [rewrite E; rewrite <- !app_assoc; reflexivity|]. split; [apply len_mid|]. split; [exact E3|]. exact (proj1 (next_ok p n _ _ K E2)).
Qed.
Lemma step_prev p l1 l2 n r : known s p = true -> f_kids s p = l1 ++ l2 -> rev (elements l1) = n :: r ->
  exists l0 m : list child, f_kids s p = l0 ++ ((KNode, n) :: m ++ l2) /\ length l0 < length l1 /\ rev (elements l0) = r /\ node_get_previous h n = Ok (hd_error (rev (elements l0))).
Proof.
  intros K E El. rewrite <- elements_rev in El. destruct (elements_split (rev l1) n r El) as (m & l3 & Er & Em & E3).
  assert (E1 : l1 = rev l3 ++ (KNode, n) :: rev m) by (rewrite <- (rev_involutive l1), Er, rev_app_distr; cbn [rev]; rewrite <- app_assoc; reflexivity).
  assert (E2 : f_kids s p = rev l3 ++ (KNode, n) :: rev m ++ l2) by (rewrite E, E1, <- app_assoc; reflexivity).
  exists (rev l3), (rev m). split; [exact E2|]. split; [rewrite E1; apply len_mid|]. split; [rewrite <- elements_rev, rev_involutive; exact E3|]. exact (proj2 (next_ok p n _ _ K E2)).
Qed.
Lemma name_next_loop x p : known s p = true -> forall fuel l1 l2, f_kids s p = l1 ++ l2 -> length l2 <= fuel ->
  name_loop name fuel h node_get_next x (hd_error (elements l2)) = Ok (find (fun n => bytes_eqb (name n) x) (elements l2)).
Proof.
  intros K fuel. induction fuel as [|fuel IH]; intros l1 l2 E L; [destruct l2; [reflexivity|cbn in L; lia]|].
  destruct (elements l2) as [|n r] eqn:El; [reflexivity|]. cbn [hd_error name_loop find]. destruct (bytes_eqb (name n) x); [reflexivity|].
  destruct (step_next p l1 l2 n r K E El) as (m & l3 & E3 & L3 & <- & ->). cbn [bind]. apply (IH _ l3 E3). lia.
Qed.
Lemma name_prev_loop x p : known s p = true -> forall fuel l1 l2, f_kids s p = l1 ++ l2 -> length l1 <= fuel ->
  name_loop name fuel h node_get_previous x (hd_error (rev (elements l1))) = Ok (find (fun n => bytes_eqb (name n) x) (rev (elements l1))).
Proof.
  intros K fuel. induction fuel as [|fuel IH]; intros l1 l2 E L; [destruct l1; [reflexivity|cbn in L; lia]|].
  destruct (rev (elements l1)) as [|n r] eqn:El; [reflexivity|]. cbn [hd_error name_loop find]. destruct (bytes_eqb (name n) x); [reflexivity|].
  destruct (step_prev p l1 l2 n r K E El) as (l0 & m & E3 & L3 & <- & ->). cbn [bind]. apply (IH l0 _ E3). lia.
Qed.
Lemma get_next_called_ok p n x (l1 l2 : list child) : known s p = true -> f_kids s p = l1 ++ (KNode, n) :: l2 ->
  get_next_called name h n x = Ok (find (fun n => bytes_eqb (name n) x) (elements l2)) /\
  get_previous_called name h n x = Ok (find (fun n => bytes_eqb (name n) x) (rev (elements l1))).
Proof.
  intros K E. destruct (next_ok p n l1 l2 K E) as [E1 E2]. unfold get_next_called, get_previous_called. rewrite E1, E2. cbn [bind]. pose proof (kids_le p K) as L. assert (Lab : length l2 < length (f_kids s p) /\ length l1 < length (f_kids s p)) by (rewrite E; exact (len_mid l1 (KNode, n) l2)). split.
  - apply (name_next_loop x p K (h_ifresh h) (l1 ++ [(KNode, n)]) l2); [rewrite <- app_assoc; exact E|lia].
  - apply (name_prev_loop x p K (h_ifresh h) l1 ((KNode, n) :: l2)); [exact E|lia].
Qed.

(** below *)
Lemma find_app {A} (f : A -> bool) l1 l2 : find f (l1 ++ l2) = match find f l1 with Some x => Some x | None => find f l2 end.
Proof. induction l1 as [|a l1 IH]; [reflexivity|]. cbn. destruct (f a); [reflexivity|exact IH]. Qed.
Lemma find_loop_ok (rec : nat -> res (option nat)) (g : nat -> option nat) p : known s p = true -> (forall n, In n (elements (f_kids s p)) -> rec n = Ok (g n)) -> forall fuel l1 l2, f_kids s p = l1 ++ l2 -> length l2 <= fuel ->
  find_loop fuel rec h (hd_error (elements l2)) = Ok (fold_right (fun n r => match g n with Some c => Some c | None => r end) None (elements l2)).
Proof.
  intros K G fuel. induction fuel as [|fuel IH]; intros l1 l2 E L; [destruct l2; [reflexivity|cbn in L; lia]|].
  destruct (elements l2) as [|n r] eqn:El; [reflexivity|]. cbn [hd_error find_loop fold_right].
  rewrite G by (rewrite E, elements_app, El; apply in_or_app; right; left; reflexivity). cbn [bind]. destruct (g n); [reflexivity|].
  destruct (step_next p l1 l2 n r K E El) as (m & l3 & E3 & L3 & <- & ->). cbn [bind]. apply (IH _ l3 E3). lia.
Qed.
Lemma list_max_in l x : In x l -> x <= list_max l.
Proof. intros I. pose proof (proj1 (list_max_le l (list_max l)) (le_n _)) as F. rewrite Forall_forall in F. auto. Qed.
Lemma find_called_ok x : forall fuel t, height t <= fuel -> shows (f_kids s) t -> known s (label t) = true ->
  find_called name fuel h x (label t) = Ok (find (fun n => bytes_eqb (name n) x) (below t)).
Proof.
  induction fuel as [|fuel IH]; intros t H Sh K; [destruct t; cbn in H; lia|]. destruct Sh as [n ts E Sh]. cbn [label] in *. cbn [find_called].
  rewrite (rep_first h s ch R n K). cbn [bind]. rewrite first_node_hd. rewrite (name_next_loop x n K (h_ifresh h) [] (f_kids s n) eq_refl (kids_le n K)). cbn [bind below].
  rewrite find_app, <- E. destruct (find (fun n0 => bytes_eqb (name n0) x) (elements (f_kids s n))); [reflexivity|].
  assert (Ht : forall t, In t ts -> height t <= fuel).
  { intros t I. cbn [height] in H. assert (height t <= list_max (map height ts)) by (apply list_max_in, in_map, I). lia. }
  set (g := fun m => match find (fun t => Nat.eqb (label t) m) ts with Some t => find (fun n0 => bytes_eqb (name n0) x) (below t) | None => None end).
  rewrite (find_loop_ok (find_called name fuel h x) g n K) with (l1 := []); [|intros m I|reflexivity|apply (kids_le n K)].
  - f_equal. assert (ND : NoDup (map label ts)).
    { rewrite <- E. clear -K R. assert (X : forall l1 l2, f_kids s n = l1 ++ l2 -> NoDup (elements l2)).
      { intros l1 l2; revert l1. induction l2 as [|[k d] l2 IH]; intros l1 E; [constructor|]. rewrite elements_cons. specialize (IH (l1 ++ [(k, d)])). rewrite <- app_assoc in IH. specialize (IH E).
        destruct k; cbn [is_node app]; try exact IH. constructor; [|exact IH]. rewrite elements_in. exact (proj2 (kid_once n d l1 l2 K E)). }
      exact (X [] _ eq_refl). }
    rewrite E. unfold g. clear -ND. assert (X : forall us, incl us ts -> fold_right (fun m r => match match find (fun t => Nat.eqb (label t) m) ts with Some t => find (fun n0 => bytes_eqb (name n0) x) (below t) | None => None end with Some c => Some c | None => r end) None (map label us) =
      find (fun n0 => bytes_eqb (name n0) x) (flat_map below us)).
    { induction us as [|u us IH]; intros In_us; [reflexivity|]. cbn [map fold_right flat_map]. rewrite find_app, IH by (intros y Y; apply In_us; right; exact Y).
      assert (F : find (fun t => Nat.eqb (label t) (label u)) ts = Some u).
      { assert (Iu : In u ts) by (apply In_us; left; reflexivity). clear -ND Iu. induction ts as [|v ts IH]; [destruct Iu|]. cbn [find]. cbn [map] in ND. inversion ND as [|? ? N ND']; subst. destruct Iu as [->|Iu]; [rewrite Nat.eqb_refl; reflexivity|].
        destruct (Nat.eqb_spec (label v) (label u)) as [Ev|]; [exfalso; apply N; rewrite Ev; apply in_map, Iu|exact (IH ND' Iu)]. }
      rewrite F. reflexivity. }
    exact (X ts (incl_refl _)).
  - rewrite E in I. apply in_map_iff in I as (t & <- & It). unfold g. destruct (find (fun t0 => Nat.eqb (label t0) (label t)) ts) as [t'|] eqn:F.
    + apply find_some in F as [It' Eq]. apply Nat.eqb_eq in Eq. rewrite <- Eq. apply IH; [apply Ht, It'|apply Sh, It'|]. apply (kid_known n); [exact K|]. apply elements_in. rewrite E. apply in_map, It'.
    + exfalso. pose proof (find_none _ _ F t It) as X. cbn in X. rewrite Nat.eqb_refl in X. discriminate.
Qed.
End Rep.
