(** Iteration. *)
From Verif Require Import Prelude ItemModel ItemSpec ItemExec ItemProofs ItemProofs3 ItemProofs4 ItemProofs6 ItemProofs7 StrModel FindModel FindSpec FindProofs.
Open Scope nat_scope.
Open Scope list_scope.

(** ** trees *)
Lemma tree_ind2 (P : tree -> Prop) : (forall n ts, (forall t, In t ts -> P t) -> P (T n ts)) -> forall t, P t.
Proof.
  intros H. fix IH 1. intros [n ts]. apply H. induction ts as [|t ts IHts]; intros u I; [destruct I|]. destruct I as [<-|I]; [apply IH|exact (IHts u I)].
Qed.
Lemma shows_ext f g t : shows f t -> (forall x, In x (pre t) -> g x = f x) -> shows g t.
Proof.
  induction t as [n ts IH] using tree_ind2. intros Sh H. inversion Sh as [? ? E Hs]; subst. constructor.
  - rewrite H by (left; reflexivity). exact E.
  - intros t I. apply IH; [exact I|auto|]. intros x J. apply H. right. apply in_flat_map. eauto.
Qed.
(** ** a tree shown by a family where every element has one parent has every element once *)
Fixpoint size (t : tree) : nat := match t with T _ ts => S (list_sum (map size ts)) end.
Lemma list_sum_in x l : In x l -> x <= list_sum l.
Proof. induction l as [|y l IH]; [intros []|]. intros [->|I]; cbn; [lia|]. specialize (IH I). unfold list_sum in IH. lia. Qed.
Lemma shows_det f t : forall u, shows f t -> shows f u -> label t = label u -> t = u.
Proof.
  induction t as [n ts IH] using tree_ind2. intros [m us] St Su E. cbn [label] in E. subst m. inversion St as [? ? E1 H1]; subst. inversion Su as [? ? E2 H2]; subst. f_equal.
  rewrite E1 in E2. clear St Su E1. revert us H2 E2. induction ts as [|t ts IHts]; intros [|u us] H2 E2; cbn in E2; try discriminate; [reflexivity|]. injection E2 as E3 E4. f_equal.
  - apply IH; [left; reflexivity|apply H1; left; reflexivity|apply H2; left; reflexivity|exact E3].
  - apply IHts; [intros v Iv; apply IH; right; exact Iv|intros v Iv; apply H1; right; exact Iv|intros v Iv; apply H2; right; exact Iv|exact E4].
Qed.
Lemma pre_sub f t x : shows f t -> In x (pre t) -> exists u, shows f u /\ label u = x /\ size u <= size t.
Proof.
  induction t as [n ts IH] using tree_ind2. intros Sh I. destruct I as [<-|I]; [exists (T n ts); auto|]. apply in_flat_map in I as (t & It & I). inversion Sh as [? ? _ H]; subst.
  destruct (IH t It (H t It) I) as (u & U1 & U2 & U3). exists u. split; [exact U1|]. split; [exact U2|]. pose proof (list_sum_in (size t) (map size ts) (in_map size ts t It)). cbn. lia.
Qed.
Inductive chained (f : family) (n : nat) : nat -> Prop := ch_here : chained f n n | ch_down y x : chained f n y -> In x (elements (f y)) -> chained f n x.
Lemma chained_app f a b c : chained f a b -> chained f b c -> chained f a c.
Proof. intros H. induction 1; [exact H|eapply ch_down; eassumption]. Qed.
Lemma pre_chained f t : shows f t -> forall x, In x (pre t) <-> chained f (label t) x.
Proof.
  intros Sh x. split.
  - revert x. induction t as [n ts IH] using tree_ind2. intros x [<-|I]; [constructor|]. apply in_flat_map in I as (t & It & I). inversion Sh as [? ? E H]; subst. cbn [label].
    eapply chained_app; [|exact (IH t It (H t It) x I)]. eapply ch_down; [constructor|]. rewrite E. apply in_map, It.
  - induction 1 as [|y x C IH I]; [destruct t; left; reflexivity|]. destruct (pre_sub f t y Sh IH) as (u & U1 & U2 & U3). clear C. revert y x Sh IH I u U1 U2 U3. induction t as [n ts IHt] using tree_ind2. intros y x Sh Iy I u U1 U2 U3.
    inversion Sh as [? ? E H]; subst. destruct Iy as [Ey|Iy].
    + right. rewrite <- Ey, E in I. apply in_map_iff in I as (t & <- & It). apply in_flat_map. exists t. split; [exact It|]. destruct t; left; reflexivity.
    + right. apply in_flat_map in Iy as (t & It & Iy). apply in_flat_map. exists t. split; [exact It|]. destruct (pre_sub f t (label u) (H t It) Iy) as (v & V1 & V2 & V3). apply (IHt t It (label u) x (H t It) Iy I v V1 V2 V3).
Qed.
Lemma chained_last f n x : chained f n x -> x = n \/ exists y, chained f n y /\ In x (elements (f y)).
Proof. intros [|y x' C I]; [left; reflexivity|right; eauto]. Qed.
Lemma nodup_flat {A B} (g : A -> list B) l : (forall a, In a l -> NoDup (g a)) -> ForallOrdPairs (fun a b => forall x, In x (g a) -> ~ In x (g b)) l -> NoDup (flat_map g l).
Proof.
  intros H P. induction P as [|a l Fa P IH]; [constructor|]. cbn. apply NoDup_app_intro; [apply H; left; reflexivity|apply IH; intros b Ib; apply H; right; exact Ib|].
  intros x I1 I2. apply in_flat_map in I2 as (b & Ib & I2). rewrite Forall_forall in Fa. exact (Fa b Ib x I1 I2).
Qed.
Lemma pairs_of_nodup {A} (P : A -> A -> Prop) (f : A -> nat) l : NoDup (map f l) -> (forall a b, In a l -> In b l -> f a <> f b -> P a b) -> ForallOrdPairs P l.
Proof.
  induction l as [|a l IH]; intros ND H; [constructor|]. cbn in ND. inversion ND as [|? ? Na ND']; subst. constructor.
  - apply Forall_forall. intros b Ib. apply H; [left; reflexivity|right; exact Ib|]. intros E. apply Na. rewrite E. apply in_map, Ib.
  - apply IH; [exact ND'|]. intros b c Ib Ic. apply H; right; assumption.
Qed.
Lemma shows_nodup h s ch t : Rep h s ch -> known s (label t) = true -> shows (f_kids s) t -> NoDup (pre t).
Proof.
  intros R. induction t as [n ts IH] using tree_ind2. intros K Sh. pose proof Sh as Sh0. inversion Sh as [? ? E H]; subst. cbn [label] in K.
  assert (Kt : forall t, In t ts -> known s (label t) = true) by (intros t It; apply (kid_known h s ch R n _ K), elements_in; rewrite E; apply in_map, It).
  assert (Kc : forall a x, known s a = true -> chained (f_kids s) a x -> known s x = true) by (intros a x Ka C; induction C as [|y x C IHc I]; [exact Ka|apply (kid_known h s ch R y _ IHc), elements_in, I]).
  assert (Up : forall p q x, known s p = true -> known s q = true -> In x (elements (f_kids s p)) -> In x (elements (f_kids s q)) -> p = q).
  { intros p q x Kp Kq Ip Iq. apply elements_in in Ip, Iq. pose proof (kid_parent h s ch R p x Kp Ip) as P1. pose proof (kid_parent h s ch R q x Kq Iq) as P2. congruence. }
  assert (Nn : forall t, In t ts -> ~ In n (pre t)).
  { intros t It I. destruct (pre_sub _ t n (H t It) I) as (u & U1 & U2 & U3). assert (u = T n ts) by (apply (shows_det (f_kids s)); auto). subst u.
    pose proof (list_sum_in (size t) (map size ts) (in_map size ts t It)). cbn [size] in U3. lia. }
  cbn [pre]. constructor; [intros I; apply in_flat_map in I as (t & It & I); exact (Nn t It I)|].
  apply nodup_flat; [intros t It; apply IH; auto|]. apply (pairs_of_nodup _ label).
  - rewrite <- E. assert (X : forall l1 l2, f_kids s n = l1 ++ l2 -> NoDup (elements l2)).
    { intros l1 l2. revert l1. induction l2 as [|[k d] l2 IHl]; intros l1 El; [constructor|]. rewrite elements_cons. assert (El' : f_kids s n = (l1 ++ [(k, d)]) ++ l2) by (rewrite El, <- app_assoc; reflexivity).
      specialize (IHl _ El'). destruct k; cbn [is_node app]; try exact IHl. constructor; [|exact IHl]. intros I. apply elements_in in I. exact (proj2 (kid_once h s ch R n d l1 l2 K El) I). }
    exact (X [] _ eq_refl).
  - intros a b Ia Ib Nab x Xa. apply (pre_chained _ a (H a Ia)) in Xa.
    assert (La : In (label a) (elements (f_kids s n))) by (rewrite E; apply in_map, Ia). assert (Lb : In (label b) (elements (f_kids s n))) by (rewrite E; apply in_map, Ib).
    induction Xa as [|y x C IHc I]; intros Xb; apply (pre_chained _ b (H b Ib)) in Xb; apply chained_last in Xb as [Xb|(z & Cz & Iz)].
    + congruence.
    + assert (z = n) by (apply (Up z n (label a)); eauto). subst z. apply (Nn b Ib), (pre_chained _ b (H b Ib)), Cz.
    + subst x. assert (y = n) by (apply (Up y n (label b)); eauto). subst y. apply (Nn a Ia), (pre_chained _ a (H a Ia)), C.
    + assert (z = y) by (apply (Up z y x); eauto). subst z. apply IHc, (pre_chained _ b (H b Ib)), Cz.
Qed.
Definition nodes (fs : list (tree * option nat)) : list nat := flat_map (fun e => pre (fst e)) fs.
Lemma nodes_app a b : nodes (a ++ b) = nodes a ++ nodes b.
Proof. apply flat_map_app. Qed.
Lemma nodes_with p ts : nodes (map (fun t => (t, p)) ts) = flat_map pre ts.
Proof. unfold nodes. induction ts as [|t ts IH]; [reflexivity|]. cbn. rewrite IH. reflexivity. Qed.
Definition heads (fs : list (tree * option nat)) : list nat := map (fun e => label (fst e)) fs.
Lemma heads_with p ts : heads (map (fun t => (t, p)) ts) = map label ts.
Proof. unfold heads. rewrite map_map. reflexivity. Qed.

Section Visit.
Variable decide : calls -> verdict.
Definition deep_all : list (tree * option nat) -> calls -> calls * bool :=
  fix go fs seen := match fs with [] => (seen, true) | (t, p) :: fs => let (seen, b) := deep decide p t seen in if b then go fs seen else (seen, false) end.
Lemma deep_all_app a b seen : deep_all (a ++ b) seen = let (seen, r) := deep_all a seen in if r then deep_all b seen else (seen, false).
Proof. revert seen. induction a as [|[t p] a IH]; intros seen; [reflexivity|]. cbn [app deep_all]. destruct (deep decide p t seen) as [seen' r]. destruct r; [apply IH|reflexivity]. Qed.
Lemma deep_step p n ts fs seen : deep_all ((T n ts, p) :: fs) seen =
  let seen := seen ++ [(n, p)] in
  if negb (v_go (decide seen)) then (seen, false)
  else if v_removed (decide seen) then deep_all fs seen
  else deep_all (map (fun t => (t, Some n)) ts ++ fs) seen.
Proof.
  cbn [deep_all deep]. cbv zeta. destruct (negb (v_go (decide (seen ++ [(n, p)])))); [reflexivity|]. destruct (v_removed (decide (seen ++ [(n, p)]))); [reflexivity|].
  rewrite deep_all_app. generalize (seen ++ [(n, p)]) as sn. clear. intros sn.
  assert (X : forall ts sn, (fix go (ts0 : list tree) (seen0 : calls) {struct ts0} : calls * bool := match ts0 with [] => (seen0, true) | t :: ts1 => let (seen1, b) := deep decide (Some n) t seen0 in if b then go ts1 seen1 else (seen1, false) end) ts sn = deep_all (map (fun t => (t, Some n)) ts) sn).
  { induction ts0 as [|t ts0 IH]; intros s0; [reflexivity|]. cbn [map deep_all]. destruct (deep decide (Some n) t s0) as [s1 b]. destruct b; [apply IH|reflexivity]. }
  rewrite X. reflexivity.
Qed.
Lemma gone_app done a b : gone decide done (a ++ b) = gone decide done a ++ gone decide (done ++ a) b.
Proof. revert done. induction a as [|c a IH]; intros done; cbn [app gone]; [rewrite app_nil_r; reflexivity|]. rewrite IH, <- !app_assoc. reflexivity. Qed.
Lemma gone_snoc seen n p : gone decide [] (seen ++ [(n, p)]) = gone decide [] seen ++ (if v_removed (decide (seen ++ [(n, p)])) then [n] else []).
Proof. rewrite gone_app. cbn [gone app fst]. rewrite app_nil_r. reflexivity. Qed.

(** ** the heap while visiting *)
Variable s0 : fam.
Definition now (seen : calls) : fam := without s0 (gone decide [] seen).
Definition placed (s : fam) (fs : list (tree * option nat)) (e : tree * option nat) : Prop :=
  shows (f_kids s) (fst e) /\ exists q, snd e = Some q /\ known s q = true /\ In (KNode, label (fst e)) (f_kids s q) /\ ~ In q (nodes fs).
Definition ready_for (h : heap) (seen : calls) (fs : list (tree * option nat)) : Prop :=
  (exists ch, Rep h (now seen) ch) /\ Forall (placed (now seen) fs) fs /\ NoDup (nodes fs).

Lemma add_deep h s ch p : Rep h s ch -> known s p = true -> forall fuel l1 l2 a rest it, f_kids s p = l1 ++ l2 -> length l2 <= fuel -> length a = it ->
  add_loop fuel h Deep (a ++ rest) it (hd_error (elements l2)) = Ok (a ++ elements l2 ++ rest).
Proof.
  intros R K fuel. induction fuel as [|fuel IH]; intros l1 l2 a rest it E L A; [destruct l2; [reflexivity|cbn in L; lia]|].
  destruct (elements l2) as [|n r] eqn:El; [reflexivity|]. cbn [hd_error add_loop].
  destruct (step_next h s ch R p l1 l2 n r K E El) as (m & l3 & E3 & L3 & Er & ->). cbn [bind].
  rewrite firstn_app, skipn_app, A, Nat.sub_diag, <- A, firstn_all, skipn_all. cbn [firstn skipn app]. rewrite app_nil_r.
  replace (a ++ n :: rest) with ((a ++ [n]) ++ rest) by (rewrite <- app_assoc; reflexivity).
  rewrite (IH (l1 ++ m ++ [(KNode, n)]) l3 (a ++ [n]) rest (S (length a)) E3 ltac:(lia)) by (rewrite app_length; cbn; lia).
  rewrite Er, <- app_assoc. reflexivity.
Qed.
Lemma add_wide h s ch p : Rep h s ch -> known s p = true -> forall fuel l1 l2 pending it, f_kids s p = l1 ++ l2 -> length l2 <= fuel ->
  add_loop fuel h Wide pending it (hd_error (elements l2)) = Ok (pending ++ elements l2).
Proof.
  intros R K fuel. induction fuel as [|fuel IH]; intros l1 l2 pending it E L; [destruct l2; [cbn; rewrite app_nil_r; reflexivity|cbn in L; lia]|].
  destruct (elements l2) as [|n r] eqn:El; [cbn; rewrite app_nil_r; reflexivity|]. cbn [hd_error add_loop].
  destruct (step_next h s ch R p l1 l2 n r K E El) as (m & l3 & E3 & L3 & Er & ->). cbn [bind].
  rewrite (IH (l1 ++ m ++ [(KNode, n)]) l3 (pending ++ [n]) it E3 ltac:(lia)), Er, <- app_assoc. reflexivity.
Qed.
Definition add_to (m : mode) (kids rest : list nat) : list nat := match m with Deep => kids ++ rest | Wide => rest ++ kids end.
Lemma expand h s ch n m pending : Rep h s ch -> known s n = true ->
  (b <- have_childs h n ;; if b : bool then c <- node_first_child h n ;; add_loop (h_ifresh h) h m pending 0 c else Ok pending) = Ok (add_to m (elements (f_kids s n)) pending).
Proof.
  intros R K. rewrite (have_childs_ok h s ch R n K). cbn [bind]. destruct (Nat.eqb_spec (length (elements (f_kids s n))) 0) as [E|E]; cbn [negb].
  - destruct (elements (f_kids s n)); [|discriminate]. destruct m; cbn; rewrite ?app_nil_r; reflexivity.
  - rewrite (rep_first h s ch R n K). cbn [bind]. rewrite first_node_hd. destruct m; cbn [add_to].
    + exact (add_deep h s ch n R K (h_ifresh h) [] (f_kids s n) [] pending 0 eq_refl (kids_le h s ch R n K) eq_refl).
    + exact (add_wide h s ch n R K (h_ifresh h) [] (f_kids s n) pending 0 eq_refl (kids_le h s ch R n K)).
Qed.

Lemma filter_ext_in2 {A} (f g : A -> bool) l : (forall x, In x l -> f x = g x) -> filter f l = filter g l.
Proof. intros H. induction l as [|x l IH]; [reflexivity|]. cbn. rewrite (H x (or_introl eq_refl)), IH by (intros y I; apply H; right; exact I). reflexivity. Qed.
Lemma filter_filter {A} (f g : A -> bool) l : filter f (filter g l) = filter (fun x => g x && f x) l.
Proof. induction l as [|x l IH]; [reflexivity|]. cbn. destruct (g x); cbn; [destruct (f x); rewrite IH; reflexivity|exact IH]. Qed.
Lemma filter_id {A} (f : A -> bool) l : (forall x, In x l -> f x = true) -> filter f l = l.
Proof. intros H. induction l as [|x l IH]; [reflexivity|]. cbn. rewrite (H x (or_introl eq_refl)), IH by (intros y I; apply H; right; exact I). reflexivity. Qed.
Lemma stays_snoc l n c : stays (l ++ [n]) c = stays l c && stays [n] c.
Proof. destruct c as [k d]. destruct k; try reflexivity. cbn [stays]. rewrite existsb_app. cbn [existsb]. rewrite negb_orb. reflexivity. Qed.
Lemma stays_one n c : stays [n] c = true <-> c <> (KNode, n).
Proof.
  destruct c as [k d]. destruct k; cbn [stays existsb]; try (split; [discriminate|reflexivity]). rewrite orb_false_r. destruct (Nat.eqb_spec d n) as [->|N]; cbn; split; try congruence; auto.
Qed.
Lemma now_snoc_kids seen n q p : f_kids (now (seen ++ [(n, q)])) p = if v_removed (decide (seen ++ [(n, q)])) then filter (stays [n]) (f_kids (now seen) p) else f_kids (now seen) p.
Proof.
  unfold now, without. cbn [f_kids]. rewrite gone_snoc. destruct (v_removed (decide (seen ++ [(n, q)]))); [|rewrite app_nil_r; reflexivity].
  rewrite filter_filter. apply filter_ext_in2. intros c _. apply stays_snoc.
Qed.
Lemma known_now seen p : known (now seen) p = known s0 p.
Proof. reflexivity. Qed.

(** removing an element *)
Lemma remove_ok h seen ch n q p : Rep h (now seen) ch -> known s0 q = true -> In (KNode, n) (f_kids (now seen) q) -> v_removed (decide (seen ++ [(n, p)])) = true ->
  (exists h', node_remove h n = Ok h' /\ exists ch', Rep h' (now (seen ++ [(n, p)])) ch') /\
  forall x, x <> q -> In x (f_nodes s0) -> f_kids (now (seen ++ [(n, p)])) x = f_kids (now seen) x.
Proof.
  intros R K I V. rewrite <- (known_now seen) in K. pose proof (kid_parent h _ ch R q n K I) as P.
  destruct (in_split _ _ I) as (l1 & l2 & E). destruct (kid_once h _ ch R q n l1 l2 K E) as [N1 N2].
  assert (Other : forall x, x <> q -> In x (f_nodes s0) -> ~ In (KNode, n) (f_kids (now seen) x)).
  { intros x Nx Ix J. assert (Kx : known (now seen) x = true) by (rewrite known_now; apply rep_known, Ix). rewrite (kid_parent h _ ch R x n Kx J) in P. congruence. }
  split.
  - destruct (rep_node_remove h (now seen) ch n q (length l1) R P) as (h' & ch' & Er & R'); [rewrite E; apply place_here, N1|]. exists h'. split; [exact Er|]. exists ch'.
    rewrite E, cut_mid in R' by reflexivity.
    assert (Kids : forall x, In x (f_nodes s0) -> f_kids (now (seen ++ [(n, p)])) x = set_kids (f_kids (now seen)) q (l1 ++ l2) x).
    { intros x Ix. rewrite now_snoc_kids, V. unfold set_kids. destruct (Nat.eqb_spec x q) as [->|Nx].
      - rewrite E, filter_app. cbn [filter]. replace (stays [n] (KNode, n)) with false by (symmetry; apply not_true_iff_false; rewrite stays_one; congruence).
        rewrite !filter_id; [reflexivity| |]; intros c Ic; apply stays_one; intros ->; contradiction.
      - apply filter_id. intros c Ic. apply stays_one. intros ->. exact (Other x Nx Ix Ic). }
    destruct R'. split; cbn [f_nodes f_kids now without] in *; auto. intros x Ix. rewrite <- (r_kids x Ix). exact (Kids x Ix).
  - intros x Nx Ix. rewrite now_snoc_kids, V. apply filter_id. intros c Ic. apply stays_one. intros ->. exact (Other x Nx Ix Ic).
Qed.
Lemma now_same h seen ch n p : Rep h (now seen) ch -> v_removed (decide (seen ++ [(n, p)])) = false -> Rep h (now (seen ++ [(n, p)])) ch.
Proof.
  intros R V. apply (rep_ext h (now seen) _ ch ch); auto. intros x. rewrite now_snoc_kids, V. reflexivity.
Qed.

(** what a call makes of the elements that wait *)
Lemma pre_head t : In (label t) (pre t).
Proof. destruct t. left. reflexivity. Qed.
Lemma pre_known h s ch t : Rep h s ch -> shows (f_kids s) t -> known s (label t) = true -> forall x, In x (pre t) -> known s x = true.
Proof.
  intros R. induction t as [n ts IH] using tree_ind2. intros Sh K x I. inversion Sh as [? ? E Hs]; subst. cbn [pre] in I. destruct I as [<-|I]; [exact K|].
  apply in_flat_map in I as (t & It & I). apply (IH t It (Hs t It)); [|exact I]. apply (kid_known h s ch R n); [exact K|]. apply elements_in. rewrite E. apply in_map, It.
Qed.
Lemma call_removed h seen n ts p fs : ready_for h seen ((T n ts, p) :: fs) -> v_removed (decide (seen ++ [(n, p)])) = true ->
  exists h', node_remove h n = Ok h' /\ ready_for h' (seen ++ [(n, p)]) fs.
Proof.
  intros ((ch & R) & F & ND) V. inversion F as [|? ? (Sh & q & Eq & Kq & Iq & Nq) F']; subst. cbn [fst snd label] in *. subst p.
  destruct (remove_ok h seen ch n q (Some q) R Kq Iq V) as ((h' & Er & ch' & R') & Same). exists h'. split; [exact Er|]. split; [eauto|].
  change (nodes ((T n ts, Some q) :: fs)) with (pre (T n ts) ++ nodes fs) in *. destruct (NoDup_app_inv _ _ ND) as (_ & ND2 & Dj). split; [|exact ND2].
  rewrite Forall_forall in *. intros e Ie. destruct (F' e Ie) as (She & qe & Eqe & Kqe & Iqe & Nqe).
  assert (Sub : forall x, In x (pre (fst e)) -> In x (nodes fs)) by (intros x Ix; apply in_flat_map; eauto).
  split.
  - apply (shows_ext (f_kids (now seen))); [exact She|]. intros x Ix. apply Same.
    + intros ->. apply Nq. apply in_or_app. right. apply Sub, Ix.
    + apply rep_known. rewrite <- (known_now seen). eapply pre_known; [exact R|exact She| |exact Ix]. apply (kid_known h _ ch R qe); [exact Kqe|exact Iqe].
  - exists qe. split; [exact Eqe|]. split; [exact Kqe|]. split; [|intros J; apply Nqe, in_or_app; right; exact J].
    rewrite now_snoc_kids, V. apply filter_In. split; [exact Iqe|]. apply stays_one. intros E. injection E as E. apply (Dj n); [left; reflexivity|]. rewrite <- E. apply Sub, pre_head.
Qed.
Lemma call_kept h seen n ts p fs : ready_for h seen ((T n ts, p) :: fs) -> v_removed (decide (seen ++ [(n, p)])) = false ->
  exists ch, Rep h (now (seen ++ [(n, p)])) ch /\ known (now (seen ++ [(n, p)])) n = true /\ elements (f_kids (now (seen ++ [(n, p)])) n) = map label ts /\
    Forall (fun e => shows (f_kids (now (seen ++ [(n, p)]))) (fst e) /\ exists q, snd e = Some q /\ known s0 q = true /\ In (KNode, label (fst e)) (f_kids (now (seen ++ [(n, p)])) q) /\ ~ In q (nodes (map (fun t => (t, Some n)) ts) ++ nodes fs))
      (map (fun t => (t, Some n)) ts ++ fs) /\
    NoDup (nodes (map (fun t => (t, Some n)) ts) ++ nodes fs).
Proof.
  intros ((ch & R) & F & ND) V. inversion F as [|? ? (Sh & q & Eq & Kq & Iq & Nq) F']; subst. cbn [fst snd label] in *. subst p.
  exists ch. split; [apply now_same; assumption|]. pose proof (kid_known h _ ch R q n Kq Iq) as Kn. split; [exact Kn|].
  assert (Kids : forall x, f_kids (now (seen ++ [(n, Some q)])) x = f_kids (now seen) x) by (intros x; rewrite now_snoc_kids, V; reflexivity).
  inversion Sh as [? ? E Hs]; subst. rewrite (Kids n). split; [exact E|].
  change (nodes ((T n ts, Some q) :: fs)) with (n :: (flat_map pre ts ++ nodes fs)) in *. rewrite nodes_with. inversion ND as [|? ? Nn ND']; subst. split; [|exact ND'].
  apply Forall_app. split.
  - apply Forall_forall. intros e Ie. apply in_map_iff in Ie as (t & <- & It). cbn [fst snd]. split; [eapply shows_ext; [apply Hs, It|intros; apply Kids]|].
    exists n. split; [reflexivity|]. split; [exact Kn|]. split; [|exact Nn]. rewrite Kids. apply elements_in. rewrite E. apply in_map, It.
  - rewrite Forall_forall in *. intros e Ie. destruct (F' e Ie) as (She & qe & Eqe & Kqe & Iqe & Nqe). split; [eapply shows_ext; [exact She|intros; apply Kids]|].
    exists qe. split; [exact Eqe|]. split; [exact Kqe|]. split; [rewrite Kids; exact Iqe|]. intros J. apply Nqe. right. exact J.
Qed.
Lemma ready_perm h seen a b : (exists ch, Rep h (now seen) ch) ->
  Forall (fun e => shows (f_kids (now seen)) (fst e) /\ exists q, snd e = Some q /\ known s0 q = true /\ In (KNode, label (fst e)) (f_kids (now seen) q) /\ ~ In q (nodes a ++ nodes b)) (a ++ b) ->
  NoDup (nodes a ++ nodes b) -> ready_for h seen (a ++ b) /\ ready_for h seen (b ++ a).
Proof.
  intros R F ND. split.
  - split; [exact R|]. rewrite nodes_app. split; [|exact ND]. eapply Forall_impl; [|exact F]. intros e (She & q & E1 & E2 & E3 & E4). split; [exact She|]. exists q. rewrite nodes_app. auto.
  - split; [exact R|]. rewrite nodes_app. split.
    + apply Forall_app in F as [F1 F2]. apply Forall_app. split; [eapply Forall_impl; [|exact F2]|eapply Forall_impl; [|exact F1]]; intros e (She & q & E1 & E2 & E3 & E4); (split; [exact She|]); exists q; rewrite nodes_app;
        repeat split; auto; intros J; apply E4; apply in_app_or in J; apply in_or_app; tauto.
    + destruct (NoDup_app_inv _ _ ND) as (N1 & N2 & N3). apply NoDup_app_intro; auto. intros x X1 X2. exact (N3 x X2 X1).
Qed.
Lemma parent_ok h seen t p fs : ready_for h seen ((t, p) :: fs) -> node_get_parent h (label t) = Ok p.
Proof.
  intros ((ch & R) & F & ND). inversion F as [|? ? (Sh & q & Eq & Kq & Iq & Nq) F']; subst. cbn [fst snd] in *. subst p.
  exact (proj1 (rep_around h _ ch R _ q (kid_parent h _ ch R q _ Kq Iq))).
Qed.

(** one turn of the loop *)
Lemma iter_step fuel h m n ts p fs pending seen : ready_for h seen ((T n ts, p) :: fs) -> pending = heads fs ->
  let seen' := seen ++ [(n, p)] in
  iter_loop decide (S fuel) h m (n :: pending) seen =
    (h' <- (if v_removed (decide seen') then node_remove h n else Ok h) ;;
     if negb (v_go (decide seen')) then Ok (h', seen', false)
     else if v_removed (decide seen') then iter_loop decide fuel h' m pending seen'
     else iter_loop decide fuel h' m (add_to m (map label ts) pending) seen').
Proof.
  intros Rd ->. cbv zeta. cbn [iter_loop]. pose proof (parent_ok h seen (T n ts) p fs Rd) as Pa. cbn [label] in Pa. rewrite Pa. cbn [bind]. unfold notify.
  destruct (v_removed (decide (seen ++ [(n, p)]))) eqn:V.
  - destruct (call_removed h seen n ts p fs Rd V) as (h' & -> & Rd'). cbn [bind]. rewrite V. reflexivity.
  - cbn [bind]. rewrite V. destruct (negb (v_go (decide (seen ++ [(n, p)])))); [reflexivity|].
    destruct (call_kept h seen n ts p fs Rd V) as (ch & R & K & E & _). pose proof (expand h _ ch n m (heads fs) R K) as X. rewrite E in X.
    destruct (have_childs h n) as [b| |]; cbn [bind] in X |- *; try discriminate. rewrite X. reflexivity.
Qed.
Lemma nodes_length_step n ts p fs : length (nodes ((T n ts, p) :: fs)) = S (length (nodes (map (fun t => (t, Some n)) ts)) + length (nodes fs)).
Proof. rewrite nodes_with. cbn [nodes flat_map fst pre]. cbn [length app]. rewrite app_length. reflexivity. Qed.

(** ** document order *)
Lemma deep_loop : forall fuel h fs seen, ready_for h seen fs -> length (nodes fs) <= fuel ->
  exists h', iter_loop decide fuel h Deep (heads fs) seen = Ok (h', fst (deep_all fs seen), snd (deep_all fs seen)) /\ exists ch, Rep h' (now (fst (deep_all fs seen))) ch.
Proof.
  induction fuel as [|fuel IH]; intros h fs seen Rd L.
  - destruct fs as [|[[n ts] p] fs]; [|rewrite nodes_length_step in L; lia]. exists h. cbn. split; [reflexivity|]. exact (proj1 Rd).
  - destruct fs as [|[[n ts] p] fs]; [exists h; cbn; split; [reflexivity|exact (proj1 Rd)]|]. rewrite nodes_length_step in L.
    change (heads ((T n ts, p) :: fs)) with (n :: heads fs). rewrite (iter_step fuel h Deep n ts p fs (heads fs) seen Rd eq_refl), deep_step. cbv zeta.
    destruct (v_removed (decide (seen ++ [(n, p)]))) eqn:V.
    + destruct (call_removed h seen n ts p fs Rd V) as (h' & -> & Rd'). cbn [bind]. destruct (negb (v_go (decide (seen ++ [(n, p)])))); [exists h'; split; [reflexivity|exact (proj1 Rd')]|].
      apply IH; [exact Rd'|lia].
    + cbn [bind]. destruct (call_kept h seen n ts p fs Rd V) as (ch & R & K & E & F & ND). destruct (negb (v_go (decide (seen ++ [(n, p)])))); [exists h; split; [reflexivity|eauto]|].
      destruct (ready_perm h (seen ++ [(n, p)]) _ fs (ex_intro _ ch R) F ND) as [Rd' _]. cbn [add_to].
      replace (map label ts ++ heads fs) with (heads (map (fun t => (t, Some n)) ts ++ fs)) by (unfold heads; rewrite map_app, map_map; reflexivity).
      apply IH; [exact Rd'|]. rewrite nodes_app, app_length. lia.
Qed.

(** ** level order: the rest of the level, what is known of the next one *)
Lemma wide_loop : forall fuel h l nx seen, ready_for h seen (l ++ nx) -> length (nodes (l ++ nx)) <= fuel ->
  exists h' seen' b, iter_loop decide fuel h Wide (heads (l ++ nx)) seen = Ok (h', seen', b) /\ (exists ch, Rep h' (now seen') ch) /\
    let '(next, seen1, b1) := level decide l seen in
    if b1 then wide decide (nx ++ next) seen1 seen' b else seen' = seen1 /\ b = false.
Proof.
  induction fuel as [|fuel IH].
  - intros h l nx seen Rd L. destruct l as [|[[n ts] p] l]; [|cbn [app] in L; rewrite nodes_length_step in L; lia]. destruct nx as [|[[n ts] p] nx]; [|cbn [app] in L; rewrite nodes_length_step in L; lia].
    exists h, seen, true. split; [reflexivity|]. split; [exact (proj1 Rd)|]. cbn. constructor.
  - assert (Main : forall h n ts p l nx seen, ready_for h seen (((T n ts, p) :: l) ++ nx) -> length (nodes (((T n ts, p) :: l) ++ nx)) <= S fuel ->
      exists h' seen' b, iter_loop decide (S fuel) h Wide (heads (((T n ts, p) :: l) ++ nx)) seen = Ok (h', seen', b) /\ (exists ch, Rep h' (now seen') ch) /\
        let '(next, seen1, b1) := level decide ((T n ts, p) :: l) seen in
        if b1 then wide decide (nx ++ next) seen1 seen' b else seen' = seen1 /\ b = false).
    { intros h n ts p l nx seen Rd L. cbn [app] in Rd, L |- *. rewrite nodes_length_step in L. change (heads ((T n ts, p) :: l ++ nx)) with (n :: heads (l ++ nx)).
      rewrite (iter_step fuel h Wide n ts p (l ++ nx) (heads (l ++ nx)) seen Rd eq_refl). cbv zeta. cbn [level].
      destruct (v_removed (decide (seen ++ [(n, p)]))) eqn:V.
      - destruct (call_removed h seen n ts p (l ++ nx) Rd V) as (h' & -> & Rd'). cbn [bind]. destruct (negb (v_go (decide (seen ++ [(n, p)])))); [exists h', (seen ++ [(n, p)]), false; split; [reflexivity|]; split; [exact (proj1 Rd')|]; auto|].
        destruct (IH h' l nx (seen ++ [(n, p)]) Rd' ltac:(lia)) as (h2 & seen2 & b & Ei & Rp & Le). exists h2, seen2, b. split; [exact Ei|]. split; [exact Rp|].
        destruct (level decide l (seen ++ [(n, p)])) as [[next seen1] b1]. exact Le.
      - cbn [bind]. destruct (call_kept h seen n ts p (l ++ nx) Rd V) as (ch & R & K & E & F & ND). destruct (negb (v_go (decide (seen ++ [(n, p)])))); [exists h, (seen ++ [(n, p)]), false; split; [reflexivity|]; split; [eauto|]; auto|].
        destruct (ready_perm h (seen ++ [(n, p)]) _ (l ++ nx) (ex_intro _ ch R) F ND) as [_ Rd']. cbn [add_to]. rewrite <- app_assoc in Rd'.
        replace (heads (l ++ nx) ++ map label ts) with (heads (l ++ nx ++ map (fun t => (t, Some n)) ts)) by (unfold heads; rewrite app_assoc, (map_app _ (l ++ nx)), map_map; reflexivity).
        destruct (IH h l (nx ++ map (fun t => (t, Some n)) ts) (seen ++ [(n, p)]) Rd') as (h2 & seen2 & b & Ei & Rp & Le); [rewrite app_assoc, nodes_app, app_length; lia|].
        exists h2, seen2, b. split; [exact Ei|]. split; [exact Rp|]. destruct (level decide l (seen ++ [(n, p)])) as [[next seen1] b1]. rewrite <- app_assoc in Le. exact Le. }
    intros h l nx seen Rd L. destruct l as [|[[n ts] p] l]; [|apply Main; assumption].
    destruct nx as [|[[n ts] p] nx]; [exists h, seen, true; split; [reflexivity|]; split; [exact (proj1 Rd)|]; cbn; constructor|].
    cbn [app] in *. destruct (Main h n ts p nx [] seen) as (h2 & seen2 & b & Ei & Rp & Le); [rewrite app_nil_r; exact Rd|rewrite app_nil_r; exact L|].
    exists h2, seen2, b. rewrite app_nil_r in Ei. split; [exact Ei|]. split; [exact Rp|]. cbn [level]. rewrite app_nil_r. cbv zeta in Le |- *.
    destruct (level decide ((T n ts, p) :: nx) seen) as [[next seen1] b1] eqn:El. destruct b1.
    + apply (wide_level decide _ seen next seen1); [discriminate|exact El|exact Le].
    + destruct Le as [-> ->]. apply (wide_stop decide _ seen next). exact El.
Qed.

(** ** the whole *)
Lemma iterate_start h ch t : Rep h s0 ch -> shows (f_kids s0) t -> known s0 (label t) = true -> NoDup (pre t) ->
  v_removed (decide [(label t, None)]) = false ->
  get_childs h (label t) = Ok (map label (subs t)) /\ ready_for h [(label t, None)] (map (fun u => (u, Some (label t))) (subs t)).
Proof.
  intros R Sh K ND V. destruct Sh as [n ts E Hs]. cbn [label subs] in *. split; [rewrite (get_childs_ok h s0 ch R n K), E; reflexivity|].
  assert (Kids : forall x, f_kids (now [(n, None)]) x = f_kids s0 x) by (intros x; unfold now, without; cbn [f_kids gone app]; rewrite V; cbn [app]; apply filter_id; intros [k d] _; destruct k; reflexivity).
  cbn [pre] in ND. inversion ND as [|? ? Nn ND']; subst. split; [exists ch; apply (rep_ext h s0 _ ch ch); auto|]. split; [|rewrite nodes_with; exact ND'].
  apply Forall_forall. intros e Ie. apply in_map_iff in Ie as (t & <- & It). split; cbn [fst snd]; [eapply shows_ext; [apply Hs, It|intros; apply Kids]|].
  exists n. split; [reflexivity|]. split; [exact K|]. split; [rewrite Kids; apply elements_in; rewrite E; apply in_map, It|]. rewrite nodes_with. exact Nn.
Qed.
(** removing the first element *)
Lemma remove_first h ch t : Rep h s0 ch -> (exists q, parent s0 (label t) = Some q) -> v_removed (decide [(label t, None)]) = true ->
  exists h', node_remove h (label t) = Ok h' /\ exists ch', Rep h' (now [(label t, None)]) ch'.
Proof.
  intros R (q & P) V. destruct (parent_some s0 _ q P) as (Iq & k & Pk). destruct (place_split _ _ _ Pk) as (l1 & l2 & E & _ & _). apply rep_known in Iq.
  assert (N0 : forall x, f_kids (now []) x = f_kids s0 x) by (intros x; unfold now, without; cbn [f_kids gone]; apply filter_id; intros [kk d] _; destruct kk; reflexivity).
  assert (R0 : Rep h (now []) ch) by (apply (rep_ext h s0 _ ch ch); auto).
  destruct (remove_ok h [] ch (label t) q None R0 Iq) as [H _]; [rewrite N0, E; apply in_or_app; right; left; reflexivity|exact V|exact H].
Qed.
Theorem iterate_deep h ch t : Rep h s0 ch -> shows (f_kids s0) t -> known s0 (label t) = true -> NoDup (pre t) ->
  (v_removed (decide [(label t, None)]) = true -> exists q, parent s0 (label t) = Some q) -> forall fuel, length (pre t) <= fuel ->
  exists h', iterate decide fuel h (label t) Deep = Ok (h', fst (deep decide None t []), snd (deep decide None t []) && negb (v_removed (decide [(label t, None)]))) /\
    exists ch', Rep h' (now (fst (deep decide None t []))) ch'.
Proof.
  intros R Sh K ND Pa fuel L. unfold iterate, notify. cbn [app]. assert (D : forall n ts, t = T n ts -> deep decide None t [] =
      if negb (v_go (decide [(n, None)])) then ([(n, None)], false) else if v_removed (decide [(n, None)]) then ([(n, None)], true) else deep_all (map (fun u => (u, Some n)) ts) [(n, None)]).
  { intros n ts ->. pose proof (deep_step None n ts [] []) as X. cbn [deep_all app] in X. destruct (deep decide None (T n ts) []) as [sn b]. destruct b; rewrite app_nil_r in X; exact X. }
  destruct t as [n ts]. rewrite (D n ts eq_refl). cbn [label] in *. destruct (v_removed (decide [(n, None)])) eqn:V.
  - destruct (remove_first h ch (T n ts) R (Pa eq_refl) V) as (h' & Er & ch' & R'). cbn [label] in Er. rewrite Er. cbn [bind]. rewrite V. exists h'. destruct (negb (v_go (decide [(n, None)]))); cbn [fst snd andb negb]; eauto.
  - cbn [bind]. rewrite V. destruct (iterate_start h ch (T n ts) R Sh K ND V) as [Eg Rd]. cbn [label subs] in Eg, Rd. destruct (negb (v_go (decide [(n, None)]))); [exists h; cbn [fst snd andb]; split; [reflexivity|exact (proj1 Rd)]|].
    rewrite Eg. cbn [bind negb]. rewrite andb_true_r. rewrite <- (heads_with (Some n) ts). apply deep_loop; [exact Rd|]. rewrite nodes_with. cbn [pre length] in L. lia.
Qed.
Theorem iterate_wide h ch t : Rep h s0 ch -> shows (f_kids s0) t -> known s0 (label t) = true -> NoDup (pre t) ->
  (v_removed (decide [(label t, None)]) = true -> exists q, parent s0 (label t) = Some q) -> forall fuel, length (pre t) <= fuel ->
  exists h' seen b, wide decide [(t, None)] [] seen b /\
    iterate decide fuel h (label t) Wide = Ok (h', seen, b && negb (v_removed (decide [(label t, None)]))) /\
    exists ch', Rep h' (now seen) ch'.
Proof.
  intros R Sh K ND Pa fuel L. unfold iterate, notify. cbn [app]. destruct t as [n ts]. cbn [label] in *. destruct (v_removed (decide [(n, None)])) eqn:V.
  - destruct (remove_first h ch (T n ts) R (Pa eq_refl) V) as (h' & Er & ch' & R'). cbn [label] in Er. rewrite Er. cbn [bind]. rewrite V. exists h', [(n, None)]. destruct (negb (v_go (decide [(n, None)]))) eqn:G.
    + exists false. split; [|cbn [andb]; eauto]. apply (wide_stop decide _ [] []). cbn [level app]. rewrite G. reflexivity.
    + exists true. split; [|cbn [andb negb]; eauto]. apply (wide_level decide _ [] [] [(n, None)]); [discriminate| |constructor]. cbn [level app]. rewrite G, V. reflexivity.
  - cbn [bind]. rewrite V. destruct (iterate_start h ch (T n ts) R Sh K ND V) as [Eg Rd]. cbn [label subs] in Eg, Rd. destruct (negb (v_go (decide [(n, None)]))) eqn:G.
    + exists h, [(n, None)], false. split; [apply (wide_stop decide _ [] []); cbn [level app]; rewrite G; reflexivity|]. split; [reflexivity|exact (proj1 Rd)].
    + rewrite Eg. cbn [bind negb]. rewrite <- (heads_with (Some n) ts).
      destruct (wide_loop fuel h (map (fun u => (u, Some n)) ts) [] [(n, None)]) as (h' & seen' & b & Ei & Rp & Le); [rewrite app_nil_r; exact Rd|rewrite app_nil_r, nodes_with; cbn [pre length] in L; lia|].
      rewrite app_nil_r in Ei. exists h', seen', b. rewrite andb_true_r. split; [|split; [exact Ei|exact Rp]].
      apply (wide_level decide _ [] (map (fun u => (u, Some n)) ts) [(n, None)]); [discriminate|cbn [level app]; rewrite G, V, app_nil_r; reflexivity|].
      destruct (map (fun u => (u, Some n)) ts) as [|e es] eqn:Em; [cbn [level app] in Le; exact Le|]. destruct (level decide (e :: es) [(n, None)]) as [[next seen1] b1] eqn:El. destruct b1.
      * apply (wide_level decide _ _ next seen1); [discriminate|exact El|exact Le].
      * destruct Le as [-> ->]. apply (wide_stop decide _ _ next). exact El.
Qed.
End Visit.

(** ** a handler that looks at everything *)
Lemma deep_always p t : forall seen, deep always p t seen = (fst (deep always p t seen), true) /\ map fst (fst (deep always p t seen)) = map fst seen ++ pre t.
Proof.
  revert p. induction t as [n ts IH] using tree_ind2. intros p seen.
  assert (X : forall ts, (forall t, In t ts -> forall p seen, deep always p t seen = (fst (deep always p t seen), true) /\ map fst (fst (deep always p t seen)) = map fst seen ++ pre t) ->
    forall q seen, snd (deep_all always (map (fun t => (t, q)) ts) seen) = true /\ map fst (fst (deep_all always (map (fun t => (t, q)) ts) seen)) = map fst seen ++ flat_map pre ts).
  { clear. induction ts as [|t ts IHt]; intros H q seen; [cbn; rewrite app_nil_r; auto|]. cbn [map deep_all]. destruct (H t (or_introl eq_refl) q seen) as [E1 E2]. rewrite E1 in *. cbn [fst] in E2.
    destruct (IHt (fun u Iu => H u (or_intror Iu)) q (fst (deep always q t seen))) as [E3 E4]. split; [exact E3|]. rewrite E4. cbn [flat_map]. rewrite E2, <- app_assoc. reflexivity. }
  specialize (X ts IH (Some n) (seen ++ [(n, p)])). pose proof (deep_step always p n ts [] seen) as D. cbn [always v_go v_removed negb] in D. rewrite app_nil_r in D. cbn [deep_all] in D.
  destruct (deep always p (T n ts) seen) as [sn b] eqn:Ed. destruct X as [X1 X2]. destruct b.
  - split; [reflexivity|]. cbn [fst]. assert (Es : sn = fst (deep_all always (map (fun t => (t, Some n)) ts) (seen ++ [(n, p)]))) by (change (sn = fst (deep_all always (map (fun t => (t, Some n)) ts) (seen ++ [(n, p)]))); rewrite <- D; reflexivity).
    rewrite Es, X2, map_app, <- app_assoc. reflexivity.
  - exfalso. assert (Eb : false = snd (deep_all always (map (fun t => (t, Some n)) ts) (seen ++ [(n, p)]))) by (rewrite <- D; reflexivity). congruence.
Qed.
Lemma level_always l : forall seen, level always l seen = (flat_map (fun e => map (fun t => (t, Some (label (fst e)))) (subs (fst e))) l, seen ++ map (fun e => (label (fst e), snd e)) l, true).
Proof.
  induction l as [|[[n ts] p] l IH]; intros seen; cbn [level map flat_map fst snd label subs]; [rewrite app_nil_r; reflexivity|]. cbn [always v_go v_removed negb]. rewrite IH, <- app_assoc. reflexivity.
Qed.
Lemma wide_always l seen seen' b : wide always l seen seen' b -> b = true /\ exists k, map fst seen' = map fst seen ++ levels k (map fst l) /\ Nat.iter k next_level (map fst l) = [].
Proof.
  induction 1 as [seen|l seen next seen' E|l seen next seen' seen'' b N E W IH].
  - split; [reflexivity|]. exists 0. cbn. rewrite app_nil_r. auto.
  - rewrite level_always in E. discriminate.
  - rewrite level_always in E. injection E as <- <-. destruct IH as (-> & k & E1 & E2). split; [reflexivity|]. exists (S k).
    assert (Nx : map fst (flat_map (fun e : tree * option nat => map (fun t => (t, Some (label (fst e)))) (subs (fst e))) l) = next_level (map fst l)).
    { unfold next_level. clear. induction l as [|e l IH]; [reflexivity|]. cbn [flat_map map]. rewrite map_app, IH, map_map, map_id. reflexivity. }
    rewrite Nx in *. split; [rewrite E1, map_app, map_map, <- app_assoc; cbn [levels]; rewrite map_map; reflexivity|].
    assert (It : forall k x, Nat.iter (S k) next_level x = Nat.iter k next_level (next_level x)) by (clear; induction k as [|k IH]; intros x; [reflexivity|]; change (Nat.iter (S (S k)) next_level x) with (next_level (Nat.iter (S k) next_level x)); rewrite IH; reflexivity).
    rewrite It. exact E2.
Qed.
