(** Whole programs. *)
From Verif Require Import Prelude PyModel PySpec PyProofs PyProofs2 PyProofs3 PyProofs4 PyProofs5 PyProofs6.
From Coq Require Import Lia Permutation.
Open Scope nat_scope.
Open Scope list_scope.

Lemma winv0 : winv world0.
Proof.
  unfold winv, world0. cbn [w_trees w_live w_docs w_objs w_held w_next]. split; [|split; [|split]].
  - constructor; cbn; try contradiction. constructor.
  - constructor; cbn; try contradiction; try constructor. intros x [].
  - constructor.
  - constructor; unfold bd, loose; cbn.
    + intros o a f q (r & []).
    + intros o d f (r & []).
    + intros a (t & [] & _).
    + intros o a q (r & []).
    + intros o a q (r & []).
    + intros o o' a q q' (r & []).
    + intros d [].
    + intros o o' d (r & []).
Qed.
Lemma none_left w : winv w -> w_held w = [] -> w_objs w = [].
Proof.
  intros (R & _) H. destruct (w_objs w) as [|[o x] l] eqn:E; [reflexivity|exfalso].
  assert (Nn : forall o' x', In (o', x') (w_objs w) -> is_doc (o_body x')).
  { intros o' x' H'. destruct (r_refs _ _ _ R _ _ ltac:(rewrite <- E; exact H')) as [L Er]. rewrite H in Er. change (cnt _ []) with 0 in Er. rewrite Nat.add_0_l in Er. assert (Lp : 0 < pdc o' ((o, x) :: l)) by (rewrite <- Er; exact L).
    destruct (pdc_pos _ _ Lp) as (o2 & x2 & H2 & P2). destruct (r_pd _ _ _ R _ _ _ H2 P2) as (y & Hy & Dy). rewrite E in H'.
    assert (y = x'). { apply (look_in _ _ _ (r_ids _ _ _ R)) in Hy. apply (look_in _ _ _ (r_ids _ _ _ R)) in H'. congruence. } subst y. exact Dy. }
  destruct (r_refs _ _ _ R o x (or_introl eq_refl)) as [L Er]. rewrite H in Er. change (cnt _ []) with 0 in Er. rewrite Nat.add_0_l in Er. assert (Lp : 0 < pdc o ((o, x) :: l)) by (rewrite <- Er; exact L).
  destruct (pdc_pos _ _ Lp) as (o2 & x2 & H2 & P2). rewrite <- E in H2. apply Nn in H2. unfold pd in P2. destruct (o_body x2); [discriminate|contradiction].
Qed.
Lemma winv_sound w : winv w -> sound w.
Proof.
  intros W. pose proof W as (R & Hv & P & Lv). pose proof (winv_nd _ W) as Nd.
  assert (EA : forall a, In a (w_live w) <-> In a (all_addrs (w_trees w))) by (intro a; split; apply Permutation_in; [exact P|apply Permutation_sym; exact P]).
  assert (Ow : forall a, In a (w_live w) -> exists o b, body_of o w = Some b /\ In a (owned w b)).
  { intros a Ha. apply EA in Ha. apply in_flat_map in Ha. destruct Ha as ([t od] & Ht & Ha). cbn [fst] in Ha. destruct od as [d|].
    - assert (Hd : In d (w_docs w)) by (apply (h_rdocs _ _ _ Hv); eapply roots_in; exact Ht). destruct (l_docs _ _ _ _ Lv d Hd) as (o & B). exists o, (BDoc d true).
      split; [apply body_bd; assumption|]. cbn [owned]. eapply all_in; [|exact Ha]. apply filter_In. split; [exact Ht|]. cbn. apply Nat.eqb_refl.
    - destruct (l_loose _ _ _ _ Lv (t_addr t)) as (o & q & B); [exists t; auto|]. exists o, (BNode (Some (t_addr t)) true q). split; [apply body_bd; assumption|].
      cbn [owned]. unfold sub_of, where_. rewrite (where_in _ _ _ _ _ _ Hv Ht (head_in t)), sub_root. exact Ha. }
  split; [exact EA|]. split; [eapply Permutation_NoDup; [apply Permutation_sym; exact P|exact (h_addrs _ _ _ Hv)]|]. split; [|split; [exact Ow|]].
  - intros o b B. apply body_bd in B; [|exact Nd]. destruct b as [d f|[a|] f q]; cbn [valid]; [exact (l_doc _ _ _ _ Lv _ _ _ B)| |exact Logic.I]. apply EA. exact (l_node _ _ _ _ Lv _ _ _ _ B).
  - intro H. pose proof (none_left w W H) as E. split; [exact E|]. split.
    + destruct (w_live w) as [|a l] eqn:El; [reflexivity|]. destruct (Ow a (or_introl eq_refl)) as (o & b & B & _). unfold body_of in B. rewrite E in B. discriminate.
    + destruct (w_docs w) as [|d l] eqn:Ed; [reflexivity|]. destruct (l_docs _ _ _ _ Lv d) as (o & r & B); [cbn; left; reflexivity|]. rewrite E in B. destruct B.
Qed.
Lemma run_proper l : forall w, winv w -> proper_all w l -> exists w', run l w = Ok w' /\ winv w'.
Proof.
  induction l as [|c l IH]; intros w W Pr; cbn [run]; [eauto|]. destruct Pr as [P1 P2]. destruct (act_ok w c W P1) as (w1 & E & W1). rewrite E. cbn [bind]. apply IH; [exact W1|]. apply P2. exact E.
Qed.
Lemma writing l : proper_all world0 l -> exists w, run l world0 = Ok w /\ sound w.
Proof. intro Pr. destruct (run_proper l world0 winv0 Pr) as (w & E & W). exists w. split; [exact E|apply winv_sound; exact W]. Qed.

(** ** programs that read *)
Definition ninv (w : world) : Prop :=
  (forall o a f q, bd (w_objs w) o (BNode a f q) -> exists a' z d t, a = Some a' /\ f = false /\ q = Some z /\ bd (w_objs w) z (BDoc d true) /\ In (t, Some d) (w_trees w) /\ In a' (addrs t)) /\
  (forall o d f, bd (w_objs w) o (BDoc d f) -> f = true).
Lemma pdc_two q l o1 x1 o2 x2 : NoDup (map fst l) -> In (o1, x1) l -> In (o2, x2) l -> o1 <> o2 -> pd x1 = Some q -> pd x2 = Some q -> 2 <= pdc q l.
Proof.
  intros Nd H1 H2 N P1 P2. rewrite (pdc_del _ _ _ q Nd H1), P1, Nat.eqb_refl. assert (0 < pdc q (del o1 l)); [|lia]. eapply pdc_in; [|exact P2]. apply del_in. split; [|exact H2]. cbn. congruence.
Qed.
Lemma drop_proper w o : winv w -> ninv w -> mem_nat o (w_held w) = true -> proper w (ADrop o).
Proof.
  intros W [N1 N2] M. pose proof W as (R & Hv & P & Lv). pose proof (winv_nd _ W) as Nd. cbn [proper]. intros x bx y b Hx Ex Hy Ey. apply body_bd in Ex; [|exact Nd]. apply body_bd in Ey; [|exact Nd].
  destruct bx as [d f|a f q].
  2: { destruct (N1 _ _ _ _ Ex) as (a' & z & d & t & -> & -> & -> & _). cbn [owned]. split; [destruct b as [|[|] ]; intro X; exact X|discriminate]. }
  pose proof (N2 _ _ _ Ex) as ->. split.
  - (* a node of this document *)
    intro Rf. destruct b as [|[a|] f q]; [contradiction| |contradiction]. cbn [refers_into owned] in Rf. destruct (N1 _ _ _ _ Ey) as (a' & z & d' & t & Ea & -> & -> & Bz & Ht & Ha). injection Ea as <-.
    apply in_flat_map in Rf. destruct Rf as ([t2 od] & H2 & Ha2). apply filter_In in H2. destruct H2 as [H2 Ed]. cbn [fst] in Ha2. unfold is_root_of in Ed. cbn [snd] in Ed. destruct od as [e|]; [|discriminate]. apply Nat.eqb_eq in Ed. subst e.
    destruct (tree_unique _ _ _ _ _ _ _ _ Hv Ht H2 Ha Ha2) as [_ E]. injection E as ->. pose proof (l_done _ _ _ _ Lv _ _ _ Bz Ex) as ->.
    (* [y] holds [x] *)
    destruct Ey as (ry & Hy2). unfold collected in Hx, Hy. destruct (last_ref o w) eqn:Lo; [|contradiction]. destruct Hx as [->|Hx].
    + unfold last_ref in Lo. destruct Ex as (rx & Ex). rewrite (proj2 (look_in _ _ _ Nd) Ex) in Lo. apply Nat.leb_le in Lo. destruct (r_refs _ _ _ R _ _ Ex) as [_ Er]. cbn [o_refs] in Er.
      apply mem_nat_in in M. apply cnt_in in M. pose proof (pdc_in x _ _ _ Hy2 eq_refl). lia.
    + unfold body_of in Hx, Hy. destruct (look o (w_objs w)) as [[ro bo]|] eqn:Eo; [|contradiction]. cbn [option_map o_body] in Hx, Hy. destruct bo as [|ao fo [z|]]; [contradiction| |contradiction].
      destruct (last_ref z w) eqn:Lz; [|contradiction]. destruct Hx as [->|[]]. unfold last_ref in Lz. destruct Ex as (rx & Ex). rewrite (proj2 (look_in _ _ _ Nd) Ex) in Lz. apply Nat.leb_le in Lz.
      destruct (r_refs _ _ _ R _ _ Ex) as [_ Er]. cbn [o_refs] in Er. apply look_key in Eo. assert (Noy : o <> y) by (intros ->; apply Hy; left; reflexivity).
      pose proof (pdc_two x _ _ _ _ _ Nd Eo Hy2 Noy eq_refl eq_refl). lia.
  - intros d0 fin E. injection E as <-. intros ->. pose proof (N2 _ _ _ Ey) as ->. pose proof (l_done _ _ _ _ Lv _ _ _ Ey Ex) as ->. contradiction.
Qed.
Lemma ninv_node w w' n a z d t : ninv w -> w_trees w' = w_trees w -> (forall o b, bd (w_objs w') o b <-> bd (w_objs w) o b \/ (o = n /\ b = BNode (Some a) false (Some z))) ->
  bd (w_objs w) z (BDoc d true) -> In (t, Some d) (w_trees w) -> In a (addrs t) -> ninv w'.
Proof.
  intros [N1 N2] ET EB Bz Ht Ha. split.
  - intros o a' f q B. apply EB in B. rewrite ET. destruct B as [B|[-> B]].
    + destruct (N1 _ _ _ _ B) as (a1 & z1 & d1 & t1 & H1 & H2 & H3 & H4 & H5 & H6). exists a1, z1, d1, t1. repeat (split; [assumption|]). split; [apply EB; left; exact H4|]. split; assumption.
    + injection B as -> -> ->. exists a, z, d, t. repeat (split; [reflexivity|]). split; [apply EB; left; exact Bz|]. split; assumption.
  - intros o e f B. apply EB in B. destruct B as [B|[_ B]]; [eauto|discriminate].
Qed.
Lemma reads_ok w c : winv w -> ninv w -> reads c = true -> exists w', act c w = Ok w' /\ winv w' /\ ninv w'.
Proof.
  intros W Nv Rc. pose proof W as (R & Hv & P & Lv). pose proof (winv_nd _ W) as Nd. pose proof Nv as [N1 N2].
  assert (Pr : proper w c \/ exists o, c = ADrop o) by (destruct c; try discriminate; try (left; exact Logic.I); right; eauto).
  destruct c as [| |x|o|o k|o v|o|o|o|o m|o c|o c|o dealloc|o|o]; try discriminate.
  - destruct Pr as [Pr|(? & Pr)]; [|discriminate]. destruct (act_ok w _ W Pr) as (w' & E & W'). exists w'. split; [exact E|]. split; [exact W'|]. cbn [act] in E. injection E as <-. split; cbn [make w_objs w_trees].
    + intros o a f q B. apply bd_app in B. cbn [w_objs] in B. destruct B as [B|[_ B]]; [|discriminate]. destruct (N1 _ _ _ _ B) as (a1 & z1 & d1 & t1 & H1 & H2 & H3 & H4 & H5 & H6). exists a1, z1, d1, t1.
      repeat (split; [assumption|]). split; [apply bd_app; left; exact H4|]. split; assumption.
    + intros o e f B. apply bd_app in B. cbn [w_objs] in B. destruct B as [B|[_ B]]; [eauto|injection B as _ ->; reflexivity].
  - destruct Pr as [Pr|(? & Pr)]; [|discriminate]. destruct (act_ok w _ W Pr) as (w' & E & W'). exists w'. split; [exact E|]. split; [exact W'|]. cbn [act] in E. destruct (plant (Some (w_next w)) x (S (w_next w))) as [t n]. injection E as <-. split; cbn [make w_objs w_trees].
    + intros o a f q B. apply bd_app in B. cbn [w_objs] in B. destruct B as [B|[_ B]]; [|discriminate]. destruct (N1 _ _ _ _ B) as (a1 & z1 & d1 & t1 & H1 & H2 & H3 & H4 & H5 & H6). exists a1, z1, d1, t1.
      repeat (split; [assumption|]). split; [apply bd_app; left; exact H4|]. split; [apply in_or_app; left; exact H5|assumption].
    + intros o e f B. apply bd_app in B. cbn [w_objs] in B. destruct B as [B|[_ B]]; [eauto|injection B as _ ->; reflexivity].
  - cbn [act]. destruct (mem_nat o (w_held w)) eqn:M; [|eauto]. destruct (held_in _ _ W M) as (r & b & Lo & Ho & Bo). unfold doc_obj. rewrite Lo. destruct b as [d f|a f q]; [|eauto].
    rewrite (rd_doc_ok w d (l_doc _ _ _ _ Lv _ _ _ Bo)). cbn [bind]. unfold root_addr. destruct (find (is_root_of d) (w_trees w)) as [[t od]|] eqn:E; cbn [option_map fst]; [|eauto].
    pose proof (N2 _ _ _ Bo) as ->. destruct (find_some _ _ E) as [Ht Ed]. unfold is_root_of in Ed. cbn [snd] in Ed. destruct od as [e|]; [|discriminate]. apply Nat.eqb_eq in Ed. subst e.
    eexists. split; [reflexivity|]. destruct (node_create_ok w (t_addr t) (Some o) W) as (W' & ET & EB); [eapply all_in; [exact Ht|apply head_in]|intros z Ez; injection Ez as <-; eauto|]. split; [exact W'|].
    eapply ninv_node; [exact Nv|exact ET|exact EB|exact Bo|exact Ht|apply head_in].
  - cbn [act]. destruct (mem_nat o (w_held w)) eqn:M; [|eauto]. destruct (held_in _ _ W M) as (r & b & Lo & Ho & Bo). unfold doc_obj. rewrite Lo. destruct b as [d f|a f q]; [|eauto].
    rewrite (rd_doc_ok w d (l_doc _ _ _ _ Lv _ _ _ Bo)). cbn [bind]. destruct (find (is_root_of d) (w_trees w)) as [[t od]|] eqn:E; [|eauto]. destruct (nth_error (addrs t) k) as [a|] eqn:Ek; [|eauto].
    pose proof (N2 _ _ _ Bo) as ->. destruct (find_some _ _ E) as [Ht Ed]. unfold is_root_of in Ed. cbn [snd] in Ed. destruct od as [e|]; [|discriminate]. apply Nat.eqb_eq in Ed. subst e. apply nth_error_In in Ek.
    assert (Ha : In a (all_addrs (w_trees w))) by (eapply all_in; eassumption). rewrite (rd_ok w a W Ha). cbn [bind].
    eexists. split; [reflexivity|]. destruct (node_create_ok w a (Some o) W Ha) as (W' & ET & EB); [intros z Ez; injection Ez as <-; eauto|]. split; [exact W'|].
    eapply ninv_node; [exact Nv|exact ET|exact EB|exact Bo|exact Ht|exact Ek].
  - cbn [act]. destruct (mem_nat o (w_held w)) eqn:M; [|eauto]. destruct (held_in _ _ W M) as (r & b & Lo & Ho & Bo). unfold node_obj. rewrite Lo. destruct b as [d f|a f q]; [eauto|].
    destruct (N1 _ _ _ _ Bo) as (a' & z & d & t & -> & -> & -> & Bz & Ht & Ha'). pose proof (l_node _ _ _ _ Lv _ _ _ _ Bo) as Ha. unfold seek. rewrite (rd_ok w a' W Ha). cbn [bind]. unfold where_. rewrite (where_in _ _ _ _ _ _ Hv Ht Ha').
    destruct (walk v a' t) as [b|] eqn:Ew; [|cbn [bind]; eauto]. apply walk_in in Ew. assert (Hb : In b (all_addrs (w_trees w))) by (eapply all_in; eassumption).
    rewrite (rd_ok w b W Hb). cbn [bind]. eexists. split; [reflexivity|]. destruct (node_create_ok w b (Some z) W Hb) as (W' & ET & EB); [intros z' Ez; injection Ez as <-; eauto|]. split; [exact W'|].
    eapply ninv_node; [exact Nv|exact ET|exact EB|exact Bz|exact Ht|exact Ew].
  - destruct Pr as [Pr|(? & Pr)]; [|discriminate]. destruct (act_ok w _ W Pr) as (w' & E & W'). exists w'. split; [exact E|]. split; [exact W'|]. cbn [act] in E. destruct (mem_nat o (w_held w)); [|injection E as <-; exact Nv].
    destruct (look o (w_objs w)) as [[r [d f|[a|] f q]]|]; [| | |]; try (injection E as <-; exact Nv).
    + destruct (rd_doc d w); [|discriminate|discriminate]. injection E as <-. exact Nv.
    + destruct (rd a w); [|discriminate|discriminate]. injection E as <-. exact Nv.
  - destruct Pr as [Pr|(? & Pr)]; [|discriminate]. destruct (act_ok w _ W Pr) as (w' & E & W'). exists w'. split; [exact E|]. split; [exact W'|]. cbn [act] in E. destruct (mem_nat o (w_held w)) eqn:M; [|injection E as <-; exact Nv].
    injection E as <-. destruct (held_in _ _ W M) as (r & b & Lo & Ho & Bo). unfold incref, w_held_. cbn [w_objs]. rewrite Lo. unfold w_objs_. split; cbn [w_objs w_trees].
    + intros o' a f q B. apply (bd_same _ _ _ _ _ _ _ Nd Ho) in B. destruct (N1 _ _ _ _ B) as (a1 & z1 & d1 & t1 & H1 & H2 & H3 & H4 & H5 & H6). exists a1, z1, d1, t1.
      repeat (split; [assumption|]). split; [apply (bd_same _ _ _ _ _ _ _ Nd Ho); exact H4|]. split; assumption.
    + intros o' e f B. apply (bd_same _ _ _ _ _ _ _ Nd Ho) in B. eauto.
  - destruct (mem_nat o (w_held w)) eqn:M; [|cbn [act]; rewrite M; eauto]. pose proof (drop_proper w o W Nv M) as Pd. destruct (drop_ok w o W M Pd) as (w' & E & W' & EB & T1 & T2). exists w'. split; [exact E|]. split; [exact W'|]. split.
    + intros y a f q B. assert (B' := B). apply EB in B. destruct B as [B Ny]. destruct (N1 _ _ _ _ B) as (a1 & z1 & d1 & t1 & H1 & H2 & H3 & H4 & H5 & H6). exists a1, z1, d1, t1.
      repeat (split; [assumption|]). subst a f q. pose proof W' as (R' & _). destruct B' as (ry & Hy). destruct (r_pd _ _ _ R' _ _ z1 Hy eq_refl) as ([rz bz] & Hz & _).
      assert (Bz : bd (w_objs w') z1 bz) by (exists rz; exact Hz). assert (Bz' := Bz). apply EB in Bz. destruct Bz as [Bz Nz]. pose proof (bd_fun _ _ _ _ Nd Bz H4) as ->. split; [exact Bz'|]. split; [|exact H6].
      destruct (T2 _ _ H5) as [X|(z & Cz & Bz2)]; [exact X|]. exfalso. apply Nz. rewrite (l_done _ _ _ _ Lv _ _ _ H4 Bz2). exact Cz.
    + intros y e f B. apply EB in B. eapply N2. apply B.
Qed.
Lemma run_reads l : forall w, winv w -> ninv w -> forallb reads l = true -> exists w', run l w = Ok w' /\ winv w'.
Proof.
  induction l as [|c l IH]; intros w W Nv H; cbn [run]; [eauto|]. cbn [forallb] in H. apply andb_prop in H. destruct H as [H1 H2]. destruct (reads_ok w c W Nv H1) as (w1 & E & W1 & Nv1). rewrite E. cbn [bind]. apply IH; assumption.
Qed.
Lemma reading l : forallb reads l = true -> exists w, run l world0 = Ok w /\ sound w.
Proof.
  intro H. destruct (run_reads l world0 winv0) with (2 := H) as (w & E & W).
  - split; [intros o a f q (r & [])|intros o d f (r & [])].
  - exists w. split; [exact E|apply winv_sound; exact W].
Qed.
