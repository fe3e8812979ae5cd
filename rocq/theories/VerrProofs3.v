From Coq Require Import Permutation.
From Verif Require Import Prelude HashModel HashStrProofs DtdModel DtdSpec DtdProofs DtdDocModel DtdDocSpec DtdDocProofs DtdDocProofs2 DtdDocProofs3 VerrModel VerrSpec VerrProofs VerrProofs2.
Open Scope nat_scope.
Open Scope list_scope.

(** ** What the errors say is true *)
Lemma not_nodup {A} (a b c : list A) v : In v a -> In v b -> ~ NoDup (a ++ b ++ c).
Proof.
  intros Ha Hb N. induction a as [|x a IH]; [destruct Ha|]. cbn [app] in N. inversion N as [|? ? N1 N2]; subst. destruct Ha as [->|Ha]; [|auto].
  apply N1. rewrite !in_app_iff. auto.
Qed.
Section Doc.
Variable d : dtd.
Variable root : elem.
Variable D : dtd_ok d.
Variable A : atts_distinct d root.

Lemma seen x pre post : vorder d root = pre ++ x :: post -> In x (elems d root).
Proof. intros V. apply in_vorder. rewrite V. apply in_or_app. right. left. reflexivity. Qed.
Lemma attr_true x s pre post K R e : vorder d root = pre ++ x :: post -> state d s K R -> Permutation K (flat_map (keys_of d) pre) -> attr_says d x s e ->
  true_of d root e /\ content_error e = false.
Proof.
  intros V S0 PK (l & G & H). pose proof (seen x pre post V) as Sx. apply (get_attr_spec d _ l (ok_lists d D)) in G as Gi.
  assert (At : attlist d root x (e_name x) l) by (split; [exact Sx|auto]). pose proof (A x Sx) as Nx.
  destruct e; try (destruct H; fail); cbn [true_of content_error]; (split; [|reflexivity]).
  - destruct H as (-> & N & v & Hv). exists x, l, v. auto.
  - destruct H as (-> & Hv & a & vs & H). exists x, l, a, vs. split; [exact At|]. split; [exact Hv|exact H].
  - destruct H as (-> & a & A1 & A2 & A3 & A4). exists x, l, a. split; [exact At|]. repeat split; auto. intros v Hv Hh. apply (A4 v Hv). apply (att_spec x key v Nx), Hh.
  - destruct H as (-> & a & A1 & A2 & A3 & A4). exists x, l, a. split; [exact At|]. repeat split; auto. intros v. apply att_none, A4.
  - destruct H as (-> & _ & Di & a & Fa & Na & Ie). subst key. pose proof (find_some _ _ Fa) as [Fa1 Fa2]. unfold is_id in Fa2. destruct (ad_type a) eqn:Ta; try discriminate. split; [exists x, l, a; auto|].
    intros Gv N. destruct S0 as [S1 _]. rewrite Di in S1. destruct S1 as (h & S1 & T). rewrite S1 in Ie.
    destruct (tab_exists h K (att x (ad_name a)) T) as (b & E & B1 & _). rewrite E in Ie. injection Ie as ->. destruct (B1 eq_refl) as (k & Ik & Ek).
    destruct (Gv x l a Sx Gi Fa1 Ta) as (v & Hv). apply (att_spec x (ad_name a) v Nx) in Hv.
    rewrite Hv in Ek. apply (Permutation_in _ PK) in Ik.
    assert (Ik2 : In k (flat_map (keys_of d) (vorder d root))) by (rewrite V, flat_map_app; apply in_or_app; left; exact Ik).
    rewrite (keys_all d root D Gv) in Ik2. apply in_map_iff in Ik2. destruct Ik2 as (w & <- & _). apply skeq_spec in Ek. subst w.
    apply (Permutation_NoDup (Permutation_sym (ids_perm d root D A))) in N. rewrite V, flat_map_app in N. cbn [flat_map] in N. unfold somes in N. rewrite !flat_map_app in N.
    fold (somes (flat_map (keys_of d) pre)) (somes (keys_of d x)) (somes (flat_map (keys_of d) post)) in N. revert N. apply (not_nodup _ _ _ v).
    + apply in_somes. exact Ik.
    + apply in_somes. unfold keys_of. rewrite Di, G, Fa, Hv. left. reflexivity.
Qed.
Lemma ref_true s K R r l : state d s K R -> Permutation K (flat_map (keys_of d) (vorder d root)) -> R = flat_map (refs_at d) (vorder d root) ->
  snd s = Some l -> In r l -> id_exists (fst s) (Some r) = Ok false -> true_of d root (ERef r).
Proof.
  intros [S1 S2] PK PR Sn Ir Ie. cbn [true_of]. split.
  - apply (Permutation_in _ (refs_perm d root D A)). rewrite <- PR. destruct (d_idref d); [congruence|]. destruct S2. congruence.
  - intros Hi. apply (Permutation_in _ (Permutation_sym (ids_perm d root D A))) in Hi. apply in_somes in Hi. apply (Permutation_in _ (Permutation_sym PK)) in Hi.
    destruct (d_id d); [|destruct S1 as [_ ->]; destruct Hi]. destruct S1 as (h & S1 & T). rewrite S1 in Ie. destruct (tab_exists h K (Some r) T) as (b & E & _ & B2). rewrite E in Ie. injection Ie as ->.
    exact (B2 eq_refl r eq_refl Hi).
Qed.
Lemma undeclared x : get_element d (e_name x) = None -> forall c, ~ declared d x c.
Proof. intros G c Hc. apply (get_element_spec d x c (ok_els d D)) in Hc. congruence. Qed.

Variable cfuel : nat.
Variable Lc : forall x, In x (elems d root) -> length (e_subs x) < cfuel.
Lemma content_true x c top st b es pre post : vorder d root = pre ++ x :: post -> get_element d (e_name x) = Some c ->
  content_ok cfuel c x top = Ok b -> Forall (about_content c x) es -> v_content cfuel c x top st = Ok (b, emit st es) ->
  Forall (true_of d root) es /\ (b = false -> Forall (blamed d root) es).
Proof.
  intros V G E C _. pose proof (seen x pre post V) as Sx. apply (get_element_spec d x c (ok_els d D)) in G. split.
  - eapply Forall_impl; [|exact C]. intros e H. destruct e; cbn [about_content] in H; try (destruct H; fail); cbn [true_of]; exists x, c; auto.
  - intros ->. eapply Forall_impl; [|exact C]. intros e H _. exists x, c. split; [exact Sx|]. split; [exact G|]. split; [exact H|]. intros Cd Cv.
    assert (content_ok cfuel c x top = Ok true); [|congruence]. apply content_complete; [|apply Lc, Sx|exact Cv]. destruct top; [exact Cd|apply content_det_top, Cd].
Qed.

(** *** what is shown at the end *)
Definition cell_ok (st : vst) : Prop := v_cell st = hd_error (v_errs st).
Lemma error_new_cell st e : cell_ok st -> cell_ok (error_new st e).
Proof. unfold cell_ok, error_new. destruct (v_wanted st); auto. Qed.
Lemma emit_cell es : forall st, cell_ok st -> cell_ok (emit st es).
Proof. induction es as [|e es IH]; intros st H; [exact H|]. apply IH, error_new_cell, H. Qed.
Lemma report_wanted_eq st e : v_wanted st = true -> report st e = emit st [e].
Proof. unfold report, own. intros ->. destruct (own_kind e); reflexivity. Qed.
Definition outcome (b : bool) (st st' : vst) : Prop :=
  exists es, v_errs st' = rev es ++ v_errs st /\ cell_ok st' /\ Forall (true_of d root) es /\
    (dtd_speaks d -> if b then es = [] else exists e, es = [e] /\ blamed d root e).
Lemma outcome_end (b : bool) st es st' : v_wanted st = true -> cell_ok st -> v_mem (emit st es) = BStack :: held d ->
  Forall (true_of d root) es -> (dtd_speaks d -> if b then es = [] else exists e, es = [e] /\ blamed d root e) ->
  v_end d true (emit st es) b = Ok (b, st') -> outcome b st st'.
Proof.
  intros W Co M Ft Sp E. rewrite (end_v d _ b M) in E. injection E as <-. exists es. split; [cbn [v_errs]; rewrite emit_errs, W; reflexivity|].
  split; [exact (emit_cell es st Co)|]. auto.
Qed.
Lemma one_blame e : true_of d root e -> content_error e = false -> Forall (true_of d root) [e] /\ (dtd_speaks d -> exists e', [e] = [e'] /\ blamed d root e').
Proof. intros Te Ce. split; [repeat constructor; exact Te|]. intros _. exists e. split; [reflexivity|]. intros Ce'. congruence. Qed.
Lemma loop_true_v : forall fuel parent c stack s top st K pre b st', v_wanted st = true -> cell_ok st -> v_mem st = BStack :: held d ->
  vorder d root = pre ++ vorder d parent ++ flat_map (vorder d) stack -> plain d parent stack -> get_element d (e_name parent) = Some c ->
  state d s K (flat_map (refs_at d) pre) -> Permutation K (flat_map (keys_of d) pre) ->
  v_loop fuel cfuel d parent c stack s top st = Ok (b, st') -> outcome b st st'.
Proof.
  induction fuel as [|fuel IH]; intros parent c stack s top st K pre b st' W Co M V P G S0 PK E; cbn [v_loop] in E; [discriminate|].
  rewrite (vorder_stack d (ok_els d D) parent c stack G) in V.
  destruct (attr_go d parent s K _ S0) as (o & Eo & Ho). pose proof (attr_v d parent s st) as Av. rewrite Eo in Av. destruct o as [s2|].
  2:{ destruct Av as (e & Av & Sy). rewrite Av in E. cbn [bind] in E.
      destruct (attr_true parent s pre _ K _ e V S0 PK Sy) as [Te Ce]. destruct (one_blame e Te Ce) as [F1 F2]. rewrite (report_wanted_eq st e W) in E.
      assert (M3 : v_mem (emit st [e]) = BStack :: held d) by (rewrite emit_mem; exact M).
      rewrite (end_v d _ false M3) in E. injection E as <- <-. apply (outcome_end false st [e]); auto. rewrite (end_v d _ false M3). reflexivity. }
  rewrite Av in E. cbn [bind] in E. destruct Ho as (_ & S2 & _). clear Av.
  pose proof (content_v cfuel c parent top st) as Cv. unfold same in Cv. destruct (content_ok cfuel c parent top) as [bc| |] eqn:Cok; [|rewrite Cv in E; discriminate|rewrite Cv in E; discriminate].
  destruct Cv as (es & Ev & Ca & Cs). rewrite Ev in E. cbn [bind] in E. destruct (content_true parent c top st bc es pre _ V G Cok Ca Ev) as [Ft Fb].
  assert (Cs2 : dtd_speaks d -> if bc then es = [] else length es = 1).
  { intros Sp. apply Cs. intros p T L. apply (get_element_spec d parent c (ok_els d D)) in G. destruct (Sp c (proj1 G) T) as (q & Q1 & Q2). congruence. }
  assert (M2 : v_mem (emit st es) = BStack :: held d) by (rewrite emit_mem; exact M).
  assert (W2 : v_wanted (emit st es) = true) by (rewrite emit_wanted; exact W). assert (Co2 : cell_ok (emit st es)) by (apply emit_cell, Co).
  destruct bc; cbn [negb] in E.
  2:{ rewrite (end_v d _ false M2) in E. injection E as <- <-. exists es. split; [cbn [v_errs]; rewrite emit_errs, W; reflexivity|]. split; [exact Co2|]. split; [exact Ft|].
      intros Sp. specialize (Cs2 Sp). destruct es as [|e [|]]; try discriminate Cs2. exists e. split; [reflexivity|]. specialize (Fb eq_refl). inversion Fb; assumption. }
  assert (Add : forall b st', outcome b (emit st es) st' -> outcome b st st').
  { intros b2 st2 (es2 & O1 & O2 & O3 & O4). exists (es ++ es2). rewrite O1, emit_errs, W, rev_app_distr, app_assoc. split; [reflexivity|]. split; [exact O2|]. split; [apply Forall_app; auto|].
    intros Sp. rewrite (Cs2 Sp). exact (O4 Sp). }
  apply Add. clear Add. pose proof (stack_nil parent c stack) as Sn. pose proof (fun e stk => plain_next d (ok_els d D) parent stack c e stk G P) as Pn.
  assert (S3 : state d s2 (keys_of d parent ++ K) (flat_map (refs_at d) (pre ++ [parent]))) by (rewrite flat_map_app; cbn [flat_map]; rewrite app_nil_r; exact S2).
  assert (PK3 : Permutation (keys_of d parent ++ K) (flat_map (keys_of d) (pre ++ [parent]))).
  { rewrite flat_map_app. cbn [flat_map]. rewrite app_nil_r, PK. apply Permutation_app_comm. }
  destruct (if is_any c then stack else rev (e_subs parent) ++ stack) as [|e stk].
  - specialize (Sn eq_refl). subst stack. rewrite (plain_done d (ok_els d D) parent c G P) in E. cbn [flat_map] in V.
    pose proof (references_v s2 (emit st es)) as Rv. destruct (references s2) as [[]| |]; [| |rewrite Rv in E; discriminate|rewrite Rv in E; discriminate].
    + rewrite Rv in E. cbn [bind] in E. rewrite (end_v d _ true M2) in E. injection E as <- <-. exists []. split; [reflexivity|]. split; [exact Co2|]. split; [constructor|]. reflexivity.
    + destruct Rv as (r & l & Rv & Sl & Ir & Ie). rewrite Rv in E. cbn [bind] in E. change (error_new (emit st es) (ERef r)) with (emit (emit st es) [ERef r]) in E.
      assert (Te : true_of d root (ERef r)) by (eapply (ref_true s2 _ _ r l); [exact S3| | |exact Sl|exact Ir|exact Ie]; rewrite V; [exact PK3|reflexivity]).
      destruct (one_blame _ Te eq_refl) as [F1 F2].
      assert (M3 : v_mem (emit (emit st es) [ERef r]) = BStack :: held d) by (rewrite emit_mem; exact M2).
      rewrite (end_v d _ false M3) in E. injection E as <- <-. apply (outcome_end false (emit st es) [ERef r]); auto. rewrite (end_v d _ false M3). reflexivity.
  - cbn [flat_map] in V. destruct (get_element d (e_name e)) as [c2|] eqn:G2.
    + apply (IH e c2 stk s2 false (emit st es) (keys_of d parent ++ K) (pre ++ [parent]) b st'); auto. rewrite <- app_assoc. exact V.
    + rewrite error_msg_eq in E. cbn [bind] in E. change (error_new (emit st es) (EUndeclared (e_name e))) with (emit (emit st es) [EUndeclared (e_name e)]) in E.
      assert (Te : true_of d root (EUndeclared (e_name e))).
      { cbn [true_of]. exists e. split; [|split; [reflexivity|apply undeclared, G2]]. apply in_vorder. rewrite V. apply in_or_app. right. right. rewrite vorder_eq. left. reflexivity. }
      destruct (one_blame _ Te eq_refl) as [F1 F2].
      assert (M3 : v_mem (emit (emit st es) [EUndeclared (e_name e)]) = BStack :: held d) by (rewrite emit_mem; exact M2).
      rewrite (end_v d _ false M3) in E. injection E as <- <-. apply (outcome_end false (emit st es) [EUndeclared (e_name e)]); auto. rewrite (end_v d _ false M3). reflexivity.
Qed.
End Doc.

(** the whole *)
Definition finally (d : dtd) (root : elem) (b : bool) (st : vst) : Prop :=
  v_cell st = hd_error (v_errs st) /\ Forall (true_of d root) (v_errs st) /\
  (dtd_speaks d -> root_speaks d root -> if b then v_errs st = [] else exists e, v_errs st = [e] /\ blamed d root e).
Lemma outcome_finally d root b st st' : v_errs st = [] -> outcome d root b st st' -> finally d root b st'.
Proof.
  intros E0 (es & O1 & O2 & O3 & O4). rewrite E0, app_nil_r in O1. split; [exact O2|]. rewrite O1. split.
  - apply Forall_forall. intros e He. apply in_rev in He. rewrite Forall_forall in O3. auto.
  - intros Sp _. specialize (O4 Sp). destruct b; [rewrite O4; reflexivity|]. destruct O4 as (e & -> & H). exists e. auto.
Qed.
Lemma validate_true_v fuel cfuel d root b st : dtd_ok d -> atts_distinct d root -> ends_plain d root = true -> (forall x, In x (elems d root) -> length (e_subs x) < cfuel) ->
  v_validate fuel cfuel d root true = Ok (b, st) -> finally d root b st.
Proof.
  intros D A P Lc E. unfold v_validate in E. destruct (ok_top d D) as (c0 & T & I0). rewrite T in E.
  assert (Ge : (if bytes_eqb (e_name root) (el_name c0) then Some c0 else get_element d (e_name root)) = get_element d (e_name root)).
  { destruct (bytes_eqb (e_name root) (el_name c0)) eqn:Eq; [|reflexivity]. apply bytes_eqb_eq in Eq. rewrite (proj2 (get_element_spec d root c0 (ok_els d D)) (conj I0 (eq_sym Eq))). reflexivity. }
  rewrite Ge in E. destruct (get_element d (e_name root)) as [c|] eqn:G.
  2:{ rewrite error_msg_eq in E. cbn [bind] in E. injection E as <- <-. split; [reflexivity|]. split.
      - apply Forall_cons; [|constructor]. cbn [true_of]. split; [reflexivity|]. apply undeclared; assumption.
      - intros _ _. eexists. split; [reflexivity|]. discriminate. }
  pose proof (begin_eq d true) as B. cbv zeta in B, E. rewrite B in E.
  assert (X : v_loop fuel cfuel d root c [] (id_start d) true (alloc (begin d true) BStack) = Ok (b, st) -> finally d root b st).
  { intros El. apply (outcome_finally d root b (alloc (begin d true) BStack)); [reflexivity|].
    apply (loop_true_v d root D A cfuel Lc fuel root c [] (id_start d) true (alloc (begin d true) BStack) [] []); auto; try reflexivity.
    - cbn [flat_map app]. symmetry. apply app_nil_r.
    - apply state_start. }
  destruct (el_ty c) eqn:Ty; try (apply X; exact E). clear X.
  assert (Nr : forall e, true_of d root e -> content_error e = false -> finally d root false (Vst true (Some e) [e] [])).
  { intros e Te Ce. split; [reflexivity|]. split; [repeat constructor; exact Te|]. intros _ _. exists e. split; [reflexivity|]. intros H. congruence. }
  destruct (e_empty root && negb (have_childs root)) eqn:Em.
  - pose proof Em as Em2. apply andb_prop in Em2. destruct Em2 as [_ Em2]. apply Bool.negb_true_iff in Em2. apply no_childs in Em2. pose proof (vorder_single d root Em2) as V.
    destruct (attr_go d root (id_start d) [] [] (state_start d)) as (o & Eo & Ho). pose proof (attr_v d root (id_start d) (begin d true)) as Av. rewrite Eo in Av. destruct o as [s2|].
    + rewrite Av in E. cbn [bind] in E. destruct Ho as (_ & S2 & _). pose proof (references_v s2 (begin d true)) as Rv. destruct (references s2) as [[]| |]; [| |rewrite Rv in E; discriminate|rewrite Rv in E; discriminate].
      * rewrite Rv in E. cbn [bind] in E. rewrite (end_v2 d (begin d true) true eq_refl) in E. injection E as <- <-. split; [reflexivity|]. split; [constructor|]. reflexivity.
      * destruct Rv as (r & l & Rv & Sl & Ir & Ie). rewrite Rv in E. cbn [bind] in E. change (error_new (begin d true) (ERef r)) with (Vst true (Some (ERef r)) [ERef r] (held d)) in E.
        rewrite end_v2 in E by reflexivity. injection E as <- <-. apply Nr; [|reflexivity]. eapply (ref_true d root D A s2 _ _ r l); [exact S2| | |exact Sl|exact Ir|exact Ie]; rewrite V; cbn [flat_map].
        -- rewrite !app_nil_r. reflexivity.
        -- rewrite app_nil_r. reflexivity.
    + destruct Av as (e & Av & Sy). rewrite Av in E. cbn [bind] in E. destruct (attr_true d root D A root (id_start d) [] [] [] [] e V (state_start d) (Permutation_refl _) Sy) as [Te Ce].
      rewrite (report_wanted_eq (begin d true) e eq_refl) in E. change (emit (begin d true) [e]) with (Vst true (Some e) [e] (held d)) in E. rewrite end_v2 in E by reflexivity. injection E as <- <-. apply Nr; assumption.
  - cbn [bind] in E. rewrite (end_v2 d (begin d true) false eq_refl) in E. injection E as <- <-. split; [reflexivity|]. split; [constructor|]. intros _ Rs.
    apply (get_element_spec d root c (ok_els d D)) in G. destruct (Rs c G Ty) as [R1 R2]. rewrite R1 in Em. unfold have_childs in Em. rewrite R2 in Em. discriminate.
Qed.
Lemma own_unasked e : own_kind e = true -> unasked e.
Proof. destruct e; intro H; try discriminate H; [left|right]; repeat eexists. Qed.
Lemma v_agrees fuel cfuel d root w : match validate fuel cfuel d root with Ok b => exists st, v_validate fuel cfuel d root w = Ok (b, st) | UB => v_validate fuel cfuel d root w = UB | NoFuel => v_validate fuel cfuel d root w = NoFuel end.
Proof. pose proof (validate_agrees fuel cfuel d root w) as A. unfold agrees in A. destruct (validate fuel cfuel d root); auto. destruct A as (st & A & _). exists st. exact A. Qed.
Lemma v_result fuel cfuel d root w b st : v_validate fuel cfuel d root w = Ok (b, st) -> v_mem st = [] /\ v_wanted st = w /\ kept st.
Proof.
  intros E. pose proof (validate_agrees fuel cfuel d root w) as A. unfold agrees in A. destruct (validate fuel cfuel d root); rewrite E in A; try discriminate A. destruct A as (st' & A & B). injection A as <- <-. exact B.
Qed.
Lemma v_released fuel cfuel d root w b st : v_validate fuel cfuel d root w = Ok (b, st) -> v_mem st = [].
Proof. intros E. apply (v_result _ _ _ _ _ _ _ E). Qed.
Lemma v_unwanted fuel cfuel d root b st : v_validate fuel cfuel d root false = Ok (b, st) -> v_cell st = None /\ (v_errs st = [] \/ exists e, v_errs st = [e] /\ unasked e).
Proof. intros E. destruct (v_result _ _ _ _ _ _ _ E) as (_ & W & K). destruct (K W) as [K1 [K2|(e & K2 & K3)]]; split; auto. right. exists e. split; [exact K2|]. apply own_unasked, K3. Qed.
Lemma v_true fuel cfuel d root b st : dtd_ok d -> atts_distinct d root -> ends_plain d root = true -> (forall x, In x (elems d root) -> length (e_subs x) < cfuel) ->
  v_validate fuel cfuel d root true = Ok (b, st) -> Forall (true_of d root) (v_errs st) /\ (forall e, v_cell st = Some e -> true_of d root e).
Proof.
  intros D A P Lc E. destruct (validate_true_v fuel cfuel d root b st D A P Lc E) as (F1 & F2 & _). split; [exact F2|]. intros e He. rewrite F1 in He. destruct (v_errs st) as [|e2 l]; [discriminate|]. injection He as ->. inversion F2; assumption.
Qed.
Lemma v_report fuel cfuel d root b st : dtd_ok d -> atts_distinct d root -> ends_plain d root = true -> (forall x, In x (elems d root) -> length (e_subs x) < cfuel) ->
  dtd_speaks d -> root_speaks d root -> v_validate fuel cfuel d root true = Ok (b, st) ->
  if b then v_cell st = None /\ v_errs st = [] else exists e, v_cell st = Some e /\ v_errs st = [e] /\ true_of d root e /\ blamed d root e.
Proof.
  intros D A P Lc Sp Rs E. destruct (validate_true_v fuel cfuel d root b st D A P Lc E) as (F1 & F2 & F3). specialize (F3 Sp Rs). destruct b.
  - rewrite F1, F3. auto.
  - destruct F3 as (e & F3 & F4). exists e. rewrite F1, F3. repeat split; auto. rewrite F3 in F2. inversion F2; assumption.
Qed.
