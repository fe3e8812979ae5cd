From Coq Require Import Permutation.
From Verif Require Import Prelude HashModel DtdModel DtdSpec DtdProofs DtdDocModel DtdDocSpec DtdDocProofs DtdDocProofs2 DtdDocProofs3 VerrModel VerrSpec VerrProofs.
Open Scope nat_scope.
Open Scope list_scope.

(** ** The content of one element *)
Lemma children_v kids parent fuel p m top st :
  same (validate_children kids fuel p m top) (v_children kids parent fuel st p m top) st
    (fun b es => Forall (fun e => ce kids parent (names_in p) e \/ (e = EFewer parent (length kids) m /\ length kids < m) \/ (exists pos, e = ENotCovered pos m (length kids) parent /\ pos < length kids)) es /\
                 (speaks p = true -> if b : bool then es = [] else length es = 1)).
Proof.
  unfold validate_children, v_children. destruct (length kids <? m) eqn:Lm.
  - rewrite error_msg_eq. cbn [bind]. exists [EFewer parent (length kids) m]. split; [reflexivity|]. split; [|reflexivity]. apply Nat.ltb_lt in Lm. apply Forall_cons; [right; left; auto|constructor].
  - destruct p as [x t|ty t ps]; [reflexivity|]. cbn [item_list_top v_item_list_top].
    pose proof (list_v kids parent fuel (item_list kids fuel) (v_item_list kids parent fuel) ty t ps top (fun q _ => item_list_v kids parent fuel q) st 0) as L.
    unfold same in L. destruct (item_list_with kids fuel (item_list kids fuel) ty t ps 0 top) as [[b pos]| |]; [|rewrite L; reflexivity|rewrite L; reflexivity].
    destruct L as (es & -> & C & Sp). cbn [bind fst] in *.
    assert (C2 : Forall (fun e => ce kids parent (names_in (Group ty t ps)) e \/ (e = EFewer parent (length kids) m /\ length kids < m) \/ (exists pos, e = ENotCovered pos m (length kids) parent /\ pos < length kids)) es)
      by (eapply Forall_impl; [|exact C]; auto).
    destruct b.
    + destruct (pos <? length kids) eqn:Lp; cbn [negb andb].
      * exists (es ++ [ENotCovered pos m (length kids) parent]). rewrite emit_app. split; [reflexivity|]. apply Nat.ltb_lt in Lp. split.
        -- apply Forall_app. split; [exact C2|]. apply Forall_cons; [right; right; eauto|constructor].
        -- intros H. rewrite (Sp H). reflexivity.
      * exists es. auto.
    + exists es. auto.
Qed.
Lemma content_v fuel c x top st :
  same (content_ok fuel c x top) (v_content fuel c x top st) st
    (fun b es => Forall (about_content c x) es /\ ((forall p, el_ty c = TChildren -> el_list c = Some p -> speaks p = true) -> if b : bool then es = [] else length es = 1)).
Proof.
  unfold content_ok, v_content. destruct (el_ty c) eqn:T.
  - rewrite !error_msg_eq. cbn [bind]. destruct (e_empty x) eqn:E; cbn [negb andb].
    + destruct (have_childs x) eqn:H; cbn [negb].
      * exists [EEmptyChilds (e_name x)]. split; [reflexivity|]. split; [|reflexivity]. repeat constructor; auto. unfold have_childs in H. destruct (e_subs x); [discriminate|discriminate].
      * exists []. split; [reflexivity|]. split; [constructor|reflexivity].
    + exists [ENotEmpty (e_name x)]. split; [reflexivity|]. split; [|reflexivity]. repeat constructor; auto.
  - exists []. split; [reflexivity|]. split; [constructor|reflexivity].
  - exists []. split; [reflexivity|]. split; [constructor|reflexivity].
  - destruct (el_list c) as [p|] eqn:Lp; cbn [of_option bind]; [|reflexivity].
    pose proof (children_v (map e_name (e_subs x)) (e_name x) fuel p (el_min c) top st) as L. unfold same in *.
    destruct (validate_children (map e_name (e_subs x)) fuel p (el_min c) top) as [b| |]; [|exact L|exact L]. destruct L as (es & E & C & Sp). exists es. split; [exact E|]. split.
    + eapply Forall_impl; [|exact C]. rewrite map_length. intros e [H|[[-> H]|(pos & -> & H)]]; cbn [about_content]; auto 6.
      unfold ce in H. destruct e; try (destruct H; fail); cbn [about_content]; auto. destruct H as (A & B & D). repeat split; auto. exists p. auto.
    + intros H. apply Sp, H; reflexivity.
  - destruct (have_childs x) eqn:H; cbn [negb].
    + exists [EHasChilds]. split; [reflexivity|]. split; [|reflexivity]. repeat constructor; auto. unfold have_childs in H. destruct (e_subs x); [discriminate|discriminate].
    + exists []. split; [reflexivity|]. split; [constructor|reflexivity].
Qed.

(** ** The attributes of one element *)
Lemma attr_known_error x l p : attr_known l p = match attr_error x l p with None => true | Some _ => false end.
Proof. unfold attr_known, attr_error. destruct (find _ l) as [a|]; [|reflexivity]. destruct (ad_type a); try reflexivity. destruct (existsb _ values); reflexivity. Qed.
Lemma first_error_spec x l atts :
  match first_error x l atts with
  | None => forallb (attr_known l) atts = true
  | Some e => forallb (attr_known l) atts = false /\ exists p, In p atts /\ attr_error x l p = Some e
  end.
Proof.
  induction atts as [|p atts IH]; cbn [first_error forallb]; [reflexivity|]. rewrite (attr_known_error x). destruct (attr_error x l p) as [e|] eqn:E.
  - split; [reflexivity|]. exists p. split; [left; reflexivity|exact E].
  - destruct (first_error x l atts) as [e|]; [|exact IH]. destruct IH as [A (q & Q1 & Q2)]. split; [exact A|]. exists q. split; [right; exact Q1|exact Q2].
Qed.
(** what an error about the attributes of [x] says *)
Definition attr_says (d : dtd) (x : elem) (s : idstate) (e : verr) : Prop :=
  exists l, get_attr d (e_name x) = Some l /\
  match e with
  | EUnknownAttr k p => p = e_name x /\ ~ In k (map ad_name l) /\ exists v, has x k v
  | ENotInEnum k v p => p = e_name x /\ has x k v /\ exists a vs, In a l /\ ad_name a = k /\ ad_type a = AEnum vs /\ ~ In v vs
  | EFixed k p => p = e_name x /\ exists a, In a l /\ ad_name a = k /\ ad_default a = AFixed /\ forall v, ad_value a = Some v -> att x k <> Some v
  | ERequired k p => p = e_name x /\ exists a, In a l /\ ad_name a = k /\ ad_default a = ARequired /\ att x k = None
  | EIdTwice k p => p = e_name x /\ atts_check d x = true /\ d_id d = true /\ exists a, find is_id l = Some a /\ ad_name a = k /\ id_exists (fst s) (att x k) = Ok true
  | _ => False
  end.
Definition own_kind (e : verr) : bool := match e with EUnknownAttr _ _ | ENotInEnum _ _ _ => true | _ => false end.
Definition report (st : vst) (e : verr) : vst := if own_kind e then own st e else error_new st e.
Lemma attr_v d x s st :
  match attr_validate d x s with
  | Ok (Some s') => v_attr d x s st = Ok (Some s', st)
  | Ok None => exists e, v_attr d x s st = Ok (None, report st e) /\ attr_says d x s e
  | UB => v_attr d x s st = UB
  | NoFuel => v_attr d x s st = NoFuel
  end.
Proof.
  unfold attr_validate, v_attr. destruct (get_attr d (e_name x)) as [l|] eqn:G; [|reflexivity].
  pose proof (first_error_spec (e_name x) l (e_atts x)) as F. destruct (first_error (e_name x) l (e_atts x)) as [e|].
  - destruct F as [-> ((k & v) & Pi & Pe)]. cbn [negb]. rewrite own_error_eq. cbn [bind]. exists e. unfold attr_error in Pe. cbn [fst snd] in Pe.
    destruct (find (fun a => bytes_eqb (ad_name a) k) l) as [a|] eqn:Fa.
    + apply find_some in Fa. destruct Fa as [Fa1 Fa2]. apply bytes_eqb_eq in Fa2. destruct (ad_type a) as [|vs| | |] eqn:T; try discriminate.
      destruct (existsb (fun w => bytes_eqb w v) vs) eqn:X; [discriminate|]. injection Pe as <-. split; [reflexivity|]. exists l. split; [exact G|]. split; [reflexivity|]. split; [exact Pi|].
      exists a, vs. repeat split; auto. intros Hv. assert (existsb (fun w => bytes_eqb w v) vs = true) by (apply existsb_exists; exists v; split; [exact Hv|apply bytes_eqb_refl]). congruence.
    + injection Pe as <-. split; [reflexivity|]. exists l. split; [exact G|]. split; [reflexivity|]. split; [apply (find_key_none ad_name l k), Fa|]. exists v. exact Pi.
  - pose proof F as F'. rewrite F. cbn [negb]. destruct (find (attr_missing x) l) as [a|] eqn:Fm.
    + apply find_some in Fm. destruct Fm as [Fm1 Fm2]. assert (Ex : existsb (attr_missing x) l = true) by (apply existsb_exists; eauto). rewrite Ex. rewrite error_msg_eq. cbn [bind].
      unfold attr_missing in Fm2. destruct (ad_default a) eqn:Df; [|discriminate|].
      * exists (ERequired (ad_name a) (e_name x)). split; [reflexivity|]. exists l. split; [exact G|]. split; [reflexivity|]. exists a. repeat split; auto. destruct (att x (ad_name a)); [discriminate|reflexivity].
      * exists (EFixed (ad_name a) (e_name x)). split; [reflexivity|]. exists l. split; [exact G|]. split; [reflexivity|]. exists a. repeat split; auto.
        intros v Hv He. rewrite He, Hv, bytes_eqb_refl in Fm2. discriminate.
    + assert (Ex : existsb (attr_missing x) l = false).
      { destruct (existsb (attr_missing x) l) eqn:Ex; [|reflexivity]. apply existsb_exists in Ex. destruct Ex as (a & A1 & A2). rewrite (find_none _ _ Fm a A1) in A2. discriminate. }
      rewrite Ex. destruct (d_id d) eqn:Di; [|reflexivity]. destruct (find is_id l) as [a|] eqn:Fi; [|reflexivity].
      destruct (id_exists (fst s) (att x (ad_name a))) as [b| |] eqn:Ie; cbn [bind]; [|reflexivity|reflexivity]. destruct b.
      * rewrite error_msg_eq. cbn [bind]. exists (EIdTwice (ad_name a) (e_name x)). split; [reflexivity|]. exists l. split; [exact G|]. split; [reflexivity|].
        split; [unfold atts_check; rewrite G, F', Ex; reflexivity|]. split; [exact Di|]. exists a. auto.
      * destruct (id_insert (fst s) (att x (ad_name a))) as [h| |]; reflexivity.
Qed.
Lemma references_v s st :
  match references s with
  | Ok true => v_references s st = Ok (true, st)
  | Ok false => exists r l, v_references s st = Ok (false, error_new st (ERef r)) /\ snd s = Some l /\ In r l /\ id_exists (fst s) (Some r) = Ok false
  | UB => v_references s st = UB
  | NoFuel => v_references s st = NoFuel
  end.
Proof.
  unfold references, v_references. destruct (snd s) as [l|]; [|reflexivity].
  assert (H : match refs_found (fst s) l with
              | Ok true => first_unknown (fst s) l = Ok None
              | Ok false => exists r, first_unknown (fst s) l = Ok (Some r) /\ In r l /\ id_exists (fst s) (Some r) = Ok false
              | UB => first_unknown (fst s) l = UB
              | NoFuel => first_unknown (fst s) l = NoFuel
              end).
  { induction l as [|r l IH]; cbn [refs_found first_unknown]; [reflexivity|]. destruct (id_exists (fst s) (Some r)) as [[]| |] eqn:E; cbn [bind]; try reflexivity.
    - destruct (refs_found (fst s) l) as [[]| |]; auto. destruct IH as (q & A & B & C). exists q. split; [exact A|]. split; [right; exact B|exact C].
    - exists r. split; [reflexivity|]. split; [left; reflexivity|exact E]. }
  destruct (refs_found (fst s) l) as [[]| |].
  - rewrite H. reflexivity.
  - destruct H as (r & -> & A & B). cbn [bind]. rewrite error_msg_eq. cbn [bind]. exists r, l. auto.
  - rewrite H. reflexivity.
  - rewrite H. reflexivity.
Qed.

(** ** The memory of the function *)
Definition held (d : dtd) : list block := (if d_idref d then [BRefs] else []) ++ (if d_id d then [BIds] else []).
Lemma end_v d st b : v_mem st = BStack :: held d -> v_end d true st b = Ok (b, Vst (v_wanted st) (v_cell st) (v_errs st) []).
Proof.
  destruct st as [w c es m]. cbn [v_mem v_wanted v_cell v_errs]. intros ->. unfold v_end, held, release_if, release. cbn [v_mem take_block block_eqb of_option bind v_wanted v_cell v_errs].
  destruct (d_id d), (d_idref d); reflexivity.
Qed.
Lemma end_v2 d st b : v_mem st = held d -> v_end d false st b = Ok (b, Vst (v_wanted st) (v_cell st) (v_errs st) []).
Proof.
  destruct st as [w c es m]. cbn [v_mem v_wanted v_cell v_errs]. intros ->. unfold v_end, held, release_if, release. cbn [v_mem take_block block_eqb of_option bind v_wanted v_cell v_errs].
  destruct (d_id d), (d_idref d); reflexivity.
Qed.
Lemma report_mem st e : v_mem (report st e) = v_mem st.
Proof. unfold report, own. destruct (own_kind e); [|apply error_new_mem]. destruct (v_wanted st) eqn:W; [apply error_new_mem|reflexivity]. Qed.
Lemma report_wanted st e : v_wanted (report st e) = v_wanted st.
Proof. unfold report, own. destruct (own_kind e); [|apply error_new_wanted]. destruct (v_wanted st) eqn:W; [rewrite error_new_wanted; exact W|reflexivity]. Qed.

(** ** Agreement, and what stays in memory *)
Definition kept (st : vst) : Prop := v_wanted st = false -> v_cell st = None /\ (v_errs st = [] \/ exists e, v_errs st = [e] /\ own_kind e = true).
Definition quiet (st : vst) : Prop := v_wanted st = false -> v_cell st = None /\ v_errs st = [].
Lemma quiet_emit st es : quiet st -> quiet (emit st es).
Proof.
  revert st. induction es as [|e es IH]; intros st Q; [exact Q|]. apply IH. unfold quiet in *. rewrite error_new_wanted. intros W. unfold error_new. rewrite W. auto.
Qed.
Lemma quiet_kept st : quiet st -> kept st.
Proof. intros Q W. destruct (Q W) as [A B]. auto. Qed.
Lemma report_kept st e : quiet st -> kept (report st e).
Proof.
  intros Q W. rewrite report_wanted in W. destruct (Q W) as [A B]. unfold report, own, error_new. destruct (own_kind e) eqn:O; rewrite W; cbn [v_cell v_errs]; [|auto].
  split; [exact A|]. right. exists e. rewrite B. auto.
Qed.
Definition agrees (r : res bool) (v : res (bool * vst)) (w : bool) : Prop :=
  match r with
  | Ok b => exists st, v = Ok (b, st) /\ v_mem st = [] /\ v_wanted st = w /\ kept st
  | UB => v = UB
  | NoFuel => v = NoFuel
  end.
Lemma ends_agree d st b w : v_mem st = BStack :: held d -> v_wanted st = w -> kept st -> agrees (Ok b) (v_end d true st b) w.
Proof. intros M W K. rewrite (end_v d st b M). eexists. split; [reflexivity|]. cbn [v_mem v_wanted]. split; [reflexivity|]. split; [exact W|]. exact K. Qed.
Lemma loop_agrees cfuel d w : forall fuel parent c stack s top st, v_mem st = BStack :: held d -> v_wanted st = w -> quiet st ->
  agrees (validate_loop fuel cfuel d parent c stack s top) (v_loop fuel cfuel d parent c stack s top st) w.
Proof.
  induction fuel as [|fuel IH]; intros parent c stack s top st M W Q; cbn [validate_loop v_loop]; [reflexivity|].
  pose proof (attr_v d parent s st) as A. destruct (attr_validate d parent s) as [[s2|]| |]; [| |rewrite A; reflexivity|rewrite A; reflexivity].
  - rewrite A. cbn [bind]. pose proof (content_v cfuel c parent top st) as C. unfold same in C. destruct (content_ok cfuel c parent top) as [b| |]; [|rewrite C; reflexivity|rewrite C; reflexivity].
    destruct C as (es & -> & _ & _). cbn [bind]. assert (M2 : v_mem (emit st es) = BStack :: held d) by (rewrite emit_mem; exact M).
    assert (W2 : v_wanted (emit st es) = w) by (rewrite emit_wanted; exact W). assert (Q2 : quiet (emit st es)) by (apply quiet_emit, Q).
    destruct b; cbn [negb]; [|apply ends_agree; [exact M2|exact W2|apply quiet_kept, Q2]].
    destruct (if is_any c then stack else rev (e_subs parent) ++ stack) as [|e stk].
    + destruct (is_any c); [apply IH; assumption|]. pose proof (references_v s2 (emit st es)) as R. destruct (references s2) as [[]| |]; [| |rewrite R; reflexivity|rewrite R; reflexivity].
      * rewrite R. cbn [bind]. apply ends_agree; [exact M2|exact W2|apply quiet_kept, Q2].
      * destruct R as (r & l & -> & _). cbn [bind]. change (error_new (emit st es) (ERef r)) with (report (emit st es) (ERef r)).
        apply ends_agree; [rewrite report_mem; exact M2|rewrite report_wanted; exact W2|apply report_kept, Q2].
    + destruct (get_element d (e_name e)) as [c2|]; [apply IH; assumption|]. rewrite error_msg_eq. cbn [bind].
      change (error_new (emit st es) (EUndeclared (e_name e))) with (report (emit st es) (EUndeclared (e_name e))).
      apply ends_agree; [rewrite report_mem; exact M2|rewrite report_wanted; exact W2|apply report_kept, Q2].
  - destruct A as (e & -> & _). cbn [bind]. apply ends_agree; [rewrite report_mem; exact M|rewrite report_wanted; exact W|apply report_kept, Q].
Qed.
Definition begin (d : dtd) (w : bool) : vst := Vst w None [] (held d).
Lemma begin_eq d w : (let st := if d_id d then alloc (Vst w None [] []) BIds else Vst w None [] [] in if d_idref d then alloc st BRefs else st) = begin d w.
Proof. unfold begin, held, alloc. destruct (d_id d), (d_idref d); reflexivity. Qed.
Lemma begin_quiet d w : quiet (begin d w).
Proof. intros W. split; reflexivity. Qed.
Lemma validate_agrees fuel cfuel d root w : agrees (validate fuel cfuel d root) (v_validate fuel cfuel d root w) w.
Proof.
  unfold validate, v_validate. destruct (d_top d) as [c0|].
  2:{ rewrite error_msg_eq. cbn [bind]. eexists. split; [reflexivity|]. split; [apply error_new_mem|]. split; [apply error_new_wanted|]. apply (report_kept _ (ENoElement (e_name root))). intros W. split; reflexivity. }
  destruct (if bytes_eqb (e_name root) (el_name c0) then Some c0 else get_element d (e_name root)) as [c|].
  2:{ rewrite error_msg_eq. cbn [bind]. eexists. split; [reflexivity|]. split; [apply error_new_mem|]. split; [apply error_new_wanted|]. apply (report_kept _ (ERoot (e_name root) None)). intros W. split; reflexivity. }
  pose proof (begin_eq d w) as B. cbv zeta in B |- *. rewrite B.
  assert (X : agrees (validate_loop fuel cfuel d root c [] (id_start d) true) (v_loop fuel cfuel d root c [] (id_start d) true (alloc (begin d w) BStack)) w).
  { apply loop_agrees; [reflexivity|reflexivity|]. intros W. split; reflexivity. }
  destruct (el_ty c); try exact X. clear X.
  assert (En : forall st b, v_mem st = held d -> v_wanted st = w -> kept st -> agrees (Ok b) (v_end d false st b) w).
  { intros st b M W K. rewrite (end_v2 d st b M). eexists. split; [reflexivity|]. cbn [v_mem v_wanted]. split; [reflexivity|]. split; [exact W|]. exact K. }
  destruct (e_empty root && negb (have_childs root)).
  2:{ cbn [bind]. apply En; [reflexivity|reflexivity|apply quiet_kept, begin_quiet]. }
  pose proof (attr_v d root (id_start d) (begin d w)) as A. destruct (attr_validate d root (id_start d)) as [[s2|]| |]; [| |rewrite A; reflexivity|rewrite A; reflexivity].
  - rewrite A. cbn [bind]. pose proof (references_v s2 (begin d w)) as R. destruct (references s2) as [[]| |]; [| |rewrite R; reflexivity|rewrite R; reflexivity].
    + rewrite R. cbn [bind]. apply En; [reflexivity|reflexivity|apply quiet_kept, begin_quiet].
    + destruct R as (r & l & -> & _). cbn [bind]. change (error_new (begin d w) (ERef r)) with (report (begin d w) (ERef r)).
      apply En; [rewrite report_mem; reflexivity|rewrite report_wanted; reflexivity|apply report_kept, begin_quiet].
  - destruct A as (e & -> & _). cbn [bind]. apply En; [rewrite report_mem; reflexivity|rewrite report_wanted; reflexivity|apply report_kept, begin_quiet].
Qed.
