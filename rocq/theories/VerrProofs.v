From Verif Require Import Prelude HashModel DtdModel DtdSpec DtdProofs DtdDocModel DtdDocSpec DtdDocProofs VerrModel VerrSpec.
Open Scope nat_scope.
Open Scope list_scope.

(** ** Reporting *)
Definition emit (st : vst) (es : list verr) : vst := fold_left error_new es st.
Lemma emit_app st a b : emit st (a ++ b) = emit (emit st a) b.
Proof. apply fold_left_app. Qed.
Lemma error_new_mem st e : v_mem (error_new st e) = v_mem st.
Proof. unfold error_new. destruct (v_wanted st); reflexivity. Qed.
Lemma error_new_wanted st e : v_wanted (error_new st e) = v_wanted st.
Proof. unfold error_new. destruct (v_wanted st) eqn:W; [reflexivity|exact W]. Qed.
Lemma emit_mem es : forall st, v_mem (emit st es) = v_mem st.
Proof. induction es as [|e es IH]; intros st; [reflexivity|]. cbn [emit fold_left]. fold (emit (error_new st e) es). rewrite IH. apply error_new_mem. Qed.
Lemma emit_wanted es : forall st, v_wanted (emit st es) = v_wanted st.
Proof. induction es as [|e es IH]; intros st; [reflexivity|]. cbn [emit fold_left]. fold (emit (error_new st e) es). rewrite IH. apply error_new_wanted. Qed.
Lemma emit_errs es : forall st, v_errs (emit st es) = if v_wanted st then rev es ++ v_errs st else v_errs st.
Proof.
  induction es as [|e es IH]; intros st; [destruct (v_wanted st); reflexivity|]. cbn [emit fold_left]. fold (emit (error_new st e) es). rewrite IH, error_new_wanted.
  unfold error_new. destruct (v_wanted st) eqn:W; [|reflexivity]. cbn [v_errs rev]. rewrite <- app_assoc. reflexivity.
Qed.
Lemma error_msg_eq st e : error_msg st e = Ok (error_new st e).
Proof. unfold error_msg, release, error_new, alloc. destruct st as [[] c es m]; reflexivity. Qed.
Definition own (st : vst) (e : verr) : vst := if v_wanted st then error_new st e else Vst false (v_cell st) (e :: v_errs st) (v_mem st).
Lemma own_error_eq st e : own_error st e = Ok (own st e).
Proof. unfold own_error, own, release, error_new, alloc. destruct st as [[] c es m]; reflexivity. Qed.

(** ** Content *)
Section Content.
Variable kids : list bytes.
Variable parent : bytes.
Variable fuel : nat.
(** what the reports of the functions for lists say *)
Definition ce (names : list bytes) (e : verr) : Prop :=
  match e with
  | EMoreNodes q => q = parent
  | EDifferent y v pos _ => nth_error kids pos = Some y /\ y <> v /\ In v names
  | EMoreChilds | EChoiceEnd | EChoiceNone | EPartOpt | EPartMany | EPartPlus | ETimes | EChoiceRest => True
  | _ => False
  end.
Lemma ce_incl a b e : incl a b -> ce a e -> ce b e.
Proof. intros I. unfold ce. destruct e; auto. intros (A & B & C). auto. Qed.
Lemma ces_incl a b es : incl a b -> Forall (ce a) es -> Forall (ce b) es.
Proof. intros I. apply Forall_impl. intros e. apply ce_incl, I. Qed.

(** the same result with some reports *)
Definition same {A} (r : res A) (v : res (A * vst)) (st : vst) (P : A -> list verr -> Prop) : Prop :=
  match r with
  | Ok a => exists es, v = Ok (a, emit st es) /\ P a es
  | UB => v = UB
  | NoFuel => v = NoFuel
  end.
Lemma same_ok {A} (a : A) st es (P : A -> list verr -> Prop) : P a es -> same (Ok a) (Ok (a, emit st es)) st P.
Proof. intros H. exists es. auto. Qed.
Definition failed (s : step) : bool := match s with Return false _ => true | _ => false end.
(** [tr]: nothing; else one report for a failure *)
Definition spoken (tr : bool) (s : step) (es : list verr) : Prop := if tr then es = [] else if failed s then length es = 1 else es = [].
Lemma unless_emit tr st e : exists es, unless tr st e = emit st es /\ (if tr : bool then es = [] else es = [e]).
Proof. destruct tr; [exists []|exists [e]]; split; reflexivity. Qed.
Lemma exhausted_v tr st t om s last pos :
  exists es, v_exhausted parent tr st t om s last pos = (exhausted t om s last pos, emit st es) /\ Forall (ce []) es /\ spoken tr (exhausted t om s last pos) es.
Proof.
  unfold v_exhausted, exhausted, spoken. destruct (times_eqb t TPlus && om && s).
  - exists []. split; [reflexivity|]. split; [constructor|]. destruct tr, last; reflexivity.
  - destruct (times_eqb t TMany || times_eqb t TOpt).
    + exists []. split; [reflexivity|]. split; [constructor|]. destruct tr; reflexivity.
    + destruct (unless_emit tr st (EMoreNodes parent)) as (es & -> & E). exists es. split; [reflexivity|]. cbn [failed].
      destruct tr; subst es; (split; [repeat constructor|reflexivity]).
Qed.
Lemma leaf_v y t last tr it : forall f om s pos st,
  same (leaf_loop kids f y t last om s pos) (v_leaf_loop kids parent f tr st it y t last om s pos) st (fun r es => Forall (ce [y]) es /\ spoken tr r es).
Proof.
  assert (Zr : forall (r : step), failed r = false -> Forall (ce [y]) [] /\ spoken tr r []).
  { intros r F. split; [constructor|]. unfold spoken. rewrite F. destruct tr; reflexivity. }
  induction f as [|f IH]; intros om s pos st; cbn [leaf_loop v_leaf_loop]; destruct (nth_error kids pos) as [x|] eqn:K.
  - reflexivity.
  - destruct (exhausted_v tr st t om s last pos) as (es & -> & C & Sp). exists es. split; [reflexivity|]. split; [|exact Sp]. eapply ces_incl; [|exact C]. intros z [].
  - cbv zeta. destruct ((times_eqb t TOne || (times_eqb t TPlus && negb om)) && negb (bytes_eqb x y)) eqn:B.
    + destruct (unless_emit tr st (EDifferent x y pos it)) as (es & -> & E). exists es. split; [reflexivity|].
      apply andb_prop in B. destruct B as [_ B]. apply Bool.negb_true_iff in B.
      assert (Nxy : x <> y) by (intros ->; rewrite bytes_eqb_refl in B; discriminate).
      unfold spoken. cbn [failed]. destruct tr; subst es; (split; [repeat constructor; cbn; auto|reflexivity]).
    + destruct t; try (exists []; split; [reflexivity|apply Zr; reflexivity]).
      * apply IH.
      * destruct (bytes_eqb x y); [apply IH|exists []; split; [reflexivity|apply Zr; reflexivity]].
      * destruct (negb (bytes_eqb x y) && om); [exists []; split; [reflexivity|apply Zr; reflexivity]|apply IH].
  - destruct (exhausted_v tr st t om s last pos) as (es & -> & C & Sp). exists es. split; [reflexivity|]. split; [|exact Sp]. eapply ces_incl; [|exact C]. intros z [].
Qed.

Variable rec : part -> nat -> res (bool * nat).
Variable vrec : vst -> part -> nat -> res (bool * nat * vst).
Definition told (q : part) (r : bool * nat) (es : list verr) : Prop :=
  Forall (ce (names_in q)) es /\ (speaks q = true -> if fst r then es = [] else length es = 1).
Definition rec_v (q : part) : Prop := is_name q = false -> forall pos st, same (rec q pos) (vrec st q pos) st (told q).

Definition clear (tr : bool) (ps : list part) : bool := if tr then forallb is_name ps else forallb speaks ps.
Lemma clear_cons tr p ps : clear tr (p :: ps) = true -> clear tr [p] = true /\ clear tr ps = true.
Proof. unfold clear. destruct tr; cbn [forallb]; intros H; apply andb_prop in H; destruct H as [A B]; rewrite A, B; auto. Qed.
Lemma seq_v tr ps : (forall q, In q ps -> rec_v q) -> forall st it pos s,
  same (seq_items kids fuel rec ps pos s) (v_seq_items kids parent fuel vrec tr st it ps pos s) st
       (fun r es => Forall (ce (flat_map names_in ps)) es /\ (clear tr ps = true -> spoken tr r es)).
Proof.
  induction ps as [|p ps IH]; intros Rv st it pos s; cbn [seq_items v_seq_items].
  - exists []. split; [reflexivity|]. split; [constructor|]. intros _. unfold spoken. destruct tr; reflexivity.
  - set (last := match ps with [] => true | _ => false end).
    set (r1 := match p with Leaf y t => _ | Group _ t _ => _ end). set (v1 := match p with Leaf y t => v_leaf_loop _ _ _ _ _ _ _ _ _ _ _ _ | Group _ t _ => _ end).
    assert (H1 : same r1 v1 st (fun r es => Forall (ce (names_in p)) es /\ (clear tr [p] = true -> spoken tr r es))).
    { subst r1 v1. destruct p as [y t|ty t qs].
      - pose proof (leaf_v y t last tr it fuel false s pos st) as L. unfold same in *. destruct (leaf_loop kids fuel y t last false s pos); [|exact L|exact L].
        destruct L as (es & E & C & Sp). exists es. split; [exact E|]. split; [exact C|]. intros _. exact Sp.
      - destruct (nth_error kids pos) as [kid|].
        + pose proof (Rv _ (or_introl eq_refl) eq_refl pos st) as L. unfold same in L. destruct (rec (Group ty t qs) pos) as [[b p2]| |].
          * destruct L as (es & -> & C & Sp). cbn [bind]. exists es. split; [destruct b; reflexivity|]. split; [exact C|].
            intros Cl. unfold clear in Cl. unfold spoken. destruct tr.
            -- discriminate Cl.
            -- cbn [forallb] in Cl. rewrite Bool.andb_true_r in Cl. specialize (Sp Cl). cbn [fst] in Sp. destruct b; exact Sp.
          * rewrite L. reflexivity.
          * rewrite L. reflexivity.
        + destruct (exhausted_v tr st t false s last pos) as (es & -> & C & Sp). exists es. split; [reflexivity|]. split; [|intros _; exact Sp].
          eapply ces_incl; [|exact C]. intros z []. }
    clearbody r1 v1. unfold same in H1. destruct r1 as [r| |]; [|rewrite H1; reflexivity|rewrite H1; reflexivity].
    destruct H1 as (es & -> & C & Sp). cbn [bind]. destruct r as [b p2|p2 s2].
    + exists es. split; [reflexivity|]. split; [eapply ces_incl; [|exact C]; cbn [flat_map]; apply incl_appl, incl_refl|].
      intros Cl. apply Sp. apply (clear_cons tr p ps Cl).
    + assert (Rv2 : forall q, In q ps -> rec_v q) by (intros q Hq; apply Rv; right; exact Hq).
      specialize (IH Rv2 (emit st es) (S it) p2 s2). unfold same in *. destruct (seq_items kids fuel rec ps p2 s2) as [r| |]; [|exact IH|exact IH].
      destruct IH as (es2 & E2 & C2 & Sp2). exists (es ++ es2). rewrite emit_app. split; [exact E2|]. cbn [flat_map]. split.
      * apply Forall_app. split; [eapply ces_incl; [|exact C]; apply incl_appl, incl_refl|eapply ces_incl; [|exact C2]; apply incl_appr, incl_refl].
      * intros Cl. apply clear_cons in Cl. destruct Cl as [Cl1 Cl2]. specialize (Sp Cl1). specialize (Sp2 Cl2).
        assert (es = []) by (unfold spoken in Sp; destruct tr; exact Sp). subst es. exact Sp2.
Qed.
(** one attempt *)
Definition heard (tr : bool) (b : bool) (es : list verr) : Prop := if tr then es = [] else if b then es = [] else length es = 1.
Lemma sequence_v tr t ps top : (forall q, In q ps -> rec_v q) -> forall st pos,
  same (validate_sequence kids fuel rec t ps pos top) (v_sequence kids parent fuel vrec tr st t ps pos top) st
       (fun r es => Forall (ce (flat_map names_in ps)) es /\ (clear tr ps = true -> heard tr (fst r) es)).
Proof.
  intros Rv st pos. unfold validate_sequence, v_sequence. pose proof (seq_v tr ps Rv st 0 pos false) as L. unfold same in L.
  destruct (seq_items kids fuel rec ps pos false) as [r| |]; [|rewrite L; reflexivity|rewrite L; reflexivity].
  destruct L as (es & -> & C & Sp). cbn [bind]. destruct r as [b p2|p2 s2].
  - exists es. split; [reflexivity|]. split; [exact C|]. intros Cl. specialize (Sp Cl). unfold heard, spoken in *. cbn [fst]. destruct tr; [exact Sp|]. destruct b; exact Sp.
  - assert (Es : clear tr ps = true -> es = []) by (intros Cl; specialize (Sp Cl); unfold spoken in Sp; cbn [failed] in Sp; destruct tr; exact Sp).
    destruct ((times_eqb t TPlus || times_eqb t TOne) && top && (p2 <? length kids)).
    + destruct (unless_emit tr (emit st es) EMoreChilds) as (es2 & -> & E2). rewrite <- emit_app. exists (es ++ es2). split; [reflexivity|]. split.
      * apply Forall_app. split; [exact C|]. destruct tr; subst es2; repeat constructor.
      * intros Cl. rewrite (Es Cl). unfold heard. cbn [fst app]. destruct tr; subst es2; reflexivity.
    + exists es. split; [reflexivity|]. split; [exact C|]. intros Cl. rewrite (Es Cl). unfold heard. cbn [fst]. destruct tr; reflexivity.
Qed.
Lemma choice_items_v tr node ps : (forall q, In q ps -> rec_v q) -> forall st pos,
  same (choice_items kids fuel rec node ps pos) (v_choice_items kids fuel vrec node tr st ps pos) st
       (fun r es => Forall (ce (flat_map names_in ps)) es /\ (forallb is_name ps = true -> heard tr (fst r) es)).
Proof.
  induction ps as [|p ps IH]; intros Rv st pos; cbn [choice_items v_choice_items].
  - destruct (unless_emit tr st EChoiceNone) as (es & -> & E). exists es. split; [reflexivity|]. split; [destruct tr; subst es; repeat constructor|].
    intros _. unfold heard. cbn [fst]. destruct tr; subst es; reflexivity.
  - assert (Rv2 : forall q, In q ps -> rec_v q) by (intros q Hq; apply Rv; right; exact Hq).
    destruct p as [y t|ty t qs].
    + destruct (choice_leaf kids fuel y t node false pos) as [[b p2]| |]; cbn [bind]; [|reflexivity|reflexivity]. destruct b.
      * exists []. split; [reflexivity|]. split; [constructor|]. intros _. unfold heard. destruct tr; reflexivity.
      * specialize (IH Rv2 st p2). unfold same in *. destruct (choice_items kids fuel rec node ps p2) as [r| |]; [|exact IH|exact IH].
        destruct IH as (es & E & C & H). exists es. split; [exact E|]. split; [eapply ces_incl; [|exact C]; cbn [flat_map]; apply incl_appr, incl_refl|exact H].
    + pose proof (Rv _ (or_introl eq_refl) eq_refl pos st) as L. unfold same in L. destruct (rec (Group ty t qs) pos) as [[b p2]| |]; [|rewrite L; reflexivity|rewrite L; reflexivity].
      destruct L as (es & -> & C & _). cbn [bind]. destruct b.
      * exists es. split; [reflexivity|]. split; [eapply ces_incl; [|exact C]; cbn [flat_map]; apply incl_appl, incl_refl|]. discriminate.
      * specialize (IH Rv2 (emit st es) p2). unfold same in *. destruct (choice_items kids fuel rec node ps p2) as [r| |]; [|exact IH|exact IH].
        destruct IH as (es2 & E & C2 & _). exists (es ++ es2). rewrite emit_app. split; [exact E|]. split; [|discriminate].
        apply Forall_app. cbn [flat_map]. split; [eapply ces_incl; [|exact C]; apply incl_appl, incl_refl|eapply ces_incl; [|exact C2]; apply incl_appr, incl_refl].
Qed.
Lemma choice_v tr ps : (forall q, In q ps -> rec_v q) -> forall st pos,
  same (validate_choice kids fuel rec ps pos) (v_choice kids fuel vrec tr st ps pos) st
       (fun r es => Forall (ce (flat_map names_in ps)) es /\ (forallb is_name ps = true -> heard tr (fst r) es)).
Proof.
  intros Rv st pos. unfold validate_choice, v_choice. destruct (nth_error kids pos) as [node|]; [apply choice_items_v, Rv|].
  destruct (unless_emit tr st EChoiceEnd) as (es & -> & E). exists es. split; [reflexivity|]. split; [destruct tr; subst es; repeat constructor|].
  intros _. unfold heard. cbn [fst]. destruct tr; subst es; reflexivity.
Qed.
Lemma names_speak ps : forallb is_name ps = true -> forallb speaks ps = true.
Proof. rewrite !forallb_forall. intros H q Hq. specialize (H q Hq). destruct q; [reflexivity|discriminate]. Qed.
Lemma many_v names strict e f vf : ce names e ->
  (forall tr st pos, same (f pos) (vf tr st pos) st (fun r es => Forall (ce names) es)) ->
  forall n tr st pos, same (many_loop n strict f pos) (v_many_loop n strict e vf tr st pos) st (fun r es => Forall (ce names) es).
Proof.
  intros Ce F. induction n as [|n IH]; intros tr st pos; cbn [many_loop v_many_loop]; [reflexivity|].
  pose proof (F tr st pos) as L. unfold same in L. destruct (f pos) as [[b p2]| |]; [|rewrite L; reflexivity|rewrite L; reflexivity].
  destruct L as (es & -> & C). cbn [bind]. destruct b.
  - specialize (IH true (emit st es) p2). unfold same in *. destruct (many_loop n strict f p2) as [r| |]; [|exact IH|exact IH].
    destruct IH as (es2 & E & C2). exists (es ++ es2). rewrite emit_app. split; [exact E|]. apply Forall_app. auto.
  - destruct (strict && negb (Nat.eqb pos p2)).
    + exists (es ++ [e]). rewrite emit_app. split; [reflexivity|]. apply Forall_app. repeat constructor; auto.
    + exists es. auto.
Qed.
(** while nothing is reported by the attempts *)
Lemma many_quiet names strict e f vf : ce names e ->
  (forall st pos, same (f pos) (vf true st pos) st (fun r es => es = [])) ->
  forall n st pos, same (many_loop n strict f pos) (v_many_loop n strict e vf true st pos) st (fun r es => Forall (ce names) es /\ if fst r then es = [] else length es = 1).
Proof.
  intros Ce F. induction n as [|n IH]; intros st pos; cbn [many_loop v_many_loop]; [reflexivity|].
  pose proof (F st pos) as L. unfold same in L. destruct (f pos) as [[b p2]| |]; [|rewrite L; reflexivity|rewrite L; reflexivity].
  destruct L as (es & -> & ->). cbn [bind emit fold_left]. destruct b; [apply IH|].
  destruct (strict && negb (Nat.eqb pos p2)).
  - exists [e]. split; [reflexivity|]. split; [repeat constructor; auto|reflexivity].
  - exists []. split; [reflexivity|]. split; [constructor|reflexivity].
Qed.
Lemma names_eq ty t ps : names_in (Group ty t ps) = flat_map names_in ps.
Proof. reflexivity. Qed.
Lemma list_v ty t ps top : (forall q, In q ps -> rec_v q) -> forall st pos,
  same (item_list_with kids fuel rec ty t ps pos top) (v_item_list_with kids parent fuel vrec st ty t ps pos top) st (told (Group ty t ps)).
Proof.
  intros Rv st pos. unfold item_list_with, v_item_list_with. cbv beta zeta.
  set (f := fun pos0 => if is_sequence ty then validate_sequence kids fuel rec t ps pos0 top else validate_choice kids fuel rec ps pos0).
  set (vf := fun tr st0 pos0 => if is_sequence ty then v_sequence kids parent fuel vrec tr st0 t ps pos0 top else v_choice kids fuel vrec tr st0 ps pos0).
  assert (F : forall tr st pos, same (f pos) (vf tr st pos) st (fun r es => Forall (ce (names_in (Group ty t ps))) es /\
                 ((if is_sequence ty then clear tr ps else forallb is_name ps) = true -> heard tr (fst r) es))).
  { intros tr st0 pos0. subst f vf. cbv beta. rewrite names_eq. destruct (is_sequence ty); [apply sequence_v, Rv|apply choice_v, Rv]. }
  change (fun tr st0 pos0 => if is_sequence ty then v_sequence kids parent fuel vrec tr st0 t ps pos0 top else v_choice kids fuel vrec tr st0 ps pos0) with vf.
  change (fun pos0 => if is_sequence ty then validate_sequence kids fuel rec t ps pos0 top else validate_choice kids fuel rec ps pos0) with f.
  change (if is_sequence ty then validate_sequence kids fuel rec t ps pos top else validate_choice kids fuel rec ps pos) with (f pos).
  change (if is_sequence ty then v_sequence kids parent fuel vrec false st t ps pos top else v_choice kids fuel vrec false st ps pos) with (vf false st pos).
  change (if is_sequence ty then v_sequence kids parent fuel vrec true st t ps pos top else v_choice kids fuel vrec true st ps pos) with (vf true st pos).
  set (r1 := match t with TUnknown => Ok (false, pos) | TOne => f pos | _ => _ end).
  set (v1 := match t with TUnknown => Ok (false, pos, _) | TOne => vf false st pos | _ => _ end).
  assert (H1 : same r1 v1 st (told (Group ty t ps))).
  { subst r1 v1. clearbody f vf. unfold told. destruct t.
    - exists [ETimes]. split; [reflexivity|]. split; [repeat constructor|]. cbn [speaks]. destruct ty; discriminate.
    - specialize (F false st pos). unfold same in *. destruct (f pos) as [[b p2]| |]; [|exact F|exact F]. destruct F as (es & E & C & H). exists es. split; [exact E|]. split; [exact C|].
      intros Sp. cbn [fst]. assert (X : heard false b es); [|exact X]. apply H. cbn [speaks] in Sp. destruct ty; cbn [is_sequence]; unfold clear; exact Sp.
    - specialize (F true st pos). unfold same in *. destruct (f pos) as [[b p2]| |]; [|rewrite F; reflexivity|rewrite F; reflexivity]. destruct F as (es & -> & C & H). cbn [bind].
      destruct (is_sequence ty) eqn:Ty.
      + exists (es ++ if negb b && negb (Nat.eqb pos p2) then [EPartOpt] else []). rewrite emit_app. split; [destruct (negb b && negb (Nat.eqb pos p2)); reflexivity|].
        split; [apply Forall_app; split; [exact C|destruct (negb b && negb (Nat.eqb pos p2)); repeat constructor]|]. destruct ty; cbn [speaks is_sequence] in *; discriminate.
      + exists es. split; [reflexivity|]. split; [exact C|]. intros Sp. cbn [fst]. assert (X : heard true b es); [|exact X]. apply H. cbn [speaks] in Sp. destruct ty; try discriminate; exact Sp.
    - destruct (speaks (Group ty TMany ps)) eqn:Sp.
      + assert (Sp2 : forallb is_name ps = true) by (cbn [speaks] in Sp; destruct ty; exact Sp).
        assert (Q : forall st pos, same (f pos) (vf true st pos) st (fun r es => es = [])).
        { intros st0 pos0. specialize (F true st0 pos0). unfold same in *. destruct (f pos0) as [r| |]; [|exact F|exact F]. destruct F as (es & E & C & H). exists es. split; [exact E|].
          assert (X : heard true (fst r) es); [|exact X]. apply H. unfold clear. destruct (is_sequence ty); exact Sp2. }
        pose proof (many_quiet (names_in (Group ty TMany ps)) (is_sequence ty) EPartMany f vf I Q fuel st pos) as L. unfold same in *. destruct (many_loop fuel (is_sequence ty) f pos); [|exact L|exact L].
        destruct L as (es & E & C & H). exists es. split; [exact E|]. split; [exact C|]. intros _. exact H.
      + pose proof (many_v (names_in (Group ty TMany ps)) (is_sequence ty) EPartMany f vf I) as L. specialize (L ltac:(intros tr st0 pos0; specialize (F tr st0 pos0); unfold same in *; destruct (f pos0); [|exact F|exact F]; destruct F as (es & E & C & H); exists es; auto) fuel true st pos).
        unfold same in *. destruct (many_loop fuel (is_sequence ty) f pos); [|exact L|exact L]. destruct L as (es & E & C). exists es. split; [exact E|]. split; [exact C|discriminate].
    - pose proof (many_v (names_in (Group ty TPlus ps)) (is_sequence ty) EPartPlus f vf I) as L. specialize (L ltac:(intros tr st0 pos0; specialize (F tr st0 pos0); unfold same in *; destruct (f pos0); [|exact F|exact F]; destruct F as (es & E & C & H); exists es; auto) fuel false st pos).
      unfold same in *. destruct (many_loop fuel (is_sequence ty) f pos); [|exact L|exact L]. destruct L as (es & E & C). exists es. split; [exact E|]. split; [exact C|]. cbn [speaks]. destruct ty; discriminate. }
  clearbody r1 v1. unfold same in H1. destruct r1 as [[b p2]| |]; [|rewrite H1; reflexivity|rewrite H1; reflexivity].
  destruct H1 as (es & -> & C & Sp). cbn [bind fst] in *. destruct b; cbn [negb].
  - destruct (top && is_choice ty && (p2 + 1 <? length kids)).
    + exists (es ++ [EChoiceRest]). rewrite emit_app. split; [reflexivity|]. split; [apply Forall_app; split; [exact C|repeat constructor]|]. intros H. rewrite (Sp H). reflexivity.
    + exists es. split; [reflexivity|]. split; [exact C|exact Sp].
  - exists es. split; [reflexivity|]. split; [exact C|exact Sp].
Qed.
End Content.

Lemma item_list_v kids parent fuel p : rec_v kids parent (item_list kids fuel) (v_item_list kids parent fuel) p.
Proof.
  induction p as [x t|ty t ps IH] using part_ind2; [discriminate|]. intros _ pos st. cbn [item_list v_item_list]. apply list_v, IH.
Qed.
