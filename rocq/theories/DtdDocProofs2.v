From Coq Require Import Permutation.
From Verif Require Import Prelude Arr HashModel DtdModel DtdSpec DtdProofs DtdProofs2 DtdProofs3 DtdDocModel DtdDocSpec DtdDocProofs.
Open Scope nat_scope.
Open Scope list_scope.

(** ** The order in which the elements are looked at *)
Fixpoint vorder (d : dtd) (e : elem) : list elem :=
  e :: (if any_declared d e then [] else
          (fix go (l : list elem) := match l with [] => [] | k :: l => go l ++ vorder d k end) (let '(Elem _ _ _ l) := e in l)).
Lemma vorder_eq d e : vorder d e = e :: (if any_declared d e then [] else flat_map (vorder d) (rev (e_subs e))).
Proof.
  destruct e as [n a b l]. cbn [vorder e_subs]. f_equal. destruct (any_declared d (Elem n a b l)); [reflexivity|].
  induction l as [|k l IH]; [reflexivity|]. cbn [rev]. rewrite flat_map_app, <- IH. cbn [flat_map]. rewrite app_nil_r. reflexivity.
Qed.
Lemma elems_eq d e : elems d e = e :: (if any_declared d e then [] else flat_map (elems d) (e_subs e)).
Proof. destruct e. reflexivity. Qed.
(** induction over the elements *)
Lemma elem_ind2 (P : elem -> Prop) : (forall n a b l, Forall P l -> P (Elem n a b l)) -> forall e, P e.
Proof.
  intro H. fix IH 1. intros [n a b l]. apply H. induction l as [|k l IHl]; constructor; [apply IH|exact IHl].
Qed.
Lemma vorder_perm d e : Permutation (vorder d e) (elems d e).
Proof.
  induction e as [n a b l IH] using elem_ind2. rewrite vorder_eq, elems_eq. constructor.
  destruct (any_declared d (Elem n a b l)); [constructor|]. cbn [e_subs].
  transitivity (flat_map (elems d) (rev l)).
  - apply Forall_rev in IH. induction IH as [|k r H F IHr]; cbn [flat_map]; [constructor|]. apply Permutation_app; assumption.
  - apply Permutation_flat_map. apply Permutation_sym, Permutation_rev.
Qed.

Fixpoint runs (d : dtd) (L : list elem) (s : idstate) : res (option idstate) :=
  match L with
  | [] => Ok (Some s)
  | e :: L => o <- attr_validate d e s ;; match o with None => Ok None | Some s => runs d L s end
  end.
Definition passes (cfuel : nat) (d : dtd) (e : elem) (top : bool) : Prop :=
  exists c, get_element d (e_name e) = Some c /\ content_ok cfuel c e top = Ok true.

Section Loop.
Variable d : dtd.
Variable N : NoDup (map el_name (d_elements d)).
Variable cfuel : nat.

Lemma any_stuck fuel parent c s top : is_any c = true -> validate_loop fuel cfuel d parent c [] s top <> Ok true.
Proof.
  intro A. revert s top. induction fuel as [|fuel IH]; intros s top; [discriminate|]. cbn [validate_loop].
  destruct (attr_validate d parent s) as [[s1|]| |]; cbn [bind]; try discriminate.
  destruct (content_ok cfuel c parent top) as [[]| |]; cbn [bind negb]; try discriminate. rewrite A. apply IH.
Qed.
Lemma loop_true fuel : forall parent c stack s top,
  get_element d (e_name parent) = Some c -> validate_loop fuel cfuel d parent c stack s top = Ok true ->
  exists s', runs d (vorder d parent ++ flat_map (vorder d) stack) s = Ok (Some s') /\ references s' = Ok true /\
    content_ok cfuel c parent top = Ok true /\ Forall (fun e => passes cfuel d e false) (tl (vorder d parent ++ flat_map (vorder d) stack)).
Proof.
  induction fuel as [|fuel IH]; intros parent c stack s top G H; [discriminate|].
  cbn [validate_loop] in H. rewrite vorder_eq. cbn [app runs tl].
  destruct (attr_validate d parent s) as [[s1|]| |]; cbn [bind] in H |- *; try discriminate.
  destruct (content_ok cfuel c parent top) as [[]| |] eqn:C; cbn [bind negb] in H; try discriminate.
  assert (A : any_declared d parent = is_any c) by (rewrite any_spec by exact N; rewrite G; reflexivity).
  assert (E : (if any_declared d parent then [] else flat_map (vorder d) (rev (e_subs parent))) ++ flat_map (vorder d) stack
              = flat_map (vorder d) (if is_any c then stack else rev (e_subs parent) ++ stack)).
  { rewrite A. destruct (is_any c); [reflexivity|]. symmetry. apply flat_map_app. }
  rewrite E. destruct (if is_any c then stack else rev (e_subs parent) ++ stack) as [|e stk] eqn:St.
  - destruct (is_any c) eqn:Ac; [exfalso; revert H; apply any_stuck; exact Ac|].
    exists s1. cbn [flat_map runs]. split; [reflexivity|]. split; [exact H|]. split; [reflexivity|constructor].
  - destruct (get_element d (e_name e)) as [c'|] eqn:G'; [|discriminate].
    destruct (IH e c' stk s1 false G' H) as (s' & R1 & R2 & R3 & R4). exists s'. cbn [flat_map].
    split; [exact R1|]. split; [exact R2|]. split; [reflexivity|]. rewrite vorder_eq in R4 |- *. cbn [tl app] in R4 |- *.
    constructor; [exists c'; auto|exact R4].
Qed.

Definition plain (parent : elem) (stack : list elem) : Prop := ends_plain d (last stack parent) = true.
Lemma ends_plain_eq e : ends_plain d e = negb (any_declared d e) && match e_subs e with [] => true | k :: _ => ends_plain d k end.
Proof. destruct e. reflexivity. Qed.
Lemma last_app {A} (l : list A) x r dflt : last (l ++ x :: r) dflt = last (x :: r) dflt.
Proof. induction l as [|a l IH]; [reflexivity|]. cbn [app]. destruct (l ++ x :: r) eqn:E; [destruct l; discriminate|]. exact IH. Qed.
Lemma last_dflt {A} (l : list A) x a b : last (x :: l) a = last (x :: l) b.
Proof. revert x. induction l as [|y l IH]; intro x; [reflexivity|]. change (last (y :: l) a = last (y :: l) b). apply IH. Qed.
Lemma plain_next parent stack c e stk : get_element d (e_name parent) = Some c -> plain parent stack ->
  (if is_any c then stack else rev (e_subs parent) ++ stack) = e :: stk -> plain e stk.
Proof.
  unfold plain. intros G P E.
  assert (X : last (e :: stk) parent = last stk e).
  { destruct stk as [|y r]; [reflexivity|]. change (last (y :: r) parent = last (y :: r) e). apply last_dflt. }
  rewrite <- X, <- E. destruct stack as [|y r].
  - cbn [last] in P. rewrite ends_plain_eq in P. apply andb_prop in P. destruct P as [P1 P2]. rewrite any_spec, G in P1 by exact N.
    destruct (is_any c); [discriminate|]. rewrite app_nil_r in E |- *. destruct (e_subs parent) as [|k l] eqn:Es; [discriminate|].
    cbn [rev]. rewrite last_last. exact P2.
  - destruct (is_any c); [exact P|]. rewrite last_app. exact P.
Qed.
Lemma plain_done parent c : get_element d (e_name parent) = Some c -> plain parent [] -> is_any c = false.
Proof.
  unfold plain. cbn [last]. intros G P. rewrite ends_plain_eq in P. apply andb_prop in P. destruct P as [P _].
  rewrite any_spec, G in P by exact N. destruct (is_any c); [discriminate|reflexivity].
Qed.
Lemma stack_nil parent c stack : (if is_any c then stack else rev (e_subs parent) ++ stack) = [] -> stack = [].
Proof. destruct (is_any c); [auto|]. intro H. apply app_eq_nil in H. apply H. Qed.
Lemma vorder_stack parent c stack : get_element d (e_name parent) = Some c ->
  vorder d parent ++ flat_map (vorder d) stack = parent :: flat_map (vorder d) (if is_any c then stack else rev (e_subs parent) ++ stack).
Proof.
  intro G. rewrite vorder_eq. cbn [app]. f_equal. rewrite any_spec, G by exact N. destruct (is_any c); [reflexivity|]. symmetry. apply flat_map_app.
Qed.

Lemma loop_back fuel : forall parent c stack s top s',
  get_element d (e_name parent) = Some c -> plain parent stack -> length (vorder d parent ++ flat_map (vorder d) stack) <= fuel ->
  runs d (vorder d parent ++ flat_map (vorder d) stack) s = Ok (Some s') -> references s' = Ok true ->
  content_ok cfuel c parent top = Ok true -> Forall (fun e => passes cfuel d e false) (tl (vorder d parent ++ flat_map (vorder d) stack)) ->
  validate_loop fuel cfuel d parent c stack s top = Ok true.
Proof.
  induction fuel as [|fuel IH]; intros parent c stack s top s' G P L R Rf C F.
  - rewrite vorder_eq in L. cbn in L. lia.
  - rewrite (vorder_stack parent c stack G) in L, R, F. cbn [runs tl length] in L, R, F. cbn [validate_loop].
    destruct (attr_validate d parent s) as [[s1|]| |]; cbn [bind] in R |- *; try discriminate. rewrite C. cbn [bind negb].
    pose proof (stack_nil parent c stack) as Sn. pose proof (fun e stk => plain_next parent stack c e stk G P) as Pn.
    destruct (if is_any c then stack else rev (e_subs parent) ++ stack) as [|e stk].
    + specialize (Sn eq_refl). subst stack. rewrite (plain_done parent c G P). cbn [flat_map runs] in R. injection R as <-. exact Rf.
    + cbn [flat_map] in L, R, F. rewrite vorder_eq in F. cbn [app] in F. inversion F as [|? ? (c' & G' & C') F']; subst. rewrite G'.
      apply (IH e c' stk s1 false s'); auto; [lia|]. rewrite vorder_eq. exact F'.
Qed.

Variable CE : forall c, In c (d_elements d) -> content_ends c.
Lemma content_go c e top : In c (d_elements d) -> length (e_subs e) < cfuel -> exists b, content_ok cfuel c e top = Ok b.
Proof.
  intros Hc L. unfold content_ok. pose proof (CE c Hc) as E. unfold content_ends in E. destruct (el_ty c); try (eexists; reflexivity).
  destruct (E eq_refl) as (p & -> & E1 & E2). cbn [of_option bind]. apply children_ends; [exact E1|exact E2|rewrite map_length; exact L].
Qed.
Lemma loop_ends fuel : forall parent c stack s top K R, state d s K R ->
  get_element d (e_name parent) = Some c -> plain parent stack -> length (vorder d parent ++ flat_map (vorder d) stack) <= fuel ->
  (forall e, In e (vorder d parent ++ flat_map (vorder d) stack) -> length (e_subs e) < cfuel) ->
  (forall s K R, state d s K R -> exists b, references s = Ok b) ->
  exists b, validate_loop fuel cfuel d parent c stack s top = Ok b.
Proof.
  induction fuel as [|fuel IH]; intros parent c stack s top K R St G P L Lc Rf.
  - rewrite vorder_eq in L. cbn in L. lia.
  - rewrite (vorder_stack parent c stack G) in L, Lc. cbn [length] in L. cbn [validate_loop].
    destruct (attr_go d parent s K R St) as (o & E & H). rewrite E. cbn [bind]. destruct o as [s1|]; [|eauto].
    destruct H as (_ & St' & _). destruct (content_go c parent top) as (b & C).
    { apply (get_element_spec d parent c N) in G. apply G. } { apply Lc. left. reflexivity. }
    rewrite C. cbn [bind]. destruct b; cbn [negb]; [|eauto].
    pose proof (stack_nil parent c stack) as Sn. pose proof (fun e stk => plain_next parent stack c e stk G P) as Pn.
    destruct (if is_any c then stack else rev (e_subs parent) ++ stack) as [|e stk].
    + specialize (Sn eq_refl). subst stack. rewrite (plain_done parent c G P). eapply Rf. exact St'.
    + destruct (get_element d (e_name e)) as [c'|] eqn:G'; [|eauto]. cbn [flat_map] in L, Lc.
      apply (IH e c' stk s1 false _ _ St'); auto; [lia|]. intros x Hx. apply Lc. right. exact Hx.
Qed.
End Loop.

Lemma refs_go h l : (forall x, In x l -> exists b, id_exists h (Some x) = Ok b) -> exists b, refs_found h l = Ok b.
Proof.
  induction l as [|x l IH]; intro H; cbn [refs_found]; [eauto|]. destruct (H x (or_introl eq_refl)) as (b & ->). cbn [bind].
  destruct b; [apply IH; intros; apply H; right; assumption|eauto].
Qed.
Lemma references_go d s K R : state d s K R -> exists b, references s = Ok b.
Proof.
  intros [S1 S2]. unfold references. destruct (snd s); [|eauto]. apply refs_go. intros x _. destruct (d_id d).
  - destruct S1 as (h & -> & T). destruct (tab_exists h K (Some x) T) as (b & E & _). eauto.
  - destruct S1 as [-> _]. eexists; reflexivity.
Qed.
Lemma refs_exact h l (ks : list bytes) : (forall x, In x l -> exists b, id_exists h (Some x) = Ok b /\ (b = true <-> In x ks)) ->
  (refs_found h l = Ok true <-> incl l ks).
Proof.
  induction l as [|x l IH]; intro H; cbn [refs_found]; [split; [intros _ y []|reflexivity]|].
  destruct (H x (or_introl eq_refl)) as (b & -> & B). cbn [bind]. destruct b.
  - rewrite IH by (intros; apply H; right; assumption). split; intro I1.
    + intros y [<-|Hy]; [apply B; reflexivity|apply I1; exact Hy].
    + intros y Hy. apply I1. right. exact Hy.
  - split; [discriminate|]. intro I1. assert (In x ks) by (apply I1; left; reflexivity). apply B in H0. discriminate.
Qed.
Lemma references_exact d s (ks : list bytes) R : state d s (map Some ks) R -> (references s = Ok true <-> incl R ks).
Proof.
  intros [S1 S2]. unfold references. destruct (d_idref d).
  - rewrite S2. apply refs_exact. intros x _. destruct (d_id d).
    + destruct S1 as (h & -> & T). apply tab_exact. exact T.
    + destruct S1 as [-> E]. apply map_eq_nil in E. subst ks. eexists; split; [reflexivity|]. split; [discriminate|intros []].
  - destruct S2 as [-> ->]. split; [intros _ y []|reflexivity].
Qed.
(** ** the attributes of all elements *)
Lemma runs_true d L : forall s K R s', state d s K R -> NoDup (somes K) -> runs d L s = Ok (Some s') ->
  Forall (fun e => atts_check d e = true) L /\
  exists K', state d s' K' (R ++ flat_map (refs_at d) L) /\ Permutation K' (flat_map (keys_of d) L ++ K) /\ NoDup (somes K').
Proof.
  induction L as [|e L IH]; intros s K R s' S0 ND H; cbn [runs flat_map] in *.
  - injection H as <-. split; [constructor|]. exists K. rewrite app_nil_r. split; [exact S0|]. split; [reflexivity|exact ND].
  - destruct (attr_go d e s K R S0) as (o & E & H1). rewrite E in H. cbn [bind] in H. destruct o as [s1|]; [|discriminate].
    destruct H1 as (C & S1 & F). destruct (IH s1 _ _ s' S1) as (F2 & K' & S2 & P2 & N2); [|exact H|].
    + unfold keys_of. unfold keys_of in F. destruct (d_id d); [|exact ND]. destruct (get_attr d (e_name e)) as [l|]; [|exact ND].
      destruct (find is_id l) as [a|]; [|exact ND]. destruct (att e (ad_name a)) as [v|]; [|exact ND].
      cbn [app somes flat_map]. constructor; [|exact ND]. intro X. apply in_somes in X. exact (F v (or_introl eq_refl) X).
    + split; [constructor; assumption|]. exists K'. split; [rewrite app_assoc; exact S2|]. split; [|exact N2].
      rewrite P2. rewrite !app_assoc. apply Permutation_app_tail. apply Permutation_app_comm.
Qed.
Lemma runs_back d L : forall s ks R, state d s (map Some ks) R ->
  Forall (fun e => atts_check d e = true) L -> (forall e, In e L -> keys_of d e = map Some (somes (keys_of d e))) ->
  NoDup (flat_map (fun e => somes (keys_of d e)) L ++ ks) -> exists s', runs d L s = Ok (Some s').
Proof.
  induction L as [|e L IH]; intros s ks R S0 F G ND; cbn [runs flat_map] in *; [eauto|].
  inversion F as [|? ? F1 F2]; subst. destruct (attr_go d e s _ R S0) as (o & E & H1). rewrite E. cbn [bind]. destruct o as [s1|].
  - destruct H1 as (_ & S1 & _). rewrite (G e (or_introl eq_refl)), <- map_app in S1. apply (IH s1 _ _ S1 F2); [intros; apply G; right; assumption|].
    apply (Permutation_NoDup (l := (somes (keys_of d e) ++ flat_map (fun e0 => somes (keys_of d e0)) L) ++ ks)); [|exact ND].
    rewrite !app_assoc. apply Permutation_app_tail. apply Permutation_app_comm.
  - exfalso. destruct H1 as [H1|(k & k' & K1 & K2 & K3)]; [congruence|]. rewrite (G e (or_introl eq_refl)) in K1.
    apply in_map_iff in K1. destruct K1 as (v & <- & K1). apply in_map_iff in K2. destruct K2 as (w & <- & K2).
    apply HashStrProofs.skeq_spec in K3. subst w. rewrite <- app_assoc in ND.
    clear -ND K1 K2. induction (somes (keys_of d e)) as [|x l IH]; [destruct K1|]. cbn [app] in ND. inversion ND as [|? ? N1 N2]; subst.
    destruct K1 as [->|K1]; [apply N1; rewrite !in_app_iff; auto|auto].
Qed.
